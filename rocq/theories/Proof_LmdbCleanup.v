(** The cleanup loop of the LMDB backend (C27). *)
From Coq Require Import String Bool ZArith QArith Lia List.
From Verif Require Import Base Model_Types Model_Codec Model_Time Model_Lmdb Model_LmdbSys Model_LmdbCleanup Spec_Lmdb Spec_LmdbContent
  Spec_LmdbCleanup Proof_Lmdb1 Proof_Lmdb2 Proof_Lmdb3 Proof_Lmdb4 Proof_Lmdb5 Proof_Lmdb6 Proof_Lmdb7 Proof_Lmdb8 Proof_Lmdb9 Proof_Lmdb10 Proof_Lmdb17.
Import ListNotations.
Open Scope list_scope.
Open Scope Z_scope.

Lemma cl_run_app : forall a b c, cl_run c (a ++ b) = match cl_run c a with Some c' => cl_run c' b | None => None end.
Proof. induction a as [|x a IH]; intros b c; cbn [app cl_run]; auto. destruct (cl_step c x); auto. Qed.

Lemma cleanup_repeat_spec : forall ks, cleanup_repeat ks = (1024 <=? count ks).
Proof.
  intros [|k ks]; [reflexivity|]. unfold cleanup_repeat, cleanup_max_results, zlen, count. reflexivity.
Qed.

Lemma cl_run_pass : forall now ks c, c = ClAsk -> cl_run c (map Some (passes [(now, ks)])) = Some (if 1024 <=? count ks then ClAsk else ClSleep).
Proof. intros now ks c ->. cbn [passes flat_map app map cl_run cl_step fst snd]. now rewrite cleanup_repeat_spec. Qed.

Lemma cl_run_passes : forall l, (forall x, In x l -> 1024 <= count (snd x)) -> cl_run ClAsk (map Some (passes l)) = Some ClAsk.
Proof.
  induction l as [|[t ks] l IH]; intros H; [reflexivity|].
  change ((t, ks) :: l) with ([(t, ks)] ++ l). unfold passes. rewrite flat_map_app, map_app, cl_run_app.
  rewrite (cl_run_pass t ks ClAsk eq_refl : cl_run ClAsk (map Some (flat_map _ [(t, ks)])) = _).
  specialize (H (t, ks) (or_introl eq_refl)) as Ht. cbn [snd] in Ht. apply Z.leb_le in Ht. rewrite Ht.
  apply IH. intros x Hx. apply H. now right.
Qed.

Theorem final_C27_loop_ends : forall O cf tr s clock, execution O cf tr s -> waiting tr = [] ->
    exists l ks s', let now := clock (List.length l) in
      map fst l = map clock (seq 0 (List.length l)) /\
      cl_run ClAsk (map Some (passes l)) = Some ClAsk /\
      cl_run ClAsk (map Some (passes (l ++ [(now, ks)]))) = Some ClSleep /\
      1024 * count l <= count (db_ts (s_disk s)) /\
      execution O cf (tr ++ passes (l ++ [(now, ks)])) s' /\
      forall p lm, limit_in (w_conf (watch_run cf tr)) (s_disk s) p lm ->
        exists dm, between (s_disk s) dm (s_disk s') /\ meets O lm now dm (entries_of (s_disk s') p).
Proof.
  intros O cf tr s clock H Hw. destruct (final_C27_repeat O cf tr s clock H Hw) as (l & ks & s' & H1 & H2 & H3 & H4 & H5 & H6).
  exists l, ks, s'. cbn zeta in *. split; auto. split; [now apply cl_run_passes|]. split; [|auto].
  unfold passes. rewrite flat_map_app, map_app, cl_run_app. fold (passes l). rewrite (cl_run_passes l H2).
  rewrite (cl_run_pass (clock (List.length l)) ks ClAsk eq_refl : cl_run ClAsk (map Some (flat_map _ [(clock (List.length l), ks)])) = _).
  apply Z.leb_gt in H3. now rewrite H3.
Qed.

(** ** A sleeping loop *)

Lemma cl_sleep_last : forall l, cl_run ClAsk l = Some ClSleep ->
    exists a ks b, somes l = a ++ (OWork, Cleaned ks) :: b /\ count ks < 1024 /\ Forall tame b.
Proof.
  induction l as [|x l IH] using rev_ind; intros H; [discriminate|].
  rewrite cl_run_app in H. destruct (cl_run ClAsk l) as [c|]; [|discriminate]. cbn [cl_run] in H.
  destruct (cl_step c x) as [c'|] eqn:E; [|discriminate]. injection H as ->.
  unfold somes. rewrite flat_map_app. fold (somes l). cbn [flat_map]. rewrite app_nil_r.
  destruct x as [[o y]|]; [|destruct c; discriminate].
  assert (Ht : (c = ClSleep /\ tame (o, y)) \/ exists ks, o = OWork /\ y = Cleaned ks /\ cleanup_repeat ks = false).
  { destruct o; cbn [cl_step] in E; try (injection E as ->; left; split; [reflexivity|exact I]);
      try (destruct c; discriminate); try discriminate.
    destruct y; try (injection E as ->; left; split; [reflexivity|exact I]).
    right. exists ks. split; auto. split; auto. destruct c; try discriminate. destruct (cleanup_repeat ks); [discriminate|reflexivity]. }
  destruct Ht as [[-> Ht]|(ks & -> & -> & Hr)].
  - destruct (IH eq_refl) as (a & ks & b & E1 & E2 & E3). exists a, ks, (b ++ [(o, y)]). rewrite E1, <- app_assoc. split; auto.
    split; auto. apply Forall_app. split; auto.
  - exists (somes l), ks, []. split; auto. split; [|constructor]. rewrite cleanup_repeat_spec in Hr. now apply Z.leb_gt in Hr.
Qed.

Lemma execution_prefix : forall O cf a b s, execution O cf (a ++ b) s -> exists s1, execution O cf a s1.
Proof.
  intros O cf a b. revert a. induction b as [|x b IH] using rev_ind; intros a s H.
  - rewrite app_nil_r in H. eauto.
  - rewrite app_assoc in H. destruct x as [o y]. apply execution_snoc in H as (s1 & H & _). eauto.
Qed.

Theorem final_C27_sleep : forall O cf l s, execution O cf (somes l) s -> cl_run ClAsk l = Some ClSleep ->
    exists a now ks b s1 s2, somes l = a ++ (OWork, Cleaned ks) :: b /\ Forall tame b /\ hd_error (waiting a) = Some (Some now) /\
      execution O cf a s1 /\ execution O cf (a ++ [(OWork, Cleaned ks)]) s2 /\
      forall p lm, limit_in (w_conf (watch_run cf a)) (s_disk s1) p lm ->
        exists dm, between (s_disk s1) dm (s_disk s2) /\ meets O lm now dm (entries_of (s_disk s2) p).
Proof.
  intros O cf l s H Hl. destruct (cl_sleep_last l Hl) as (a & ks & b & E & Hc & Ht). rewrite E in H.
  destruct (execution_prefix O cf a _ s H) as [s1 H1].
  change ((OWork, Cleaned ks) :: b) with ([(OWork, Cleaned ks)] ++ b) in H. rewrite app_assoc in H.
  destruct (execution_prefix O cf _ b s H) as [s2 H2].
  destruct (final_C27 O cf a s1 s2 ks H1 H2) as (now & Hw & Hcl).
  exists a, now, ks, b, s1, s2. split; auto. split; auto. split; auto. split; auto. split; auto.
  exact (cl_done _ _ _ _ _ _ Hcl Hc).
Qed.
