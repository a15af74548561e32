(** Delivery of persisted events from the flush loop to a client. *)
From Coq Require Import String Bool ZArith Arith Lia List.
From Verif Require Import Base Model_Types Model_Lmdb Model_LmdbSys Spec_Lmdb Spec_LmdbContent Model_LmdbFlush Spec_LmdbFlush Proof_LmdbFlush Proof_LmdbFlush2 Proof_LmdbFlush4
  Model_Eventer Spec_Eventer Model_Client Spec_Client
  Proof_Eventer Proof_Eventer2 Proof_Eventer3 Proof_Eventer4 Proof_Eventer5 Proof_Eventer6 Spec_Delivery Proof_Delivery Spec_Delivery3 Proof_Delivery2.
Import ListNotations.
Open Scope list_scope.
Open Scope nat_scope.

Lemma kserver_app : forall a b, kserver_of (a ++ b) = kserver_of a ++ kserver_of b.
Proof. intros. apply flat_map_app. Qed.
Lemma flush_of_app : forall a b, flush_of (a ++ b) = flush_of a ++ flush_of b.
Proof. intros. apply flat_map_app. Qed.
Lemma kserver_F : forall tr i, kserver_of (tr ++ [KF i]) = kserver_of tr.
Proof. intros. rewrite kserver_app. apply app_nil_r. Qed.
Lemma kserver_S : forall tr i, kserver_of (tr ++ [KS i]) = kserver_of tr ++ [i].
Proof. intros. now rewrite kserver_app. Qed.
Lemma flush_F : forall tr i, flush_of (tr ++ [KF i]) = flush_of tr ++ [i].
Proof. intros. now rewrite flush_of_app. Qed.
Lemma flush_S : forall tr i, flush_of (tr ++ [KS i]) = flush_of tr.
Proof. intros. rewrite flush_of_app. apply app_nil_r. Qed.

Lemma lifetime_app : forall O cf tr0 b a s, lifetime O cf tr0 (a ++ b) s -> exists s1, lifetime O cf tr0 a s1.
Proof.
  intros O cf tr0 b. induction b as [|i b IH] using rev_ind; intros a s H; [rewrite app_nil_r in H; eauto|].
  rewrite app_assoc in H. apply lifetime_snoc in H as (s1 & o & xs & l & _ & H & _). eauto.
Qed.

(** Steps other than the end of a callback. *)
Lemma other_silent : forall O s o s2 xs l, fexec O s o = Some (s2, xs, l) -> (forall ok, o <> FNotify ok) ->
    flat_map (fun x => match x with Flushed es => [es] | _ => [] end) l = [].
Proof.
  intros O s o s2 xs l H Hn.
  assert (An : forall g ok f, flat_map (fun x => match x with Flushed es => [es] | _ => [] end) (Model_LmdbFlush.answers g ok f) = []).
  { intros g ok f. unfold Model_LmdbFlush.answers. induction f as [|[n|] f IH]; [reflexivity| |exact IH]. cbn [flat_map]. rewrite flat_map_app, IH, app_nil_r. now destruct (memn n g). }
  destruct o; try (exfalso; eapply Hn; reflexivity); finv H; try reflexivity; try (unfold finalise in *); try apply An.
  all: try (match goal with E : (_, _) = (_, _) |- _ => injection E as <- <- end; apply An).
Qed.

Lemma other_pending : forall O s s' o s2 xs l es, fexec O s (FNotify true) = Some (s', [], [Flushed es]) -> fexec O s o = Some (s2, xs, l) -> (forall ok, o <> FNotify ok) ->
    exists s2', fexec O s2 (FNotify true) = Some (s2', [], [Flushed es]).
Proof.
  intros O s s' o s2 xs l es H H2 Hn. cbn [fexec] in H. destruct (f_loop s) as [| | |futs [|b bs] fin|] eqn:E; try discriminate. injection H as _ ->.
  assert (K : f_loop s2 = LNotify futs (es :: bs) fin -> exists s2', fexec O s2 (FNotify true) = Some (s2', [], [Flushed es])).
  { intros X. cbn [fexec]. rewrite X. eauto. }
  apply K. clear K. destruct o; try (exfalso; eapply Hn; reflexivity); finv H2; try congruence; exact E.
Qed.

Definition kplace (O : oracle) (cf : conf) (tr0 : list (op * out)) (N : nat -> bool) (tr : list kitem) (w : option (nat * list event)) : Prop :=
  match w with
  | None => flushed (flush_of tr) = map snd (announced N true (kserver_of tr)) /\ all_told N true (kserver_of tr)
  | Some (n, es) => calls_back O cf tr0 (flush_of tr) es /\ exists A, announced N true (kserver_of tr) = A ++ [(n, es)] /\ flushed (flush_of tr) = map snd A /\
      forall m es', In (m, es') A -> returned m (kserver_of tr)
  end.
Record kinv O cf tr0 (N : nat -> bool) (tr : list kitem) (w : option (nat * list event)) : Prop := {
  ki_plain : plain N true (kserver_of tr);
  ki_turn : in_turn N (kserver_of tr);
  ki_place : kplace O cf tr0 N tr w }.

Lemma callbacks_ok_prefix : forall a b, callbacks_ok (a ++ b) -> callbacks_ok a.
Proof. intros a b H. now apply callbacks_ok_app in H as [H _]. Qed.

Lemma kjoined_inv : forall O cf tr0 sv tk N tr w, kjoined O cf tr0 N tr w -> forall fs s, lifetime O cf tr0 (flush_of tr) fs ->
    server_run sv tk (kserver_of tr) s -> callbacks_ok (flush_of tr) -> kinv O cf tr0 N tr w.
Proof.
  intros O cf tr0 sv tk N tr w H. induction H; intros fs s Hf Hs Hc.
  - constructor; cbn; [intros ? ? ? ? ? []| |].
    + intros a n es p ack l b m es' p' ack' l' d E. destruct a; discriminate.
    + split; [reflexivity|]. intros ? ? [].
  - rewrite kserver_F in Hs. rewrite flush_F in Hf, Hc. pose proof Hf as Hf'. apply lifetime_snoc in Hf as (s1 & o' & xs' & l' & [= <- <- <-] & Hf & Hx & _).
    destruct (IHkjoined _ _ Hf Hs (callbacks_ok_prefix _ _ Hc)) as [P T J]. constructor; rewrite ?kserver_F; auto.
    unfold kplace in *. destruct w as [[n es]|]; rewrite kserver_F, flush_F.
    + destruct J as (J1 & A & J2 & J3 & J4). split.
      * intros s2 Hl. apply lifetime_snoc in Hl as (s3 & o' & xs' & l' & [= <- <- <-] & Hl & Hx' & _). destruct (J1 _ Hl) as [s4 J5]. eapply other_pending; eauto.
      * exists A. split; auto. rewrite flushed_snoc, (other_silent _ _ _ _ _ _ Hx H0), app_nil_r. auto.
    + rewrite flushed_snoc, (other_silent _ _ _ _ _ _ Hx H0), app_nil_r. auto.
  - rewrite kserver_S in Hs. rewrite flush_S in Hf, Hc. apply vruns_snoc_inv in Hs as (s1 & Hs & Hx).
    destruct (IHkjoined _ _ Hf Hs Hc) as [P T [J1 J2]]. constructor; rewrite ?kserver_S.
    + apply plain_snoc; auto. intros ? ? ? ? [= -> -> <- <-] _. auto.
    + eapply in_turn_tell; eauto.
    + unfold kplace. rewrite kserver_S, flush_S. split; auto.
      assert (E : forall i : vitem, i = (VNotify n es true false, l) -> announced N true (kserver_of tr ++ [i]) = announced N true (kserver_of tr) ++ [(n, es)]).
      { intros i ->. rewrite announced_app. f_equal. unfold announced. cbn [flat_map fst]. rewrite H1. reflexivity. }
      exists (announced N true (kserver_of tr)). rewrite (E _ eq_refl). split; auto. split; auto. intros m es' Hi. apply returned_app. left. eapply J2; eauto.
  - rewrite kserver_S in Hs. rewrite flush_S in Hf, Hc. apply vruns_snoc_inv in Hs as (s1 & Hs & Hx).
    destruct (IHkjoined _ _ Hf Hs Hc) as [P T J]. constructor; rewrite ?kserver_S.
    + apply plain_snoc; auto. intros ? ? ? ? E Hn. rewrite (H0 _ _ _ _ E) in Hn. discriminate.
    + now apply in_turn_none.
    + unfold kplace in *. destruct w as [[n es]|]; rewrite kserver_S, flush_S, announced_snoc_none by auto.
      * destruct J as (J1 & A & J2 & J3 & J4). split; auto. exists A. split; auto. split; auto. intros m es' Hi. apply returned_app. left. eapply J4; eauto.
      * destruct J as [J1 J2]. split; auto. intros n es Hi. rewrite announced_snoc_none in Hi by auto. apply returned_app. left. eapply J2; eauto.
  - rewrite kserver_F in Hs. rewrite flush_F in Hf, Hc. apply lifetime_snoc in Hf as (s1 & o' & xs' & l' & [= <- <- <-] & Hf & Hx & _).
    destruct (IHkjoined _ _ Hf Hs (callbacks_ok_prefix _ _ Hc)) as [P T J]. constructor; rewrite ?kserver_F; auto.
    unfold kplace in *. rewrite kserver_F, flush_F. destruct J as (J1 & A & J2 & J3 & J4). destruct (J1 _ Hf) as [s4 J5].
    assert (l = [Flushed es]) by congruence. subst l. rewrite flushed_snoc. cbn [flat_map app]. rewrite J2, J3, map_app. split; auto.
    intros m es' Hi. rewrite J2 in Hi. apply in_app_or in Hi as [Hi|[[= <- <-]|[]]]; eauto.
  - rewrite flush_F in Hc. destruct Hc. unfold done_of. rewrite map_app. apply in_or_app. right. now left.
Qed.

Lemma kjoined_prefix : forall O cf tr0 N tr w, kjoined O cf tr0 N tr w -> forall a b, tr = a ++ b -> exists w', kjoined O cf tr0 N a w'.
Proof.
  intros O cf tr0 N tr w H. induction H; intros a b E; try (symmetry in E; apply app_eq_nil in E as [-> ->]; eexists; constructor; fail);
    (destruct b as [|x b] using rev_ind; [rewrite app_nil_r in E; subst a; eexists; econstructor; eauto; fail|
     rewrite app_assoc in E; apply app_inj_tail in E as [E _]; eapply IHkjoined; eauto]).
Qed.

Lemma kinv_upto : forall O cf tr0 N tr w, kinv O cf tr0 N tr w -> kupto1 (flushed (flush_of tr)) (map snd (announced N true (kserver_of tr))).
Proof.
  intros O cf tr0 N tr w [_ _ J]. destruct w as [[n es]|]; unfold kplace in J.
  - destruct J as (_ & A & E & F & _). right. exists es. now rewrite E, F, map_app.
  - left. symmetry. tauto.
Qed.

(** The announced batches are a beginning of the registered ones, and written. *)
Lemma kinv_extend : forall O cf tr0 N tr w fs, kinv O cf tr0 N tr w -> lifetime O cf tr0 (flush_of tr) fs ->
    exists ext fs', lifetime O cf tr0 (flush_of tr ++ ext) fs' /\ f_sys fs' = f_sys fs /\ flushed (flush_of tr ++ ext) = map snd (announced N true (kserver_of tr)) /\
      inner ext = [] /\ registered ext = [] /\ (forall o, In o (done_of ext) -> o = FNotify true) /\ regs cf tr0 (flush_of tr ++ ext) = regs cf tr0 (flush_of tr).
Proof.
  intros O cf tr0 N tr w fs [_ _ J] Hf. destruct w as [[n es]|]; unfold kplace in J.
  - destruct J as (J1 & A & E & F & _). destruct (J1 _ Hf) as [s' Hx]. exists [(FNotify true, [], [Flushed es])], s'.
    split; [|split; [|split; [|split; [|split; [|split]]]]]; auto.
    + destruct Hf as (s0 & H1 & H2 & H3 & H4). exists s0. split; auto. split; auto. split; [econstructor; eauto|]. rewrite registered_snoc, app_nil_r. auto.
    + cbn [fexec] in Hx. destruct (f_loop fs) as [| | |futs [|b bs] fin|]; try discriminate. injection Hx as <- _. reflexivity.
    + rewrite flushed_snoc. cbn [flat_map app]. now rewrite F, E, map_app.
    + intros o [<-|[]]. reflexivity.
    + unfold regs. assert (G : forall b a i, fst (fst i) = FNotify true -> regs_from cf tr0 a (b ++ [i]) = regs_from cf tr0 a b).
      { induction b as [|j b IH]; intros a i Hi; cbn [app regs_from]; [now rewrite Hi|]. now rewrite IH. }
      now apply G.
  - exists [], fs. rewrite !app_nil_r. split; auto. split; auto. split; [tauto|]. split; auto. split; auto. split; auto. intros o [].
Qed.

Theorem final_C67_persisted : forall O cf tr0 fs sv tk ss ctr cs N tr w pre i post c conv req,
    lifetime O cf tr0 (flush_of tr) fs -> server_run sv tk (kserver_of tr) ss -> kjoined O cf tr0 N tr w -> writes_ok (flush_of tr) -> callbacks_ok (flush_of tr) ->
    client_run ctr cs -> prefix (received ctr) (sent_to c (kserver_of tr)) ->
    only_by N any true (kserver_of tr) ->
    tr = pre ++ KS i :: post -> existsb is_welcome (sent_in c (snd i)) = true ->
    init_of c (kserver_of tr) = Some (conv, req) -> ir_persisted req = true ->
    (exists early due l, kupto1 (flushed (flush_of pre)) early /\ kupto1 (flushed (flush_of tr)) (early ++ due) /\
      prefix (early ++ due) (registered (flush_of tr)) /\
      picked (interested req) (concat due) l /\ prefix (got_events ctr) l /\
      (gone c (kserver_of tr) = false -> ksettled N tr -> received ctr = sent_to c (kserver_of tr) -> got_events ctr = l)) /\
    (forall e, In e (got_events ctr) -> exists es h, In (es, h) (regs cf tr0 (flush_of tr)) /\ In e es /\ prefix h (w_disk (watched cf tr0 (flush_of tr)))) /\
    content (s_disk (f_sys fs)) (w_disk (watched cf tr0 (flush_of tr))) (w_gone (watched cf tr0 (flush_of tr))).
Proof.
  intros O cf tr0 fs sv tk ss ctr cs N tr w pre i post c conv req Hf Hs Hj Hw Hcb Hk Hp Ho E Hwel Hi Hr.
  pose proof (kjoined_inv _ _ _ sv tk N tr w Hj fs ss Hf Hs Hcb) as I.
  destruct (kjoined_prefix _ _ _ _ _ _ Hj _ _ E) as [w' Hj'].
  assert (Hs' : exists s', server_run sv tk (kserver_of pre) s'). { rewrite E, kserver_app in Hs. now apply vruns_prefix in Hs. }
  assert (Hf' : exists s', lifetime O cf tr0 (flush_of pre) s'). { rewrite E, flush_of_app in Hf. now apply lifetime_app in Hf. }
  assert (Hc' : callbacks_ok (flush_of pre)). { rewrite E, flush_of_app in Hcb. now apply callbacks_ok_prefix in Hcb. }
  destruct Hs' as [s' Hs']. destruct Hf' as [f' Hf']. pose proof (kjoined_inv _ _ _ sv tk N pre w' Hj' f' s' Hf' Hs' Hc') as I'.
  assert (Es : kserver_of tr = kserver_of pre ++ i :: kserver_of post) by (rewrite E, kserver_app; reflexivity).
  pose proof Hs as Hs2. rewrite Es in Hs2. destruct (since_at _ _ c _ _ _ _ Hs2 Hwel) as [W Sn]. rewrite <- Es in Sn.
  assert (Ei : announced N true (kserver_of tr) = announced N true (kserver_of pre) ++ announced N true (kserver_of post)).
  { rewrite Es, announced_app. f_equal. change (i :: kserver_of post) with ([i] ++ kserver_of post). rewrite announced_app.
    rewrite (not_begun N true [i]); [reflexivity|]. intros m _ (es1 & p1 & ack1 & l1 & [X|[]]). subst i.
    change ((VNotify m es1 p1 ack1, l1) :: kserver_of post) with ([(VNotify m es1 p1 ack1, l1)] ++ kserver_of post) in Hs2. rewrite app_assoc in Hs2.
    apply vruns_prefix in Hs2 as (s1 & H1). apply vruns_snoc_inv in H1 as (s0 & _ & Hx). cbn [snd] in Hwel. rewrite (call_silent _ _ _ _ _ _ _ _ _ Hx c) in Hwel. discriminate. }
  rewrite <- Hr in Ho.
  destruct (final_C67_client sv tk N any (kserver_of tr) ss ctr cs c conv req Hs Hk Hp (ki_turn _ _ _ _ _ _ I) Ho
     (plain_undropped _ _ _ _ _ _ _ Hs (ki_plain _ _ _ _ _ _ I)) Hi) as (l & P1 & P2 & P3). rewrite Sn, Hr in P1.
  assert (Any : forall x, from any x = x). { induction x as [|a x IH]; [reflexivity|]. unfold from, any in *. cbn [filter]. now rewrite IH. }
  rewrite Any in P2, P3.
  assert (P1' : picked (interested req) (concat (map snd (announced N true (kserver_of post)))) l).
  { clear - P1. induction P1 as [|e L l [K1 K2] P IH|e L l K P IH]; [constructor| |]; [apply picked_take; auto|]. apply picked_skip; auto. intros X. apply K. split; auto. }
  destruct (kinv_extend _ _ _ _ _ _ _ I Hf) as (ext & fs' & X1 & X2 & X3 & X4 & X5 & X6 & X7).
  assert (Hw' : writes_ok (flush_of tr ++ ext)). { unfold writes_ok. rewrite done_app. intros X. apply in_app_or in X as [X|X]; [now apply Hw|]. apply X6 in X. discriminate. }
  assert (Hc2 : callbacks_ok (flush_of tr ++ ext)). { unfold callbacks_ok. rewrite done_app. intros X. apply in_app_or in X as [X|X]; [now apply Hcb|]. apply X6 in X. discriminate. }
  assert (Wd : watched cf tr0 (flush_of tr ++ ext) = watched cf tr0 (flush_of tr)). { unfold watched. now rewrite inner_app, X4, app_nil_r. }
  destruct (final_C25_written _ _ _ _ _ X1 Hw') as (R & R1 & R2 & R3 & R4). rewrite Wd in R3, R4. rewrite X2 in R4. rewrite X7 in R1. rewrite X3 in R2.
  split; [|split; [|exact R4]].
  - exists (map snd (announced N true (kserver_of pre))), (map snd (announced N true (kserver_of post))), l. rewrite <- map_app, <- Ei.
    split; [eapply kinv_upto; eauto|]. split; [eapply kinv_upto; eauto|]. split.
    { destruct (final_C25_all _ _ _ _ _ X1 Hw' Hc2) as [[r Y] _]. rewrite X3, registered_app, X5, app_nil_r in Y. exists r. exact Y. }
    split; [exact P1'|]. split; [exact P2|]. intros G St Rc. apply P3; auto. intros n es1 X. rewrite Hr, Sn in X. apply (St n es1). rewrite Ei. apply in_or_app. auto.
  - intros e He. destruct P2 as [r Y]. assert (He' : In e l) by (rewrite Y; apply in_or_app; auto). apply (picked_In _ _ _ _ P1') in He' as [He' _].
    apply in_concat in He' as (es & Hes & He'). assert (Hes' : In es (map fst R)). { rewrite R2, Ei, map_app. apply in_or_app. auto. }
    apply in_map_iff in Hes' as ([es1 h] & <- & Hr1). exists es1, h. split; [|split; [exact He'|]].
    + clear - R1 Hr1. induction R1; auto; cbn in *; intuition.
    + rewrite Forall_forall in R3. destruct (R3 _ Hr1) as [z Z]. exists z. exact Z.
Qed.
