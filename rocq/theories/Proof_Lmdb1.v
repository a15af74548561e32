(** LMDB backend: what a flush does to each lookup, and that recording an event
    and flushing later is the same as storing it at once. *)
From Coq Require Import Bool ZArith Lia Sorted List.
From Verif Require Import Base Kv Model_Types Model_Subscription Model_Order Model_Codec Keys
  Proof_Order Model_Lmdb.
Import ListNotations.
Open Scope list_scope.
Open Scope Z_scope.

Notation zeqb_spec := Z.eqb_eq.

(** ** Reference sets *)

Definition refs_at (m : list (event_id * list event_ref)) (i : event_id) : list event_ref :=
  match kget eidord i m with Some v => v | None => [] end.

Definition refs_wf (m : list (event_id * list event_ref)) : Prop :=
  ksorted eidord m /\ forall i v, kget eidord i m = Some v -> v <> [] /\ ssorted reford v.

Lemma refs_ext : forall m n, refs_wf m -> refs_wf n ->
    (forall i r, In r (refs_at m i) <-> In r (refs_at n i)) -> m = n.
Proof.
  intros m n [Hm1 Hm2] [Hn1 Hn2] H. apply (kext eidord); auto. intros i.
  specialize (H i). unfold refs_at in H.
  destruct (kget eidord i m) as [v|] eqn:E1; destruct (kget eidord i n) as [w|] eqn:E2; auto.
  - f_equal. apply (sext reford); auto; [apply (Hm2 _ _ E1)|apply (Hn2 _ _ E2)].
  - destruct (Hm2 _ _ E1) as [Hne _]. destruct v as [|r v]; [congruence|]. exfalso. apply (H r). now left.
  - destruct (Hn2 _ _ E2) as [Hne _]. destruct w as [|r w]; [congruence|]. exfalso. apply (H r). now left.
Qed.

Definition norm (v : list event_ref) : option (list event_ref) := match v with [] => None | _ => Some v end.

Lemma kget_put_refs : forall i v m j, ksorted eidord m ->
    kget eidord j (put_refs i v (kdel eidord i m)) = if eid_eqb j i then norm v else kget eidord j m.
Proof.
  intros i v m j Hs. destruct v as [|r v]; unfold put_refs, norm.
  - rewrite kget_kdel by auto. reflexivity.
  - rewrite kget_kput, kget_kdel by auto. cbn [oeqb eidord]. destruct (eid_eqb j i); auto.
Qed.

Lemma ksorted_put_refs : forall i v m, ksorted eidord m -> ksorted eidord (put_refs i v (kdel eidord i m)).
Proof.
  intros i v m H. destruct v; unfold put_refs; [|apply ksorted_kput]; now apply ksorted_kdel.
Qed.

Lemma refs_wf_put : forall i v m, refs_wf m -> ssorted reford v -> refs_wf (put_refs i v (kdel eidord i m)).
Proof.
  intros i v m [H1 H2] Hv. split; [now apply ksorted_put_refs|].
  intros j w. rewrite kget_put_refs by auto. destruct (eid_eqb j i); [|apply H2].
  destruct v as [|r v]; cbn; [discriminate|]. intros [= <-]. split; [discriminate|auto].
Qed.

Lemma refs_at_put : forall i v m j, ksorted eidord m ->
    refs_at (put_refs i v (kdel eidord i m)) j = if eid_eqb j i then v else refs_at m j.
Proof.
  intros. unfold refs_at. rewrite kget_put_refs by auto. destruct (eid_eqb j i); auto.
  destruct v; auto.
Qed.

Lemma refs_at_sorted : forall m i, refs_wf m -> ssorted reford (refs_at m i).
Proof.
  intros m i [_ H]. unfold refs_at. destruct (kget eidord i m) eqn:E; [apply (H _ _ E)|constructor].
Qed.

(** ** Well formed changes *)

Record ch_wf (c : changes) : Prop := {
  cw_ids : NoDup (keys (sc_ids (ch_sys c)));
  cw_tss : NoDup (keys (sc_tss (ch_sys c)));
  cw_data : NoDup (keys (lc_data (ch_latest c)));
  cw_types : NoDup (keys (lc_types (ch_latest c)));
  cw_ts : NoDup (keys (ch_ts c));
  cw_ref : NoDup (keys (ch_ref c));
  cw_sc : forall s sc, In (s, sc) (ch_ref c) ->
      NoDup (keys (rc_added sc)) /\ NoDup (keys (rc_removed sc)) /\
      (forall i, In i (keys (rc_added sc)) \/ In i (keys (rc_removed sc)) -> eid_server i = s) /\
      (forall i e rs, In (i, (e, rs)) (rc_added sc) -> rs <> [] /\ ssorted reford rs) /\
      (forall i rs, In (i, rs) (rc_removed sc) -> ssorted reford rs) }.

Definition rc_wf (c : ref_changes) : Prop :=
  NoDup (keys c) /\
  forall s sc, In (s, sc) c ->
      NoDup (keys (rc_added sc)) /\ NoDup (keys (rc_removed sc)) /\
      (forall i, In i (keys (rc_added sc)) \/ In i (keys (rc_removed sc)) -> eid_server i = s) /\
      (forall i e rs, In (i, (e, rs)) (rc_added sc) -> rs <> [] /\ ssorted reford rs) /\
      (forall i rs, In (i, rs) (rc_removed sc) -> ssorted reford rs).

Lemma ch_rc_wf : forall c, ch_wf c -> rc_wf (ch_ref c).
Proof. intros c []. split; auto. Qed.

Record db_wf (d : ldb) : Prop := {
  dw_ids : ksorted zord (db_ids d);
  dw_tss : ksorted zord (db_tss d);
  dw_ref : refs_wf (db_ref d);
  dw_latest : ksorted zord (db_latest d);
  dw_types : ksorted zord (db_types d);
  dw_ts : ksorted keyord (db_ts d);
  dw_counts : ksorted zord (db_counts d) }.

Definition added_refs (c : ref_changes) (i : event_id) : list event_ref :=
  match dget eid_eqb i (rc_added (server_changes_of c (eid_server i))) with Some (_, rs) => rs | None => [] end.
Definition removed_refs (c : ref_changes) (i : event_id) : list event_ref :=
  match dget eid_eqb i (rc_removed (server_changes_of c (eid_server i))) with Some rs => rs | None => [] end.

(** ** Effect of writing references *)

Definition sc_val (sc : server_changes) (m : list (event_id * list event_ref)) (i : event_id) : list event_ref :=
  let v := match kget eidord i m with Some v => v | None => [] end in
  let v := match dget eid_eqb i (rc_added sc) with Some (_, rs) => sunion reford v rs | None => v end in
  match dget eid_eqb i (rc_removed sc) with Some rs => sdiff reford v rs | None => v end.

Lemma ref_write_id_eq : forall sc m i, ref_write_id sc m i = put_refs i (sc_val sc m i) (kdel eidord i m).
Proof. reflexivity. Qed.

Lemma sc_val_sorted : forall sc m i, refs_wf m -> ssorted reford (sc_val sc m i).
Proof.
  intros sc m i H. pose proof (refs_at_sorted m i H) as Hs. unfold sc_val, refs_at in *.
  destruct (dget eid_eqb i (rc_added sc)) as [[e rs]|]; destruct (dget eid_eqb i (rc_removed sc)) as [rs'|];
    auto using ssorted_sdiff, ssorted_sunion.
Qed.

Lemma In_sc_val : forall sc m i r, In r (sc_val sc m i) <->
    (In r (refs_at m i) \/ exists e rs, dget eid_eqb i (rc_added sc) = Some (e, rs) /\ In r rs) /\
    ~ (exists rs, dget eid_eqb i (rc_removed sc) = Some rs /\ In r rs).
Proof.
  intros. unfold sc_val. fold (refs_at m i).
  assert (Ha : In r (match dget eid_eqb i (rc_added sc) with
                     | Some (_, rs) => sunion reford (refs_at m i) rs | None => refs_at m i end) <->
               (In r (refs_at m i) \/ exists e rs, dget eid_eqb i (rc_added sc) = Some (e, rs) /\ In r rs)).
  { destruct (dget eid_eqb i (rc_added sc)) as [[e rs]|].
    - rewrite In_sunion. split; intros [H|H]; auto.
      + right. eauto.
      + destruct H as (e' & rs' & [= <- <-] & H). auto.
    - split; auto. intros [H|(e & rs & [=] & _)]; auto. }
  destruct (dget eid_eqb i (rc_removed sc)) as [rs|].
  - rewrite In_sdiff, Ha. split; intros [H1 H2]; split; auto.
    + intros (rs' & [= <-] & H). auto.
    + intros H. apply H2. eauto.
  - rewrite Ha. split; [intros H; split; auto|intros [H _]; auto].
    intros (rs & [=] & _).
Qed.

Lemma sc_val_ext : forall sc m n i, refs_at m i = refs_at n i -> sc_val sc m i = sc_val sc n i.
Proof. intros sc m n i H. unfold sc_val, refs_at in *. now rewrite H. Qed.

Lemma ref_fold_spec : forall sc ids m, refs_wf m -> NoDup ids ->
    refs_wf (fold_left (ref_write_id sc) ids m) /\
    forall i, refs_at (fold_left (ref_write_id sc) ids m) i =
              if existsb (eid_eqb i) ids then sc_val sc m i else refs_at m i.
Proof.
  intros sc ids. induction ids as [|k ids IH]; cbn [fold_left existsb]; intros m Hm Hnd; auto.
  inversion Hnd as [|? ? Hni Hnd']; subst.
  assert (Hw : refs_wf (ref_write_id sc m k)).
  { rewrite ref_write_id_eq. apply refs_wf_put; auto using sc_val_sorted. }
  destruct (IH _ Hw Hnd') as [H1 H2]. split; auto.
  intros i. rewrite H2, ref_write_id_eq, refs_at_put by apply Hm.
  destruct (eid_eqb i k) eqn:E; cbn [orb].
  - apply eid_eqb_spec in E. subst.
    destruct (existsb (eid_eqb k) ids) eqn:E2; auto.
    exfalso. apply existsb_exists in E2 as [x [Hx Ex]]. apply eid_eqb_spec in Ex. subst. auto.
  - destruct (existsb (eid_eqb i) ids); auto.
    apply sc_val_ext. rewrite refs_at_put by apply Hm. now rewrite E.
Qed.

Definition sc_ids_all (sc : server_changes) : list event_id := sof eidord (keys (rc_added sc) ++ keys (rc_removed sc)).

Lemma sc_fold_spec : forall sc m, refs_wf m ->
    refs_wf (fold_left (ref_write_id sc) (sc_ids_all sc) m) /\
    forall i, refs_at (fold_left (ref_write_id sc) (sc_ids_all sc) m) i = sc_val sc m i.
Proof.
  intros sc m Hm. destruct (ref_fold_spec sc (sc_ids_all sc) m Hm) as [H1 H2].
  { apply (ssorted_NoDup eidord). apply ssorted_sof. }
  split; auto. intros i. rewrite H2. destruct (existsb (eid_eqb i) (sc_ids_all sc)) eqn:E; auto.
  assert (Hn : ~ In i (keys (rc_added sc) ++ keys (rc_removed sc))).
  { intros Hin. apply (In_sof eidord) in Hin. apply not_true_iff_false in E. apply E.
    apply existsb_exists. exists i. split; auto. now apply eid_eqb_spec. }
  rewrite in_app_iff in Hn.
  unfold sc_val. rewrite (proj2 (dget_None eid_eqb_spec i (rc_added sc))) by tauto.
  rewrite (proj2 (dget_None eid_eqb_spec i (rc_removed sc))) by tauto. reflexivity.
Qed.

Lemma sc_val_other : forall sc m i,
    ~ In i (keys (rc_added sc)) -> ~ In i (keys (rc_removed sc)) -> sc_val sc m i = refs_at m i.
Proof.
  intros. unfold sc_val. rewrite (proj2 (dget_None eid_eqb_spec i (rc_added sc))) by auto.
  now rewrite (proj2 (dget_None eid_eqb_spec i (rc_removed sc))) by auto.
Qed.

Lemma ref_write_fold : forall c m, refs_wf m -> rc_wf c ->
    let m' := fold_left (fun m sc => fold_left (ref_write_id sc) (sc_ids_all sc) m) (vals c) m in
    refs_wf m' /\ forall i, refs_at m' i = sc_val (server_changes_of c (eid_server i)) m i.
Proof.
  unfold vals. induction c as [|[s sc] c IH]; intros m Hm [Hnd Hsc]; cbn [map snd fold_left].
  - cbn zeta. split; auto.
  - cbn zeta. inversion Hnd as [|? ? Hni Hnd']; subst.
    destruct (sc_fold_spec sc m Hm) as [Hw Hv].
    destruct (IH _ Hw) as [H1 H2].
    { split; auto. intros s' sc' Hin. apply (Hsc s' sc'). now right. }
    split; auto. intros i. rewrite H2. unfold server_changes_of at 2. cbn [dget].
    destruct (Hsc s sc (or_introl eq_refl)) as (_ & _ & Hids & _).
    destruct (eid_server i =? s) eqn:E.
    + apply Z.eqb_eq in E.
      assert (Hnone : dget Z.eqb (eid_server i) c = None).
      { apply (dget_None zeqb_spec). rewrite E. auto. }
      unfold server_changes_of. rewrite Hnone.
      rewrite sc_val_other by auto. apply Hv.
    + apply Z.eqb_neq in E. fold (server_changes_of c (eid_server i)).
      apply sc_val_ext. rewrite Hv. apply sc_val_other; intros Hin; apply E; auto.
Qed.

(** After a flush the references of an event are the old ones and the added
    ones without the removed ones. *)
Lemma refs_at_flush : forall db c, db_wf db -> rc_wf c ->
    refs_wf (db_ref (ref_write db c)) /\
    forall i r, In r (refs_at (db_ref (ref_write db c)) i) <->
      (In r (refs_at (db_ref db) i) \/ In r (added_refs c i)) /\ ~ In r (removed_refs c i).
Proof.
  intros db c Hdb Hc. destruct (ref_write_fold c (db_ref db) (dw_ref _ Hdb) Hc) as [H1 H2].
  split; [exact H1|]. intros i r. cbn [db_ref ref_write]. rewrite H2, In_sc_val.
  unfold added_refs, removed_refs.
  destruct (dget eid_eqb i (rc_added (server_changes_of c (eid_server i)))) as [[e rs]|];
  destruct (dget eid_eqb i (rc_removed (server_changes_of c (eid_server i)))) as [rs'|].
  - split; intros [Ha Hb]; split.
    + destruct Ha as [Ha|(? & ? & [= <- <-] & Ha)]; auto.
    + intros H; apply Hb; eauto.
    + destruct Ha as [Ha|Ha]; eauto.
    + intros (? & [= <-] & H); auto.
  - split; intros [Ha Hb]; split; auto.
    + destruct Ha as [Ha|(? & ? & [= <- <-] & Ha)]; auto.
    + destruct Ha as [Ha|Ha]; eauto.
    + intros (? & [=] & H).
  - split; intros [Ha Hb]; split.
    + destruct Ha as [Ha|(? & ? & [=] & Ha)]; auto.
    + intros H; apply Hb; eauto.
    + destruct Ha as [Ha|[]]; auto.
    + intros (? & [= <-] & H); auto.
  - split; intros [Ha Hb]; split; auto.
    + destruct Ha as [Ha|(? & ? & [=] & Ha)]; auto.
    + destruct Ha as [Ha|[]]; auto.
    + intros (? & [=] & H).
Qed.

(** ** Timeseries entries and counters *)

Lemma ksorted_inc_counts : forall c m, ksorted zord m -> ksorted zord (inc_counts c m).
Proof.
  unfold inc_counts. induction c as [|x c IH]; cbn [fold_left]; intros m H; auto.
  apply IH. now apply ksorted_kput.
Qed.

Lemma partition_count_kput : forall p q n m,
    partition_count (kput zord p n m) q = if q =? p then n else partition_count m q.
Proof.
  intros. unfold partition_count. rewrite kget_kput. cbn [oeqb zord]. destruct (q =? p); auto.
Qed.

Lemma inc_counts_spec : forall c m p, NoDup (keys c) ->
    partition_count (inc_counts c m) p = partition_count m p + zlen (part_changes c p).
Proof.
  unfold inc_counts. induction c as [|[q l] c IH]; cbn [fold_left fst snd]; intros m p Hnd.
  - unfold part_changes, zlen; cbn. lia.
  - inversion Hnd as [|? ? Hni Hnd']; subst. rewrite IH by auto. rewrite partition_count_kput.
    unfold part_changes. cbn [dget]. destruct (p =? q) eqn:E; auto.
    apply Z.eqb_eq in E. subst. rewrite (proj2 (dget_None zeqb_spec q c)) by auto.
    unfold zlen. cbn [List.length]. lia.
Qed.

(** Presence of a counter (a key that was ever written). *)
Lemma kget_inc_counts : forall c m p, NoDup (keys c) ->
    kget zord p (inc_counts c m) =
    match dget Z.eqb p c with
    | Some l => Some (partition_count m p + zlen l)
    | None => kget zord p m
    end.
Proof.
  unfold inc_counts. induction c as [|[q l] c IH]; cbn [fold_left fst snd dget]; intros m p Hnd; auto.
  inversion Hnd as [|? ? Hni Hnd']; subst. rewrite IH by auto.
  destruct (p =? q) eqn:E.
  - apply Z.eqb_eq in E. subst. rewrite (proj2 (dget_None zeqb_spec q c)) by auto.
    rewrite kget_kput. cbn [oeqb zord]. now rewrite Z.eqb_refl.
  - destruct (dget Z.eqb p c).
    + now rewrite partition_count_kput, E.
    + rewrite kget_kput. cbn [oeqb zord]. now rewrite E.
Qed.
