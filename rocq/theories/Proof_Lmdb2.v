(** LMDB backend: recording an event and flushing later is the same as storing
    it at once. *)
From Coq Require Import Bool ZArith Lia Sorted List.
From Verif Require Import Base Kv Model_Types Model_Subscription Model_Order Model_Codec Keys
  Proof_Order Model_Lmdb Proof_Lmdb1.
Import ListNotations.
Open Scope list_scope.
Open Scope Z_scope.

(** ** Reference changes *)

Lemma server_changes_dset : forall s sc c s',
    server_changes_of (dset Z.eqb s sc c) s' = if s' =? s then sc else server_changes_of c s'.
Proof.
  intros. unfold server_changes_of. destruct (s' =? s) eqn:E.
  - apply Z.eqb_eq in E. subst. now rewrite (dget_dset_same zeqb_spec).
  - apply Z.eqb_neq in E. now rewrite (dget_dset_other zeqb_spec).
Qed.

Definition sc_wf (s : Z) (sc : server_changes) : Prop :=
  NoDup (keys (rc_added sc)) /\ NoDup (keys (rc_removed sc)) /\
  (forall i, In i (keys (rc_added sc)) \/ In i (keys (rc_removed sc)) -> eid_server i = s) /\
  (forall i e rs, In (i, (e, rs)) (rc_added sc) -> rs <> [] /\ ssorted reford rs) /\
  (forall i rs, In (i, rs) (rc_removed sc) -> ssorted reford rs).

Lemma sc_wf_of : forall c s, rc_wf c -> sc_wf s (server_changes_of c s).
Proof.
  intros c s [_ H]. unfold server_changes_of. destruct (dget Z.eqb s c) eqn:E.
  - apply (dget_In zeqb_spec) in E. apply (H _ _ E).
  - unfold sc_wf; cbn. split; [constructor|split; [constructor|split; [tauto|split; intros; tauto]]].
Qed.

Lemma rc_wf_dset : forall c s sc, rc_wf c -> sc_wf s sc -> rc_wf (dset Z.eqb s sc c).
Proof.
  intros c s sc [H1 H2] Hsc. split.
  - now apply (NoDup_dset zeqb_spec).
  - intros s' sc' Hin. apply (In_dset_iff zeqb_spec) in Hin; auto.
    destruct Hin as [[-> ->]|[_ Hin]]; [exact Hsc|]. exact (H2 _ _ Hin).
Qed.

Lemma keys_dset_In : forall (K V : Type) (eqb : K -> K -> bool) (Hs : forall a b, eqb a b = true <-> a = b) k (v : V) d x,
    In x (keys (dset eqb k v d)) <-> x = k \/ In x (keys d).
Proof.
  intros K V eqb Hs k v d x. rewrite (keys_dset (eqb := eqb)). pose proof (dmem_In Hs k d) as Hm.
  destruct (dmem eqb k d); [|rewrite in_app_iff; cbn; intuition].
  split; [auto|]. intros [->|]; auto. now apply Hm.
Qed.

Definition is_added (c : ref_changes) (i : event_id) : Prop :=
  In i (keys (rc_added (server_changes_of c (eid_server i)))).
Definition is_removed (c : ref_changes) (i : event_id) : Prop :=
  In i (keys (rc_removed (server_changes_of c (eid_server i)))).

Lemma NoDup_key_eq : forall (K V : Type) (d : list (K * V)) k v v', NoDup (keys d) -> In (k, v) d -> In (k, v') d -> v = v'.
Proof.
  unfold keys. induction d as [|[k1 v1] d IH]; cbn; intros k v v' Hnd H H'; [easy|].
  inversion Hnd as [|? ? Hni Hnd']; subst.
  assert (Hk : forall u, In (k1, u) d -> False).
  { intros u Hu. apply Hni. apply in_map_iff. exists (k1, u); auto. }
  destruct H as [H|H]; destruct H' as [H'|H'].
  - congruence.
  - injection H as -> ->. exfalso. eapply Hk; eauto.
  - injection H' as -> ->. exfalso. eapply Hk; eauto.
  - eapply IH; eauto.
Qed.

Lemma keys_In : forall (K V : Type) (d : list (K * V)) k v, In (k, v) d -> In k (keys d).
Proof. intros. apply in_map_iff. exists (k, v). auto. Qed.

Lemma In_keys_ex : forall (K V : Type) (d : list (K * V)) k, In k (keys d) -> exists v, In (k, v) d.
Proof. intros K V d k H. apply in_map_iff in H as [[k' v] [<- H]]. exists v. auto. Qed.

(** [ref_remove] takes away one reference, in effect. *)
Lemma ref_remove_spec : forall c i r (D : event_id -> list event_ref), rc_wf c ->
    (is_added c i -> D i = []) ->
    let c' := ref_remove c i r in
    rc_wf c' /\
    (forall j x, (In x (D j) \/ In x (added_refs c' j)) /\ ~ In x (removed_refs c' j) <->
       ((In x (D j) \/ In x (added_refs c j)) /\ ~ In x (removed_refs c j)) /\ ~ (j = i /\ x = r)) /\
    (forall j, is_added c' j -> is_added c j) /\
    (forall j, is_removed c' j -> is_removed c j \/ j = i).
Proof.
  intros c i r D Hwf HD. cbn zeta. unfold ref_remove.
  set (s := eid_server i). set (sc := server_changes_of c s).
  destruct (sc_wf_of c s Hwf) as (Hn1 & Hn2 & Hids & Hne & Hso). fold sc in Hn1, Hn2, Hids, Hne, Hso.
  set (old := match dget eid_eqb i (rc_removed sc) with Some l => l | None => [] end).
  assert (Hrem : let c' := dset Z.eqb s (ServerChanges (rc_added sc) (dset eid_eqb i (sadd reford r old) (rc_removed sc))) c in
    rc_wf c' /\
    (forall j x, (In x (D j) \/ In x (added_refs c' j)) /\ ~ In x (removed_refs c' j) <->
       ((In x (D j) \/ In x (added_refs c j)) /\ ~ In x (removed_refs c j)) /\ ~ (j = i /\ x = r)) /\
    (forall j, is_added c' j -> is_added c j) /\
    (forall j, is_removed c' j -> is_removed c j \/ j = i)).
  { cbn zeta. split; [|split; [|split]].
    - apply rc_wf_dset; auto. unfold sc_wf; cbn [rc_added rc_removed].
      split; auto. split; [now apply (NoDup_dset eid_eqb_spec)|]. split; [|split; auto].
      + intros j [Hj|Hj]; [apply Hids; auto|].
        apply (keys_dset_In _ _ _ eid_eqb_spec) in Hj as [->|Hj]; auto.
      + intros j rs Hin. apply (In_dset_iff eid_eqb_spec) in Hin; auto.
        destruct Hin as [[-> ->]|[_ Hin]]; [|eapply Hso; eauto].
        apply ssorted_sadd. unfold old. destruct (dget eid_eqb i (rc_removed sc)) eqn:E; [|constructor].
        apply (dget_In eid_eqb_spec) in E. eapply Hso; eauto.
    - intros j x. unfold added_refs, removed_refs. rewrite !server_changes_dset.
      destruct (eid_server j =? s) eqn:Es.
      + apply Z.eqb_eq in Es. rewrite Es. cbn [rc_added rc_removed]. fold sc.
        destruct (eid_dec j i) as [->|Hji].
        * rewrite (dget_dset_same eid_eqb_spec). rewrite In_sadd. fold old.
          destruct (reford) eqn:Er; clear Er. intuition (subst; auto).
        * rewrite (dget_dset_other eid_eqb_spec) by auto. tauto.
      + split; [|tauto]. intros H; split; auto. intros [-> _]. unfold s in Es. rewrite Z.eqb_refl in Es. discriminate.
    - intros j. unfold is_added. rewrite server_changes_dset. destruct (eid_server j =? s) eqn:Es; auto.
      apply Z.eqb_eq in Es. rewrite Es. auto.
    - intros j. unfold is_removed. rewrite server_changes_dset. destruct (eid_server j =? s) eqn:Es; auto.
      apply Z.eqb_eq in Es. rewrite Es. cbn [rc_removed]. intros H.
      apply (keys_dset_In _ _ _ eid_eqb_spec) in H as [->|H]; auto. }
  destruct (dget eid_eqb i (rc_added sc)) as [[e refs]|] eqn:Ea; [|exact Hrem].
  destruct (shas reford r refs) eqn:Er; [|exact Hrem]. clear Hrem old.
  apply (shas_In reford) in Er.
  pose proof (dget_In eid_eqb_spec _ _ _ Ea) as Hin.
  destruct (Hne _ _ _ Hin) as [Hne' Hsr].
  assert (HDi : D i = []). { apply HD. unfold is_added. fold s sc. eapply keys_In; eauto. }
  set (refs' := sdel reford r refs).
  set (added := match refs' with [] => ddel eid_eqb i (rc_added sc) | _ => dset eid_eqb i (e, refs') (rc_added sc) end).
  assert (Hk : forall j, In j (keys added) -> In j (keys (rc_added sc))).
  { intros j. unfold added. destruct refs'; [apply keys_ddel_incl|].
    intros H. apply (keys_dset_In _ _ _ eid_eqb_spec) in H as [->|H]; auto. eapply keys_In; eauto. }
  assert (Hget : forall j, match dget eid_eqb j added with Some (_, rs) => rs | None => [] end =
                           if eid_eqb j i then refs' else match dget eid_eqb j (rc_added sc) with Some (_, rs) => rs | None => [] end).
  { intros j. unfold added. destruct (eid_eqb j i) eqn:E.
    - apply eid_eqb_spec in E. subst. destruct refs' as [|x l].
      + now rewrite (dget_ddel_same eid_eqb_spec).
      + now rewrite (dget_dset_same eid_eqb_spec).
    - assert (j <> i) by (intros ->; rewrite (eqb_refl' eid_eqb_spec) in E; discriminate).
      destruct refs' as [|x l].
      + now rewrite (dget_ddel_other eid_eqb_spec).
      + now rewrite (dget_dset_other eid_eqb_spec). }
  split; [|split; [|split]].
  - apply rc_wf_dset; auto. unfold sc_wf; cbn [rc_added rc_removed].
    split; [unfold added; destruct refs'; [now apply NoDup_ddel|now apply (NoDup_dset eid_eqb_spec)]|].
    split; auto. split; [|split; auto].
    + intros j [Hj|Hj]; apply Hids; auto.
    + intros j e' rs Hj. unfold added in Hj. destruct refs' as [|x l] eqn:Er'.
      * apply In_ddel in Hj. eapply Hne; eauto.
      * apply (In_dset_iff eid_eqb_spec) in Hj; auto. destruct Hj as [(-> & [= -> ->])|[_ Hj]]; [|eapply Hne; eauto].
        split; [discriminate|]. rewrite <- Er'. now apply ssorted_sdel.
  - intros j x. unfold added_refs, removed_refs. rewrite !server_changes_dset.
    destruct (eid_server j =? s) eqn:Es.
    + apply Z.eqb_eq in Es. rewrite Es. cbn [rc_added rc_removed]. fold sc. rewrite Hget.
      destruct (eid_eqb j i) eqn:E.
      * apply eid_eqb_spec in E. subst. rewrite Ea, HDi. unfold refs'. rewrite In_sdel. cbn [In]. tauto.
      * assert (j <> i) by (intros ->; rewrite (eqb_refl' eid_eqb_spec) in E; discriminate). tauto.
    + split; [|tauto]. intros H; split; auto. intros [-> _]. unfold s in Es. rewrite Z.eqb_refl in Es. discriminate.
  - intros j. unfold is_added. rewrite server_changes_dset. destruct (eid_server j =? s) eqn:Es; auto.
    apply Z.eqb_eq in Es. rewrite Es. cbn [rc_added]. auto.
  - intros j. unfold is_removed. rewrite server_changes_dset. destruct (eid_server j =? s) eqn:Es; auto.
    apply Z.eqb_eq in Es. rewrite Es. cbn [rc_removed]. auto.
Qed.

(** [ref_add] of an event with a new id. *)
Lemma ref_add_spec : forall last c e refs last' c' (D : event_id -> list event_ref), rc_wf c -> refs <> [] ->
    ref_add last c e refs = Some (last', c') ->
    ~ is_added c (ev_id e) -> ~ is_removed c (ev_id e) -> D (ev_id e) = [] ->
    last' = dset Z.eqb (eid_server (ev_id e)) (ev_id e) last /\
    rc_wf c' /\
    (forall j x, (In x (D j) \/ In x (added_refs c' j)) /\ ~ In x (removed_refs c' j) <->
       if eid_eqb j (ev_id e) then In x refs else (In x (D j) \/ In x (added_refs c j)) /\ ~ In x (removed_refs c j)) /\
    (forall j, is_added c' j <-> is_added c j \/ j = ev_id e) /\
    (forall j, is_removed c' j <-> is_removed c j).
Proof.
  intros last c e refs last' c' D Hwf Hrefs Hadd Hna Hnr HD. unfold ref_add in Hadd.
  set (i := ev_id e) in *. set (s := eid_server i) in *. set (sc := server_changes_of c s) in *.
  destruct (match dget Z.eqb s last with Some i0 => eid_ltb i i0 | None => false end); [discriminate|].
  injection Hadd as <- <-.
  destruct (sc_wf_of c s Hwf) as (Hn1 & Hn2 & Hids & Hne & Hso). fold sc in Hn1, Hn2, Hids, Hne, Hso.
  unfold is_added in Hna. unfold is_removed in Hnr. fold s sc in Hna, Hnr.
  split; auto. split; [|split; [|split]].
  - apply rc_wf_dset; auto. unfold sc_wf; cbn [rc_added rc_removed].
    split; [now apply (NoDup_dset eid_eqb_spec)|]. split; auto. split; [|split; auto].
    + intros j [Hj|Hj]; [|apply Hids; auto].
      apply (keys_dset_In _ _ _ eid_eqb_spec) in Hj as [->|Hj]; auto.
    + intros j e' rs Hj. apply (In_dset_iff eid_eqb_spec) in Hj; auto.
      destruct Hj as [(-> & [= -> ->])|[_ Hj]]; [|eapply Hne; eauto]. split; [|apply ssorted_sof].
      destruct refs as [|x refs]; [congruence|]. intros H0.
      assert (Hx : In x (sof reford (x :: refs))) by (apply In_sof; now left). rewrite H0 in Hx. destruct Hx.
  - intros j x. unfold added_refs, removed_refs. rewrite !server_changes_dset.
    destruct (eid_eqb j i) eqn:E.
    + apply eid_eqb_spec in E. subst j. fold s. rewrite Z.eqb_refl. cbn [rc_added rc_removed].
      rewrite (dget_dset_same eid_eqb_spec). rewrite (proj2 (dget_None eid_eqb_spec i _) Hnr).
      rewrite HD, In_sof. cbn [In]. tauto.
    + assert (j <> i) by (intros ->; rewrite (eqb_refl' eid_eqb_spec) in E; discriminate).
      destruct (eid_server j =? s) eqn:Es; [|tauto].
      apply Z.eqb_eq in Es. rewrite Es. cbn [rc_added rc_removed]. fold sc.
      rewrite (dget_dset_other eid_eqb_spec) by auto. tauto.
  - intros j. unfold is_added. rewrite server_changes_dset. destruct (eid_server j =? s) eqn:Es.
    + apply Z.eqb_eq in Es. rewrite Es. cbn [rc_added]. rewrite (keys_dset_In _ _ _ eid_eqb_spec). fold sc. tauto.
    + apply Z.eqb_neq in Es. split; auto. intros [H|H]; auto. subst. unfold s in Es. congruence.
  - intros j. unfold is_removed. rewrite server_changes_dset. destruct (eid_server j =? s) eqn:Es; [|tauto].
    apply Z.eqb_eq in Es. rewrite Es. cbn [rc_removed]. fold sc. tauto.
Qed.

(** ** Timeseries changes *)

Lemma kput_comm : forall (K V : Type) (o : ord K) k v k' v' (m : list (K * V)), ksorted o m -> k <> k' ->
    kput o k v (kput o k' v' m) = kput o k' v' (kput o k v m).
Proof.
  intros K V o k v k' v' m Hs Hn. apply (kext o); auto using ksorted_kput.
  intros x. rewrite !kget_kput.
  destruct (oeqb o x k) eqn:E1; destruct (oeqb o x k') eqn:E2; auto.
  apply oeqb_spec in E1, E2. congruence.
Qed.

Lemma kputs_kput : forall (K V : Type) (o : ord K) (items : list (K * V)) k v m, ksorted o m -> ~ In k (keys items) ->
    kputs o items (kput o k v m) = kput o k v (kputs o items m).
Proof.
  unfold keys, kputs. induction items as [|[k' v'] items IH]; cbn [fold_left map fst snd]; intros k v m Hs Hni; auto.
  rewrite kput_comm by (auto; intros ->; apply Hni; now left).
  apply IH; [now apply ksorted_kput|]. intros H; apply Hni; now right.
Qed.

Lemma kget_kputs_In : forall (K V : Type) (o : ord K) (items : list (K * V)) m k,
    In k (keys items) -> kget o k (kputs o items m) <> None.
Proof.
  intros K V o items m k. revert m. unfold kputs, keys.
  assert (Hp : forall items m, kget o k m <> None -> kget o k (fold_left (fun m kv => kput o (fst kv) (snd kv) m) items m) <> None (A := V)).
  { clear. induction items as [|[k' v'] items IH]; cbn [fold_left fst snd]; intros m H; auto.
    apply IH. rewrite kget_kput. destruct (oeqb o k k'); [discriminate|auto]. }
  induction items as [|[k' v'] items IH]; cbn [fold_left map fst snd]; intros m H; [easy|].
  destruct H as [->|H]; auto. apply Hp. rewrite kget_kput_same. discriminate.
Qed.

(** One more pending entry. *)
Definition ts_add1 (e : event) (c : ts_changes) (pt : Z * timestamp) : ts_changes :=
  dset Z.eqb (fst pt) (part_changes c (fst pt) ++ [(snd pt, e)]) c.

Definition place_key (e : event) (pt : Z * timestamp) : ts_key := (fst pt, snd pt, ev_id e).

Lemma ts_items_add1 : forall e c pt, exists a b, ts_items c = a ++ b /\
    ts_items (ts_add1 e c pt) = a ++ (place_key e pt, e) :: b.
Proof.
  intros e c [p t]. unfold ts_add1, place_key, part_changes, ts_items. cbn [fst snd].
  induction c as [|[q l] c IH]; cbn [dget dset flat_map fst snd map].
  - exists [], []. auto.
  - destruct (p =? q) eqn:E; cbn [flat_map fst snd].
    + apply Z.eqb_eq in E. subst. rewrite map_app. cbn [map fst snd].
      eexists _, _. split; [reflexivity|]. rewrite <- app_assoc. reflexivity.
    + destruct IH as (a & b & H1 & H2). rewrite H1, H2.
      exists (map (fun te => (q, fst te, ev_id (snd te), snd te)) l ++ a), b.
      rewrite <- !app_assoc. auto.
Qed.

Lemma kputs_ts_add1 : forall e c pt m, ksorted keyord m ->
    kget keyord (place_key e pt) (kputs keyord (ts_items c) m) = None ->
    kputs keyord (ts_items (ts_add1 e c pt)) m = kput keyord (place_key e pt) e (kputs keyord (ts_items c) m).
Proof.
  intros e c pt m Hs Hf. destruct (ts_items_add1 e c pt) as (a & b & H1 & H2).
  assert (Hni : ~ In (place_key e pt) (keys (ts_items c))).
  { intros H. eapply kget_kputs_In; eauto. }
  rewrite H1 in Hni |- *. rewrite H2. rewrite !kputs_app.
  change ((place_key e pt, e) :: b) with ([(place_key e pt, e)] ++ b). rewrite kputs_app.
  change (kputs keyord [(place_key e pt, e)] (kputs keyord a m)) with (kput keyord (place_key e pt) e (kputs keyord a m)).
  apply kputs_kput.
  - now apply ksorted_kputs.
  - intros H. apply Hni. unfold keys. rewrite map_app, in_app_iff. auto.
Qed.

Definition inc_count (m : list (Z * Z)) (pt : Z * timestamp) : list (Z * Z) :=
  kput zord (fst pt) (partition_count m (fst pt) + 1) m.

Lemma inc_counts_add1 : forall e c pt m, ksorted zord m -> NoDup (keys c) ->
    inc_counts (ts_add1 e c pt) m = inc_count (inc_counts c m) pt.
Proof.
  intros e c [p t] m Hs Hnd. unfold inc_count, ts_add1. cbn [fst snd]. apply (kext zord).
  - now apply ksorted_inc_counts.
  - apply ksorted_kput. now apply ksorted_inc_counts.
  - intros q. rewrite kget_kput, kget_inc_counts by (now apply (NoDup_dset zeqb_spec)).
    rewrite inc_counts_spec by auto. cbn [oeqb zord]. destruct (q =? p) eqn:E.
    + apply Z.eqb_eq in E. subst. rewrite (dget_dset_same zeqb_spec).
      f_equal. unfold zlen. rewrite app_length. cbn [List.length]. lia.
    + apply Z.eqb_neq in E. rewrite (dget_dset_other zeqb_spec) by auto.
      now rewrite kget_inc_counts by auto.
Qed.

Lemma NoDup_ts_add1 : forall e c pt, NoDup (keys c) -> NoDup (keys (ts_add1 e c pt)).
Proof. intros. now apply (NoDup_dset zeqb_spec). Qed.

Lemma kputs_ts_adds : forall e pts c m, ksorted keyord m -> NoDup (keys c) -> NoDup (map fst pts) ->
    (forall pt, In pt pts -> kget keyord (place_key e pt) (kputs keyord (ts_items c) m) = None) ->
    kputs keyord (ts_items (fold_left (ts_add1 e) pts c)) m =
    fold_left (fun m pt => kput keyord (place_key e pt) e m) pts (kputs keyord (ts_items c) m).
Proof.
  intros e pts. induction pts as [|pt pts IH]; cbn [fold_left map]; intros c m Hs Hc Hnd Hf; auto.
  inversion Hnd as [|? ? Hni Hnd']; subst.
  assert (H1 : kputs keyord (ts_items (ts_add1 e c pt)) m = kput keyord (place_key e pt) e (kputs keyord (ts_items c) m)).
  { apply kputs_ts_add1; auto. apply Hf. now left. }
  rewrite IH; auto using NoDup_ts_add1.
  - now rewrite H1.
  - intros pt' Hin. rewrite H1, kget_kput_other; [apply Hf; now right|].
    unfold place_key. intros [= E _]. apply Hni. rewrite <- E. now apply in_map.
Qed.

Lemma inc_counts_adds : forall e pts c m, ksorted zord m -> NoDup (keys c) ->
    inc_counts (fold_left (ts_add1 e) pts c) m = fold_left inc_count pts (inc_counts c m).
Proof.
  intros e pts. induction pts as [|pt pts IH]; cbn [fold_left]; intros c m Hs Hc; auto.
  rewrite IH by auto using NoDup_ts_add1. now rewrite inc_counts_add1.
Qed.

(** ** Plans *)

(** Where an accepted event goes: the row of the latest database, whether its
    type is new, and the id of the event which it replaces there; partitions
    and timestamps. *)
Record plan := Plan {
  pl_ev : event;
  pl_latest : option (Z * bool * option event_id);
  pl_places : list (Z * timestamp) }.

Definition plan_refs (pl : plan) : list event_ref :=
  match pl_latest pl with Some (r, _, _) => [LatestRef r] | None => [] end
  ++ map (fun pt => TimeseriesRef (place_key (pl_ev pl) pt)) (pl_places pl).

(** Recorded for the next flush. *)
Definition apply_plan (c : changes) (pl : plan) : changes :=
  let e := pl_ev pl in
  let s := eid_server (ev_id e) in
  let rc := match pl_latest pl with
            | Some (r, _, Some i) => ref_remove (ch_ref c) i (LatestRef r)
            | _ => ch_ref c
            end in
  let sc := server_changes_of rc s in
  Changes
    (SystemChanges (dset Z.eqb s (ev_id e) (sc_ids (ch_sys c))) (dset Z.eqb s (ev_ts e) (sc_tss (ch_sys c))))
    (match pl_latest pl with
     | None => ch_latest c
     | Some (r, new, _) =>
         LatestChanges (dset Z.eqb r e (lc_data (ch_latest c)))
                       (if new : bool then dset Z.eqb r (ev_type e) (lc_types (ch_latest c)) else lc_types (ch_latest c))
     end)
    (fold_left (ts_add1 e) (pl_places pl) (ch_ts c))
    (dset Z.eqb s (ServerChanges (dset eid_eqb (ev_id e) (e, sof reford (plan_refs pl)) (rc_added sc)) (rc_removed sc)) rc).

(** Stored at once. *)
Definition drop_ref (m : list (event_id * list event_ref)) (i : event_id) (r : event_ref) :=
  put_refs i (sdel reford r (refs_at m i)) (kdel eidord i m).

Definition store_plan (d : ldb) (pl : plan) : ldb :=
  let e := pl_ev pl in
  let s := eid_server (ev_id e) in
  Ldb (db_settings d) (kput zord s (ev_id e) (db_ids d)) (kput zord s (ev_ts e) (db_tss d))
      (kput eidord (ev_id e) (sof reford (plan_refs pl))
            (match pl_latest pl with
             | Some (r, _, Some i) => drop_ref (db_ref d) i (LatestRef r)
             | _ => db_ref d
             end))
      (match pl_latest pl with Some (r, _, _) => kput zord r e (db_latest d) | None => db_latest d end)
      (match pl_latest pl with Some (r, true, _) => kput zord r (ev_type e) (db_types d) | _ => db_types d end)
      (fold_left (fun m pt => kput keyord (place_key e pt) e m) (pl_places pl) (db_ts d))
      (db_parts d)
      (fold_left inc_count (pl_places pl) (db_counts d)).

(** [i] is not after the last id of its server. *)
Definition known (d : ldb) (i : event_id) : Prop :=
  exists l, kget zord (eid_server i) (db_ids d) = Some l /\ eid_leb i l = true.

Record base (d : ldb) : Prop := {
  ba_wf : db_wf d;
  ba_ref : forall i, refs_at (db_ref d) i <> [] -> known d i;
  ba_ts : forall k e, kget keyord k (db_ts d) = Some e -> snd k = ev_id e /\ known d (ev_id e);
  ba_server : forall s l, kget zord s (db_ids d) = Some l -> eid_server l = s }.

Record plan_ok (d : ldb) (pl : plan) : Prop := {
  po_new : forall l, kget zord (eid_server (ev_id (pl_ev pl))) (db_ids d) = Some l -> eid_ltb l (ev_id (pl_ev pl)) = true;
  po_parts : NoDup (map fst (pl_places pl));
  po_refs : plan_refs pl <> [];
  po_prev : forall r n i, pl_latest pl = Some (r, n, Some i) -> known d i }.

Inductive pend (d : ldb) : changes -> list plan -> Prop :=
| pend_nil : pend d no_changes []
| pend_snoc : forall c pls pl, pend d c pls -> plan_ok (flush_write d c) pl -> pend d (apply_plan c pl) (pls ++ [pl]).

Lemma known_neq : forall d i pl, known d i -> plan_ok d pl -> i <> ev_id (pl_ev pl).
Proof.
  intros d i pl (l & Hl & Hle) H ->. apply (po_new _ _ H) in Hl.
  apply eid_leb_lt in Hle as [Hle|Hle].
  - pose proof (olt_asym eidord _ _ Hl) as Hf. cbn [oltb eidord] in Hf. congruence.
  - subst. pose proof (oirrefl eidord (ev_id (pl_ev pl))) as Hf. cbn [oltb eidord] in Hf. congruence.
Qed.

Lemma refs_wf_drop : forall m i r, refs_wf m -> refs_wf (drop_ref m i r).
Proof. intros. unfold drop_ref. apply refs_wf_put; auto. apply ssorted_sdel. now apply refs_at_sorted. Qed.

Lemma refs_at_drop : forall m i r j, refs_wf m ->
    refs_at (drop_ref m i r) j = if eid_eqb j i then sdel reford r (refs_at m i) else refs_at m j.
Proof. intros m i r j [H _]. unfold drop_ref. now rewrite refs_at_put. Qed.

Lemma refs_at_kput : forall m i v j, refs_at (kput eidord i v m) j = if eid_eqb j i then v else refs_at m j.
Proof. intros. unfold refs_at. rewrite kget_kput. cbn [oeqb eidord]. destruct (eid_eqb j i); auto. Qed.

Lemma refs_wf_kput : forall m i v, refs_wf m -> v <> [] -> ssorted reford v -> refs_wf (kput eidord i v m).
Proof.
  intros m i v [H1 H2] Hv Hs. split; [now apply ksorted_kput|].
  intros j w. rewrite kget_kput. destruct (oeqb eidord j i); [intros [= <-]; auto|apply H2].
Qed.

Lemma sof_nonempty : forall l, l <> [] -> sof reford l <> [].
Proof.
  intros [|x l] H; [congruence|]. intros H0. assert (Hx : In x (sof reford (x :: l))) by (apply In_sof; now left).
  rewrite H0 in Hx. destruct Hx.
Qed.

Definition store_refs (d : ldb) (pl : plan) :=
  match pl_latest pl with Some (r, _, Some i) => drop_ref (db_ref d) i (LatestRef r) | _ => db_ref d end.

Lemma refs_wf_store_refs : forall d pl, refs_wf (db_ref d) -> refs_wf (store_refs d pl).
Proof. intros d pl H. unfold store_refs. destruct (pl_latest pl) as [[[r n] [i|]]|]; auto using refs_wf_drop. Qed.

Lemma ksorted_places : forall e pts m, ksorted keyord m ->
    ksorted keyord (fold_left (fun m pt => kput keyord (place_key e pt) e m) pts m).
Proof. intros e pts. induction pts as [|pt pts IH]; cbn [fold_left]; intros m H; auto. apply IH. now apply ksorted_kput. Qed.

Lemma kget_places : forall e pts m k,
    kget keyord k (fold_left (fun m pt => kput keyord (place_key e pt) e m) pts m) =
    if existsb (fun pt => key_eqb k (place_key e pt)) pts then Some e else kget keyord k m.
Proof.
  intros e pts. induction pts as [|pt pts IH]; cbn [fold_left existsb]; intros m k; auto.
  rewrite IH, kget_kput. cbn [oeqb keyord]. destruct (key_eqb k (place_key e pt)); cbn [orb]; auto.
  destruct (existsb _ pts); auto.
Qed.

Lemma ksorted_inc_count : forall pts m, ksorted zord m -> ksorted zord (fold_left inc_count pts m).
Proof. induction pts as [|pt pts IH]; cbn [fold_left]; intros m H; auto. apply IH. now apply ksorted_kput. Qed.

Lemma db_wf_store : forall d pl, db_wf d -> plan_refs pl <> [] -> db_wf (store_plan d pl).
Proof.
  intros d pl H Hr. destruct H. constructor; cbn [store_plan db_ids db_tss db_ref db_latest db_types db_ts db_counts].
  - now apply ksorted_kput.
  - now apply ksorted_kput.
  - apply refs_wf_kput; auto using sof_nonempty, ssorted_sof. now apply (refs_wf_store_refs d pl).
  - destruct (pl_latest pl) as [[[r n] o]|]; auto using ksorted_kput.
  - destruct (pl_latest pl) as [[[r []] o]|]; auto using ksorted_kput.
  - now apply ksorted_places.
  - now apply ksorted_inc_count.
Qed.

Lemma known_store : forall d pl i, base d -> plan_ok d pl -> known d i -> known (store_plan d pl) i.
Proof.
  intros d pl i Hb Hp (l & Hl & Hle). unfold known. cbn [store_plan db_ids]. rewrite kget_kput. cbn [oeqb zord].
  destruct (eid_server i =? eid_server (ev_id (pl_ev pl))) eqn:E.
  - apply Z.eqb_eq in E. eexists. split; eauto. rewrite E in Hl. apply (po_new _ _ Hp) in Hl.
    apply eid_leb_lt. left. apply eid_leb_lt in Hle as [Hle| ->]; auto. now apply (otrans eidord _ _ _ Hle Hl).
  - exists l; auto.
Qed.

Lemma known_new : forall d pl, known (store_plan d pl) (ev_id (pl_ev pl)).
Proof.
  intros. unfold known. cbn [store_plan db_ids]. rewrite kget_kput_same. eexists. split; eauto.
  apply eid_leb_lt. auto.
Qed.

Lemma base_store : forall d pl, base d -> plan_ok d pl -> base (store_plan d pl).
Proof.
  intros d pl Hb Hp. constructor.
  - apply db_wf_store; [apply Hb|apply Hp].
  - intros i. cbn [store_plan db_ref]. fold (store_refs d pl). rewrite refs_at_kput.
    destruct (eid_eqb i (ev_id (pl_ev pl))) eqn:E.
    + apply eid_eqb_spec in E. subst. intros _. apply known_new.
    + intros Hne. apply known_store; auto. apply (ba_ref _ Hb). intros H0. apply Hne.
      unfold store_refs. destruct (pl_latest pl) as [[[r n] [j|]]|]; auto.
      rewrite refs_at_drop by apply (ba_wf _ Hb). destruct (eid_eqb i j) eqn:E2; auto.
      apply eid_eqb_spec in E2. subst. rewrite H0. reflexivity.
  - intros k e. cbn [store_plan db_ts]. rewrite kget_places.
    destruct (existsb (fun pt => key_eqb k (place_key (pl_ev pl) pt)) (pl_places pl)) eqn:E.
    + intros [= <-]. apply existsb_exists in E as (pt & _ & E). apply key_eqb_spec in E. subst.
      split; [reflexivity|apply known_new].
    + intros H. apply (ba_ts _ Hb) in H as [H1 H2]. split; auto using known_store.
  - intros s l. cbn [store_plan db_ids]. rewrite kget_kput. cbn [oeqb zord].
    destruct (s =? eid_server (ev_id (pl_ev pl))) eqn:E.
    + apply Z.eqb_eq in E. intros [= <-]. auto.
    + apply (ba_server _ Hb).
Qed.

(** What holds of pending changes. *)
Record pend_inv (d : ldb) (c : changes) : Prop := {
  pi_wf : ch_wf c;
  pi_base : base (flush_write d c);
  pi_known : forall i, is_added (ch_ref c) i \/ is_removed (ch_ref c) i -> known (flush_write d c) i;
  pi_fresh : forall i, is_added (ch_ref c) i -> refs_at (db_ref d) i = [];
  pi_mono : forall i, known d i -> known (flush_write d c) i }.

Lemma flush_none : forall d, flush_write d no_changes = d.
Proof. now intros []. Qed.

Lemma ch_wf_none : ch_wf no_changes.
Proof. constructor; cbn; try apply NoDup_nil. intros ? ? []. Qed.

Lemma apply_plan_wf : forall c pl, ch_wf c -> rc_wf (ch_ref (apply_plan c pl)) -> ch_wf (apply_plan c pl).
Proof.
  intros c pl H [Hr1 Hr2]. destruct H as [H1 H2 H3 H4 Hts H6 H7]. constructor; auto; cbn [apply_plan ch_sys ch_latest ch_ts sc_ids sc_tss].
  - now apply (NoDup_dset zeqb_spec).
  - now apply (NoDup_dset zeqb_spec).
  - destruct (pl_latest pl) as [[[r n] o]|]; auto. cbn [lc_data]. now apply (NoDup_dset zeqb_spec).
  - destruct (pl_latest pl) as [[[r []] o]|]; auto. cbn [lc_types]. now apply (NoDup_dset zeqb_spec).
  - generalize (pl_places pl). intros pts. revert Hts. generalize (ch_ts c). clear.
    induction pts as [|pt pts IH]; cbn [fold_left]; auto using NoDup_ts_add1.
Qed.

(** Recording and flushing later is storing at once. *)
Lemma flush_apply : forall d c pl, base d -> pend_inv d c -> plan_ok (flush_write d c) pl ->
    flush_write d (apply_plan c pl) = store_plan (flush_write d c) pl /\ pend_inv d (apply_plan c pl).
Proof.
  intros d c pl Hb Hi Hp.
  pose proof (pi_wf _ _ Hi) as Hwf. pose proof (ch_rc_wf c Hwf) as Hrc.
  pose proof (ba_wf _ Hb) as Hdw. pose proof (ba_wf _ (pi_base _ _ Hi)) as Hlw.
  set (e := pl_ev pl) in *. set (id := ev_id e) in *.
  set (D := refs_at (db_ref d)).
  assert (Hnk : ~ known (flush_write d c) id).
  { intros H. apply (known_neq _ _ _ H Hp). reflexivity. }
  (* reference changes *)
  set (rc := match pl_latest pl with Some (r, _, Some i) => ref_remove (ch_ref c) i (LatestRef r) | _ => ch_ref c end).
  assert (Hrm : rc_wf rc /\
    (forall j x, (In x (D j) \/ In x (added_refs rc j)) /\ ~ In x (removed_refs rc j) <->
       In x (refs_at (store_refs (flush_write d c) pl) j)) /\
    (forall j, is_added rc j -> is_added (ch_ref c) j) /\
    (forall j, is_removed rc j -> is_removed (ch_ref c) j \/ known (flush_write d c) j)).
  { destruct (refs_at_flush _ _ Hdw Hrc) as [Hw Hfl].
    assert (Hfl' : forall j x, In x (refs_at (db_ref (flush_write d c)) j) <->
        (In x (D j) \/ In x (added_refs (ch_ref c) j)) /\ ~ In x (removed_refs (ch_ref c) j)).
    { intros j x. apply Hfl. }
    unfold rc, store_refs. destruct (pl_latest pl) as [[[r n] [i|]]|] eqn:El.
    - destruct (ref_remove_spec (ch_ref c) i (LatestRef r) D Hrc) as (H1 & H2 & H3 & H4).
      { apply (pi_fresh _ _ Hi). }
      split; auto. split; [|split; auto].
      + intros j x. rewrite H2, <- Hfl'. rewrite refs_at_drop by apply Hlw.
        destruct (eid_eqb j i) eqn:E.
        * apply eid_eqb_spec in E. subst. rewrite In_sdel. tauto.
        * assert (j <> i) by (intros ->; rewrite (eqb_refl' eid_eqb_spec) in E; discriminate). tauto.
      + intros j Hj. apply H4 in Hj as [Hj| ->]; auto. right. eapply (po_prev _ _ Hp); eauto.
    - split; auto. split; [|split; auto]. intros j x. now rewrite <- Hfl'.
    - split; auto. split; [|split; auto]. intros j x. now rewrite <- Hfl'. }
  destruct Hrm as (Hrw & Hrr & Hra & Hrd).
  assert (HDid : D id = []).
  { unfold D. destruct (refs_at (db_ref d) id) as [|x l] eqn:E; auto. exfalso. apply Hnk.
    apply (pi_mono _ _ Hi). apply (ba_ref _ Hb). rewrite E. discriminate. }
  destruct (ref_add_spec [] rc e (plan_refs pl) _ _ D Hrw (po_refs _ _ Hp) eq_refl) as (_ & Haw & Har & Haa & Had); auto.
  { intros H. apply Hnk. apply (pi_known _ _ Hi). left. auto. }
  { intros H. apply Hnk. apply Hrd in H as [H|H]; auto. apply (pi_known _ _ Hi). auto. }
  fold id in Har, Haa.
  assert (Hwf' : ch_wf (apply_plan c pl)).
  { apply apply_plan_wf; auto. }
  assert (Heq : flush_write d (apply_plan c pl) = store_plan (flush_write d c) pl).
  { assert (Eids : db_ids (flush_write d (apply_plan c pl)) = db_ids (store_plan (flush_write d c) pl)).
    { cbn. apply (kputs_dset zord); [apply Hwf|apply Hdw]. }
    assert (Etss : db_tss (flush_write d (apply_plan c pl)) = db_tss (store_plan (flush_write d c) pl)).
    { cbn. apply (kputs_dset zord); [apply Hwf|apply Hdw]. }
    assert (Elat : db_latest (flush_write d (apply_plan c pl)) = db_latest (store_plan (flush_write d c) pl)).
    { cbn. destruct (pl_latest pl) as [[[r n] o]|]; auto. cbn [lc_data].
      apply (kputs_dset zord); [apply Hwf|apply Hdw]. }
    assert (Etyp : db_types (flush_write d (apply_plan c pl)) = db_types (store_plan (flush_write d c) pl)).
    { cbn. destruct (pl_latest pl) as [[[r []] o]|]; auto. cbn [lc_types].
      apply (kputs_dset zord); [apply Hwf|apply Hdw]. }
    assert (Ets : db_ts (flush_write d (apply_plan c pl)) = db_ts (store_plan (flush_write d c) pl)).
    { change (kputs keyord (ts_items (fold_left (ts_add1 e) (pl_places pl) (ch_ts c))) (db_ts d) =
              fold_left (fun m pt => kput keyord (place_key e pt) e m) (pl_places pl) (kputs keyord (ts_items (ch_ts c)) (db_ts d))).
      apply kputs_ts_adds; [apply Hdw|apply Hwf|apply Hp|].
      intros pt _. destruct (kget keyord (place_key e pt) (kputs keyord (ts_items (ch_ts c)) (db_ts d))) as [x|] eqn:E; auto.
      exfalso. apply (ba_ts _ (pi_base _ _ Hi)) in E as [E1 E2]. apply Hnk. cbn in E1. fold id in E1. now rewrite E1. }
    assert (Ecnt : db_counts (flush_write d (apply_plan c pl)) = db_counts (store_plan (flush_write d c) pl)).
    { change (inc_counts (fold_left (ts_add1 e) (pl_places pl) (ch_ts c)) (db_counts d) =
              fold_left inc_count (pl_places pl) (inc_counts (ch_ts c) (db_counts d))).
      apply inc_counts_adds; [apply Hdw|apply Hwf]. }
    assert (Eref : db_ref (flush_write d (apply_plan c pl)) = db_ref (store_plan (flush_write d c) pl)).
    { destruct (refs_at_flush d (ch_ref (apply_plan c pl)) Hdw Haw) as [Hw Hfl].
      apply refs_ext.
      - exact Hw.
      - apply (dw_ref _ (db_wf_store _ pl Hlw (po_refs _ _ Hp))).
      - intros j x. cbn [store_plan db_ref]. fold (store_refs (flush_write d c) pl). rewrite refs_at_kput.
        fold e id. etransitivity; [apply Hfl|]. fold (D j). etransitivity; [apply Har|].
        destruct (eid_eqb j id); [symmetry; apply In_sof|apply Hrr]. }
    set (a := flush_write d (apply_plan c pl)) in *. set (b := store_plan (flush_write d c) pl) in *.
    assert (Es : db_settings a = db_settings b) by reflexivity.
    assert (Ep : db_parts a = db_parts b) by reflexivity.
    clearbody a b. destruct a, b; cbn in *. subst. reflexivity. }
  split; auto. constructor; auto; rewrite ?Heq.
  - apply base_store; auto. apply Hi.
  - intros i Hia.
    assert (Hc : known (flush_write d c) i \/ i = id).
    { destruct Hia as [H|H].
      - apply Haa in H as [H| ->]; auto. left. apply (pi_known _ _ Hi). auto.
      - apply Had in H. apply Hrd in H as [H|H]; auto. left. apply (pi_known _ _ Hi). auto. }
    destruct Hc as [Hc| ->]; [|apply known_new]. apply known_store; auto. apply Hi.
  - intros i H. apply Haa in H as [H| ->]; auto. apply (pi_fresh _ _ Hi). auto.
  - intros i H. apply known_store; auto; [apply Hi|]. now apply (pi_mono _ _ Hi).
Qed.

Lemma pend_inv_none : forall d, base d -> pend_inv d no_changes.
Proof.
  intros d Hb. constructor; rewrite ?flush_none; auto using ch_wf_none.
  - intros i [[]|[]].
  - intros i [].
Qed.

Lemma pend_spec : forall d c pls, base d -> pend d c pls ->
    pend_inv d c /\ flush_write d c = fold_left store_plan pls d.
Proof.
  intros d c pls Hb H. induction H as [|c pls pl H [IH1 IH2] Hp].
  - split; [now apply pend_inv_none|apply flush_none].
  - destruct (flush_apply d c pl Hb IH1 Hp) as [H1 H2]. split; auto.
    rewrite fold_left_app. cbn [fold_left]. now rewrite <- IH2.
Qed.
