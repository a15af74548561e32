(** Lemmas for C85: when all numbers of an execution fit. *)
From Coq Require Import String Ascii Bool ZArith QArith Lia List.
From Verif Require Import Base Kv Model_Types Model_Time Model_Subscription Model_Codec Spec_Codec Keys Model_Sbs Model_Lmdb Model_LmdbSys Model_ConvertBytes Spec_ConvertBytes
  Model_LmdbBytes Spec_LmdbBytes Spec_Lmdb Spec_LmdbFile Model_Order Spec_Order Proof_Order.
Import ListNotations.
Open Scope list_scope.
Open Scope Z_scope.

Lemma F_dset : forall K V (eqb : K -> K -> bool) (S : forall a b, eqb a b = true <-> a = b) (Q : K * V -> Prop) k v d, Q (k, v) -> Forall Q d -> Forall Q (dset eqb k v d).
Proof.
  intros K V eqb S Q k v d Hq H. induction H as [|[a b] d Ha H IH]; cbn [dset]; [constructor; auto|]. destruct (eqb k a) eqn:E.
  - apply S in E. subst a. constructor; auto.
  - constructor; auto.
Qed.
Lemma F_dset' : forall K V (eqb : K -> K -> bool) (Q : K * V -> Prop) k v d, (forall k, Q (k, v)) -> Forall Q d -> Forall Q (dset eqb k v d).
Proof.
  intros K V eqb Q k v d Hq H. induction H as [|[a b] d Ha H IH]; cbn [dset]; [constructor; auto|]. destruct (eqb k a); constructor; auto.
Qed.
Lemma F_ddel : forall K V (eqb : K -> K -> bool) (Q : K * V -> Prop) k d, Forall Q d -> Forall Q (ddel eqb k d).
Proof. intros K V eqb Q k d H. induction H as [|[a b] d Ha H IH]; cbn [ddel]; [constructor|]. destruct (eqb k a); [exact H|constructor; auto]. Qed.
Lemma F_kput : forall K V (o : ord K) (Q : K * V -> Prop) k v m, Q (k, v) -> Forall Q m -> Forall Q (kput o k v m).
Proof.
  intros K V o Q k v m Hq H. induction H as [|[a b] m Ha H IH]; cbn [kput]; [constructor; auto|].
  destruct (oltb o k a); [constructor; [exact Hq|constructor; auto]|]. destruct (oltb o a k); constructor; auto.
Qed.
Lemma F_kputs : forall K V (o : ord K) (Q : K * V -> Prop) items m, Forall Q items -> Forall Q m -> Forall Q (kputs o items m).
Proof.
  intros K V o Q items m H. revert m. induction H as [|[a b] l Ha H IH]; intros m Hm; [exact Hm|]. unfold kputs in *. cbn [fold_left fst snd]. apply IH. now apply F_kput.
Qed.
Lemma F_dget : forall K V (eqb : K -> K -> bool) (S : forall a b, eqb a b = true <-> a = b) (Q : K * V -> Prop) k v d, Forall Q d -> dget eqb k d = Some v -> Q (k, v).
Proof. intros K V eqb S Q k v d H E. apply (dget_In S) in E. rewrite Forall_forall in H. now apply H. Qed.
Lemma F_dgetv : forall K V (eqb : K -> K -> bool) (Q : V -> Prop) k v d, Forall (fun kv : K * V => Q (snd kv)) d -> dget eqb k d = Some v -> Q v.
Proof. intros K V eqb Q k v d H E. induction H as [|[a b] d Ha H IH]; cbn [dget] in E; [discriminate|]. destruct (eqb k a); [injection E as <-; exact Ha|auto]. Qed.

Section Fits.
  Variable F : Z -> Z -> Prop.
  Definition sound (x : event) : Prop := eid_fits (ev_id x) /\ ts_fits (ev_ts x) /\ opt_fits (ev_src x) /\ payload_ok F x.
  Definition sc_fit (sc : server_changes) : Prop :=
    Forall (fun ix : event_id * (event * list event_ref) => eid_fits (fst ix) /\ Forall ref_fits (snd (snd ix))) (rc_added sc) /\
    Forall (fun ir : event_id * list event_ref => eid_fits (fst ir)) (rc_removed sc).
  Definition ts_fit (c : ts_changes) : Prop :=
    Forall (fun pl : Z * list (timestamp * event) => u64 (fst pl) /\ Forall (fun tx => ts_fits (fst tx) /\ sound (snd tx)) (snd pl)) c.
  Definition ref_fit (c : ref_changes) : Prop := Forall (fun ss : Z * server_changes => sc_fit (snd ss)) c.
  Definition data_fit (l : list (Z * event)) : Prop := Forall (fun kx => u64 (fst kx) /\ sound (snd kx)) l.
  Definition types_fit (N : Z) (l : list (Z * etype)) : Prop := Forall (fun kt => 1 <= fst kt <= N) l.
  Record cfit (N : Z) (c : changes) : Prop := {
    q_ids : Forall (fun si : Z * event_id => u64 (fst si) /\ eid_fits (snd si)) (sc_ids (ch_sys c));
    q_tss : Forall (fun st : Z * timestamp => u64 (fst st) /\ ts_fits (snd st)) (sc_tss (ch_sys c));
    q_data : data_fit (lc_data (ch_latest c));
    q_types : types_fit N (lc_types (ch_latest c));
    q_ts : ts_fit (ch_ts c);
    q_ref : ref_fit (ch_ref c) }.
  Lemma types_mono : forall N N' l, N <= N' -> types_fit N l -> types_fit N' l.
  Proof. intros N N' l H. apply Forall_impl. intros [k t] Hk. cbn [fst] in *. lia. Qed.
  Lemma cfit_mono : forall N N' c, N <= N' -> cfit N c -> cfit N' c.
  Proof. intros N N' c H [A B D E G I]. split; auto. now apply (types_mono N). Qed.
  Lemma cfit_none : forall N, cfit N no_changes.
  Proof. intros N. split; constructor. Qed.

  Definition latest_ok (N : Z) (d : latest_db) : Prop :=
    1 <= ld_next d <= N + 1 /\ Forall (fun tr : etype * Z => 1 <= snd tr < ld_next d) (ld_refs d) /\ Forall (fun tx : etype * event => sound (snd tx)) (ld_events d).

  Lemma latest_add_fits : forall N sub d c e d' c' added removed, N + 1 < 2 ^ 64 -> latest_ok N d -> data_fit (lc_data c) -> types_fit N (lc_types c) -> sound e ->
      latest_add sub d c e = (d', c', added, removed) ->
      latest_ok (N + 1) d' /\ data_fit (lc_data c') /\ types_fit (N + 1) (lc_types c') /\ (forall r, added = Some r -> ref_fits r) /\
      (forall i r, removed = Some (i, r) -> eid_fits i).
  Proof.
    intros N sub d c e d' c' added removed HN (L1 & L2 & L3) Hd Ht He E. unfold latest_add in E.
    assert (T : forall a, (d, c, @None event_ref, @None (event_id * event_ref)) = a -> a = (d', c', added, removed) ->
      latest_ok (N + 1) d' /\ data_fit (lc_data c') /\ types_fit (N + 1) (lc_types c') /\ (forall r, added = Some r -> ref_fits r) /\ (forall i r, removed = Some (i, r) -> eid_fits i)).
    { intros a <- Q. injection Q as <- <- <- <-. split; [|split; [exact Hd|split; [apply (types_mono N); [lia|exact Ht]|split; discriminate]]].
      split; [lia|]. split; assumption. }
    destruct (negb (node_matches sub (ev_type e))); [exact (T _ eq_refl E)|].
    destruct (match dget etype_eqb (ev_type e) (ld_events d) with Some p => ev_gt p e | None => false end); [exact (T _ eq_refl E)|]. clear T.
    assert (R : forall i r r0, (match dget etype_eqb (ev_type e) (ld_events d) with Some p => Some (ev_id p, LatestRef r0) | None => None end) = Some (i, r) -> eid_fits i).
    { intros i r r0 Q. destruct (dget etype_eqb (ev_type e) (ld_events d)) as [p|] eqn:G; [|discriminate]. injection Q as <- _.
      exact (proj1 (F_dgetv _ _ _ sound _ _ _ L3 G)). }
    destruct (dget etype_eqb (ev_type e) (ld_refs d)) as [r|] eqn:G.
    - injection E as <- <- <- <-. assert (Hr := F_dgetv _ _ _ (fun r => 1 <= r < ld_next d) _ _ _ L2 G). cbn beta in Hr.
      split; [|split; [|split; [|split]]]; cbn [ld_next ld_refs ld_events lc_data lc_types].
      + split; [cbn [ld_next]; lia|]. split; [exact L2|]. apply F_dset'; [intros k; exact He|exact L3].
      + apply (F_dset _ _ _ Z.eqb_eq); [|exact Hd]. cbn [fst snd]. split; [unfold u64; lia|exact He].
      + apply (types_mono N); [lia|exact Ht].
      + intros x Q. injection Q as <-. cbn [ref_fits]. unfold u64. lia.
      + intros i x Q. exact (R i x r Q).
    - injection E as <- <- <- <-. split; [|split; [|split; [|split]]]; cbn [ld_next ld_refs ld_events lc_data lc_types].
      + split; [cbn [ld_next]; lia|]. cbn [ld_next ld_refs ld_events]. split.
        * apply F_dset'; [intros k; cbn [snd]; lia|]. eapply Forall_impl; [|exact L2]. intros [t k] Hk. cbn [snd] in *. lia.
        * apply F_dset'; [intros k; exact He|exact L3].
      + apply (F_dset _ _ _ Z.eqb_eq); [|exact Hd]. cbn [fst snd]. split; [unfold u64; lia|exact He].
      + apply (F_dset _ _ _ Z.eqb_eq); [cbn [fst]; lia|]. apply (types_mono N); [lia|exact Ht].
      + intros x Q. injection Q as <-. cbn [ref_fits]. unfold u64. lia.
      + intros i x Q. exact (R i x _ Q).
  Qed.

  Lemma amount_dset : forall p (x : timestamp * event) c, amount (dset Z.eqb p (match dget Z.eqb p c with Some l => l | None => [] end ++ [x]) c) = amount c + 1.
  Proof.
    intros p x c. unfold amount. induction c as [|[q l] c IH]; cbn [dget dset fold_right snd]; [cbn [app List.length fold_right snd]; lia|].
    destruct (Z.eqb p q); cbn [fold_right snd]; [rewrite app_length; cbn [List.length]; lia|]. rewrite IH. lia.
  Qed.
  Lemma amount_nonneg : forall c, 0 <= amount c.
  Proof. intros c. unfold amount. induction c as [|[q l] c IH]; cbn [fold_right snd]; lia. Qed.

  Lemma ts_add_fits : forall e parts c, sound e -> Forall (fun ip : Z * partition => u64 (fst ip)) parts -> ts_fit c ->
      ts_fit (fst (ts_add_event parts c e)) /\ Forall ref_fits (snd (ts_add_event parts c e)) /\ amount (fst (ts_add_event parts c e)) <= amount c + zlen parts.
  Proof.
    intros e parts c He Hp Hc. unfold ts_add_event. assert (Hr : Forall ref_fits (@nil event_ref)) by constructor.
    match goal with |- context [fold_left ?g parts _] => set (f := g) end. revert c Hc Hr. set (rs := @nil event_ref). clearbody rs. revert rs.
    induction Hp as [|[i pt] parts Hi Hp IH]; intros rs c Hc Hr; cbn [fold_left].
    - cbn [fst snd]. unfold zlen. cbn [List.length]. split; [exact Hc|]. split; [exact Hr|lia].
    - cbn [fst snd] in *. assert (L : zlen ((i, pt) :: parts) = zlen parts + 1) by (unfold zlen; cbn [List.length]; lia). rewrite L.
      assert (Z0 : 0 <= zlen parts) by (unfold zlen; lia).
      assert (Ef : f (c, rs) (i, pt) = if node_matches (pt_sub pt) (ev_type e) then match part_ts pt e with None => (c, rs) | Some t =>
         (dset Z.eqb i (match dget Z.eqb i c with Some l => l | None => [] end ++ [(t, e)]) c, rs ++ [TimeseriesRef (i, t, ev_id e)]) end else (c, rs)) by reflexivity.
      rewrite Ef. clear Ef.
      destruct (node_matches (pt_sub pt) (ev_type e)); [|destruct (IH rs c Hc Hr) as (A & B & D); split; [exact A|split; [exact B|lia]]].
      destruct (part_ts pt e) as [t|] eqn:Et; [|destruct (IH rs c Hc Hr) as (A & B & D); split; [exact A|split; [exact B|lia]]].
      assert (Ht : ts_fits t).
      { destruct He as (_ & H1 & H2 & _). unfold part_ts in Et. destruct (pt_order pt); [injection Et as <-; exact H1|exact (H2 _ Et)]. }
      edestruct (IH (rs ++ [TimeseriesRef (i, t, ev_id e)]) (dset Z.eqb i (match dget Z.eqb i c with Some l => l | None => [] end ++ [(t, e)]) c)) as (A & B & D).
      + apply (F_dset _ _ _ Z.eqb_eq); [|exact Hc]. cbn [fst snd]. split; [exact Hi|]. apply Forall_app. split.
        * destruct (dget Z.eqb i c) as [l|] eqn:G; [|constructor]. exact (proj2 (F_dget _ _ _ Z.eqb_eq _ _ _ _ Hc G)).
        * constructor; [split; [exact Ht|exact He]|constructor].
      + apply Forall_app. split; [exact Hr|]. constructor; [|constructor]. cbn [ref_fits key_fits]. split; [exact Hi|]. split; [exact Ht|exact (proj1 He)].
      + rewrite amount_dset in D. split; [exact A|]. split; [exact B|]. etransitivity; [exact D|]. lia.
  Qed.

  Lemma sc_of_fit : forall c s, ref_fit c -> sc_fit (server_changes_of c s).
  Proof.
    intros c s H. unfold server_changes_of. destruct (dget Z.eqb s c) as [x|] eqn:G; [|split; constructor].
    exact (F_dgetv _ _ _ sc_fit _ _ _ H G).
  Qed.
  Lemma ref_remove_fits : forall c i r, ref_fit c -> eid_fits i -> ref_fit (ref_remove c i r).
  Proof.
    intros c i r H Hi. unfold ref_remove. assert (S := sc_of_fit c (eid_server i) H). destruct (server_changes_of c (eid_server i)) as [ad rm]. destruct S as [A B].
    cbn [rc_added rc_removed] in *.
    assert (T : ref_fit (dset Z.eqb (eid_server i) (ServerChanges ad (dset eid_eqb i (sadd reford r (match dget eid_eqb i rm with Some l => l | None => [] end)) rm)) c)).
    { apply F_dset'; [|exact H]. intros k. cbn [snd]. split; [exact A|]. cbn [rc_removed]. apply (F_dset _ _ _ eid_eqb_spec); [exact Hi|exact B]. }
    destruct (dget eid_eqb i ad) as [[x rs]|] eqn:G; [|exact T]. destruct (shas reford r rs); [|exact T].
    apply F_dset'; [|exact H]. intros k. cbn [snd]. split; [|exact B]. cbn [rc_added].
    assert (Q := F_dget _ _ _ eid_eqb_spec _ _ _ _ A G). cbn [fst snd] in Q. destruct Q as [_ Q].
    assert (Q' : Forall ref_fits (sdel reford r rs)) by (unfold sdel; rewrite Forall_forall in *; intros y Hy; apply filter_In in Hy; apply Q, Hy).
    destruct (sdel reford r rs) as [|y ys]; [now apply F_ddel|]. apply (F_dset _ _ _ eid_eqb_spec); [split; [exact Hi|exact Q']|exact A].
  Qed.

  Lemma register_fits : forall N cf m ch e m' ch', N + 1 < 2 ^ 64 -> cfit N ch -> latest_ok N (m_latest m) -> Forall (fun ip : Z * partition => u64 (fst ip)) (m_parts m) -> sound e ->
      register_event cf m ch e = Some (m', ch') ->
      cfit (N + 1) ch' /\ latest_ok (N + 1) (m_latest m') /\ m_parts m' = m_parts m /\ amount (ch_ts ch') <= amount (ch_ts ch) + zlen (m_parts m).
  Proof.
    intros N cf m ch e m' ch' HN Hc Hl Hp He E. unfold register_event in E. assert (Z0 : 0 <= zlen (m_parts m)) by (unfold zlen; lia).
    assert (T : Some (m, ch) = Some (m', ch') -> cfit (N + 1) ch' /\ latest_ok (N + 1) (m_latest m') /\ m_parts m' = m_parts m /\ amount (ch_ts ch') <= amount (ch_ts ch) + zlen (m_parts m)).
    { intros Q. injection Q as <- <-. split; [apply (cfit_mono N); [lia|exact Hc]|]. split; [|split; [reflexivity|lia]]. destruct Hl as (A & B & D). split; [lia|auto]. }
    destruct (eid_leb _ _); [exact (T E)|]. destruct (ts_ltb _ _); [exact (T E)|]. destruct (negb _); [exact (T E)|]. clear T.
    destruct (latest_add (cf_latest cf) (m_latest m) (ch_latest ch) e) as [[[ld lc] added] removed] eqn:La.
    destruct Hc as [A B D D2 G I]. destruct (latest_add_fits N _ _ _ _ _ _ _ _ HN Hl D D2 He La) as (L1 & L2 & L3 & L4 & L5).
    destruct (ts_add_fits e (m_parts m) (ch_ts ch) He Hp G) as (T1 & T2 & T3). destruct (ts_add_event (m_parts m) (ch_ts ch) e) as [tc trefs]. cbn [fst snd] in *.
    set (rc := match removed with Some (i, r) => ref_remove (ch_ref ch) i r | None => ch_ref ch end) in *.
    assert (Hrc : ref_fit rc).
    { unfold rc. destruct removed as [[i r]|]; [|exact I]. apply ref_remove_fits; [exact I|exact (L5 _ _ eq_refl)]. }
    assert (Hrf : Forall ref_fits (match added with Some r => r :: trefs | None => trefs end)) by (destruct added as [r|]; [constructor; auto|exact T2]).
    destruct (match added with Some r => r :: trefs | None => trefs end) as [|r0 rs].
    - injection E as <- <-. cbn [m_latest m_parts ch_ts]. split; [|split; [exact L1|split; [reflexivity|exact T3]]]. split; cbn [ch_sys ch_latest ch_ts ch_ref]; assumption.
    - unfold ref_add in E. destruct (match dget Z.eqb (eid_server (ev_id e)) (m_ref_last m) with Some i => eid_ltb (ev_id e) i | None => false end); [discriminate|].
      cbn [set_last_event_id set_last_timestamp sd_ids sd_tss sc_ids sc_tss] in E. injection E as <- <-. cbn [m_latest m_parts ch_ts].
      split; [|split; [exact L1|split; [reflexivity|exact T3]]]. split; cbn [ch_sys ch_latest ch_ts ch_ref sc_ids sc_tss]; try assumption.
      + apply (F_dset _ _ _ Z.eqb_eq); [|exact A]. cbn [fst snd]. destruct He as [Hi _]. split; [exact (proj1 Hi)|exact Hi].
      + apply (F_dset _ _ _ Z.eqb_eq); [|exact B]. cbn [fst snd]. destruct He as (Hi & Ht & _). split; [exact (proj1 Hi)|exact Ht].
      + apply F_dset'; [|exact Hrc]. intros k. cbn [snd]. assert (S := sc_of_fit rc (eid_server (ev_id e)) Hrc). destruct S as [S1 S2]. split; [|exact S2].
        cbn [rc_added]. apply (F_dset _ _ _ eid_eqb_spec); [|exact S1]. cbn [fst snd]. split; [exact (proj1 He)|].
        rewrite Forall_forall in *. intros y Hy. apply (proj1 (In_sof _ _ _)) in Hy. now apply Hrf.
  Qed.

  Lemma registers_fits : forall cf es N m ch m' ch', N + zlen es < 2 ^ 64 -> cfit N ch -> latest_ok N (m_latest m) -> Forall (fun ip : Z * partition => u64 (fst ip)) (m_parts m) -> Forall sound es ->
      register_events cf m ch es = Some (m', ch') ->
      cfit (N + zlen es) ch' /\ latest_ok (N + zlen es) (m_latest m') /\ m_parts m' = m_parts m /\ amount (ch_ts ch') <= amount (ch_ts ch) + zlen es * zlen (m_parts m).
  Proof.
    intros cf. induction es as [|e es IH]; intros N m ch m' ch' HN Hc Hl Hp He E; cbn [register_events] in E.
    - injection E as <- <-. unfold zlen at 1 2 3. cbn [List.length]. rewrite Z.add_0_r. split; [exact Hc|]. split; [exact Hl|]. split; [reflexivity|lia].
    - destruct (register_event cf m ch e) as [[m1 ch1]|] eqn:E1; [|discriminate]. inversion He as [|? ? He1 He2]; subst.
      assert (L : zlen (e :: es) = 1 + zlen es) by (unfold zlen; cbn [List.length]; lia). rewrite L in *. assert (0 <= zlen es) by (unfold zlen; lia).
      destruct (register_fits N cf m ch e m1 ch1 ltac:(lia) Hc Hl Hp He1 E1) as (A & B & D & G).
      destruct (IH (N + 1) m1 ch1 m' ch' ltac:(lia) A B ltac:(rewrite D; exact Hp) He2 E) as (A' & B' & D' & G').
      rewrite D in *. rewrite Z.add_assoc. split; [exact A'|]. split; [exact B'|]. split; [exact D'|lia].
  Qed.

  Lemma changes_of_cfit : forall N d c T, N < 2 ^ 64 -> T < 2 ^ 64 -> cfit N c -> Forall (fun pn : Z * Z => 0 <= snd pn /\ snd pn + amount (ch_ts c) <= T) (db_counts d) ->
      amount (ch_ts c) <= T -> changes_fit F d c.
  Proof.
    intros N d c T HN HT [A B D E G I] Hn Ha. unfold data_fit, types_fit, ts_fit, ref_fit in *. rewrite Forall_forall in *. split.
    - intros s i H. exact (A _ H).
    - intros s t H. exact (B _ H).
    - intros k x H. destruct (D _ H) as [U S]. split; [exact U|apply S].
    - intros k t H. apply E in H. cbn [fst] in H. unfold u64. lia.
    - intros p l H. exact (proj1 (G _ H)).
    - intros p l t x H Hx. destruct (G _ H) as [_ G']. cbn [snd] in G'. rewrite Forall_forall in G'. destruct (G' _ Hx) as [Q1 Q2]. split; [exact Q1|]. split; apply Q2.
    - intros p n H. apply Hn in H. cbn [snd] in H. lia.
    - lia.
    - intros s sc i x rs H Hx. destruct (I _ H) as [I1 _]. cbn [snd] in I1. rewrite Forall_forall in I1. exact (I1 _ Hx).
    - intros s sc i rs H Hx. destruct (I _ H) as [_ I1]. cbn [snd] in I1. rewrite Forall_forall in I1. exact (I1 _ Hx).
  Qed.
End Fits.
