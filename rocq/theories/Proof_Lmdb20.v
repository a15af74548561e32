(** LMDB backend: answers of timeseries queries. *)
From Coq Require Import String Bool ZArith Lia Sorted Permutation List.
From Verif Require Import Base Kv Model_Types Model_Subscription Model_Order Model_Codec Keys
  Spec_Order Spec_Codec Spec_Subscription Proof_Subscription Proof_Subscription2 Proof_Order Model_Lmdb Model_LmdbSys Spec_Lmdb Spec_LmdbContent
  Spec_LmdbQuery Spec_LmdbTs
  Proof_Lmdb1 Proof_Lmdb2 Proof_Lmdb3 Proof_Lmdb4 Proof_Lmdb5 Proof_Lmdb6 Proof_Lmdb7 Proof_Lmdb8 Proof_Lmdb9 Proof_Lmdb10 Proof_Lmdb11 Proof_Lmdb12
  Proof_Lmdb13 Proof_Lmdb14 Proof_Lmdb16 Proof_Lmdb18 Proof_Lmdb19.
Import ListNotations.
Open Scope list_scope.
Open Scope Z_scope.

Lemma conf_stays : forall tr w, no_reopen tr -> w_conf (fold_left watch_step tr w) = w_conf w.
Proof.
  induction tr as [|[o x] tr IH]; intros w Hn; cbn [fold_left]; auto. rewrite IH by (intros c y Hi; apply (Hn c y); now right).
  destruct o; cbn; auto; [destruct x; reflexivity|]. exfalso. eapply Hn. now left.
Qed.

Lemma no_reopen_app : forall a b, no_reopen (a ++ b) <-> no_reopen a /\ no_reopen b.
Proof.
  intros a b. split.
  - intros H. split; intros c x Hi; apply (H c x); apply in_or_app; auto.
  - intros [H1 H2] c x Hi. apply in_app_or in Hi as [Hi|Hi]; [eapply H1|eapply H2]; eauto.
Qed.

(** The history a query sees, at the time of its answer. *)
Lemma pending_execution : forall O cf trA o trB s, execution O cf (trA ++ (o, Quiet) :: trB) s -> (forall c, o <> OReopen c) -> o <> OFlush ->
    (forall w, watch_step w (o, Quiet) = w) ->
    exists trX sX, execution O cf trX sX /\ pending_at (watch_run cf trA) trB = watch_run cf trX.
Proof.
  intros O cf trA o trB s H1 Hr Hf Hw. destruct (pending_prefix trB (watch_run cf trA)) as (b1 & b2 & E1 & E2).
  exists (trA ++ (o, Quiet) :: b1).
  assert (Hx1 : execution O cf ((trA ++ (o, Quiet) :: b1) ++ b2) s) by (rewrite <- app_assoc; cbn [app]; now rewrite <- E1).
  destruct (execution_split _ _ _ _ _ Hx1) as (sX & HX & _). exists sX. split; auto.
  rewrite E2, watch_run_app. cbn [fold_left]. now rewrite Hw.
Qed.

Lemma fst_fp_app : forall p sub f a b, fst (filter_process p sub f (a ++ b)) =
    fst (filter_process p sub f a) ++ fst (filter_process p sub (snd (filter_process p sub f a)) b).
Proof. intros. rewrite fp_app. destruct (filter_process p sub f a) as [r f1]. cbn [fst snd]. destruct (filter_process p sub f1 b). reflexivity. Qed.

Lemma exact_result : forall cf p s X, sub_of p s -> 0 <= ts_max cf p -> NoDup (map ev_id X) ->
    ts_exact cf p X (Answer (ts_result (ts_max cf p) (fst (filter_process p s (Flt (qt_last p) (ts_max cf p + 1)) X)))).
Proof.
  intros cf p s X Hs Hm Hn. exists (filter (filter_test p s) (following (qt_last p) X)). split; [|split].
  - exists (filter_test p s). split; auto. intros e. now apply test_wanted.
  - f_equal. unfold ts_result. apply page_of; auto. apply fp_spec.
  - eapply sub_NoDup; [|exact Hn]. apply sub_map. eapply sub_trans; [|apply sub_filter].
    destruct (qt_last p) as [i|]; [|apply sub_refl]. cbn [following]. clear. induction X as [|x l IH]; cbn [behind]; [constructor|].
    destruct (eid_eqb (ev_id x) i); apply sub_skip; auto. apply sub_refl.
Qed.

Lemma in_sequence_app : forall p a b, in_sequence p (a ++ b) =
    match qt_order p with ASCENDING => in_sequence p a ++ in_sequence p b | DESCENDING => in_sequence p b ++ in_sequence p a end.
Proof.
  intros. unfold in_sequence. rewrite filter_app, map_app. destruct (qt_order p); auto. apply rev_app_distr.
Qed.

Lemma sub_rev : forall (A : Type) (a b : list A), sub a b -> sub (rev a) (rev b).
Proof.
  intros A a b H. induction H; cbn [rev]; [constructor| |].
  - rewrite <- (app_nil_r (rev a)). apply sub_app; auto. apply sub_none.
  - apply sub_app; auto. apply sub_refl.
Qed.

Lemma in_sequence_sub : forall p l, sub (in_sequence p l) (arranged p (map snd l)).
Proof.
  intros p l. unfold in_sequence, arranged. destruct (qt_order p); [apply sub_rev|]; apply sub_map; apply sub_filter.
Qed.

Lemma looked_sub : forall p D P, sub (looked_at p D P) (arranged p (map snd (D ++ P))).
Proof.
  intros p D P. unfold looked_at. pose proof (in_sequence_sub p D) as HD. pose proof (scanned_sub p P) as HP.
  rewrite map_app. unfold arranged in *. destruct (qt_order p).
  - rewrite rev_app_distr. now apply sub_app.
  - now apply sub_app.
Qed.

Lemma looked_nodup : forall p D P, NoDup (map (fun x => ev_id (snd x)) (D ++ P)) -> NoDup (map ev_id (looked_at p D P)).
Proof.
  intros p D P Hn. eapply sub_NoDup; [apply sub_map, looked_sub|]. unfold arranged.
  destruct (qt_order p); [rewrite map_rev; apply NoDup_rev|]; now rewrite map_map.
Qed.

Lemma looked_cut : forall p D P, cuttable p P -> looked_at p D P = in_sequence p (D ++ P).
Proof. intros p D P H. unfold looked_at. rewrite (scanned_cut _ _ H), in_sequence_app. destruct (qt_order p); reflexivity. Qed.

Lemma ts_core : forall O cf trA q p trB a s sA, disj_ok O ->
    execution O cf (trA ++ (OTs q p, Quiet) :: trB ++ [(ODeliver q, a)]) s -> execution O cf trA sA ->
    made (w_conf (watch_run cf trA)) -> ~ In q (queries_of trA) -> ~ In q (queries_of trB) ->
    let cfA := w_conf (watch_run cf trA) in
    exists n pt trB1 trB2 s2 s1, chosen cfA (s_disk sA) p n pt /\ trB = trB1 ++ (OWork, Quiet) :: trB2 /\
      execution O cf (trA ++ (OTs q p, Quiet) :: trB1) s2 /\
      execution O cf (trA ++ (OTs q p, Quiet) :: trB) s1 /\ s_disk s = s_disk s1 /\
      db_parts (s_disk s2) = db_parts (s_disk sA) /\
      no_reopen trB /\ w_disk (watch_run cf (trA ++ (OTs q p, Quiet) :: trB1)) = w_before (watch_run cf trA) /\
      (let D := seen (cf_cond cfA) (stored_in (s_disk s2) n) in let P := pending_in pt (pending_for p cf trA trB) in
       placed pt (D ++ P) /\ NoDup (map (fun x => ev_id (snd x)) (D ++ P)) /\ (0 <= ts_max cfA p -> ts_exact cfA p (looked_at p D P) a)) /\
      (ts_max cfA p < 0 -> a = Answer None).
Proof.
  intros O cf trA q p trB a s sA Hdj Hx HA Hm Hn1 Hn2. cbn zeta.
  destruct (answered _ _ _ (OTs q p) _ _ _ _ _ Hx HA eq_refl Hn1 Hn2)
    as (trB1 & trB2 & sB & s1 & j & r & EB & HB & H1 & He & Hnr & Hd & Hj & Ha & Esd).
  pose proof (execution_inv _ _ _ _ HA) as HiA. pose proof (si_conf _ _ HiA) as EcA. rewrite <- EcA in *.
  cbn [exec] in He. unfold ts_query_step in He.
  pose proof (start_spec _ _ _ _ p Hdj HA Hm) as Hst.
  destruct (ts_query_start O (s_conf sA) (m_parts (s_mem sA)) p) as [[[sub max] [n|]]|]; [|discriminate|discriminate].
  destruct Hst as (Hs & -> & pt & Hch). set (M := ts_max (s_conf sA) p) in *.
  pose proof Hch as (pa & pb & Ep & Hsu & _ & Hnp). pose proof (proj1 Hsu) as Hord.
  assert (Hpt : In pt (cf_parts (s_conf sA))) by (rewrite Ep; apply in_or_app; right; now left).
  assert (HokA : conf_ok (s_conf sA)) by (rewrite EcA; apply (si_ok _ _ HiA)).
  assert (Hwf : wf (pt_sub pt)) by (eapply nth_wf; eauto).
  apply (kget_In zord) in Hnp; [|apply (rp_psorted _ _ _ (si_repr _ _ HiA))].
  pose proof (execution_inv _ _ _ _ HB) as HiB. pose proof (si_repr _ _ HiB) as HrB. rewrite Hd in HrB.
  assert (HnrB : no_reopen ((OTs q p, Quiet) :: trB1)).
  { intros c x [Hi|Hi]; [discriminate|]. apply (Hnr c x). rewrite EB. apply in_or_app. auto. }
  assert (Hnr' : no_reopen ((OTs q p, Quiet) :: trB)).
  { intros c x [Hi|Hi]; [discriminate|]. eapply Hnr; eauto. }
  assert (EcB : s_conf sB = s_conf sA).
  { rewrite (si_conf _ _ HiB), watch_run_app, conf_stays by auto. now rewrite EcA. }
  destruct (gen_spec _ _ _ _ _ _ HA HB HnrB) as (_ & EpB & _).
  assert (HnB : kget zord n (db_parts (s_disk sB)) = Some (part_data_of pt)) by (now rewrite EpB).
  destruct (gen_spec _ _ _ _ _ _ HA H1 Hnr') as ((d & K & pls & G1 & G2 & G3) & G4 & G5 & G6 & _). cbn [pending_at watch_step] in *.
  destruct (pending_execution _ _ _ _ _ _ H1) as (trX & sX & HX & Ew); [discriminate|discriminate|reflexivity|].
  set (w := pending_at (watch_run cf trA) trB) in *.
  pose proof (execution_inv _ _ _ _ HX) as HiX. rewrite <- Ew in HiX.
  assert (HoX : hist_ok (w_before (watch_run cf trA) ++ w_cur w)).
  { pose proof (all_ok _ _ HiX) as Ho. rewrite w_all_before in Ho. now rewrite <- G6. }
  assert (HoA : hist_ok (w_before (watch_run cf trA) ++ w_cur (watch_run cf trA))).
  { rewrite <- w_all_before. eapply all_ok; eauto. }
  assert (Hses : Forall (fun en => en_conf en = s_conf sA) (w_cur w)).
  { pose proof (si_sess _ _ HiX) as Hf. apply Forall_app in Hf as [_ Hf]. now rewrite G5, <- EcA in Hf. }
  assert (HsesA : Forall (fun en => en_conf en = s_conf sA) (w_cur (watch_run cf trA))).
  { pose proof (si_sess _ _ HiA) as Hf. apply Forall_app in Hf as [_ Hf]. now rewrite EcA. }
  exists n, pt, trB1, trB2, sB, s1. split; auto. split; auto. split; auto. split; auto. split; auto. split; auto. split; auto. split; auto.
  set (D := seen (cf_cond (s_conf sA)) (stored_in (s_disk sB) n)).
  unfold pending_for. fold w. set (f0 := Flt (qt_last p) (M + 1)) in *.
  destruct (qt_order p) eqn:Eo.
  - (* descending *)
    destruct (query_pending (part_changes (ch_ts (s_cur sA)) n) p sub f0) as [es f] eqn:Eq.
    destruct (filter_done f) eqn:Ef; [discriminate|]. injection He as Ej. apply app_inv_head in Ej. injection Ej as <-.
    cbn [job_result] in Hj. rewrite (query_stored_spec _ _ _ _ _ _ _ _ HrB), EcB in Hj. fold D in Hj. rewrite <- in_sequence_eq in Hj.
    destruct (filter_process p sub f (in_sequence p D)) as [es2 f2] eqn:E2. injection Hj as <-.
    cbn [finish] in Ha. rewrite Eo in Ha.
    assert (Epc : part_changes (ch_ts (s_cur sA)) n = pending_in pt (w_cur (watch_run cf trA))).
    { destruct (si_pend _ _ HiA) as [pls' Hp']. eapply part_changes_pending; [exact Hp'|exact HsesA|auto|auto|]. now rewrite written_parts. }
    rewrite Epc in Eq. split.
    + destruct (entries_ok _ _ _ _ pt (w_cur (watch_run cf trA)) (cf_cond (s_conf sA)) HrB HoA HnB Hwf) as [E5 E6]. fold D in E5, E6.
      split; auto. split; auto. intros HM.
      pose proof (exact_result (s_conf sA) p sub _ Hs HM (looked_nodup p _ _ E6)) as Hres. fold M f0 in Hres.
      rewrite query_pending_spec in Eq.
      2: { intros [t e] Hi. apply (pending_placed pt) in Hi. eapply place_order_ts; eauto. }
      unfold looked_at in Hres |- *. rewrite Eo in Hres |- *. rewrite fst_fp_app, Eq in Hres. cbn [fst snd] in Hres. rewrite E2 in Hres. cbn [fst] in Hres.
      now rewrite <- Ha in Hres.
    + intros HM. exfalso.
      assert (Hl : f_left f <= f_left f0).
      { unfold query_pending in Eq. cbn zeta in Eq. 
        match type of Eq with filter_process _ _ _ ?l = _ => pose proof (fp_left p sub l f0) as Hl end.
        rewrite Eq in Hl. cbn [fst snd] in Hl. rewrite Hl. unfold zlen. lia. }
      unfold f0 in Hl. cbn [f_left] in Hl. unfold filter_done in Ef. apply Z.ltb_ge in Ef. lia.
  - (* ascending *)
    injection He as Ej. apply app_inv_head in Ej. injection Ej as <-.
    cbn [job_result] in Hj. rewrite (query_stored_spec _ _ _ _ _ _ _ _ HrB), EcB in Hj. fold D in Hj. rewrite <- in_sequence_eq in Hj.
    destruct (filter_process p sub f0 (in_sequence p D)) as [es f] eqn:E2. injection Hj as <-.
    cbn [finish] in Ha. rewrite Eo in Ha. cbn [app] in Ha.
    assert (Epc : part_changes (ch_ts (gen s1 (cur_gen sA))) n = pending_in pt (w_cur w)).
    { eapply part_changes_pending; [exact G2|exact Hses|auto|auto|]. now rewrite G3, G4. }
    rewrite Epc in Ha. split.
    + destruct (entries_ok _ _ _ _ pt (w_cur w) (cf_cond (s_conf sA)) HrB HoX HnB Hwf) as [E5 E6]. fold D in E5, E6.
      split; auto. split; auto. intros HM.
      pose proof (exact_result (s_conf sA) p sub _ Hs HM (looked_nodup p _ _ E6)) as Hres. fold M f0 in Hres.
      rewrite query_pending_spec in Ha.
      2: { intros [t e] Hi. apply (pending_placed pt) in Hi. eapply place_order_ts; eauto. }
      unfold looked_at in Hres |- *. rewrite Eo in Hres |- *. rewrite fst_fp_app, E2 in Hres. cbn [fst snd] in Hres.
      destruct (filter_done f) eqn:Ef.
      * rewrite (fp_done _ _ _ _ Ef), app_nil_r in Hres. now rewrite <- Ha in Hres.
      * now rewrite <- Ha in Hres.
    + intros HM.
      assert (Hdn : filter_done f0 = true) by (unfold filter_done, f0; cbn [f_left]; apply Z.ltb_lt; lia).
      rewrite (fp_done _ _ _ _ Hdn) in E2. injection E2 as <- <-. rewrite Hdn in Ha. rewrite Ha. unfold ts_result, zlen. cbn [List.length].
      change (Z.of_nat 0) with 0. destruct (Z.ltb_spec M 0); [reflexivity|lia].
Qed.

(** Queries that are answered at once. *)
Lemma ts_immediate : forall O cf trA q p x s sA, disj_ok O ->
    execution O cf (trA ++ [(OTs q p, x)]) s -> execution O cf trA sA -> made (w_conf (watch_run cf trA)) ->
    let cfA := w_conf (watch_run cf trA) in
    (exists qs, qt_types p = Some qs /\ py_create qs = None /\ x = Answer None) \/
    ((forall pt, In pt (cf_parts cfA) -> ~ suits p pt) /\ x = Answer (Some (QRes [] false))) \/
    (exists n pt, chosen cfA (s_disk sA) p n pt /\
      (x = Quiet \/
       qt_order p = DESCENDING /\
       (0 <= ts_max cfA p -> forall D,
        NoDup (map (fun x => ev_id (snd x)) (D ++ pending_in pt (w_cur (watch_run cf trA)))) ->
        ts_exact cfA p (looked_at p D (pending_in pt (w_cur (watch_run cf trA)))) x) /\
       (ts_max cfA p < 0 -> x = Answer None))).
Proof.
  intros O cf trA q p x s sA Hdj Hx HA Hm. cbn zeta.
  pose proof (execution_inv _ _ _ _ HA) as HiA. pose proof (si_conf _ _ HiA) as EcA. rewrite <- EcA in *.
  destruct (execution_split _ _ _ _ _ Hx) as (sA' & HA' & Hr & _). rewrite (execution_fun _ _ _ _ _ HA' HA) in Hr.
  inversion Hr as [|? ? ? s1 ? ? He Hr']; subst. cbn [exec] in He. injection He as He. unfold ts_query_step in He.
  pose proof (start_spec _ _ _ _ p Hdj HA Hm) as Hst.
  destruct (ts_query_start O (s_conf sA) (m_parts (s_mem sA)) p) as [[[sub max] [n|]]|].
  2: { injection He as _ <-. right. left. destruct Hst as (_ & _ & H). auto. }
  2: { injection He as _ <-. left. destruct Hst as (qs & A & B). eauto. }
  destruct Hst as (Hs & -> & pt & Hch). set (M := ts_max (s_conf sA) p) in *.
  pose proof Hch as (pa & pb & Ep & Hsu & _ & Hnp). pose proof (proj1 Hsu) as Hord.
  assert (Hpt : In pt (cf_parts (s_conf sA))) by (rewrite Ep; apply in_or_app; right; now left).
  assert (HokA : conf_ok (s_conf sA)) by (rewrite EcA; apply (si_ok _ _ HiA)).
  apply (kget_In zord) in Hnp; [|apply (rp_psorted _ _ _ (si_repr _ _ HiA))].
  right. right. exists n, pt. split; auto.
  destruct (qt_order p) eqn:Eo; [|injection He as _ <-; auto].
  set (f0 := Flt (qt_last p) (M + 1)) in *.
  destruct (query_pending (part_changes (ch_ts (s_cur sA)) n) p sub f0) as [es f] eqn:Eq.
  destruct (filter_done f) eqn:Ef; injection He as _ <-; auto. right. split; auto.
  assert (HsesA : Forall (fun en => en_conf en = s_conf sA) (w_cur (watch_run cf trA))).
  { pose proof (si_sess _ _ HiA) as Hf. apply Forall_app in Hf as [_ Hf]. now rewrite EcA. }
  assert (Epc : part_changes (ch_ts (s_cur sA)) n = pending_in pt (w_cur (watch_run cf trA))).
  { destruct (si_pend _ _ HiA) as [pls' Hp']. eapply part_changes_pending; [exact Hp'|exact HsesA|auto|auto|]. now rewrite written_parts. }
  rewrite Epc in Eq.
  split.
  - intros HM D HD. rewrite query_pending_spec in Eq.
    2: { intros [t e] Hi. apply (pending_placed pt) in Hi. eapply place_order_ts; eauto. }
    pose proof (exact_result (s_conf sA) p sub _ Hs HM (looked_nodup p _ _ HD)) as Hres. fold M f0 in Hres.
    unfold looked_at in Hres |- *. rewrite Eo in Hres |- *. rewrite fst_fp_app, Eq in Hres. cbn [fst snd] in Hres.
    now rewrite (fp_done _ _ _ _ Ef), app_nil_r in Hres.
  - intros HM.
    assert (Hdn : filter_done f0 = true) by (unfold filter_done, f0; cbn [f_left]; apply Z.ltb_lt; lia).
    unfold query_pending in Eq. cbn zeta in Eq. rewrite (fp_done _ _ _ _ Hdn) in Eq. injection Eq as <- <-.
    unfold ts_result, zlen. cbn [List.length].
    change (Z.of_nat 0) with 0. destruct (Z.ltb_spec M 0); [reflexivity|lia].
Qed.
