(** LMDB backend: timeseries queries; final statements. *)
From Coq Require Import String Bool ZArith Lia Sorted Permutation List.
From Verif Require Import Base Kv Model_Types Model_Subscription Model_Order Model_Codec Keys
  Spec_Order Spec_Codec Spec_Subscription Proof_Subscription Proof_Subscription2 Proof_Order Model_Lmdb Model_LmdbSys Spec_Lmdb Spec_LmdbContent
  Spec_LmdbQuery Spec_LmdbTs
  Proof_Lmdb1 Proof_Lmdb2 Proof_Lmdb3 Proof_Lmdb4 Proof_Lmdb5 Proof_Lmdb6 Proof_Lmdb7 Proof_Lmdb8 Proof_Lmdb9 Proof_Lmdb10 Proof_Lmdb11 Proof_Lmdb12
  Proof_Lmdb13 Proof_Lmdb14 Proof_Lmdb16 Proof_Lmdb18 Proof_Lmdb19 Proof_Lmdb20.
Import ListNotations.
Open Scope list_scope.
Open Scope Z_scope.

Theorem final_C17 : forall O cf trA q p trB a s sA, disj_ok O ->
    execution O cf (trA ++ (OTs q p, Quiet) :: trB ++ [(ODeliver q, a)]) s -> execution O cf trA sA ->
    made (w_conf (watch_run cf trA)) -> ~ In q (queries_of trA) -> ~ In q (queries_of trB) ->
    let cfA := w_conf (watch_run cf trA) in
    0 <= ts_max cfA p ->
    exists n pt trB1 trB2 s2, chosen cfA (s_disk sA) p n pt /\ trB = trB1 ++ (OWork, Quiet) :: trB2 /\
      execution O cf (trA ++ (OTs q p, Quiet) :: trB1) s2 /\
      let D := seen (cf_cond cfA) (stored_in (s_disk s2) n) in
      let P := pending_in pt (pending_for p cf trA trB) in
      ts_exact cfA p (looked_at p D P) a /\ (cuttable p P -> ts_answer cfA p (D ++ P) a).
Proof.
  intros O cf trA q p trB a s sA Hdj Hx HA Hm Hn1 Hn2 cfA HM.
  destruct (ts_core _ _ _ _ _ _ _ _ _ Hdj Hx HA Hm Hn1 Hn2) as (n & pt & trB1 & trB2 & s2 & s1 & A1 & A2 & A3 & _ & _ & _ & _ & _ & A4 & _).
  cbn zeta in A4. destruct A4 as (A4 & A5 & A6). specialize (A6 HM).
  exists n, pt, trB1, trB2, s2. split; auto. split; auto. split; auto. cbn zeta. split; auto.
  intros Hc. rewrite (looked_cut _ _ _ Hc) in A6. eapply exact_answer; eauto. destruct A1 as (? & ? & _ & (A1 & _) & _). exact A1.
Qed.

Theorem final_C17_negative : forall O cf trA q p trB a s, disj_ok O ->
    execution O cf (trA ++ (OTs q p, Quiet) :: trB ++ [(ODeliver q, a)]) s ->
    made (w_conf (watch_run cf trA)) -> ~ In q (queries_of trA) -> ~ In q (queries_of trB) ->
    ts_max (w_conf (watch_run cf trA)) p < 0 -> a = Answer None.
Proof.
  intros O cf trA q p trB a s Hdj Hx Hm Hn1 Hn2 HM. destruct (execution_split _ _ _ _ _ Hx) as (sA & HA & _).
  destruct (ts_core _ _ _ _ _ _ _ _ _ Hdj Hx HA Hm Hn1 Hn2) as (n & pt & trB1 & trB2 & s2 & s1 & _ & _ & _ & _ & _ & _ & _ & _ & _ & A4). auto.
Qed.

(** ** When everything is in order *)

Lemma seen_sorted : forall cond l, in_order l -> in_order (seen cond l).
Proof. intros. now apply SS_filter. Qed.

Theorem final_C17_flushed : forall O cf trA q p trB a s sA, disj_ok O ->
    execution O cf (trA ++ (OTs q p, Quiet) :: trB ++ [(ODeliver q, a)]) s -> execution O cf trA sA ->
    made (w_conf (watch_run cf trA)) -> ~ In q (queries_of trA) -> ~ In q (queries_of trB) ->
    let cfA := w_conf (watch_run cf trA) in
    0 <= ts_max cfA p -> pending_for p cf trA trB = [] ->
    exists n pt trB1 trB2 s2 L, chosen cfA (s_disk sA) p n pt /\ trB = trB1 ++ (OWork, Quiet) :: trB2 /\
      execution O cf (trA ++ (OTs q p, Quiet) :: trB1) s2 /\
      selected p (in_sequence p (seen (cf_cond cfA) (stored_in (s_disk s2) n))) L /\
      a = Answer (Some (page (ts_max cfA p) L)) /\ NoDup (map ev_id L) /\ ordered p L.
Proof.
  intros O cf trA q p trB a s sA Hdj Hx HA Hm Hn1 Hn2 cfA HM HP.
  destruct (final_C17 _ _ _ _ _ _ _ _ _ Hdj Hx HA Hm Hn1 Hn2 HM) as (n & pt & trB1 & trB2 & s2 & A1 & A2 & A3 & _ & A4).
  rewrite HP in A4. cbn [pending_in flat_map] in A4.
  destruct A4 as (L & B1 & B2 & B3 & B4). { left. constructor. }
  fold cfA in B1, B2, B4. rewrite app_nil_r in B1, B4.
  exists n, pt, trB1, trB2, s2, L. split; auto. split; auto. split; auto. split; auto. split; auto. split; auto. apply B4.
  apply seen_sorted. eapply stored_sorted. apply (si_repr _ _ (execution_inv _ _ _ _ A3)).
Qed.

Lemma In_split2 : forall (A : Type) (l1 : list A) a l2 b, In b l2 -> exists l3 l4, l1 ++ a :: l2 = l1 ++ a :: l3 ++ b :: l4.
Proof. intros A l1 a l2 b H. apply in_split in H as (l3 & l4 & ->). eauto. Qed.

Lemma hist_ts_order : forall H h a b, hist_ok (H ++ h) -> In a H -> In b h -> eid_server (ev_id (en_ev a)) = eid_server (ev_id (en_ev b)) ->
    ts_leb (ev_ts (en_ev a)) (ev_ts (en_ev b)) = true.
Proof.
  intros H h a b Ho Ha Hb E. pose proof (hist_server_order _ Ho) as Hs.
  apply in_split in Ha as (H1 & H2 & ->), Hb as (h1 & h2 & ->).
  apply (Hs H1 a (H2 ++ h1) b h2); auto. repeat (rewrite <- app_assoc; cbn [app]). reflexivity.
Qed.

Lemma hist_sorted : forall pt H h, hist_ok (H ++ h) -> pt_order pt = TIMESTAMP ->
    (forall a b, In a (H ++ h) -> In b (H ++ h) -> eid_server (ev_id (en_ev a)) = eid_server (ev_id (en_ev b))) -> in_order (pending_in pt h).
Proof.
  intros pt H h. induction h as [|en h IH] using rev_ind; intros Ho Hpo Hs; [constructor|]. rewrite app_assoc in Ho, Hs.
  unfold pending_in. rewrite flat_map_app. apply SS_app.
  - apply IH; auto.
    + eapply hist_ok_app; eauto.
    + intros a b Ha Hb. apply Hs; apply in_or_app; auto.
  - cbn [flat_map]. destruct (place pt (en_ev en)); repeat constructor.
  - intros [t e] [u f] Ha Hb. apply (proj1 (pending_In pt h t e)) in Ha as (A & ea & B & <-).
    apply (proj1 (pending_In pt [en] u f)) in Hb as (C & eb & D & <-). cbn [fst].
    assert (Hle : ts_leb (ev_ts (en_ev ea)) (ev_ts (en_ev eb)) = true).
    { eapply hist_ts_order; [exact Ho|apply in_or_app; right; exact B|exact D|].
      apply Hs; apply in_or_app; [left; apply in_or_app|]; auto. }
    unfold place in A, C. rewrite Hpo in A, C. destruct (node_matches _ _); [|discriminate]. destruct (node_matches _ _); [|discriminate].
    congruence.
Qed.

Lemma accepted_events : forall cf tr en, In en (w_all (watch_run cf tr)) -> In (en_ev en) (events_of tr).
Proof.
  assert (Ht : forall c es H en, In en (take_events c H es) -> In (en_ev en) es).
  { intros c. induction es as [|e es IH]; intros H en Hi; cbn [take_events] in Hi; [easy|]. destruct (accepts H c e).
    - destruct Hi as [<-|Hi]; [now left|right; eauto].
    - right. eauto. }
  intros cf tr. induction tr as [|[o x] tr IH] using rev_ind; intros en Hi; [easy|].
  rewrite watch_run_app in Hi. cbn [fold_left] in Hi. rewrite events_of_app. apply in_or_app.
  set (w := watch_run cf tr) in *. unfold w_all in Hi, IH.
  destruct o; cbn [watch_step] in Hi; try (left; now apply IH).
  - cbn [w_disk w_queue w_cur] in Hi. rewrite !app_assoc in Hi. apply in_app_or in Hi as [Hi|Hi].
    + left. apply IH. now rewrite app_assoc.
    + right. cbn [events_of flat_map fst]. rewrite app_nil_r. eauto.
  - left. apply IH. cbn [w_disk w_queue w_cur] in Hi. rewrite concat_app, app_nil_r in Hi. cbn [concat] in Hi. now rewrite app_nil_r in Hi.
  - left. apply IH. destruct x; auto. cbn [w_disk w_queue w_cur] in Hi. destruct (w_queue w) as [|h Q]; cbn [hd tl concat] in *; [now rewrite app_nil_r in Hi|].
    now rewrite <- !app_assoc in *.
  - left. apply IH. cbn [w_disk w_queue w_cur] in Hi. cbn [concat app] in Hi. rewrite app_nil_r in Hi. apply in_or_app. auto.
Qed.

Theorem final_C17_one_server : forall O cf trA q p trB a s sA srv, disj_ok O ->
    execution O cf (trA ++ (OTs q p, Quiet) :: trB ++ [(ODeliver q, a)]) s -> execution O cf trA sA ->
    made (w_conf (watch_run cf trA)) -> ~ In q (queries_of trA) -> ~ In q (queries_of trB) ->
    let cfA := w_conf (watch_run cf trA) in
    0 <= ts_max cfA p -> qt_order_by p = TIMESTAMP -> (forall e, In e (events_of (trA ++ trB)) -> eid_server (ev_id e) = srv) ->
    exists n pt trB1 trB2 s2 L, chosen cfA (s_disk sA) p n pt /\ trB = trB1 ++ (OWork, Quiet) :: trB2 /\
      execution O cf (trA ++ (OTs q p, Quiet) :: trB1) s2 /\
      selected p (in_sequence p (seen (cf_cond cfA) (stored_in (s_disk s2) n) ++ pending_in pt (pending_for p cf trA trB))) L /\
      a = Answer (Some (page (ts_max cfA p) L)) /\ NoDup (map ev_id L) /\ ordered p L.
Proof.
  intros O cf trA q p trB a s sA srv Hdj Hx HA Hm Hn1 Hn2 cfA HM Hto Hsrv.
  destruct (ts_core _ _ _ _ _ _ _ _ _ Hdj Hx HA Hm Hn1 Hn2) as (n & pt & trB1 & trB2 & s2 & s1 & A1 & A2 & A3 & A5 & _ & A6 & A7 & A8 & A4 & _).
  cbn zeta in A4. fold cfA in A1, A4. destruct A4 as (X1 & X2 & X3). specialize (X3 HM).
  pose proof A1 as (pa & pb & Ep & (Hpo & _) & _ & Hnp).
  assert (A4 : cuttable p (pending_in pt (pending_for p cf trA trB)) -> ts_answer cfA p
    (seen (cf_cond cfA) (stored_in (s_disk s2) n) ++ pending_in pt (pending_for p cf trA trB)) a).
  { intros Hc. rewrite (looked_cut _ _ _ Hc) in X3. eapply exact_answer; eauto. }
  rewrite Hto in Hpo.
  set (h := pending_for p cf trA trB) in *.
  assert (Hh : hist_ok (w_before (watch_run cf trA) ++ h) /\ forall en, In en (w_before (watch_run cf trA) ++ h) -> In (en_ev en) (events_of (trA ++ trB))).
  { unfold h, pending_for. destruct (qt_order p).
    - rewrite <- w_all_before. split; [eapply all_ok, execution_inv; eauto|]. intros en Hi. rewrite events_of_app. apply in_or_app. left.
      eapply accepted_events; eauto.
    - assert (Hw : exists b1 b2 sX, trB = b1 ++ b2 /\ execution O cf (trA ++ (OTs q p, Quiet) :: b1) sX /\
                     pending_at (watch_run cf trA) trB = watch_run cf (trA ++ (OTs q p, Quiet) :: b1)).
      { destruct (pending_prefix trB (watch_run cf trA)) as (b1 & b2 & E1 & E2). exists b1, b2.
        assert (Hx1 : execution O cf ((trA ++ (OTs q p, Quiet) :: b1) ++ b2) s1) by (rewrite <- app_assoc; cbn [app]; now rewrite <- E1).
        destruct (execution_split _ _ _ _ _ Hx1) as (sX & HX & _). exists sX. split; auto. split; auto. rewrite E2, watch_run_app. reflexivity. }
      destruct Hw as (b1 & b2 & sX & E1 & HX & Ew).
      destruct (gen_spec _ _ _ _ ((OTs q p, Quiet) :: trB) _ HA A5) as (_ & _ & _ & G6 & _).
      { intros c x [Hi|Hi]; [discriminate|]. eapply A7; eauto. }
      cbn [pending_at watch_step] in G6. rewrite <- G6, <- w_all_before, Ew. split; [eapply all_ok, execution_inv; eauto|].
      intros en Hi. apply accepted_events in Hi. rewrite E1. rewrite events_of_app in Hi |- *. rewrite events_of_app.
      change (events_of ((OTs q p, Quiet) :: b1)) with (events_of b1) in Hi. rewrite !in_app_iff in *. tauto. }
  destruct Hh as [Ho Hev].
  assert (HP : in_order (pending_in pt h)).
  { apply (hist_sorted pt (w_before (watch_run cf trA))); auto. intros x y Hxi Hyi. rewrite !Hsrv; auto. }
  destruct A4 as (L & B1 & B2 & B3 & B4). { now left. }
  exists n, pt, trB1, trB2, s2, L. split; auto. split; auto. split; auto. split; auto. split; auto. split; auto. apply B4.
  pose proof (si_repr _ _ (execution_inv _ _ _ _ A3)) as Hr. rewrite A8 in Hr.
  apply SS_app; auto.
  - apply seen_sorted. eapply stored_sorted; eauto.
  - intros [t e] [u f] Ha Hb. apply filter_In in Ha as [Ha _].
    pose proof (execution_inv _ _ _ _ HA) as HiA.
    apply (kget_In zord) in Hnp; [|apply (rp_psorted _ _ _ (si_repr _ _ HiA))]. rewrite <- A6 in Hnp.
    assert (Hwf : wf (pt_sub pt)).
    { eapply nth_wf; [apply (si_ok _ _ HiA)|]. fold cfA. rewrite Ep. apply in_or_app; right; now left. }
    destruct (stored_entry _ _ _ _ _ _ _ Hr Hnp Hwf Ha) as (C1 & ea & C2 & <-).
    apply (proj1 (pending_In pt h u f)) in Hb as (D1 & eb & D2 & <-). cbn [fst].
    assert (Hle : ts_leb (ev_ts (en_ev ea)) (ev_ts (en_ev eb)) = true).
    { eapply hist_ts_order; [exact Ho|exact C2|exact D2|]. rewrite !Hsrv; auto; apply Hev; apply in_or_app; auto. }
    unfold place in C1, D1. rewrite Hpo in C1, D1. destruct (node_matches _ _); [|discriminate]. destruct (node_matches _ _); [|discriminate].
    congruence.
Qed.

(** ** Queries answered at once *)
Theorem final_C17_at_once : forall O cf trA q p x s sA, disj_ok O ->
    execution O cf (trA ++ [(OTs q p, x)]) s -> execution O cf trA sA -> made (w_conf (watch_run cf trA)) ->
    let cfA := w_conf (watch_run cf trA) in
    (exists qs, qt_types p = Some qs /\ py_create qs = None /\ x = Answer None) \/
    ((forall pt, In pt (cf_parts cfA) -> ~ suits p pt) /\ x = Answer (Some (QRes [] false))) \/
    (exists n pt, chosen cfA (s_disk sA) p n pt /\
      (x = Quiet \/
       qt_order p = DESCENDING /\
       let D := seen (cf_cond cfA) (stored_in (s_disk sA) n) in
       let P := pending_in pt (w_cur (watch_run cf trA)) in
       (0 <= ts_max cfA p -> ts_exact cfA p (looked_at p D P) x /\ (cuttable p P -> ts_answer cfA p (D ++ P) x)) /\
       (ts_max cfA p < 0 -> x = Answer None))).
Proof.
  intros O cf trA q p x s sA Hdj Hx HA Hm cfA.
  destruct (ts_immediate _ _ _ _ _ _ _ _ Hdj Hx HA Hm) as [H|[H|(n & pt & Hc & [H|(Ho & H1 & H2)])]]; auto.
  - right. right. exists n, pt. auto.
  - right. right. exists n, pt. split; auto. right. split; auto. cbn zeta. split; auto. intros HM. fold cfA in H1.
    pose proof (execution_inv _ _ _ _ HA) as HiA. pose proof Hc as (pa & pb & Ep & (Hpo & _) & _ & Hnp).
    apply (kget_In zord) in Hnp; [|apply (rp_psorted _ _ _ (si_repr _ _ HiA))].
    assert (Hwf : wf (pt_sub pt)).
    { eapply nth_wf; [apply (si_ok _ _ HiA)|]. rewrite Ep. apply in_or_app; right; now left. }
    destruct (entries_between _ _ _ _ pt _ _ (cf_cond cfA) (si_repr _ _ HiA) (all_ok _ _ HiA) Hnp Hwf) as [E1 E2].
    assert (Hex := H1 HM _ E2). split; auto. intros Hcu. eapply exact_answer; eauto. now rewrite <- looked_cut.
Qed.

(** ** C26 *)

Lemma gone_grows : forall tr w k, In k (w_gone w) -> In k (w_gone (fold_left watch_step tr w)).
Proof.
  induction tr as [|[o x] tr IH]; intros w k Hi; cbn [fold_left]; auto. apply IH.
  destruct o; cbn; auto. destruct x; cbn; auto. apply in_or_app. auto.
Qed.

Lemma pending_grows : forall tr w en, no_reopen tr -> In en (w_cur w) -> In en (w_cur (pending_at w tr)).
Proof.
  induction tr as [|[o x] tr IH]; intros w en Hn Hi; cbn [pending_at]; auto.
  assert (Hn' : no_reopen tr) by (intros c y Hy; apply (Hn c y); now right).
  destruct o; auto; try (apply IH; auto; cbn; auto).
  - apply in_or_app. auto.
  - destruct x; cbn; auto.
  - exfalso. eapply Hn. now left.
Qed.

Theorem final_C26_ts : forall O cf trA q p trB a s sA, disj_ok O ->
    execution O cf (trA ++ (OTs q p, Quiet) :: trB ++ [(ODeliver q, a)]) s -> execution O cf trA sA ->
    made (w_conf (watch_run cf trA)) -> ~ In q (queries_of trA) -> ~ In q (queries_of trB) ->
    let cfA := w_conf (watch_run cf trA) in
    0 <= ts_max cfA p ->
    exists n pt l, chosen cfA (s_disk sA) p n pt /\
      (cuttable p (pending_in pt (pending_for p cf trA trB)) -> ts_answer cfA p l a) /\
      NoDup (map (fun x => ev_id (snd x)) l) /\
      (forall t e, In (t, e) l -> place pt e = Some t /\ In e (events_of (trA ++ trB))) /\
      forall en t, In en (w_all (watch_run cf trA)) -> belongs pt en t -> cf_cond cfA (en_ev en) = true ->
        ~ In (n, t, ev_id (en_ev en)) (w_gone (watch_run cf (trA ++ (OTs q p, Quiet) :: trB))) -> In (t, en_ev en) l.
Proof.
  intros O cf trA q p trB a s sA Hdj Hx HA Hm Hn1 Hn2 cfA HM.
  destruct (ts_core _ _ _ _ _ _ _ _ _ Hdj Hx HA Hm Hn1 Hn2) as (n & pt & trB1 & trB2 & s2 & s1 & A1 & A2 & A3 & A5 & _ & A6 & A7 & A8 & A4 & _).
  cbn zeta in A4. fold cfA in A1, A4. destruct A4 as (X1 & X2 & X3). specialize (X3 HM).
  exists n, pt, (seen (cf_cond cfA) (stored_in (s_disk s2) n) ++ pending_in pt (pending_for p cf trA trB)).
  pose proof A1 as (pa & pb & Ep & _ & _ & Hnp). pose proof (execution_inv _ _ _ _ HA) as HiA.
  apply (kget_In zord) in Hnp; [|apply (rp_psorted _ _ _ (si_repr _ _ HiA))]. rewrite <- A6 in Hnp.
  assert (Hwf : wf (pt_sub pt)).
  { eapply nth_wf; [apply (si_ok _ _ HiA)|]. fold cfA. rewrite Ep. apply in_or_app; right; now left. }
  pose proof (si_repr _ _ (execution_inv _ _ _ _ A3)) as Hr. rewrite A8 in Hr.
  set (h := pending_for p cf trA trB) in *.
  assert (Hh : hist_ok (w_before (watch_run cf trA) ++ h) /\ (forall en, In en (w_before (watch_run cf trA) ++ h) -> In (en_ev en) (events_of (trA ++ trB))) /\
               forall en, In en (w_cur (watch_run cf trA)) -> In en h).
  { unfold h, pending_for. destruct (qt_order p).
    - rewrite <- w_all_before. split; [eapply all_ok, execution_inv; eauto|]. split; auto. intros en Hi. rewrite events_of_app. apply in_or_app. left.
      eapply accepted_events; eauto.
    - assert (Hw : exists b1 b2 sX, trB = b1 ++ b2 /\ execution O cf (trA ++ (OTs q p, Quiet) :: b1) sX /\
                     pending_at (watch_run cf trA) trB = watch_run cf (trA ++ (OTs q p, Quiet) :: b1)).
      { destruct (pending_prefix trB (watch_run cf trA)) as (b1 & b2 & E1 & E2). exists b1, b2.
        assert (Hx1 : execution O cf ((trA ++ (OTs q p, Quiet) :: b1) ++ b2) s1) by (rewrite <- app_assoc; cbn [app]; now rewrite <- E1).
        destruct (execution_split _ _ _ _ _ Hx1) as (sX & HX & _). exists sX. split; auto. split; auto. rewrite E2, watch_run_app. reflexivity. }
      destruct Hw as (b1 & b2 & sX & E1 & HX & Ew).
      destruct (gen_spec _ _ _ _ ((OTs q p, Quiet) :: trB) _ HA A5) as (_ & _ & _ & G6 & _).
      { intros c x [Hi|Hi]; [discriminate|]. eapply A7; eauto. }
      cbn [pending_at watch_step] in G6. split; [|split; [|intros en; now apply pending_grows]].
      { rewrite <- G6, <- w_all_before, Ew. eapply all_ok, execution_inv; eauto. }
      rewrite <- G6, <- w_all_before, Ew. 
      intros en Hi. apply accepted_events in Hi. rewrite E1. rewrite events_of_app in Hi |- *. rewrite events_of_app.
      change (events_of ((OTs q p, Quiet) :: b1)) with (events_of b1) in Hi. rewrite !in_app_iff in *. tauto. }
  destruct Hh as (Ho & Hev & Hcur).
  destruct (entries_ok _ _ _ _ pt h (cf_cond cfA) Hr Ho Hnp Hwf) as [E5 E6].
  split; auto. split.
  { intros Hc. rewrite (looked_cut _ _ _ Hc) in X3. eapply exact_answer; eauto. destruct A1 as (? & ? & _ & (A1 & _) & _). exact A1. }
  split; auto. split.
  - intros t e Hi. split; [now apply E5|]. apply in_app_or in Hi as [Hi|Hi].
    + apply filter_In in Hi as [Hi _]. destruct (stored_entry _ _ _ _ _ _ _ Hr Hnp Hwf Hi) as (_ & en & C2 & <-).
      apply Hev. apply in_or_app. auto.
    + apply (proj1 (pending_In pt h t e)) in Hi as (_ & en & C2 & <-). apply Hev. apply in_or_app. auto.
  - intros en t Hi ((pt' & Hp1 & Hp2) & Hpl) Hc Hg. rewrite w_all_before in Hi. apply in_or_app. apply in_app_or in Hi as [Hi|Hi].
    + left. apply filter_In. split; auto. apply (stored_In _ _ _ _ _ _ Hr). apply (rp_ts _ _ _ Hr). split.
      * exists (en_conf en), pt'. cbn [fst snd]. split; [now destruct en|]. split; auto. split; [now rewrite Hp2|]. split; auto.
        rewrite <- Hpl. apply part_data_place; auto. eapply nth_wf; [apply (rp_conf _ _ _ Hr _ Hi)|exact Hp1].
      * intros Hk. apply Hg. rewrite A2. replace (trA ++ (OTs q p, Quiet) :: trB1 ++ (OWork, Quiet) :: trB2)
          with ((trA ++ (OTs q p, Quiet) :: trB1) ++ (OWork, Quiet) :: trB2) by (rewrite <- app_assoc; reflexivity).
        rewrite watch_run_app. now apply gone_grows.
    + right. apply pending_In. eauto.
Qed.

Lemma sequence_In : forall p l t e, In (t, e) l -> within (order_from p) (order_to p) t = true -> In e (in_sequence p l).
Proof.
  intros p l t e Hi Hw. assert (H : In e (map snd (filter (fun x => within (order_from p) (order_to p) (fst x)) l))).
  { change e with (snd (t, e)). apply in_map. apply filter_In. auto. }
  unfold in_sequence. destruct (qt_order p); auto. now apply in_rev in H.
Qed.

Lemma wanted_within : forall p e t, wanted p e -> order_ts p e = Some t -> within (order_from p) (order_to p) t = true.
Proof.
  intros p e t (_ & H1 & H2). unfold order_ts, order_from, order_to. destruct (qt_order_by p); [now intros [= <-]|]. intros E. now rewrite E in H2.
Qed.

Theorem final_C26_ts_direct : forall O cf trA q p trB es more s sA, disj_ok O ->
    execution O cf (trA ++ (OTs q p, Quiet) :: trB ++ [(ODeliver q, Answer (Some (QRes es more)))]) s -> execution O cf trA sA ->
    made (w_conf (watch_run cf trA)) -> ~ In q (queries_of trA) -> ~ In q (queries_of trB) ->
    let cfA := w_conf (watch_run cf trA) in
    0 <= ts_max cfA p ->
    NoDup (map ev_id es) /\
    exists n pt, chosen cfA (s_disk sA) p n pt /\
      (cuttable p (pending_in pt (pending_for p cf trA trB)) -> qt_last p = None ->
       forall en t, In en (w_all (watch_run cf trA)) -> belongs pt en t -> cf_cond cfA (en_ev en) = true -> wanted p (en_ev en) ->
         ~ In (n, t, ev_id (en_ev en)) (w_gone (watch_run cf (trA ++ (OTs q p, Quiet) :: trB))) ->
         In (en_ev en) es \/ (more = true /\ Z.of_nat (List.length es) = ts_max cfA p)).
Proof.
  intros O cf trA q p trB es more s sA Hdj Hx HA Hm Hn1 Hn2 cfA HM.
  destruct (final_C17 _ _ _ _ _ _ _ _ _ Hdj Hx HA Hm Hn1 Hn2 HM) as (_ & _ & _ & _ & _ & _ & _ & _ & (L0 & _ & E0 & HL0) & _).
  assert (Hnd : NoDup (map ev_id es)).
  { unfold page in E0. injection E0 as -> _. eapply sub_NoDup; [|exact HL0]. apply sub_map, sub_firstn. }
  split; auto.
  destruct (final_C26_ts _ _ _ _ _ _ _ _ _ Hdj Hx HA Hm Hn1 Hn2 HM) as (n & pt & l & A1 & A2 & A3 & A4 & A5). fold cfA in A1, A2, A5.
  exists n, pt. split; auto. intros Hc Hl en t Hi Hb Hcond Hw Hg. specialize (A2 Hc). destruct A2 as (L & (w & Hww & EL) & E & _).
  rewrite Hl in EL. cbn [following] in EL. specialize (A5 _ _ Hi Hb Hcond Hg).
  assert (HiL : In (en_ev en) L).
  { rewrite EL. apply filter_In. split; [|now apply Hww]. eapply sequence_In; [exact A5|]. eapply wanted_within; eauto.
    destruct A1 as (? & ? & _ & (Hpo & _) & _). eapply place_order_ts; eauto. apply Hb. }
  unfold page in E. injection E as -> ->. set (M := ts_max cfA p) in *.
  destruct (Z.ltb_spec M (Z.of_nat (List.length L))).
  - right. split; auto. rewrite firstn_length. lia.
  - left. rewrite firstn_all2; auto. lia.
Qed.
