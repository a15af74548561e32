(** LMDB backend: paging through timeseries queries while events are
    registered, flushed and removed. *)
From Coq Require Import String Bool ZArith Lia Sorted Permutation List.
From Verif Require Import Base Kv Model_Types Model_Subscription Model_Order Model_Codec Keys
  Spec_Order Spec_Codec Spec_Subscription Proof_Subscription Proof_Subscription2 Proof_Order Model_Lmdb Model_LmdbSys Spec_Lmdb Spec_LmdbContent
  Spec_LmdbQuery Spec_LmdbTs Spec_LmdbPages
  Proof_Lmdb1 Proof_Lmdb2 Proof_Lmdb3 Proof_Lmdb4 Proof_Lmdb5 Proof_Lmdb6 Proof_Lmdb7 Proof_Lmdb8 Proof_Lmdb9 Proof_Lmdb10 Proof_Lmdb11 Proof_Lmdb12
  Proof_Lmdb13 Proof_Lmdb14 Proof_Lmdb15 Proof_Lmdb16 Proof_Lmdb18 Proof_Lmdb19 Proof_Lmdb20 Proof_Lmdb21 Proof_Lmdb22.
Import ListNotations.
Open Scope list_scope.
Open Scope Z_scope.

(** ** The order *)

Lemma earlier_key : forall n t u i j, earlier t u i j = key_ltb (n, t, i) (n, u, j).
Proof. intros. unfold earlier, key_ltb. now rewrite Z.ltb_irrefl, Z.eqb_refl. Qed.

Lemma earlier_trans : forall t u v i j k, earlier t u i j = true -> earlier u v j k = true -> earlier t v i k = true.
Proof. intros t u v i j k. rewrite !(earlier_key 0). apply (otrans keyord). Qed.

Lemma earlier_irrefl : forall t i, earlier t t i i = false.
Proof. intros t i. rewrite (earlier_key 0). apply (oirrefl keyord). Qed.

Lemma precedes_trans : forall p a b c, precedes p a b -> precedes p b c -> precedes p a c.
Proof.
  intros p a b c (t & u & A1 & A2 & A3) (u' & v & B1 & B2 & B3). rewrite A2 in B1. injection B1 as <-.
  exists t, v. split; auto. split; auto. destruct (qt_order p); eapply earlier_trans; eauto.
Qed.

Lemma precedes_irrefl : forall p a, ~ precedes p a a.
Proof.
  intros p a (t & u & A1 & A2 & A3). rewrite A1 in A2. injection A2 as <-. destruct (qt_order p); rewrite earlier_irrefl in A3; discriminate.
Qed.

(** Entries in the order of keys. *)
Definition key_order (l : list (timestamp * event)) : Prop :=
  StronglySorted (fun a b => earlier (fst a) (fst b) (ev_id (snd a)) (ev_id (snd b)) = true) l.

Lemma key_order_in_order : forall l, key_order l -> in_order l.
Proof.
  intros l H. unfold key_order, in_order in *. induction H as [|x l H IH F]; constructor; auto.
  eapply Forall_impl; [|exact F]. intros y Hy. cbv beta in Hy. unfold earlier in Hy. apply orb_true_iff in Hy. rewrite ts_leb_lt.
  destruct Hy as [Hy|Hy]; auto. apply andb_true_iff in Hy as [Hy _]. apply ts_eqb_spec in Hy. auto.
Qed.

Lemma sequence_sorted : forall p pt l, pt_order pt = qt_order_by p -> placed pt l -> key_order l -> StronglySorted (precedes p) (in_sequence p l).
Proof.
  intros p pt l Hpo Hpl Hk. unfold in_sequence. set (f := filter _ l).
  assert (Hf : key_order f) by (apply SS_filter; auto).
  assert (Ho : forall x, In x f -> order_ts p (snd x) = Some (fst x)).
  { intros [t e] Hi. apply filter_In in Hi as [Hi _]. cbn [fst snd]. eapply place_order_ts; eauto. }
  destruct (qt_order p) eqn:Eo.
  - rewrite <- map_rev. apply (SS_map' _ _ snd (fun a b => earlier (fst b) (fst a) (ev_id (snd b)) (ev_id (snd a)) = true)).
    + intros a b Hia Hib Hab. rewrite <- in_rev in Hia, Hib. exists (fst a), (fst b). rewrite Eo. auto.
    + now apply (SS_rev _ _ f) in Hf.
  - apply (SS_map' _ _ snd (fun a b => earlier (fst a) (fst b) (ev_id (snd a)) (ev_id (snd b)) = true)); auto.
    intros a b Hia Hib Hab. exists (fst a), (fst b). rewrite Eo. auto.
Qed.

Lemma stored_key_order : forall d H K n, repr d H K -> key_order (stored_in d n).
Proof.
  intros d H K n Hr. pose proof (ksorted_SS _ _ keyord _ (dw_ts _ (ba_wf _ (rp_base _ _ _ Hr)))) as Hs. unfold key_order, stored_in.
  assert (Hid : forall kv, In kv (db_ts d) -> snd (fst kv) = ev_id (snd kv)).
  { intros [k e] Hi. apply (kget_In keyord) in Hi; [|apply (rp_base _ _ _ Hr)]. apply (ba_ts _ (rp_base _ _ _ Hr) _ _ Hi). }
  apply (SS_map' _ _ _ (fun a b => key_ltb (fst a) (fst b) = true)); [|now apply SS_filter].
  intros [[[m t] i] e] [[[m' u] j] f] Ha Hb. cbn [fst snd]. apply filter_In in Ha as [Ha' Ha], Hb as [Hb' Hb]. cbn [fst] in *.
  apply Z.eqb_eq in Ha, Hb. subst m m'. apply Hid in Ha', Hb'. cbn [fst snd] in *. subst i j. now rewrite (earlier_key n).
Qed.

Lemma le_lt_earlier : forall t u i j, ts_leb t u = true -> eid_ltb i j = true -> earlier t u i j = true.
Proof.
  intros t u i j H1 H2. unfold earlier. apply orb_true_iff. apply ts_leb_lt in H1 as [H1|H1]; auto. right. rewrite H2. subst.
  apply andb_true_iff. split; auto. now apply ts_eqb_spec.
Qed.

(** ** Entries a query looks at *)

Lemma entries_good : forall d H K n pt h cf, repr d H K -> hist_ok (H ++ h) -> Forall (fun en => en_conf en = cf) h ->
    kget zord n (db_parts d) = Some (part_data_of pt) -> wf (pt_sub pt) -> In pt (cf_parts cf) ->
    let l := seen (cf_cond cf) (stored_in d n) ++ pending_in pt h in
    (forall t e, In (t, e) l -> exists en, en_ev en = e /\ In en (H ++ h) /\ belongs pt en t /\ cf_cond cf e = true) /\
    NoDup (map (fun x => ev_id (snd x)) l) /\
    (forall en t, In en (H ++ h) -> belongs pt en t -> cf_cond cf (en_ev en) = true -> ~ In (n, t, ev_id (en_ev en)) K -> In (t, en_ev en) l) /\
    ((h = [] \/ (pt_order pt = TIMESTAMP /\ exists srv, forall en, In en (H ++ h) -> eid_server (ev_id (en_ev en)) = srv)) -> key_order l).
Proof.
  intros d H K n pt h cf Hr Ho Hc Hn Hwf Hpt l. rewrite Forall_forall in Hc.
  assert (Hst : forall t e, In (t, e) (stored_in d n) -> exists en, en_ev en = e /\ In en H /\ belongs pt en t).
  { intros t e Hi. apply (stored_In _ _ _ _ _ _ Hr) in Hi. apply (rp_ts _ _ _ Hr) in Hi as [(c & pt' & Hin & Hp' & Hk & Hp & _) _]. cbn [fst snd] in *.
    exists (Entry c e). split; auto. split; auto. assert (Ed : part_data_of pt' = part_data_of pt) by congruence. split.
    - exists pt'. auto.
    - cbn [en_ev]. rewrite <- Hp. apply part_data_place; auto. eapply nth_wf; eauto. apply (rp_conf _ _ _ Hr _ Hin). }
  split; [|split; [|split]].
  - intros t e Hi. unfold l in Hi. apply in_app_or in Hi as [Hi|Hi].
    + apply filter_In in Hi as [Hi Hcd]. apply Hst in Hi as (en & A & B & C). exists en. cbn [snd] in Hcd. rewrite in_app_iff. auto.
    + apply (proj1 (pending_In pt h t e)) in Hi as (A & en & B & C). exists en. split; auto. split; [apply in_or_app; auto|]. split.
      * split; [exists pt; rewrite (Hc _ B); auto|]. now rewrite C.
      * pose proof B as B'. apply in_split in B' as (h1 & h2 & E). specialize (Ho (H ++ h1) en h2). rewrite E, <- app_assoc in Ho.
        specialize (Ho eq_refl). rewrite (Hc _ B), C in Ho. unfold goes_on in Ho. now apply andb_prop in Ho.
  - now apply (entries_ok d H K n pt h (cf_cond cf)).
  - intros en t Hi ((pt' & Hp1 & Hp2) & Hpl) Hcd Hg. apply in_or_app. apply in_app_or in Hi as [Hi|Hi].
    + left. apply filter_In. split; auto. apply (stored_In _ _ _ _ _ _ Hr). apply (rp_ts _ _ _ Hr). split; auto.
      exists (en_conf en), pt'. cbn [fst snd]. split; [now destruct en|]. split; auto. split; [now rewrite Hp2|]. split; auto.
      rewrite <- Hpl. apply part_data_place; auto. eapply nth_wf; [apply (rp_conf _ _ _ Hr _ Hi)|exact Hp1].
    + right. apply pending_In. eauto.
  - intros [->|(Hpo & srv & Hsrv)].
    + unfold l. cbn [pending_in flat_map]. rewrite app_nil_r. apply SS_filter. eapply stored_key_order; eauto.
    + assert (Hall : forall a b t u, hist_ok (H ++ h) -> place pt (en_ev a) = Some t -> place pt (en_ev b) = Some u ->
                (exists H1 h1, H ++ h = H1 ++ h1 /\ In a H1 /\ In b h1) -> earlier t u (ev_id (en_ev a)) (ev_id (en_ev b)) = true).
      { intros a b t u _ Ha Hb (H1 & h1 & E & Ia & Ib).
        assert (Es : eid_server (ev_id (en_ev a)) = eid_server (ev_id (en_ev b))).
        { rewrite !Hsrv; auto; rewrite E; apply in_or_app; auto. }
        pose proof Ho as Ho'. rewrite E in Ho'.
        assert (Ht : ts_leb (ev_ts (en_ev a)) (ev_ts (en_ev b)) = true) by (eapply hist_ts_order; eauto).
        unfold place in Ha, Hb. rewrite Hpo in Ha, Hb. destruct (node_matches _ _); [|discriminate]. destruct (node_matches _ _); [|discriminate].
        injection Ha as <-. injection Hb as <-. apply le_lt_earlier; auto. eapply before_after; eauto. }
      apply SS_app.
      * apply SS_filter. eapply stored_key_order; eauto.
      * assert (Hgen : forall g1 g2, h = g1 ++ g2 -> key_order (pending_in pt g2)).
        { intros g1 g2. revert g1. induction g2 as [|en g2 IH]; intros g1 E; [constructor|].
          cbn [pending_in flat_map].
          assert (IH' : key_order (pending_in pt g2)) by (apply (IH (g1 ++ [en])); now rewrite <- app_assoc).
          destruct (place pt (en_ev en)) as [t|] eqn:Ep; [|exact IH']. cbn [app]. constructor; auto. apply Forall_forall. intros [u f] Hi.
          apply (proj1 (pending_In pt g2 u f)) in Hi as (A & en' & B & <-). cbn [fst snd]. apply Hall; auto.
          exists (H ++ g1 ++ [en]), g2. split; [rewrite E, <- !app_assoc; reflexivity|]. split; auto. rewrite !in_app_iff. cbn. auto. }
        now apply (Hgen [] h).
      * intros [t e] [u f] Ha Hb. apply filter_In in Ha as [Ha _]. apply Hst in Ha as (en & <- & A & _ & B).
        apply (proj1 (pending_In pt h u f)) in Hb as (C & en' & D & <-). cbn [fst snd]. apply Hall; auto. eauto.
Qed.

Lemma all_grows1 : forall o x w en, (forall c, o <> OReopen c) -> In en (w_all w) -> In en (w_all (watch_step w (o, x))).
Proof.
  intros o x w en Hn Hi. unfold w_all in *. destruct o; cbn [watch_step]; auto.
  - cbn [w_disk w_queue w_cur]. rewrite !in_app_iff in *. tauto.
  - cbn [w_disk w_queue w_cur]. rewrite concat_app. cbn [concat]. now rewrite !app_nil_r.
  - destruct x; auto. cbn [w_disk w_queue w_cur]. destruct (w_queue w) as [|h Q]; cbn [hd tl concat] in *; [now rewrite app_nil_r|].
    now rewrite <- !app_assoc in *.
  - exfalso. eapply Hn. reflexivity.
Qed.

Lemma all_grows : forall tr w en, no_reopen tr -> In en (w_all w) -> In en (w_all (fold_left watch_step tr w)).
Proof.
  induction tr as [|[o x] tr IH]; intros w en Hn Hi; cbn [fold_left]; auto. apply IH.
  - intros c y Hy. apply (Hn c y). now right.
  - apply all_grows1; auto. intros c ->. apply (Hn c x). now left.
Qed.

Lemma all_prefix1 : forall o x w, (forall c, o <> OReopen c) -> exists R, w_all (watch_step w (o, x)) = w_all w ++ R.
Proof.
  intros o x w Hn. unfold w_all. destruct o; cbn [watch_step]; try (exists []; now rewrite app_nil_r).
  - cbn [w_disk w_queue w_cur]. eexists. rewrite <- !app_assoc. reflexivity.
  - exists []. cbn [w_disk w_queue w_cur]. rewrite concat_app. cbn [concat]. now rewrite !app_nil_r.
  - exists []. rewrite app_nil_r. destruct x; auto. cbn [w_disk w_queue w_cur]. destruct (w_queue w) as [|h Q]; cbn [hd tl concat]; [now rewrite app_nil_r|].
    now rewrite <- !app_assoc.
  - exfalso. eapply Hn. reflexivity.
Qed.

Lemma all_prefix : forall tr w, no_reopen tr -> exists R, w_all (fold_left watch_step tr w) = w_all w ++ R.
Proof.
  induction tr as [|[o x] tr IH]; intros w Hn; cbn [fold_left]; [exists []; now rewrite app_nil_r|].
  destruct (IH (watch_step w (o, x))) as [R1 E1]; [intros c y Hy; apply (Hn c y); now right|].
  destruct (all_prefix1 o x w) as [R2 E2]; [intros c ->; apply (Hn c x); now left|].
  exists (R2 ++ R1). now rewrite E1, E2, app_assoc.
Qed.

Lemma skip_query : forall cf trA q p trB, watch_run cf (trA ++ (OTs q p, Quiet) :: trB) = watch_run cf (trA ++ trB).
Proof. intros. rewrite !watch_run_app. reflexivity. Qed.

Lemma pending_for_facts : forall O cf trA q p trB sA s1, execution O cf trA sA -> execution O cf (trA ++ (OTs q p, Quiet) :: trB) s1 -> no_reopen trB ->
    let wA := watch_run cf trA in let h := pending_for p cf trA trB in
    hist_ok (w_before wA ++ h) /\ (exists R, w_all (watch_run cf (trA ++ trB)) = (w_before wA ++ h) ++ R) /\
    Forall (fun en => en_conf en = w_conf wA) h /\ (forall en, In en (w_cur wA) -> In en h).
Proof.
  intros O cf trA q p trB sA s1 HA H1 Hnr wA h. pose proof (execution_inv _ _ _ _ HA) as HiA.
  assert (HsA : Forall (fun en => en_conf en = w_conf wA) (w_cur wA)).
  { pose proof (si_sess _ _ HiA) as Hf. now apply Forall_app in Hf as [_ Hf]. }
  unfold h, pending_for. destruct (qt_order p).
  - fold wA. rewrite <- w_all_before. split; [eapply all_ok; eauto|]. split; [|auto]. rewrite watch_run_app. now apply all_prefix.
  - assert (Hw : exists b1 b2 sX, trB = b1 ++ b2 /\ execution O cf (trA ++ (OTs q p, Quiet) :: b1) sX /\
                   pending_at wA trB = watch_run cf (trA ++ b1)).
    { destruct (pending_prefix trB wA) as (b1 & b2 & E1 & E2). exists b1, b2.
      assert (Hx1 : execution O cf ((trA ++ (OTs q p, Quiet) :: b1) ++ b2) s1) by (rewrite <- app_assoc; cbn [app]; now rewrite <- E1).
      destruct (execution_split _ _ _ _ _ Hx1) as (sX & HX & _). exists sX. split; auto. split; auto. rewrite E2, watch_run_app. reflexivity. }
    destruct Hw as (b1 & b2 & sX & E1 & HX & Ew). fold wA. rewrite Ew.
    destruct (gen_spec _ _ _ _ ((OTs q p, Quiet) :: trB) _ HA H1) as (_ & _ & G5 & G6 & _).
    { intros c x [Hi|Hi]; [discriminate|]. eapply Hnr; eauto. }
    cbn [pending_at watch_step] in G5, G6. fold wA in G5, G6. rewrite Ew in G5, G6.
    pose proof (execution_inv _ _ _ _ HX) as HiX. rewrite skip_query in HiX. rewrite <- G6, <- w_all_before.
    split; [eapply all_ok; eauto|]. split; [|split].
    + rewrite E1, app_assoc, watch_run_app. apply all_prefix; auto. rewrite E1 in Hnr. now apply no_reopen_app in Hnr.
    + pose proof (si_sess _ _ HiX) as Hf. apply Forall_app in Hf as [_ Hf]. now rewrite G5 in Hf.
    + intros en Hi. rewrite <- Ew. now apply pending_grows.
Qed.

(** What a page is made of. *)
Record page_ok (cf : conf) (n : Z) (pt : partition) (T T' : list (op * out)) (G : history) (l : list (timestamp * event)) : Prop := {
  po_after : exists R, w_all (watch_run cf T') = G ++ R;
  po_before : forall en, In en (w_all (watch_run cf T)) -> In en G;
  po_all : forall t e, In (t, e) l -> exists en, en_ev en = e /\ In en G /\ belongs pt en t /\ cf_cond (w_conf (watch_run cf T)) e = true;
  po_once : NoDup (map (fun x => ev_id (snd x)) l);
  po_none : forall en t, In en G -> belongs pt en t -> cf_cond (w_conf (watch_run cf T)) (en_ev en) = true ->
      ~ In (n, t, ev_id (en_ev en)) (w_gone (watch_run cf T')) -> In (t, en_ev en) l;
  po_order : key_order l }.

Definition calm (cf : conf) (p : query_timeseries) (trA trB : list (op * out)) : Prop :=
  (qt_order_by p = TIMESTAMP /\ exists srv, forall e, In e (events_of (trA ++ trB)) -> eid_server (ev_id e) = srv) \/
  pending_for p cf trA trB = [].

Lemma later_page : forall O cf trA q p trB a s sA, disj_ok O ->
    execution O cf (trA ++ (OTs q p, Quiet) :: trB ++ [(ODeliver q, a)]) s -> execution O cf trA sA ->
    made (w_conf (watch_run cf trA)) -> ~ In q (queries_of trA) -> ~ In q (queries_of trB) ->
    let cfA := w_conf (watch_run cf trA) in
    0 <= ts_max cfA p -> calm cf p trA trB ->
    exists n pt G l, chosen cfA (s_disk sA) p n pt /\ page_ok cf n pt trA (trA ++ trB) G l /\ ts_answer cfA p l a.
Proof.
  intros O cf trA q p trB a s sA Hdj Hx HA Hm Hn1 Hn2 cfA HM Hcalm.
  destruct (ts_core _ _ _ _ _ _ _ _ _ Hdj Hx HA Hm Hn1 Hn2) as (n & pt & trB1 & trB2 & s2 & s1 & A1 & A2 & A3 & A5 & _ & A6 & A7 & A8 & A4 & _).
  cbn zeta in A4. fold cfA in A1, A4. destruct A4 as (X1 & X2 & X3). specialize (X3 HM).
  pose proof A1 as (pa & pb & Ep & (Hpo & _) & _ & Hnp). pose proof (execution_inv _ _ _ _ HA) as HiA.
  apply (kget_In zord) in Hnp; [|apply (rp_psorted _ _ _ (si_repr _ _ HiA))]. rewrite <- A6 in Hnp.
  assert (Hpt : In pt (cf_parts cfA)) by (rewrite Ep; apply in_or_app; right; now left).
  assert (Hwf : wf (pt_sub pt)) by (eapply nth_wf; [apply (si_ok _ _ HiA)|auto]).
  pose proof (si_repr _ _ (execution_inv _ _ _ _ A3)) as Hr. rewrite A8 in Hr.
  destruct (pending_for_facts _ _ _ _ _ _ _ _ HA A5 A7) as (Ho & Hall & Hc & Hcur). cbn zeta in Ho, Hall, Hc, Hcur. fold cfA in Hc.
  set (h := pending_for p cf trA trB) in *.
  destruct (entries_good _ _ _ _ _ _ _ Hr Ho Hc Hnp Hwf Hpt) as (E1 & E2 & E3 & E4). cbn zeta in E1, E2, E3, E4.
  set (l := seen (cf_cond cfA) (stored_in (s_disk s2) n) ++ pending_in pt h) in *.
  assert (Hko : key_order l).
  { apply E4. destruct Hcalm as [[Hto (srv & Hsrv)]|Hcalm]; [right|left; exact Hcalm]. split; [congruence|]. exists srv. intros en Hi.
    apply Hsrv. apply (accepted_events cf (trA ++ trB)). destruct Hall as [R ->]. apply in_or_app. auto. }
  exists n, pt, (w_before (watch_run cf trA) ++ h), l. split; auto. split; [split|].
  - exact Hall.
  - intros en Hi. rewrite w_all_before in Hi. apply in_or_app. apply in_app_or in Hi as [Hi|Hi]; auto.
  - intros t e Hi. destruct (E1 t e Hi) as (en & B1 & B2 & B3 & B4). exists en. auto.
  - auto.
  - intros en t Hi Hb Hcd Hg. apply E3; auto.
    + intros Hk. apply Hg. rewrite skip_query in Hk. rewrite A2, app_assoc, watch_run_app. now apply gone_grows.
  - auto.
  - assert (Hcu : cuttable p (pending_in pt h)) by (left; apply key_order_in_order; unfold key_order, l in Hko; now apply SS_app_r in Hko).
    rewrite (looked_cut _ _ _ Hcu) in X3. eapply exact_answer; eauto.
Qed.

(** Answers at once come from pending entries. *)
Lemma at_once_pending : forall O cf trA q p es more s sA, disj_ok O ->
    execution O cf (trA ++ [(OTs q p, Answer (Some (QRes es more)))]) s -> execution O cf trA sA -> made (w_conf (watch_run cf trA)) ->
    forall n pt, chosen (w_conf (watch_run cf trA)) (s_disk sA) p n pt -> 1 <= ts_max (w_conf (watch_run cf trA)) p ->
    w_cur (watch_run cf trA) <> [].
Proof.
  intros O cf trA q p es more s sA Hdj Hx HA Hm n0 pt0 Hch0 HM.
  pose proof (execution_inv _ _ _ _ HA) as HiA. pose proof (si_conf _ _ HiA) as EcA. rewrite <- EcA in *.
  destruct (execution_split _ _ _ _ _ Hx) as (sA' & HA' & Hr & _). rewrite (execution_fun _ _ _ _ _ HA' HA) in Hr.
  inversion Hr as [|? ? ? s1 ? ? He Hr']; subst. cbn [exec] in He. injection He as He. unfold ts_query_step in He.
  pose proof (start_spec _ _ _ _ p Hdj HA Hm) as Hst.
  destruct (ts_query_start O (s_conf sA) (m_parts (s_mem sA)) p) as [[[sub max] [n|]]|].
  2: { destruct Hst as (_ & _ & H). exfalso. destruct Hch0 as (a & b & E & Hs & _). apply (H pt0); auto. rewrite E. apply in_or_app; right; now left. }
  2: { discriminate. }
  destruct Hst as (Hs & -> & pt & Hch). set (M := ts_max (s_conf sA) p) in *.
  pose proof Hch as (pa & pb & Ep & Hsu & _ & Hnp).
  assert (Hpt : In pt (cf_parts (s_conf sA))) by (rewrite Ep; apply in_or_app; right; now left).
  assert (HokA : conf_ok (s_conf sA)) by (rewrite EcA; apply (si_ok _ _ HiA)).
  apply (kget_In zord) in Hnp; [|apply (rp_psorted _ _ _ (si_repr _ _ HiA))].
  destruct (qt_order p) eqn:Eo; [|discriminate].
  set (f0 := Flt (qt_last p) (M + 1)) in *.
  destruct (query_pending (part_changes (ch_ts (s_cur sA)) n) p sub f0) as [es1 f] eqn:Eq.
  destruct (filter_done f) eqn:Ef; [|discriminate]. intros E0.
  assert (Epc : part_changes (ch_ts (s_cur sA)) n = pending_in pt (w_cur (watch_run cf trA))).
  { assert (HsesA : Forall (fun en => en_conf en = s_conf sA) (w_cur (watch_run cf trA))) by (rewrite E0; constructor).
    destruct (si_pend _ _ HiA) as [pls' Hp']. eapply part_changes_pending; [exact Hp'|exact HsesA|auto|auto|]. now rewrite written_parts. }
  rewrite Epc, E0 in Eq. cbn [pending_in flat_map] in Eq. rewrite query_pending_spec in Eq by easy.
  assert (Hl := fp_left p sub (scanned p []) f0). rewrite Eq in Hl. cbn [fst snd] in Hl.
  assert (Hsc : scanned p [] = []) by (unfold scanned; destruct (qt_order p); reflexivity). rewrite Hsc in Eq.
  destruct f0 as [la le] eqn:Ef0. cbn in Eq. injection Eq as <- <-. unfold f0 in Ef0. injection Ef0 as <- <-.
  unfold filter_done in Ef. cbn [f_left] in Ef. apply Z.ltb_lt in Ef. lia.
Qed.

Lemma once_page : forall O cf trA q p es more s sA, disj_ok O ->
    execution O cf (trA ++ [(OTs q p, Answer (Some (QRes es more)))]) s -> execution O cf trA sA ->
    made (w_conf (watch_run cf trA)) ->
    let cfA := w_conf (watch_run cf trA) in
    1 <= ts_max cfA p -> calm cf p trA [] ->
    ((forall pt, In pt (cf_parts cfA) -> ~ suits p pt) /\ es = [] /\ more = false) \/
    exists n pt G l, chosen cfA (s_disk sA) p n pt /\ page_ok cf n pt trA trA G l /\ ts_answer cfA p l (Answer (Some (QRes es more))).
Proof.
  intros O cf trA q p es more s sA Hdj Hx HA Hm cfA HM Hcalm.
  destruct (ts_immediate _ _ _ _ _ _ _ _ Hdj Hx HA Hm) as [H|[H|(n & pt & A1 & A2)]].
  { destruct H as (qs & _ & _ & E). discriminate. }
  { destruct H as [H E]. injection E as -> ->. auto. }
  right. destruct A2 as [A2|(Eo & A2 & _)]; [discriminate|]. fold cfA in A1, A2. 
  assert (HM0 : 0 <= ts_max cfA p) by lia. specialize (A2 HM0).
  pose proof A1 as (pa & pb & Ep & (Hpo & _) & _ & Hnp). pose proof (execution_inv _ _ _ _ HA) as HiA.
  apply (kget_In zord) in Hnp; [|apply (rp_psorted _ _ _ (si_repr _ _ HiA))].
  assert (Hpt : In pt (cf_parts cfA)) by (rewrite Ep; apply in_or_app; right; now left).
  assert (Hwf : wf (pt_sub pt)) by (eapply nth_wf; [apply (si_ok _ _ HiA)|auto]).
  pose proof (si_repr _ _ HiA) as Hr.
  assert (Hto : qt_order_by p = TIMESTAMP /\ exists srv, forall e, In e (events_of trA) -> eid_server (ev_id e) = srv).
  { destruct Hcalm as [Hcalm|Hcalm]; [now rewrite app_nil_r in Hcalm|]. exfalso. unfold pending_for in Hcalm. rewrite Eo in Hcalm.
    eapply at_once_pending; eauto. }
  destruct Hto as [Hto (srv & Hsrv)].
  set (w := watch_run cf trA) in *. set (h := concat (w_queue w) ++ w_cur w).
  assert (Eall : w_all w = w_disk w ++ h) by reflexivity.
  assert (Ho : hist_ok (w_disk w ++ h)) by (rewrite <- Eall; eapply all_ok; eauto).
  assert (Hc : Forall (fun en => en_conf en = cfA) h) by apply (si_sess _ _ HiA).
  destruct (entries_good _ _ _ _ _ _ _ Hr Ho Hc Hnp Hwf Hpt) as (E1 & E2 & E3 & E4). cbn zeta in E1, E2, E3, E4.
  set (l := seen (cf_cond cfA) (stored_in (s_disk sA) n) ++ pending_in pt h) in *.
  assert (Hko : key_order l).
  { apply E4. right. split; [congruence|]. exists srv. intros en Hi. apply Hsrv. apply (accepted_events cf trA). exact Hi. }
  set (D := seen (cf_cond cfA) (stored_in (s_disk sA) n) ++ pending_in pt (concat (w_queue w))).
  assert (El : l = D ++ pending_in pt (w_cur w)).
  { unfold l, D, h, pending_in. rewrite flat_map_app. now rewrite app_assoc. }
  exists n, pt, (w_disk w ++ h), l. split; auto. split; [split; auto|].
  { exists []. rewrite app_nil_r. exact Eall. }
  assert (Hcu : cuttable p (pending_in pt (w_cur w))).
  { left; apply key_order_in_order; unfold key_order in *. rewrite El in Hko. now apply SS_app_r in Hko. }
  specialize (A2 D). rewrite <- El in A2. specialize (A2 E2). rewrite (looked_cut _ _ _ Hcu), <- El in A2. eapply exact_answer; eauto.
  intros t e Hi. destruct (E1 t e Hi) as (en & <- & _ & (_ & B) & _). exact B.
Qed.

(** ** One page after another *)

Definition beyond (p : query_timeseries) (acc : list event) (e : event) : Prop := forall a x, acc = a ++ [x] -> precedes p x e.

Lemma last_received_snoc : forall last a x, last_received last (a ++ [x]) = Some (ev_id x).
Proof. intros. unfold last_received. now rewrite rev_app_distr. Qed.

Lemma last_received_app : forall a b, last_received (last_received None a) b = last_received None (a ++ b).
Proof.
  intros a b. destruct b as [|y b] using rev_ind; [now rewrite app_nil_r|]. now rewrite app_assoc, !last_received_snoc.
Qed.

Lemma SS_app_l : forall (A : Type) (R : A -> A -> Prop) a b, StronglySorted R (a ++ b) -> StronglySorted R a.
Proof.
  induction a as [|x a IH]; intros b H; [constructor|]. cbn [app] in H. inversion H as [|? ? S F]; subst. constructor; eauto.
  apply Forall_app in F. tauto.
Qed.

Lemma page_step : forall p last acc S w M es, StronglySorted (precedes p) S -> NoDup (map ev_id S) -> (1 <= M)%nat ->
    StronglySorted (precedes p) acc -> last = last_received None acc ->
    (forall x y, In x acc -> In y S -> ev_id x = ev_id y -> x = y) ->
    let L := filter w (following last S) in
    es = firstn M L ->
    StronglySorted (precedes p) (acc ++ es) /\ (forall e, In e es -> In e S /\ w e = true) /\
    forall e, In e S -> w e = true -> (forall i, last = Some i -> In i (map ev_id S)) -> beyond p acc e ->
      In e (acc ++ es) \/ ((M < List.length L)%nat /\ beyond p (acc ++ es) e).
Proof.
  intros p last acc S w M es HS Hn HM Ha El Hinj L Ees.
  assert (Hin : forall e, In e L -> In e S /\ w e = true).
  { intros e Hi. unfold L in Hi. apply filter_In in Hi as [Hi Hw]. split; auto. destruct last as [i|]; auto. cbn [following] in Hi.
    eapply behind_incl; eauto. }
  assert (HL : StronglySorted (precedes p) L).
  { unfold L. apply SS_filter. destruct (following_suffix last S) as (b & [E|E]).
    - rewrite E in HS. eapply SS_app_r; eauto.
    - rewrite E. constructor. }
  assert (Hes : StronglySorted (precedes p) es).
  { rewrite Ees. eapply SS_app_l. rewrite firstn_skipn. exact HL. }
  assert (Hcut : forall a x, acc = a ++ [x] -> (exists S1 S2, S = S1 ++ x :: S2 /\ following last S = S2) \/ (~ In (ev_id x) (map ev_id S) /\ L = [])).
  { intros a x E. rewrite E, last_received_snoc in El. unfold L. rewrite El. cbn [following].
    assert (Hx : forall y, In y S -> ev_id y = ev_id x -> x = y).
    { intros y Hy Ey. apply Hinj; auto. rewrite E. apply in_or_app. right. now left. }
    clear - Hn Hx. destruct (in_dec (fun i j => match eid_eqb i j as b return eid_eqb i j = b -> {i = j} + {i <> j} with
        | true => fun E => left (proj1 (eid_eqb_spec i j) E)
        | false => fun E => right (fun F => eq_true_false_abs _ (proj2 (eid_eqb_spec i j) F) E) end eq_refl) (ev_id x) (map ev_id S)) as [Hi|Hi].
    - left. apply in_map_iff in Hi as (y & Ey & Hy). assert (x = y) by auto. subst y. apply in_split in Hy as (S1 & S2 & ->).
      exists S1, S2. split; auto. now apply behind_at.
    - right. split; auto. assert (E : behind (ev_id x) S = []).
      { clear - Hi. induction S as [|y S IH]; auto. cbn [behind]. cbn [map In] in Hi. destruct (eid_eqb (ev_id y) (ev_id x)) eqn:E.
        - apply eid_eqb_spec in E. tauto.
        - apply IH. tauto. }
      now rewrite E. }
  split; [|split].
  - destruct acc as [|x a] using rev_ind; [exact Hes|]. clear IHa.
    apply SS_app; auto. intros y e Hy He.
    assert (Hxe : precedes p x e).
    { rewrite Ees in He. apply (sub_In _ _ _ _ (sub_firstn _ _ _)) in He.
      destruct (Hcut a x eq_refl) as [(S1 & S2 & E1 & E2)|[_ E]]; [|rewrite E in He; easy].
      unfold L in He. rewrite E2 in He. apply filter_In in He as [He _]. rewrite E1 in HS.
      change (x :: S2) with ([x] ++ S2) in HS. rewrite app_assoc in HS. eapply SS_app_lt; [exact HS|apply in_or_app; right; now left|auto]. }
    apply in_app_or in Hy as [Hy|[<-|[]]]; auto. eapply precedes_trans; [|exact Hxe]. eapply SS_app_lt; [exact Ha|auto|now left].
  - intros e Hi. apply Hin. rewrite Ees in Hi. now apply (sub_In _ _ _ _ (sub_firstn _ _ _)) in Hi.
  - intros e Hi Hw Hk Hb.
    assert (HeL : In e L).
    { destruct acc as [|x a] using rev_ind.
      - unfold L. rewrite El. cbn. apply filter_In. auto.
      - clear IHa. destruct (Hcut a x eq_refl) as [(S1 & S2 & E1 & E2)|[E _]].
        + unfold L. rewrite E2. apply filter_In. split; auto. specialize (Hb a x eq_refl). rewrite E1 in Hi, HS.
          apply in_app_or in Hi as [Hi|[<-|Hi]]; auto.
          * exfalso. apply (precedes_irrefl p x). eapply precedes_trans; [exact Hb|]. eapply SS_app_lt; [exact HS|auto|now left].
          * exfalso. now apply (precedes_irrefl p x).
        + exfalso. apply E. apply Hk. now rewrite El, last_received_snoc. }
    rewrite <- (firstn_skipn M L), <- Ees in HeL, HL. apply in_app_or in HeL as [HeL|HeL]; [left; apply in_or_app; auto|]. right.
    assert (Hlen : (M < List.length L)%nat).
    { destruct (Nat.lt_ge_cases M (List.length L)); auto. rewrite skipn_all2 in HeL by auto. easy. }
    split; auto. intros b y E. destruct es as [|z es'] using rev_ind.
    + exfalso. destruct L; cbn [List.length] in Hlen; [lia|]. destruct M; [lia|]. discriminate.
    + clear IHes'. rewrite app_assoc in E. apply app_inj_tail in E as [_ <-]. eapply SS_app_lt; [exact HL|apply in_or_app; right; now left|auto].
Qed.

Lemma pages_extend : forall cf p tr0 tr last acc more pgs, ts_pages cf p tr0 tr last acc more pgs -> exists X, tr = tr0 ++ X /\ no_reopen X.
Proof.
  intros cf p tr0 tr last acc more pgs H.
  induction H as [|tr last acc pgs trA q max trB es more H IH HA HB _ _ _ _|tr last acc pgs trA q max es more H IH HA _].
  - exists []. split; [now rewrite app_nil_r|]. intros c x [].
  - destruct IH as (X & -> & HX). eexists. split; [rewrite <- app_assoc; reflexivity|].
    apply no_reopen_app. split; auto. apply no_reopen_app. split; auto.
    intros c x [[=]|Hi]. apply in_app_or in Hi as [Hi|[[=]|[]]]. now apply (HB c x).
  - destruct IH as (X & -> & HX). eexists. split; [rewrite <- app_assoc; reflexivity|].
    apply no_reopen_app. split; auto. apply no_reopen_app. split; auto. intros c x [[=]|[]].
Qed.

Lemma chosen_stays : forall O cf tr0 X s0 s p n pt, execution O cf tr0 s0 -> execution O cf (tr0 ++ X) s -> no_reopen X ->
    chosen (w_conf (watch_run cf tr0)) (s_disk s0) p n pt <-> chosen (w_conf (watch_run cf (tr0 ++ X))) (s_disk s) p n pt.
Proof.
  intros O cf tr0 X s0 s p n pt H0 H HX. destruct (gen_spec _ _ _ _ _ _ H0 H HX) as (_ & E & _).
  rewrite watch_run_app, conf_stays by auto. unfold chosen. now rewrite E.
Qed.

(** New events come last. *)
Definition growing (p : query_timeseries) (tr : list (op * out)) : Prop :=
  qt_order p = ASCENDING /\ qt_order_by p = TIMESTAMP /\ exists srv, forall e, In e (events_of tr) -> eid_server (ev_id e) = srv.

Lemma growing_app : forall p a b, growing p (a ++ b) -> growing p a.
Proof.
  intros p a b (A & B & srv & C). split; auto. split; auto. exists srv. intros e Hi. apply C. rewrite events_of_app. apply in_or_app. auto.
Qed.

Lemma precedes_hist : forall cf p tr G R a b, growing p tr -> hist_ok (G ++ R) -> w_all (watch_run cf tr) = G ++ R -> In a G -> In b R ->
    precedes p (en_ev a) (en_ev b).
Proof.
  intros cf p tr G R a b (A & B & srv & C) Ho E Ha Hb.
  assert (Es : eid_server (ev_id (en_ev a)) = eid_server (ev_id (en_ev b))).
  { rewrite !C; auto; apply (accepted_events cf); rewrite E; apply in_or_app; auto. }
  exists (ev_ts (en_ev a)), (ev_ts (en_ev b)). unfold order_ts. rewrite A, B. split; auto. split; auto.
  apply le_lt_earlier; [eapply hist_ts_order; eauto|eapply before_after; eauto].
Qed.

Definition pages_inv (cf : conf) (p : query_timeseries) (tr0 : list (op * out)) (n : Z) (pt : partition)
    (tr : list (op * out)) (last : option event_id) (acc : list event) (more : bool) (pgs : list ts_page) : Prop :=
  let cfA := w_conf (watch_run cf tr0) in
  StronglySorted (precedes p) acc /\ last = last_received None acc /\
  (forall e, In e acc -> wanted p e /\ exists en t, en_ev en = e /\ In en (w_all (watch_run cf tr)) /\ belongs pt en t /\ cf_cond cfA e = true) /\
  (lasts_kept cf n pgs -> forall en t, In en (w_all (watch_run cf tr0)) -> belongs pt en t -> cf_cond cfA (en_ev en) = true -> wanted p (en_ev en) ->
     ~ In (n, t, ev_id (en_ev en)) (w_gone (watch_run cf tr)) ->
     In (en_ev en) acc \/ (more = true /\ beyond p acc (en_ev en))) /\
  (growing p tr -> lasts_kept cf n pgs ->
     forall en t, In en (w_all (watch_run cf tr)) -> belongs pt en t -> cf_cond cfA (en_ev en) = true -> wanted p (en_ev en) ->
     ~ In (n, t, ev_id (en_ev en)) (w_gone (watch_run cf tr)) ->
     (In (en_ev en) acc \/ beyond p acc (en_ev en)) /\
     forall pgs' pg, pgs = pgs' ++ [pg] -> In en (w_all (watch_run cf (pg_before pg))) -> more = false -> In (en_ev en) acc).

(** The step. *)
Lemma pages_step : forall O cf p tr0 n pt X trA Y T' last acc pgs max G l es more s,
    let T := (tr0 ++ X) ++ trA in let cfA := w_conf (watch_run cf tr0) in
    pages_inv cf p tr0 n pt (tr0 ++ X) last acc true pgs -> no_reopen X -> no_reopen trA -> no_reopen Y ->
    execution O cf (T ++ Y) s -> pt_order pt = qt_order_by p ->
    watch_run cf (T ++ Y) = watch_run cf T' ->
    1 <= ts_max cfA (ask_page p last max) -> page_ok cf n pt T T' G l -> ts_answer cfA (ask_page p last max) l (Answer (Some (QRes es more))) ->
    forall trB, watch_run cf T' = watch_run cf (T ++ trB) ->
    pages_inv cf p tr0 n pt (T ++ Y) (last_received last es) (acc ++ es) more (pgs ++ [TsPage last T trB]).
Proof.
  intros O cf p tr0 n pt X trA Y T' last acc pgs max G l es more s T cfA (I1 & I2 & I3 & I4 & I5) HX HA HY Hx Hpo EY HM [P5 P6 P1 P2 P3 P4]
    (L & (w & Hw & EL) & Ea & _) trB ET.
  fold cfA in I3, I4, I5. unfold page in Ea. injection Ea as Ees Emore. set (M := ts_max cfA (ask_page p last max)) in *.
  assert (EcT : w_conf (watch_run cf T) = cfA) by (unfold T; now rewrite <- app_assoc, watch_run_app, conf_stays by (apply no_reopen_app; auto)).
  rewrite EcT in P1, P3.
  assert (Hpl : placed pt l). { intros t e Hi. destruct (P1 t e Hi) as (en & <- & _ & (_ & B) & _). exact B. }
  set (S := in_sequence p l) in *. change (in_sequence (ask_page p last max) l) with S in EL. cbn [ask_page qt_last] in EL.
  assert (HS : StronglySorted (precedes p) S) by (eapply sequence_sorted; eauto).
  assert (HnS : NoDup (map ev_id S)).
  { eapply sub_NoDup; [apply sub_map, in_sequence_sub|]. unfold arranged. destruct (qt_order p); [rewrite map_rev; apply NoDup_rev|]; now rewrite map_map. }
  assert (HSl : forall e, In e S -> exists t, In (t, e) l).
  { intros e Hi. apply (sub_In _ _ _ _ (in_sequence_sub p l)) in Hi. unfold arranged in Hi.
    assert (Hi' : In e (map snd l)) by (destruct (qt_order p); [now apply in_rev|auto]). apply in_map_iff in Hi' as ([t e'] & <- & Hi'). eauto. }
  assert (HaccT : forall en, In en (w_all (watch_run cf (tr0 ++ X))) -> In en (w_all (watch_run cf T))).
  { intros en Hi. unfold T. rewrite watch_run_app. now apply all_grows. }
  assert (HgoneT : forall k, In k (w_gone (watch_run cf (tr0 ++ X))) -> In k (w_gone (watch_run cf (T ++ Y)))).
  { intros k Hi. unfold T. rewrite <- app_assoc, watch_run_app. now apply gone_grows. }
  assert (HTY : forall en, In en (w_all (watch_run cf T)) -> In en (w_all (watch_run cf (T ++ Y)))).
  { intros en Hi. rewrite watch_run_app. now apply all_grows. }
  assert (Ho : hist_ok (w_all (watch_run cf (T ++ Y)))) by (eapply all_ok, execution_inv; eauto).
  rewrite <- EY in P5, P3. destruct P5 as [R ER]. rewrite ER in Ho.
  assert (HG : forall en, In en G -> In en (w_all (watch_run cf (T ++ Y)))) by (intros; rewrite ER; apply in_or_app; auto).
  assert (Hinj : forall x y, In x acc -> In y S -> ev_id x = ev_id y -> x = y).
  { intros x y Hxi Hyi E. destruct (I3 x Hxi) as (_ & en & t & <- & A & _). destruct (HSl y Hyi) as (u & B).
    destruct (P1 _ _ B) as (en' & <- & C & _). f_equal. rewrite <- ER in Ho. eapply hist_id_inj; eauto. }
  assert (HM' : (1 <= Z.to_nat M)%nat) by lia.
  destruct (page_step p last acc S w (Z.to_nat M) es HS HnS HM' I1 I2 Hinj) as (R1 & R2 & R3); [now rewrite Ees, EL|].
  rewrite <- EL in R3.
  assert (Hlast : lasts_kept cf n (pgs ++ [TsPage last T trB]) -> forall i, last = Some i -> In i (map ev_id S)).
  { intros Hk i E. rewrite I2 in E. destruct acc as [|x a _] using rev_ind; [discriminate|]. rewrite last_received_snoc in E. injection E as <-.
    destruct (I3 x) as (Wx & ex & u & <- & A & B & C); [apply in_or_app; right; now left|]. apply in_map.
    eapply sequence_In; [apply P3 with (t := u)|]; auto.
    * specialize (Hk (TsPage last T trB) (ev_id (en_ev ex)) u). cbn [pg_last pg_before pg_during] in Hk. rewrite <- ET, <- EY in Hk. apply Hk.
      -- apply in_or_app. right. now left.
      -- rewrite I2. apply last_received_snoc.
    * eapply wanted_within; eauto. eapply place_order_ts; eauto. apply B. }
  assert (Hk' : lasts_kept cf n (pgs ++ [TsPage last T trB]) -> lasts_kept cf n pgs).
  { intros Hk pg i u Hpg. apply Hk. apply in_or_app. auto. }
  assert (HSin : forall en t, In en G -> belongs pt en t -> cf_cond cfA (en_ev en) = true -> wanted p (en_ev en) ->
            ~ In (n, t, ev_id (en_ev en)) (w_gone (watch_run cf (T ++ Y))) -> In (en_ev en) S).
  { intros en t Hi Hb Hc Hwn Hg. assert (Hel : In (t, en_ev en) l) by (apply P3; auto).
    eapply sequence_In; [exact Hel|]. eapply wanted_within; eauto. eapply place_order_ts; eauto. }
  unfold pages_inv. fold cfA. split; [auto|]. split; [|split; [|split]].
  - rewrite I2. apply last_received_app.
  - intros e Hi. apply in_app_or in Hi as [Hi|Hi].
    + destruct (I3 e Hi) as (A & en & t & B & C & D). split; auto. exists en, t. auto.
    + destruct (R2 e Hi) as [A B]. split; [now apply Hw|]. destruct (HSl e A) as (t & C). destruct (P1 _ _ C) as (en & D1 & D2 & D3 & D4).
      exists en, t. auto.
  - intros Hk en t Hi Hb Hc Hwn Hg.
    assert (HiT : In en (w_all (watch_run cf T))). { unfold T. rewrite <- app_assoc, watch_run_app. apply all_grows; auto. apply no_reopen_app; auto. }
    destruct (I4 (Hk' Hk) en t Hi Hb Hc Hwn) as [H|[_ H]]; [auto|left; apply in_or_app; auto|].
    destruct (R3 (en_ev en)) as [H'|[H' H'']]; eauto.
    + now apply Hw.
    + right. split; auto. rewrite Emore. apply Z.ltb_lt. lia.
  - intros Hgr Hk en t Hi Hb Hc Hwn Hg.
    assert (HaccG : forall x, In x acc -> exists ex, en_ev ex = x /\ In ex (w_all (watch_run cf (tr0 ++ X)))).
    { intros x Hxi. destruct (I3 x Hxi) as (_ & ex & u & A & B & _). eauto. }
    assert (Hbey : In (en_ev en) acc \/ beyond p acc (en_ev en)).
    { destruct (all_prefix (trA ++ Y) (watch_run cf (tr0 ++ X))) as [R' E']; [apply no_reopen_app; auto|].
      rewrite <- watch_run_app, app_assoc in E'. fold T in E'. rewrite E' in Hi. apply in_app_or in Hi as [Hi|Hi].
      - apply (I5 (growing_app _ _ _ (growing_app _ _ _ Hgr)) (Hk' Hk) en t); auto.
      - right. intros a x E. destruct (HaccG x) as (ex & <- & A); [rewrite E; apply in_or_app; right; now left|].
        apply (precedes_hist cf p (T ++ Y) (w_all (watch_run cf (tr0 ++ X))) R'); auto. rewrite <- E', ER. exact Ho. }
    assert (Hin : In en G -> In (en_ev en) (acc ++ es) \/ (more = true /\ beyond p (acc ++ es) (en_ev en))).
    { intros HiG. destruct Hbey as [H|H]; [left; apply in_or_app; auto|].
      destruct (R3 (en_ev en)) as [H'|[H' H'']]; eauto.
      - now apply Hw.
      - right. split; auto. rewrite Emore. apply Z.ltb_lt. lia. }
    split.
    + pose proof Hi as Hi'. rewrite ER in Hi'. apply in_app_or in Hi' as [HiG|HiR]; [destruct (Hin HiG) as [H|[_ H]]; auto|].
      destruct Hbey as [H|H]; [left; apply in_or_app; auto|]. right. intros b y E. destruct es as [|z es' _] using rev_ind.
      * rewrite app_nil_r in E. apply (H b y E).
      * rewrite app_assoc in E. apply app_inj_tail in E as [_ <-]. destruct (R2 z) as [A _]; [apply in_or_app; right; now left|].
        destruct (HSl z A) as (u & B). destruct (P1 _ _ B) as (ez & <- & C & _). eapply (precedes_hist cf p (T ++ Y)); eauto.
    + intros pgs' pg E HiP Hf. apply app_inj_tail in E as [_ <-]. cbn [pg_before] in HiP. destruct (Hin (P6 _ HiP)) as [H|[H _]]; auto. congruence.
Qed.

Lemma pages_core : forall O cf p tr0 s0, disj_ok O -> execution O cf tr0 s0 -> made (w_conf (watch_run cf tr0)) ->
    forall tr last acc more pgs s, ts_pages cf p tr0 tr last acc more pgs -> execution O cf tr s -> orderly cf p tr pgs ->
    ((forall pt, In pt (cf_parts (w_conf (watch_run cf tr0))) -> ~ suits p pt) -> acc = []) /\
    (pgs <> [] -> (forall pt, In pt (cf_parts (w_conf (watch_run cf tr0))) -> ~ suits p pt) \/
       exists n pt, chosen (w_conf (watch_run cf tr0)) (s_disk s0) p n pt) /\
    forall n pt, chosen (w_conf (watch_run cf tr0)) (s_disk s0) p n pt -> pages_inv cf p tr0 n pt tr last acc more pgs.
Proof.
  intros O cf p tr0 s0 Hdj H0 Hm tr last acc more pgs s Hp. revert s.
  pose proof (execution_inv _ _ _ _ H0) as Hi0.
  assert (Hns : forall n pt, chosen (w_conf (watch_run cf tr0)) (s_disk s0) p n pt ->
            ~ (forall pt, In pt (cf_parts (w_conf (watch_run cf tr0))) -> ~ suits p pt)).
  { intros n pt (a & b & E & Hs & _) H. apply (H pt); auto. rewrite E. apply in_or_app. right. now left. }
  induction Hp as [|tr last acc pgs trA q max trB es more H IH HA HB HM Hq1 Hq2 Hq3|tr last acc pgs trA q max es more H IH HA HM]; intros s Hx Hor.
  - split; auto. split; [now intros []|]. intros n pt Hch. split; [constructor|]. split; auto. split; [easy|]. split.
    + intros _ en t _ _ _ _ _. right. split; auto. intros [|] x [=].
    + intros _ _ en t _ _ _ _ _. split; [right; intros [|] x [=]|]. intros [|] x [=].
  - destruct (pages_extend _ _ _ _ _ _ _ _ H) as (X & -> & HX). pose proof Hx as Hx'.
    rewrite app_assoc in Hx'. destruct (execution_split _ _ _ _ _ Hx') as (sA & HxA & _). 
    destruct (execution_split _ _ _ _ _ HxA) as (s1 & Hx1 & _).
    destruct (IH _ Hx1) as (J1 & J2 & J3).
    { destruct Hor as [[Ht (srv & Hs)]|Hor]; [left; split; auto; exists srv; intros e Hi; apply Hs; rewrite events_of_app; apply in_or_app; auto|].
      right. intros pg Hi. apply Hor. apply in_or_app. auto. }
    set (T := (tr0 ++ X) ++ trA) in *.
    assert (HXA : no_reopen (X ++ trA)) by (apply no_reopen_app; auto).
    assert (EcT : w_conf (watch_run cf T) = w_conf (watch_run cf tr0)) by (unfold T; rewrite <- app_assoc, watch_run_app, conf_stays; auto).
    assert (HmT : made (w_conf (watch_run cf T))) by (now rewrite EcT).
    assert (HqT : ~ In q (queries_of T)).
    { unfold T. unfold queries_of in *. rewrite flat_map_app. intros Hi. apply in_app_or in Hi as [Hi|Hi]; auto. }
    assert (Hcalm : calm cf (ask_page p last max) T trB).
    { destruct Hor as [[Ht (srv & Hs)]|Hor].
      - left. split; auto. exists srv. intros e Hi. apply Hs. unfold T in Hi.
        rewrite !events_of_app in *. change (events_of ((OTs q (ask_page p last max), Quiet) :: trB ++ [(ODeliver q, Answer (Some (QRes es more)))]))
          with (events_of (trB ++ [(ODeliver q, Answer (Some (QRes es more)))])). rewrite !events_of_app. rewrite !in_app_iff in *. tauto.
      - right. apply (Hor (TsPage last T trB)). apply in_or_app. right. now left. }
    assert (HMT : 1 <= ts_max (w_conf (watch_run cf T)) (ask_page p last max)) by (now rewrite EcT).
    destruct (later_page _ _ _ _ _ _ _ _ _ Hdj Hx' HxA HmT HqT Hq3) as (n & pt & G & l & A1 & A2 & A3); [lia|auto|].
    change (chosen (w_conf (watch_run cf T)) (s_disk sA) p n pt) in A1.
    assert (A1' : chosen (w_conf (watch_run cf tr0)) (s_disk s0) p n pt).
    { apply (chosen_stays O cf tr0 (X ++ trA) s0 sA); auto; rewrite app_assoc; auto. }
    rewrite EcT in A3.
    split; [intros Hno; destruct (Hns _ _ A1' Hno)|]. split; [intros _; right; eauto|].
    intros n' pt' Hch. destruct (chosen_fun _ _ _ _ _ _ _ _ _ (si_repr _ _ Hi0) A1' Hch) as [-> ->].
    rewrite app_assoc. change ((tr0 ++ X) ++ trA) with T.
    set (Y := (OTs q (ask_page p last max), Quiet) :: trB ++ [(ODeliver q, Answer (Some (QRes es more)))]) in *.
    assert (EY : watch_run cf (T ++ Y) = watch_run cf (T ++ trB)).
    { unfold Y. rewrite skip_query, app_assoc, watch_run_app. reflexivity. }
    eapply (pages_step O cf p tr0 n' pt' X trA Y (T ++ trB) last acc pgs max G l es more s); auto.
    + unfold Y. intros c x [[=]|Hi]. apply in_app_or in Hi as [Hi|[[=]|[]]]. now apply (HB c x).
    + destruct Hch as (? & ? & _ & (Hpo & _) & _). exact Hpo.
  - destruct (pages_extend _ _ _ _ _ _ _ _ H) as (X & -> & HX). pose proof Hx as Hx'.
    rewrite app_assoc in Hx'. destruct (execution_split _ _ _ _ _ Hx') as (sA & HxA & _). 
    destruct (execution_split _ _ _ _ _ HxA) as (s1 & Hx1 & _).
    destruct (IH _ Hx1) as (J1 & J2 & J3).
    { destruct Hor as [[Ht (srv & Hs)]|Hor]; [left; split; auto; exists srv; intros e Hi; apply Hs; rewrite events_of_app; apply in_or_app; auto|].
      right. intros pg Hi. apply Hor. apply in_or_app. auto. }
    set (T := (tr0 ++ X) ++ trA) in *.
    assert (HXA : no_reopen (X ++ trA)) by (apply no_reopen_app; auto).
    assert (EcT : w_conf (watch_run cf T) = w_conf (watch_run cf tr0)) by (unfold T; rewrite <- app_assoc, watch_run_app, conf_stays; auto).
    assert (HmT : made (w_conf (watch_run cf T))) by (now rewrite EcT).
    assert (Hcalm : calm cf (ask_page p last max) T []).
    { destruct Hor as [[Ht (srv & Hs)]|Hor].
      - left. split; auto. exists srv. intros e Hi. apply Hs. rewrite app_nil_r in Hi. unfold T in Hi.
        rewrite !events_of_app in *. rewrite !in_app_iff in *. tauto.
      - right. apply (Hor (TsPage last T [])). apply in_or_app. right. now left. }
    assert (HMT : 1 <= ts_max (w_conf (watch_run cf T)) (ask_page p last max)) by (now rewrite EcT).
    destruct (once_page _ _ _ _ _ _ _ _ _ Hdj Hx' HxA HmT HMT Hcalm) as [(Hno & -> & ->)|(n & pt & G & l & A1 & A2 & A3)].
    + rewrite EcT in Hno. change (forall pt, In pt (cf_parts (w_conf (watch_run cf tr0))) -> ~ suits p pt) in Hno.
      split; [intros _; rewrite app_nil_r; auto|]. split; [auto|]. intros n pt Hch. destruct (Hns _ _ Hch Hno).
    + change (chosen (w_conf (watch_run cf T)) (s_disk sA) p n pt) in A1.
      assert (A1' : chosen (w_conf (watch_run cf tr0)) (s_disk s0) p n pt).
      { apply (chosen_stays O cf tr0 (X ++ trA) s0 sA); auto; rewrite app_assoc; auto. }
      rewrite EcT in A3.
      split; [intros Hno; destruct (Hns _ _ A1' Hno)|]. split; [intros _; right; eauto|].
      intros n' pt' Hch. destruct (chosen_fun _ _ _ _ _ _ _ _ _ (si_repr _ _ Hi0) A1' Hch) as [-> ->].
      rewrite app_assoc. change ((tr0 ++ X) ++ trA) with T.
      set (Y := [(OTs q (ask_page p last max), Answer (Some (QRes es more)))]) in *.
      assert (EY : watch_run cf (T ++ Y) = watch_run cf T) by (rewrite watch_run_app; reflexivity).
      eapply (pages_step O cf p tr0 n' pt' X trA Y T last acc pgs max G l es more s); auto.
      * intros c x [[=]|[]].
      * destruct Hch as (? & ? & _ & (Hpo & _) & _). exact Hpo.
      * now rewrite app_nil_r.
Qed.

Theorem final_C71 : forall O cf p tr0 s0 tr last acc more pgs s, disj_ok O -> execution O cf tr0 s0 -> made (w_conf (watch_run cf tr0)) ->
    ts_pages cf p tr0 tr last acc more pgs -> execution O cf tr s -> orderly cf p tr pgs ->
    let cfA := w_conf (watch_run cf tr0) in
    StronglySorted (precedes p) acc /\ (forall e, In e acc -> wanted p e /\ In e (events_of tr)) /\
    (more = false ->
      ((forall pt, In pt (cf_parts cfA) -> ~ suits p pt) /\ acc = []) \/
      exists n pt, chosen cfA (s_disk s0) p n pt /\
        (lasts_kept cf n pgs -> forall en t, In en (w_all (watch_run cf tr0)) -> belongs pt en t -> cf_cond cfA (en_ev en) = true ->
           wanted p (en_ev en) -> ~ In (n, t, ev_id (en_ev en)) (w_gone (watch_run cf tr)) -> In (en_ev en) acc)).
Proof.
  intros O cf p tr0 s0 tr last acc more pgs s Hdj H0 Hm Hp Hx Hor cfA.
  destruct (pages_core _ _ _ _ _ Hdj H0 Hm _ _ _ _ _ _ Hp Hx Hor) as (J1 & J2 & J3). fold cfA in J1, J2, J3.
  assert (Hcase : pgs = [] \/ pgs <> []) by (destruct pgs; [auto|right; discriminate]).
  destruct Hcase as [E|E].
  - assert (Hs : acc = [] /\ more = true) by (inversion Hp; subst; auto; destruct pgs0; discriminate). destruct Hs as [-> ->].
    split; [constructor|]. split; [easy|discriminate].
  - destruct (J2 E) as [Hno|(n & pt & Hch)].
    + rewrite (J1 Hno). split; [constructor|]. split; [easy|]. auto.
    + destruct (J3 _ _ Hch) as (I1 & I2 & I3 & I4 & _). fold cfA in I3, I4. split; auto. split.
      * intros e Hi. destruct (I3 e Hi) as (A & en & t & <- & B & _). split; auto. eapply accepted_events; eauto.
      * intros ->. right. exists n, pt. split; auto. intros Hk en t Hi Hb Hc Hw Hg. destruct (I4 Hk en t Hi Hb Hc Hw Hg) as [H|[H _]]; [auto|discriminate].
Qed.

(** In ascending order of timestamps of one server, also what is registered
    meanwhile. *)
Theorem final_C71_growing : forall O cf p tr0 s0 tr last acc pgs pg s, disj_ok O -> execution O cf tr0 s0 -> made (w_conf (watch_run cf tr0)) ->
    ts_pages cf p tr0 tr last acc false (pgs ++ [pg]) -> execution O cf tr s ->
    qt_order p = ASCENDING -> qt_order_by p = TIMESTAMP -> (exists srv, forall e, In e (events_of tr) -> eid_server (ev_id e) = srv) ->
    let cfA := w_conf (watch_run cf tr0) in
    forall n pt, chosen cfA (s_disk s0) p n pt -> lasts_kept cf n (pgs ++ [pg]) ->
    forall en t, In en (w_all (watch_run cf (pg_before pg))) -> belongs pt en t -> cf_cond cfA (en_ev en) = true -> wanted p (en_ev en) ->
      ~ In (n, t, ev_id (en_ev en)) (w_gone (watch_run cf tr)) -> In (en_ev en) acc.
Proof.
  intros O cf p tr0 s0 tr last acc pgs pg s Hdj H0 Hm Hp Hx Ho Hto Hsrv cfA n pt Hch Hk en t Hi Hb Hc Hw Hg.
  destruct (pages_core _ _ _ _ _ Hdj H0 Hm _ _ _ _ _ _ Hp Hx (or_introl (conj Hto Hsrv))) as (_ & _ & J3).
  destruct (J3 _ _ Hch) as (_ & _ & _ & _ & I5). fold cfA in I5.
  assert (Hpre : exists Z, tr = pg_before pg ++ Z /\ no_reopen Z).
  { clear - Hp. remember (pgs ++ [pg]) as Q eqn:EQ. destruct Hp as [|tr last acc pgs0 trA q max trB es more H HA HB _ _ _ _|tr last acc pgs0 trA q max es more H HA _].
    - destruct pgs; discriminate.
    - apply app_inj_tail in EQ as [_ <-]. cbn [pg_before]. eexists. split; [rewrite <- app_assoc; reflexivity|].
      intros c x [[=]|Hi]. apply in_app_or in Hi as [Hi|[[=]|[]]]. now apply (HB c x).
    - apply app_inj_tail in EQ as [_ <-]. cbn [pg_before]. eexists. split; [rewrite <- app_assoc; reflexivity|].
      intros c x [[=]|[]]. }
  destruct Hpre as (Z & E & HZ). assert (Hi' : In en (w_all (watch_run cf tr))).
  { rewrite E, watch_run_app. now apply all_grows. }
  destruct (I5 (conj Ho (conj Hto Hsrv)) Hk en t Hi' Hb Hc Hw Hg) as [_ H]. eapply H; eauto.
Qed.
