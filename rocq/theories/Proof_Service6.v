(** Lemmas for C72: server queries, timeseries queries, flushed events. *)
From Coq Require Import String Bool ZArith Arith Lia Sorted Permutation List.
From Verif Require Import Base Kv Model_Types Model_Subscription Model_Codec Keys Spec_Order Proof_Order Spec_Subscription Proof_Subscription Proof_Subscription2 Model_Lmdb Model_LmdbSys
  Spec_Lmdb Spec_LmdbContent Spec_LmdbQuery Spec_LmdbTs Proof_Lmdb3 Proof_Lmdb4 Proof_Lmdb8 Proof_Lmdb9 Proof_Lmdb10 Proof_Lmdb13 Proof_Lmdb14 Proof_Lmdb15 Proof_Lmdb18 Proof_Lmdb19 Proof_Lmdb20 Proof_Lmdb21 Proof_Lmdb22 Proof_Lmdb23
  Model_Engine Spec_Engine Model_Eventer Spec_Eventer Proof_LmdbCleanup Model_Service Spec_Service Proof_Service Proof_Service2 Proof_Service3 Proof_Service4 Proof_Service5.
Import ListNotations.
Open Scope list_scope.
Open Scope nat_scope.

(** ** Server queries *)

Lemma unique_id : forall H a b, hist_ok H -> In a H -> In b H -> ev_id (en_ev a) = ev_id (en_ev b) -> a = b.
Proof.
  intros H a b Ho Ha Hb E. pose proof (hist_ids_nodup [] H Ho) as N. revert Ha Hb N. clear Ho. induction H as [|x H IH]; [intros []|].
  intros [->|Ha] [->|Hb] N; auto; cbn [map] in N; inversion N as [|? ? N1 N2]; subst; auto; exfalso; apply N1.
  - rewrite E. apply in_map_iff. eauto.
  - rewrite <- E. apply in_map_iff. eauto.
Qed.

Lemma latest_back : forall t H e cur, fold_left (latest_step t) H cur = Some e -> (forall en, In en H -> en_ev en <> e) -> cur = Some e.
Proof.
  induction H as [|x H IH]; intros e cur E Hn; [exact E|]. cbn [fold_left] in E. apply IH in E; [|intros en Hi; apply Hn; now right].
  unfold latest_step in E. pose proof (Hn x (or_introl eq_refl)) as Hx. destruct (etype_eqb (ev_type (en_ev x)) t && covers (en_conf x) t); [|exact E].
  destruct cur as [p|]; [destruct (cf_cond (en_conf x) p && newer p (en_ev x)); [exact E|]|]; congruence.
Qed.

(** The latest event is the latest one of each beginning it is in. *)
Lemma latest_cut : forall H1 H2 en t, hist_ok (H1 ++ H2) -> latest_of (H1 ++ H2) t = Some (en_ev en) -> In en H1 -> latest_of H1 t = Some (en_ev en).
Proof.
  intros H1 H2 en t Ho E Hi. unfold latest_of in E. rewrite fold_left_app in E. apply latest_back in E; [exact E|]. intros x Hx Ex.
  pose proof (hist_ids_nodup [] _ Ho) as N. apply in_split in Hi as (a & b & ->). cbn [app] in N. rewrite <- app_assoc in N. cbn [app] in N. rewrite map_app in N. cbn [map] in N.
  apply NoDup_remove_2 in N. apply N. rewrite <- map_app. apply in_map_iff. exists x. split; [congruence|]. rewrite !in_app_iff. auto.
Qed.

(** An accepted event is held while it is the latest one of its type, or it has
    a place and was not removed. *)
Lemma held_entry : forall O cf tr s en pers, execution O cf tr s -> In en (w_all (watch_run cf tr)) ->
    (pers = true -> In en (w_disk (watch_run cf tr))) ->
    (has_place (en_conf en) (en_ev en) = true /\ (forall n t, ~ In (n, t, ev_id (en_ev en)) (w_gone (watch_run cf tr)))) \/
      latest_of (w_all (watch_run cf tr)) (ev_type (en_ev en)) = Some (en_ev en) ->
    held pers (s_disk s) (watch_run cf tr) (en_ev en).
Proof.
  intros O cf tr s en pers HX Hi Hd Hp. set (w := watch_run cf tr) in *.
  pose proof (si_repr _ _ (execution_inv _ _ _ _ HX)) as Hr. fold w in Hr. pose proof (repr_content _ _ _ Hr) as Hc. pose proof (all_ok _ _ (execution_inv _ _ _ _ HX)) as Ho. fold w in Ho.
  assert (Disk : In en (w_disk w) -> stored_event (s_disk s) (en_ev en)).
  { intros Hi'. destruct Hp as [[Hp Hg]|Hl].
    - right. apply existsb_exists in Hp as (pt & Hpt & Hp). destruct (place pt (en_ev en)) as [t|] eqn:Ep; [|discriminate].
      destruct (rp_parts _ _ _ Hr en pt Hi' Hpt) as [n Hn].
      assert (H : In ((n, t, ev_id (en_ev en)), en_ev en) (db_ts (s_disk s))).
      { apply (ct_ts _ _ _ Hc). split; [|apply Hg]. exists (en_conf en), pt. cbn [fst snd]. split; [now destruct en|]. split; [exact Hpt|].
        split; [|auto]. eapply (kget_In zord); [apply (rp_psorted _ _ _ Hr)|exact Hn]. }
      unfold vals. apply (in_map snd) in H. exact H.
    - left. apply (ct_latest _ _ _ Hc). unfold w_all in Hl, Ho. eapply latest_cut; eauto. }
  destruct pers; [left; auto|]. unfold w_all in Hi. apply in_app_or in Hi as [Hi|Hi]; [left; auto|].
  right. split; [reflexivity|].
  assert (D : exists Q1 g Q2, w_queue w ++ [w_cur w] = Q1 ++ g :: Q2 /\ In en g).
  { replace (concat (w_queue w) ++ w_cur w) with (concat (w_queue w ++ [w_cur w])) in Hi by (rewrite concat_app; cbn; now rewrite app_nil_r).
    apply in_concat in Hi as (g & Hg1 & Hg2). apply in_split in Hg1 as (Q1 & Q2 & ->). eauto. }
  destruct D as (Q1 & g & Q2 & E & Hen). exists Q1, g, Q2, en. split; [exact E|]. split; [exact Hen|]. split; [reflexivity|].
  destruct Hp as [[Hp _]|Hl]; [right; exact Hp|left].
  assert (Ea : w_all w = (w_disk w ++ concat Q1 ++ g) ++ concat Q2).
  { unfold w_all. replace (concat (w_queue w) ++ w_cur w) with (concat (w_queue w ++ [w_cur w])) by (rewrite concat_app; cbn; now rewrite app_nil_r).
    rewrite E, concat_app. cbn [concat]. rewrite <- !app_assoc. reflexivity. }
  rewrite Ea in Hl, Ho. eapply latest_cut; eauto. rewrite !in_app_iff. auto.
Qed.

Lemma disk_grows : forall tr w en, In en (w_disk w) -> In en (w_disk (fold_left watch_step tr w)).
Proof.
  induction tr as [|[o x] tr IH]; intros w en Hi; cbn [fold_left]; auto. apply IH.
  destruct o; cbn; auto. destruct x; cbn; auto. apply in_or_app. auto.
Qed.

Lemma flushed_entry : forall tr w en, no_reopen tr -> In en (w_all w) -> (exists x, In (OFlush, x) tr) -> w_queue (fold_left watch_step tr w) = [] ->
    In en (w_disk (fold_left watch_step tr w)).
Proof.
  intros tr w en Hn Hi (x & Hf) Hq. apply in_split in Hf as (t1 & t2 & ->). apply no_reopen_split in Hn as [N1 N2].
  rewrite fold_left_app in *. cbn [fold_left] in *. apply (all_grows t1) in Hi; [|exact N1]. set (w1 := fold_left watch_step t1 w) in *.
  assert (N3 : no_reopen t2) by (intros c y Hy; apply (N2 c y); now right).
  assert (G : forall tr w, no_reopen tr -> In en (w_disk w ++ concat (w_queue w)) ->
              In en (w_disk (fold_left watch_step tr w) ++ concat (w_queue (fold_left watch_step tr w)))).
  { clear. induction tr as [|[o x] tr IH]; intros w Hn Hi; [exact Hi|]. cbn [fold_left]. apply IH; [intros c y Hy; apply (Hn c y); now right|].
    destruct o; cbn [watch_step w_disk w_queue]; auto.
    - rewrite concat_app. rewrite app_assoc. apply in_or_app. now left.
    - destruct x; cbn [w_disk w_queue]; auto. rewrite <- app_assoc. destruct (w_queue w); auto.
    - exfalso. apply (Hn cf x). now left. }
  specialize (G t2 (watch_step w1 (OFlush, x)) N3). rewrite Hq in G. cbn [concat] in G. rewrite app_nil_r in G. apply G. cbn [watch_step w_disk w_queue].
  rewrite concat_app. cbn [concat]. rewrite app_nil_r. exact Hi.
Qed.

Lemma up_to_date_app : forall es more e e', up_to_date es e e' -> up_to_date (es ++ more) e e'.
Proof.
  intros es more e e' [E [D|[D|[D (a & b & -> & Hi)]]]]; (split; [exact E|]); auto. right. right. split; [exact D|]. exists a, (b ++ more).
  rewrite <- app_assoc. split; [reflexivity|]. apply in_or_app. now left.
Qed.

(** An event that nothing replaces is the latest one of its type all the time. *)
Lemma sole_latest : forall O cf tr0 vtr0 srv tk ms size A c conv last rs l j B r l2 C1 C2,
    let acked := A ++ SRegister (VRegister c conv last rs, l) j :: B ++ [SServer (VRegistered c r, l2)] in
    service O cf tr0 vtr0 srv tk ms size (acked ++ C1 ++ C2) -> quiet c (server_part B) ->
    clock_forward srv (w_all (watch_run cf tr0)) (readings (engine_part acked)) ->
    forall es e, r = Some es -> In e es -> cf_cond (conf_at cf tr0) e = true -> covers (conf_at cf tr0) (ev_type e) = true ->
      let evs := events_of (tr0 ++ backend_part (acked ++ C1 ++ C2)) in
      (forall e', In e' evs -> up_to_date evs e e' -> e' = e) ->
      latest_of (w_all (watch_run cf (tr0 ++ backend_part (acked ++ C1)))) (ev_type e) = Some e.
Proof.
  intros O cf tr0 vtr0 srv tk ms size A c conv last rs l j B r l2 C1 C2 acked HS HQ HC es e -> He Hc Hk evs Hu.
  rewrite app_assoc in HS. pose proof (service_cut _ _ _ _ _ _ _ _ _ _ HS) as HA.
  assert (Ek : acked ++ C1 = A ++ SRegister (VRegister c conv last rs, l) j :: B ++ SServer (VRegistered c (Some es), l2) :: C1).
  { unfold acked. rewrite <- app_assoc. cbn [app]. rewrite <- app_assoc. reflexivity. }
  rewrite Ek in HA. destruct (shown_at _ _ _ _ _ _ _ _ _ _ _ _ _ _ _ _ _ _ _ HA HQ HC) as (es' & E & _ & Hs). injection E as <-.
  destruct (Hs e He Hc Hk) as (e' & Hv & Hd). rewrite <- Ek in Hv, Hd.
  assert (Hl : latest_of (w_all (watch_run cf (tr0 ++ backend_part (acked ++ C1)))) (ev_type e) = Some e').
  { unfold visible in Hv. destruct (latest_of _ (ev_type e)); [|discriminate]. destruct (covers _ _ && cf_cond _ _); [exact Hv|discriminate]. }
  rewrite Hl. f_equal.
  assert (Ev : evs = events_of (tr0 ++ backend_part (acked ++ C1)) ++ events_of (backend_part C2)).
  { unfold evs. rewrite app_assoc, bp_app, app_assoc, ev_app. reflexivity. }
  apply Hu.
  - rewrite Ev. apply in_or_app. left. apply latest_of_In in Hl as (en & Hi & <- & _). unfold watch_run in Hi. apply entries_from in Hi as [[]|Hi]. exact Hi.
  - rewrite Ev. now apply up_to_date_app.
Qed.

Theorem final_C72_server : forall O cf tr0 vtr0 srv tk ms size A c conv last rs l j B r l2 C c' conv' p l3 x D found more l4,
    let acked := A ++ SRegister (VRegister c conv last rs, l) j :: B ++ [SServer (VRegistered c r, l2)] in
    let tr := (acked ++ C) ++ SQuery (VQuery c' conv' (QPServer p), l3) x :: D ++ [SServer (VQueried c' (QRes found more), l4)] in
    service O cf tr0 vtr0 srv tk ms size tr ->
    quiet c (server_part B) -> quiet c' (server_part D) -> clock_forward srv (w_all (watch_run cf tr0)) (readings (engine_part acked)) ->
    pick_ok O -> conditions_kept (cf :: confs_of tr0) -> qs_server p = srv ->
    (qs_persisted p = true -> (exists x, In (OFlush, x) (backend_part C)) /\ w_queue (watch_run cf (tr0 ++ backend_part (acked ++ C))) = []) ->
    by_id found /\
    exists es, r = Some es /\ map reg_of es = rs /\
      let evs := events_of (tr0 ++ backend_part tr) in
      forall e, In e es -> cf_cond (conf_at cf tr0) e = true -> after (qs_last p) e ->
        (has_place (conf_at cf tr0) e = true /\ (forall n t, ~ In (n, t, ev_id e) (w_gone (watch_run cf (tr0 ++ backend_part tr))))) \/
          (covers (conf_at cf tr0) (ev_type e) = true /\ (forall e', In e' evs -> up_to_date evs e e' -> e' = e)) ->
        In e found \/ (more = true /\ Z.of_nat (List.length found) = server_max p /\ forall y, In y found -> eid_ltb (ev_id y) (ev_id e) = true).
Proof.
  intros O cf tr0 vtr0 srv tk ms size A c conv last rs l j B r l2 C c' conv' p l3 [o x] D found more l4 acked tr HS HQ HQ' HC Hpk Hck Hsv Hps.
  destruct (answered_query _ _ _ _ _ _ _ _ _ _ _ _ _ _ _ _ _ _ HS HQ') as (q & -> & Hq & W). set (before := acked ++ C) in *.
  pose proof (service_cut _ _ _ _ _ _ _ _ _ _ HS) as HB. pose proof HS as ((w & b & HP) & _ & (s & HX) & _). pose proof HB as ((wB & bB & HPB) & _ & (sB & HXB) & _).
  pose proof (service_cut _ _ _ _ _ _ _ _ _ _ HB) as HK. pose proof HK as ((wK & bK & HPK) & _ & (sK & HXK) & _).
  assert (Hno : confs_of (tr0 ++ backend_part before) = confs_of tr0).
  { unfold confs_of. rewrite flat_map_app. pose proof (process_no_reopen _ _ _ _ _ HPB) as N. revert N. generalize (backend_part before). clear.
    induction l as [|[o x] l IH]; intros N; [now rewrite app_nil_r|]. cbn [flat_map fst]. destruct o; try (apply IH; intros c y Hi; apply (N c y); now right).
    exfalso. apply (N cf x). now left. }
  destruct W as [->|(-> & _ & D1 & D2 & -> & Hq2)].
  { exfalso. unfold tr in HX. change (SQuery ?a ?b :: ?t) with ([SQuery a b] ++ t) in HX. rewrite !bp_app, !app_assoc in HX.
    apply execution_prefix in HX as [s1 HX]. apply execution_prefix in HX as [s2 HX]. cbn [backend_part flat_map app query_op] in HX.
    apply execution_snoc in HX as (s3 & _ & He & _). cbn [exec] in He. destruct (server_query_start p); discriminate. }
  set (trA := tr0 ++ backend_part before) in *.
  assert (Eq : tr0 ++ backend_part tr = (trA ++ (OServer q p, Quiet) :: backend_part D1 ++ [(ODeliver q, Answer (Some (QRes found more)))]) ++ backend_part D2).
  { unfold tr, trA. change (SQuery ?a ?b :: ?t) with ([SQuery a b] ++ t). change (SBackend ?a :: D2) with ([SBackend a] ++ D2).
    rewrite !bp_app. cbn [backend_part flat_map app query_op]. rewrite ?app_nil_r, <- !app_assoc. cbn [app]. rewrite <- ?app_assoc. reflexivity. }
  pose proof HX as HXend. rewrite Eq in HX. apply execution_prefix in HX as [s1 HX].
  destruct (final_C26_server _ _ _ _ _ _ _ _ _ _ Hpk HXB HX) as [Y1 Y2]; auto; [now rewrite Hno|].
  split; [exact Y1|].
  destruct (final_C72_stored O cf tr0 vtr0 srv tk ms size A c conv last rs l j B r l2 [] HK HQ HC) as (es & -> & Er & Hs). exists es. split; [reflexivity|]. split; [exact Er|].
  intros evs e Hi Hc Haf Hh. destruct (Hs e Hi Hc) as [Hsrv Hen].
  assert (Hnr : no_reopen (backend_part C ++ (OServer q p, Quiet) :: backend_part D1)).
  { intros c0 y Hy. apply (process_no_reopen _ _ _ _ _ HP c0 y). unfold tr, before. change (SQuery ?a ?b :: ?t) with ([SQuery a b] ++ t).
    rewrite !bp_app. rewrite !in_app_iff in *. cbn [In backend_part flat_map app query_op] in *. tauto. }
  apply no_reopen_split in Hnr as [Hn1 Hn2].
  set (mid := SQuery (VQuery c' conv' (QPServer p), l3) (query_op (QPServer p) q, Quiet) :: D1) in *.
  set (fin := SBackend (ODeliver q, Answer (Some (QRes found more))) :: D2 ++ [SServer (VQueried c' (QRes found more), l4)]).
  assert (Emid : trA ++ (OServer q p, Quiet) :: backend_part D1 = tr0 ++ backend_part (before ++ mid)).
  { unfold trA, mid. change (SQuery ?a ?b :: ?t) with ([SQuery a b] ++ t). rewrite !bp_app, <- !app_assoc. reflexivity. }
  assert (Etr : tr = before ++ mid ++ fin).
  { unfold tr, mid, fin. cbn [app]. rewrite <- !app_assoc. cbn [app]. reflexivity. }
  (* what is known of the event at three points *)
  assert (Lat : covers (conf_at cf tr0) (ev_type e) = true -> (forall e', In e' evs -> up_to_date evs e e' -> e' = e) -> forall C1 C2, C ++ mid ++ fin = C1 ++ C2 ->
                latest_of (w_all (watch_run cf (tr0 ++ backend_part (acked ++ C1)))) (ev_type e) = Some e).
  { intros Hk Hu C1 C2 E. assert (E' : tr = acked ++ C1 ++ C2) by (rewrite Etr, <- E; unfold before; now rewrite <- !app_assoc).
    rewrite E' in HS. eapply (sole_latest O cf tr0 vtr0 srv tk ms size A c conv last rs l j B (Some es) l2 C1 C2); eauto. unfold evs in Hu. now rewrite E' in Hu. }
  assert (Ent : exists en, en_ev en = e /\ In en (w_all (watch_run cf (tr0 ++ backend_part acked))) /\ (has_place (conf_at cf tr0) e = true -> has_place (en_conf en) e = true)).
  { destruct Hh as [[Hp Hg]|[Hk Hu]].
    - exists (Entry (conf_at cf tr0) e). split; [reflexivity|]. split; [apply Hen; exact Hp|auto].
    - pose proof (Lat Hk Hu [] _ eq_refl) as L. rewrite app_nil_r in L. apply latest_of_In in L as (en & L & <- & _).
      destruct (has_place (conf_at cf tr0) (en_ev en)) eqn:Ep.
      + exists (Entry (conf_at cf tr0) (en_ev en)). split; [reflexivity|]. split; [now apply Hen|auto].
      + exists en. split; [reflexivity|]. split; [exact L|discriminate]. }
  destruct Ent as (en & <- & HiK & Hpl).
  assert (HiB : In en (w_all (watch_run cf trA))).
  { unfold trA, before. rewrite bp_app, app_assoc, watch_run_app. now apply all_grows. }
  assert (HdB : qs_persisted p = true -> In en (w_disk (watch_run cf trA))).
  { intros Hpt. destruct (Hps Hpt) as [Hf Hqu]. unfold trA, before in Hqu |- *. rewrite bp_app, app_assoc, watch_run_app in Hqu |- *. now apply flushed_entry. }
  assert (Gr : forall t1 t2, tr0 ++ backend_part tr = t1 ++ t2 -> (forall n t, ~ In (n, t, ev_id (en_ev en)) (w_gone (watch_run cf (tr0 ++ backend_part tr)))) ->
               forall n t, ~ In (n, t, ev_id (en_ev en)) (w_gone (watch_run cf t1))).
  { intros t1 t2 E Hg n t Hk. apply (Hg n t). rewrite E, watch_run_app. now apply gone_grows. }
  apply Y2; auto; [congruence| |].
  - apply (held_entry O cf trA); auto. destruct Hh as [[Hp Hg]|[Hk Hu]].
    + left. split; [auto|]. eapply Gr; [|exact Hg]. rewrite Eq, <- app_assoc. reflexivity.
    + right. apply (Lat Hk Hu C (mid ++ fin)). reflexivity.
  - assert (HX2 : exists s', execution O cf (trA ++ (OServer q p, Quiet) :: backend_part D1) s' /\ exec O s' (ODeliver q) = Some (s1, Answer (Some (QRes found more)))).
    { change (?a :: ?l ++ ?m) with ((a :: l) ++ m) in HX. rewrite app_assoc in HX. apply execution_snoc in HX as (s' & HX & He & _). eauto. }
    destruct HX2 as (s' & HX2 & Hex).
    assert (Ed : s_disk s1 = s_disk s').
    { cbn [exec] in Hex. destruct (take_ready q (s_ready s')) as [[? ?]|]; [|discriminate]. injection Hex as <- _. reflexivity. }
    rewrite Ed. apply (held_entry O cf _ s'); auto.
    + rewrite watch_run_app. now apply all_grows.
    + intros Hpt. rewrite watch_run_app. apply disk_grows. auto.
    + destruct Hh as [[Hp Hg]|[Hk Hu]].
      * left. split; [auto|]. eapply Gr; [|exact Hg]. rewrite Eq. change (?a :: ?l ++ ?m) with ((a :: l) ++ m). rewrite <- !app_assoc. reflexivity.
      * right. rewrite Emid. unfold before. rewrite <- app_assoc. apply (Lat Hk Hu (C ++ mid) fin). now rewrite <- app_assoc.
Qed.

(** ** Timeseries queries *)

Lemma watch_in_order : forall O cf tr s srv pt, execution O cf tr s -> (forall e, In e (events_of tr) -> eid_server (ev_id e) = srv) -> pt_order pt = TIMESTAMP ->
    in_order (pending_in pt (w_cur (watch_run cf tr))).
Proof.
  intros O cf tr s srv pt HX He Ho. apply (hist_sorted pt (w_before (watch_run cf tr))); auto.
  - rewrite <- w_all_before. eapply all_ok, execution_inv; eauto.
  - intros a b Ha Hb. rewrite <- w_all_before in Ha, Hb. apply accepted_events in Ha, Hb. rewrite !He; auto.
Qed.

Lemma plain_cut : forall O cf trA trB s p srv pt, execution O cf (trA ++ trB) s -> plain_query p (events_of (trA ++ trB)) srv -> pt_order pt = qt_order_by p ->
    cuttable p (pending_in pt (pending_for p cf trA trB)).
Proof.
  intros O cf trA trB s p srv pt HX [Hn|[Ho He]] Hpt; [now right|]. left. rewrite Ho in Hpt. unfold pending_for.
  assert (G : forall t1 t2, trA ++ trB = t1 ++ t2 -> in_order (pending_in pt (w_cur (watch_run cf t1)))).
  { intros t1 t2 E. rewrite E in HX, He. apply execution_prefix in HX as [s1 HX]. eapply watch_in_order; eauto. intros e Hi. apply He. rewrite events_of_app. apply in_or_app. now left. }
  destruct (qt_order p); [eapply G; reflexivity|]. destruct (pending_prefix trB (watch_run cf trA)) as (b1 & b2 & E1 & ->).
  rewrite <- watch_run_app. eapply G. rewrite E1, app_assoc. reflexivity.
Qed.

Lemma page_found : forall M L (e : event) es more, (0 <= M)%Z -> QRes es more = page M L -> In e L -> In e es \/ (more = true /\ Z.of_nat (List.length es) = M).
Proof.
  intros M L e es more HM E Hi. unfold page in E. injection E as -> ->. destruct (Z.ltb_spec M (Z.of_nat (List.length L))).
  - right. split; auto. rewrite firstn_length. lia.
  - left. rewrite firstn_all2; auto. lia.
Qed.

Lemma once_found : forall O cf trA q p es more s sA n pt, disj_ok O ->
    execution O cf (trA ++ [(OTs q p, Answer (Some (QRes es more)))]) s -> execution O cf trA sA -> made (w_conf (watch_run cf trA)) ->
    let cfA := w_conf (watch_run cf trA) in
    (0 <= ts_max cfA p)%Z -> chosen cfA (s_disk sA) p n pt -> cuttable p (pending_in pt (w_cur (watch_run cf trA))) -> qt_last p = None ->
    forall en t, In en (w_all (watch_run cf trA)) -> place pt (en_ev en) = Some t -> Spec_LmdbTs.wanted p (en_ev en) ->
      In (en_ev en) es \/ (more = true /\ Z.of_nat (List.length es) = ts_max cfA p).
Proof.
  intros O cf trA q p es more s sA n pt Hdj HX HA Hm cfA HM Hch Hcut Hl en t Hi Hp Hw.
  pose proof (execution_inv _ _ _ _ HA) as HiA. pose proof (all_ok _ _ HiA) as Hok.
  pose proof Hch as (pa & pb & Ep & Hsuit & _ & Hnp).
  assert (Hpt : In pt (cf_parts cfA)) by (rewrite Ep; apply in_or_app; right; now left).
  destruct (ts_immediate _ _ _ _ _ _ _ _ Hdj HX HA Hm) as [(qs & _ & _ & E)|[(Hno & _)|(n' & pt' & Hch' & [E|(Hord & Hex & _)])]]; try discriminate.
  { exfalso. eapply Hno; eauto. }
  destruct (chosen_fun _ _ _ _ _ _ _ _ _ (si_repr _ _ HiA) Hch Hch') as [<- <-]. specialize (Hex HM).
  set (P := pending_in pt (w_cur (watch_run cf trA))) in *.
  assert (HP : NoDup (map (fun x => ev_id (snd x)) P)).
  { apply (pending_nodup pt (w_before (watch_run cf trA))). now rewrite <- w_all_before. }
  assert (D : exists D, NoDup (map (fun x => ev_id (snd x)) (D ++ P)) /\ In (t, en_ev en) (D ++ P)).
  { rewrite w_all_before in Hi, Hok. apply in_app_or in Hi as [Hi|Hi].
    - exists [(t, en_ev en)]. split; [|now left]. cbn [app map snd]. constructor; [|exact HP]. intros Hk. apply in_map_iff in Hk as ([u e] & Ek & Hk).
      apply pending_In in Hk as (_ & en2 & Hk & <-). cbn [snd] in Ek.
      assert (en2 = en) by (eapply unique_id; [exact Hok| | |exact Ek]; apply in_or_app; auto). subst en2.
      apply in_split in Hi as (h1 & h2 & Eh). apply in_split in Hk as (k1 & k2 & Ec). rewrite Eh, Ec in Hok.
      pose proof (hist_ids_nodup [] _ Hok) as N. rewrite <- app_assoc in N. cbn [app] in N. rewrite map_app in N. cbn [map] in N. apply NoDup_remove_2 in N. apply N.
      apply in_or_app. right. apply in_map_iff. exists en. split; [reflexivity|]. rewrite !in_app_iff. cbn [In]. tauto.
    - exists []. split; [exact HP|]. apply pending_In. eauto. }
  destruct D as (D & Nd & Hin). destruct (Hex D Nd) as (L & (w & Hww & EL) & E & _). rewrite Hl in EL. cbn [following] in EL. rewrite (looked_cut _ _ _ Hcut) in EL.
  assert (HL : In (en_ev en) L).
  { rewrite EL. apply filter_In. split; [|now apply Hww]. eapply sequence_In; [exact Hin|]. eapply wanted_within; eauto.
    destruct Hsuit as [Hso _]. eapply place_order_ts; eauto. }
  assert (E' : QRes es more = page (ts_max cfA p) L) 
    by (apply (f_equal (fun a => match a with Answer (Some z) => z | _ => QRes [] false end)) in E; exact E). eapply page_found; eauto.
Qed.

Theorem final_C72_timeseries : forall O cf tr0 vtr0 srv tk ms size A c conv last rs l j B r l2 C c' conv' p l3 x D found more l4,
    let before := A ++ SRegister (VRegister c conv last rs, l) j :: B ++ SServer (VRegistered c r, l2) :: C in
    let tr := before ++ SQuery (VQuery c' conv' (QPTimeseries p), l3) x :: D ++ [SServer (VQueried c' (QRes found more), l4)] in
    let acked := A ++ SRegister (VRegister c conv last rs, l) j :: B ++ [SServer (VRegistered c r, l2)] in
    let cfg := conf_at cf tr0 in
    service O cf tr0 vtr0 srv tk ms size tr ->
    quiet c (server_part B) -> quiet c' (server_part D) -> clock_forward srv (w_all (watch_run cf tr0)) (readings (engine_part acked)) ->
    disj_ok O -> made cfg -> (0 <= ts_max cfg p)%Z -> qt_last p = None -> plain_query p (events_of (tr0 ++ backend_part tr)) srv ->
    exists es, r = Some es /\ map reg_of es = rs /\
      forall e pt a b t, cf_parts cfg = a ++ pt :: b -> suits p pt -> (forall y, In y a -> ~ suits p y) ->
        In e es -> cf_cond cfg e = true -> place pt e = Some t -> Spec_LmdbTs.wanted p e ->
        (forall n, ~ In (n, t, ev_id e) (w_gone (watch_run cf (tr0 ++ backend_part tr)))) ->
        In e found \/ (more = true /\ Z.of_nat (List.length found) = ts_max cfg p).
Proof.
  intros O cf tr0 vtr0 srv tk ms size A c conv last rs l j B r l2 C c' conv' p l3 [o x] D found more l4 before tr acked cfg HS HQ HQ' HC Hdj Hm HM Hl Hpl.
  destruct (answered_query _ _ _ _ _ _ _ _ _ _ _ _ _ _ _ _ _ _ HS HQ') as (q & -> & Hq & W).
  pose proof (service_cut _ _ _ _ _ _ _ _ _ _ HS) as HB. pose proof HS as (_ & _ & (s & HX) & _). pose proof HB as (_ & _ & (sB & HXB) & _).
  pose proof (conf_stays' _ _ _ _ _ _ _ _ _ HB) as Ec. fold cfg in Ec.
  destruct (final_C72_stored _ _ _ _ _ _ _ _ _ _ _ _ _ _ _ _ _ _ _ HB HQ HC) as (es & -> & Er & Hs). exists es. split; [reflexivity|]. split; [exact Er|].
  intros e pt a b t Ep Hsu Hno Hi Hc Hp Hw Hg. destruct (Hs e Hi Hc) as [_ Hen]. fold before in Hen. set (trA := tr0 ++ backend_part before) in *.
  assert (Hpt : In pt (cf_parts cfg)) by (rewrite Ep; apply in_or_app; right; now left).
  assert (Hen' : In (Entry cfg e) (w_all (watch_run cf trA))).
  { apply Hen. apply existsb_exists. exists pt. fold cfg. split; [exact Hpt|]. now rewrite Hp. }
  assert (Ec' : w_conf (watch_run cf trA) = cfg) by exact Ec.
  destruct W as [->|(-> & _ & D1 & D2 & -> & Hq2)].
  - assert (HX1 : exists s1, execution O cf (trA ++ [(OTs q p, Answer (Some (QRes found more)))]) s1 /\ exists t2, tr0 ++ backend_part tr = trA ++ t2).
    { unfold tr in HX. change (SQuery ?a ?b :: ?t) with ([SQuery a b] ++ t) in HX. rewrite !bp_app, !app_assoc in HX.
      apply execution_prefix in HX as [s1 HX]. apply execution_prefix in HX as [s2 HX]. cbn [backend_part flat_map app query_op] in HX. exists s2. split; [exact HX|].
      unfold tr. rewrite bp_app, app_assoc. eexists. reflexivity. }
    destruct HX1 as (s1 & HX1 & t2 & Et).
    assert (Hch : exists n, chosen (w_conf (watch_run cf trA)) (s_disk sB) p n pt).
    { rewrite Ec'. destruct (ts_immediate _ _ _ _ _ _ _ _ Hdj HX1 HXB) as [(qs & _ & _ & E)|[(Hno' & _)|(n' & pt' & Hch' & _)]]; [now rewrite Ec'|discriminate| |].
      - exfalso. rewrite Ec' in Hno'. eapply Hno'; eauto.
      - rewrite Ec' in Hch'. destruct Hch' as (a' & b' & Ep' & Hs' & Hn' & Hnp). exists n'. exists a, b. split; [exact Ep|]. split; [exact Hsu|]. split; [exact Hno|].
        assert (pt = pt') by (rewrite Ep in Ep'; eapply (first_eq _ (suits p)); eauto). now subst. }
    destruct Hch as [n Hch]. change e with (en_ev (Entry cfg e)). rewrite <- Ec'. eapply (once_found O cf trA q p found more s1 sB n pt); eauto; try (now rewrite Ec').
    change (w_cur (watch_run cf trA)) with (w_cur (pending_at (watch_run cf trA) [])).
    assert (E0 : w_cur (pending_at (watch_run cf trA) []) = pending_for p cf trA []) by (unfold pending_for; destruct (qt_order p); reflexivity).
    rewrite E0. eapply (plain_cut O cf trA [] sB); [now rewrite app_nil_r| |destruct Hsu; eassumption].
    destruct Hpl as [Hpl|[H1 H2]]; [now left|right]. split; [exact H1|]. intros y Hy. apply H2. rewrite app_nil_r in Hy. rewrite Et, events_of_app. apply in_or_app. now left.
  - assert (Eq : tr0 ++ backend_part tr = (trA ++ (OTs q p, Quiet) :: backend_part D1 ++ [(ODeliver q, Answer (Some (QRes found more)))]) ++ backend_part D2).
    { unfold tr, trA. change (SQuery ?a ?b :: ?t) with ([SQuery a b] ++ t). change (SBackend ?a :: D2) with ([SBackend a] ++ D2).
      rewrite !bp_app. cbn [backend_part flat_map app query_op]. rewrite ?app_nil_r, <- !app_assoc. cbn [app]. rewrite <- ?app_assoc. reflexivity. }
    rewrite Eq in HX. apply execution_prefix in HX as [s1 HX].
    destruct (final_C26_ts_direct _ _ _ _ _ _ _ _ _ _ Hdj HX HXB) as (_ & n & pt' & Hch & Hf); auto; try (now rewrite Ec').
    rewrite Ec' in Hch, Hf. assert (pt = pt').
    { destruct Hch as (a' & b' & Ep' & Hs' & Hn' & _). rewrite Ep in Ep'. eapply (first_eq _ (suits p)); eauto. }
    subst pt'. apply (Hf) with (en := Entry cfg e) (t := t); auto.
    + assert (X : forall X (cfx : conf), cuttable p (pending_in pt (pending_for p cfx trA ((OTs q p, Quiet) :: X))) -> cuttable p (pending_in pt (pending_for p cfx trA X)))
        by (intros X cfx; unfold pending_for; destruct (qt_order p); auto).
      change (?y :: ?l ++ ?m) with ((y :: l) ++ m) in HX. rewrite app_assoc in HX. apply execution_snoc in HX as (s' & HX & _).
      apply X. eapply (plain_cut O cf trA _ _ p srv); [exact HX|clear X|destruct Hsu; eassumption].
      * destruct Hpl as [Hpl|[H1 H2]]; [now left|right]. split; [exact H1|]. intros y Hy. apply H2.
        replace (tr0 ++ backend_part tr) with ((trA ++ (OTs q p, Quiet) :: backend_part D1) ++ (ODeliver q, Answer (Some (QRes found more))) :: backend_part D2)
          by (rewrite Eq, <- !app_assoc; cbn [app]; rewrite <- app_assoc; reflexivity).
        rewrite events_of_app. apply in_or_app. now left.
    + split; [|exact Hp]. exists pt. split; [exact Hpt|reflexivity].
    + intros Hk. apply (Hg n).
      replace (tr0 ++ backend_part tr) with ((trA ++ (OTs q p, Quiet) :: backend_part D1) ++ (ODeliver q, Answer (Some (QRes found more))) :: backend_part D2)
        by (rewrite Eq, <- !app_assoc; cbn [app]; rewrite <- app_assoc; reflexivity).
      rewrite watch_run_app. now apply gone_grows.
Qed.

(** ** Flushed events *)

Theorem final_C72_written : forall O cf tr0 vtr0 srv tk ms size A c conv last rs l j B r l2 C,
    let acked := A ++ SRegister (VRegister c conv last rs, l) j :: B ++ [SServer (VRegistered c r, l2)] in
    service O cf tr0 vtr0 srv tk ms size (acked ++ C) -> quiet c (server_part B) ->
    clock_forward srv (w_all (watch_run cf tr0)) (readings (engine_part acked)) ->
    (exists x, In (OFlush, x) (backend_part C)) -> w_queue (watch_run cf (tr0 ++ backend_part (acked ++ C))) = [] ->
    exists es, r = Some es /\ map reg_of es = rs /\
      forall e, In e es -> cf_cond (conf_at cf tr0) e = true -> has_place (conf_at cf tr0) e = true ->
      forall X s, execution O cf (tr0 ++ backend_part (acked ++ C) ++ X) s ->
        (forall n t, ~ In (n, t, ev_id e) (w_gone (watch_run cf (tr0 ++ backend_part (acked ++ C) ++ X)))) -> stored_event (s_disk s) e.
Proof.
  intros O cf tr0 vtr0 srv tk ms size A c conv last rs l j B r l2 C acked HS HQ HC Hf Hq.
  pose proof (service_cut _ _ _ _ _ _ _ _ _ _ HS) as HA. pose proof HS as ((w & b & HP) & _).
  destruct (final_C72_stored O cf tr0 vtr0 srv tk ms size A c conv last rs l j B r l2 [] HA HQ HC) as (es & -> & Er & Hs). exists es. split; [reflexivity|]. split; [exact Er|].
  intros e He Hc Hp X s HX Hg. destruct (Hs e He Hc) as [_ Hen]. specialize (Hen Hp). set (cfg := conf_at cf tr0) in *.
  assert (Hd : In (Entry cfg e) (w_disk (watch_run cf (tr0 ++ backend_part (acked ++ C))))).
  { rewrite bp_app, app_assoc, watch_run_app in Hq |- *. apply flushed_entry; auto. pose proof (process_no_reopen _ _ _ _ _ HP) as N. rewrite bp_app in N.
    now apply no_reopen_split in N. }
  apply (disk_grows X) in Hd. rewrite <- watch_run_app, <- app_assoc in Hd.
  pose proof (si_repr _ _ (execution_inv _ _ _ _ HX)) as Hr. pose proof (repr_content _ _ _ Hr) as Hct.
  apply existsb_exists in Hp as (pt & Hpt & Hp). destruct (place pt e) as [t|] eqn:Ep; [|discriminate].
  destruct (rp_parts _ _ _ Hr _ pt Hd Hpt) as [n Hn]. right.
  assert (H : In ((n, t, ev_id e), e) (db_ts (s_disk s))).
  { apply (ct_ts _ _ _ Hct). split; [|apply Hg]. exists cfg, pt. cbn [fst snd]. split; [exact Hd|]. split; [exact Hpt|].
    split; [|auto]. eapply (kget_In zord); [apply (rp_psorted _ _ _ Hr)|exact Hn]. }
  unfold vals. apply (in_map snd) in H. exact H.
Qed.
