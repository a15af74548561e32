(** A server process: its parts, what it registers and what its connections
    wait for. *)
From Coq Require Import String Bool ZArith Arith Lia Sorted List.
From Verif Require Import Base Kv Model_Types Model_Subscription Model_Codec Keys Spec_Order Proof_Order Model_Lmdb Model_LmdbSys
  Spec_Lmdb Spec_LmdbContent Spec_LmdbQuery Spec_LmdbTs Proof_Lmdb3 Proof_Lmdb4 Proof_Lmdb8 Proof_Lmdb9 Proof_Lmdb14 Proof_Lmdb23
  Model_Engine Spec_Engine Proof_Engine Proof_Engine2 Proof_Engine3 Proof_Engine5 Model_Eventer Spec_Eventer Proof_Eventer Proof_Eventer2 Proof_Eventer3 Proof_Eventer8
  Proof_LmdbCleanup Model_Service Spec_Service Proof_Service.
Import ListNotations.
Open Scope list_scope.
Open Scope nat_scope.

Lemma ep_app : forall a b, engine_part (a ++ b) = engine_part a ++ engine_part b.
Proof. intros. unfold engine_part. apply flat_map_app. Qed.
Lemma bp_app : forall a b, backend_part (a ++ b) = backend_part a ++ backend_part b.
Proof. intros. unfold backend_part. apply flat_map_app. Qed.
Lemma sp_app : forall a b, server_part (a ++ b) = server_part a ++ server_part b.
Proof. intros. unfold server_part. apply flat_map_app. Qed.
Lemma ev_app : forall a b, events_of (a ++ b) = events_of a ++ events_of b.
Proof. intros. unfold events_of. apply flat_map_app. Qed.
Lemma qs_app : forall a b, queries_of (a ++ b) = queries_of a ++ queries_of b.
Proof. intros. unfold queries_of. apply flat_map_app. Qed.

(** ** Parts of a process *)

Lemma process_cut : forall srv tr0 t w b, process srv tr0 t w b -> forall A B, t = A ++ B -> exists w' b', process srv tr0 A w' b'.
Proof.
  intros srv tr0 t w b H. pose proof H as HH. revert HH.
  induction H; intros HH A B E; (destruct B as [|y B _] using rev_ind; [rewrite app_nil_r in E; subst A; eauto|]).
  - destruct A; [destruct B|]; discriminate.
  - rewrite app_assoc in E. apply app_inj_tail in E as [E _]. eapply IHprocess; eauto.
  - rewrite app_assoc in E. apply app_inj_tail in E as [E _]. eapply IHprocess; eauto.
  - rewrite app_assoc in E. apply app_inj_tail in E as [E _]. eapply IHprocess; eauto.
  - rewrite app_assoc in E. apply app_inj_tail in E as [E _]. eapply IHprocess; eauto.
  - rewrite app_assoc in E. apply app_inj_tail in E as [E _]. eapply IHprocess; eauto.
  - rewrite app_assoc in E. apply app_inj_tail in E as [E _]. eapply IHprocess; eauto.
  - rewrite app_assoc in E. apply app_inj_tail in E as [E _]. eapply IHprocess; eauto.
  - rewrite app_assoc in E. apply app_inj_tail in E as [E _]. eapply IHprocess; eauto.
Qed.

(** The last step. *)
Inductive pmove (srv : Z) (tr0 : list (op * out)) (tr : list pstep) (w : list (nat * call)) (b : bool) : pstep -> list (nat * call) -> bool -> Prop :=
| pm_engine : forall o l, handed_in l = [] -> (forall ok, o = ERegistered ok -> ok = true /\ b = false) -> pmove srv tr0 tr w b (SEngine (o, l)) w b
| pm_batch : forall o l es x, handed_in l = [es] -> pmove srv tr0 tr w b (SBatch (o, l) (ORegister es, x)) w b
| pm_refused : forall o l es, handed_in l = [es] -> pmove srv tr0 tr w b (SEngine (o, l)) w true
| pm_backend : forall o x, elsewhere srv (queries_of (tr0 ++ backend_part tr)) o -> pmove srv tr0 tr w b (SBackend (o, x)) (settle o x w) b
| pm_server : forall o l, engine_calls l = [] -> query_calls l = [] -> fits (engine_part tr) w o -> pmove srv tr0 tr w b (SServer (o, l)) w b
| pm_register : forall o l c rs n k, engine_calls l = [(c, rs)] ->
    pmove srv tr0 tr w b (SRegister (o, l) (ERegister (Request n (Source EVENTER (Z.of_nat c)) rs), k)) (nset c (Registering n) w) b
| pm_query : forall o l c p q x, query_calls l = [(c, p)] -> ~ In q (queries_of (tr0 ++ backend_part tr)) ->
    pmove srv tr0 tr w b (SQuery (o, l) (query_op p q, x)) (nset c (outcome q x) w) b
| pm_query_refused : forall o l c p, query_calls l = [(c, p)] -> pmove srv tr0 tr w b (SServer (o, l)) (nset c (Found None) w) b.

Lemma process_last : forall srv tr0 tr y w b, process srv tr0 (tr ++ [y]) w b ->
    exists w' b', process srv tr0 tr w' b' /\ pmove srv tr0 tr w' b' y w b.
Proof.
  intros srv tr0 tr y w b H. inversion H; subst; try (destruct tr; discriminate);
    match goal with E : _ ++ [_] = _ ++ [_] |- _ => apply app_inj_tail in E as [<- <-] end;
    match goal with H0 : process _ _ _ ?w' ?b' |- _ => exists w', b' end; (split; [assumption|econstructor; eassumption]).
Qed.

Lemma process_at : forall srv tr0 A y B w b, process srv tr0 (A ++ y :: B) w b ->
    exists w1 b1 w2 b2, process srv tr0 A w1 b1 /\ pmove srv tr0 A w1 b1 y w2 b2 /\ process srv tr0 (A ++ [y]) w2 b2.
Proof.
  intros srv tr0 A y B w b H. destruct (process_cut _ _ _ _ _ H (A ++ [y]) B) as (w2 & b2 & H2); [rewrite <- app_assoc; reflexivity|].
  pose proof H2 as H3. apply process_last in H3 as (w1 & b1 & H1 & M). exists w1, b1, w2, b2. auto.
Qed.

Lemma engine_at : forall tr E1 i E2, engine_part tr = E1 ++ i :: E2 -> exists T1 y T2, tr = T1 ++ y :: T2 /\ engine_part T1 = E1 /\ engine_part T2 = E2 /\
    (y = SEngine i \/ (exists x, y = SBatch i x) \/ exists v, y = SRegister v i).
Proof.
  induction tr as [|y tr IH]; intros E1 i E2 H; [destruct E1; discriminate|].
  change (y :: tr) with ([y] ++ tr) in H. rewrite ep_app in H.
  assert (G : (engine_part [y] = [] \/ exists j, engine_part [y] = [j] /\ (y = SEngine j \/ (exists x, y = SBatch j x) \/ exists v, y = SRegister v j))).
  { destruct y; cbn; eauto 8. }
  destruct G as [G|(j & G & Hy)].
  - rewrite G in H. cbn [app] in H. destruct (IH _ _ _ H) as (T1 & y' & T2 & -> & <- & <- & D). exists (y :: T1), y', T2.
    split; [reflexivity|]. split; [|auto]. change (y :: T1) with ([y] ++ T1). now rewrite ep_app, G.
  - rewrite G in H. cbn [app] in H. destruct E1 as [|k E1]; cbn [app] in H; injection H as -> H.
    + exists [], y, tr. auto.
    + destruct (IH _ _ _ H) as (T1 & y' & T2 & -> & <- & <- & D). exists (y :: T1), y', T2. split; [reflexivity|]. split; [|auto].
      change (y :: T1) with ([y] ++ T1). now rewrite ep_app, G.
Qed.

Lemma process_no_reopen : forall srv tr0 tr w b, process srv tr0 tr w b -> no_reopen (backend_part tr).
Proof.
  intros srv tr0 tr w b H c y Hi. induction H; try (rewrite bp_app in Hi; apply in_app_or in Hi as [Hi|Hi]; [auto|]); cbn in Hi; try tauto.
  - destruct Hi as [Hi|[]]. discriminate.
  - destruct Hi as [[= -> ->]|[]]. assumption.
  - destruct Hi as [Hi|[]]. destruct p; discriminate.
Qed.

(** Events of the server are given by the engine. *)
Lemma own_events : forall srv tr0 tr w b, process srv tr0 tr w b -> forall e, In e (events_of (backend_part tr)) -> eid_server (ev_id e) = srv ->
    In e (concat (handed (engine_part tr))).
Proof.
  intros srv tr0 tr w b H e He Hs. induction H; try (rewrite bp_app, ev_app in He; rewrite ep_app, handed_app, concat_app; apply in_or_app;
    apply in_app_or in He as [He|He]; [auto|right]); cbn in He; try tauto.
  - rewrite app_nil_r in He. unfold handed, outs_of. cbn [engine_part flat_map app snd]. rewrite app_nil_r, H0. cbn [concat]. now rewrite app_nil_r.
  - destruct o; cbn in He; try tauto. rewrite app_nil_r in He. cbn in H0. rewrite Forall_forall in H0. exfalso. apply (H0 _ He Hs).
  - destruct p; cbn in He; tauto.
Qed.

(** Unless the backend was closed, every batch of the engine was registered. *)
Lemma batch_given : forall srv tr0 tr w b, process srv tr0 tr w b -> (forall r k, In (ERegister r, k) (engine_part tr) -> handed_in k = []) ->
    b = false -> forall h, In h (handed (engine_part tr)) ->
    exists T1 i x T2, tr = T1 ++ SBatch i (ORegister h, x) :: T2.
Proof.
  intros srv tr0 tr w b H. induction H; intros HR E h Hh; try discriminate E; [destruct Hh|..];
    assert (HR' : forall r k, In (ERegister r, k) (engine_part tr) -> handed_in k = []) by (intros r' k' Hi; apply (HR r' k'); rewrite ep_app; apply in_or_app; now left);
    rewrite ep_app, handed_app in Hh; apply in_app_or in Hh as [Hh|Hh];
    try (destruct (IHprocess HR' E h Hh) as (T1 & i & y & T2 & ->); exists T1, i, y; rewrite <- app_assoc; eexists; reflexivity);
    unfold handed, outs_of in Hh; cbn [engine_part flat_map app snd] in Hh; rewrite ?app_nil_r in Hh; try solve [destruct Hh].
  - rewrite H0 in Hh. destruct Hh.
  - rewrite H0 in Hh. destruct Hh as [->|[]]. eauto.
  - rewrite (HR (Request n (Source EVENTER (Z.of_nat c)) rs) k) in Hh; [destruct Hh|]. rewrite ep_app. apply in_or_app. right. left. reflexivity.
Qed.

(** ** Parts of the bundle *)

Lemma vruns_cut : forall sv tk b s a s2, vruns sv tk s (a ++ b) s2 -> exists s1, vruns sv tk s a s1 /\ vruns sv tk s1 b s2.
Proof.
  intros sv tk. induction b as [|i b IH] using rev_ind; intros s a s2 H.
  - rewrite app_nil_r in H. exists s2. split; [exact H|constructor].
  - rewrite app_assoc in H. inversion H as [? E1 E2|? ? ? ? ? ? H1 H2 E]; subst; [destruct a, b; discriminate|].
    match goal with E : _ ++ [_] = _ ++ [_] |- _ => apply app_inj_tail in E as [-> <-] end. destruct (IH _ _ _ H1) as (s1' & A & B). exists s1'. split; [exact A|econstructor; eauto].
Qed.

Lemma service_cut : forall O cf tr0 vtr0 srv tk ms size A B, service O cf tr0 vtr0 srv tk ms size (A ++ B) -> service O cf tr0 vtr0 srv tk ms size A.
Proof.
  intros O cf tr0 vtr0 srv tk ms size A B ((w & b & HP) & (s0 & es & H0 & HE) & (s & HX) & (vs & HV)). split; [eapply process_cut; eauto|].
  rewrite ep_app in HE. rewrite bp_app, app_assoc in HX. rewrite sp_app, app_assoc in HV. split; [|split].
  - destruct (eruns_pre _ _ _ _ _ _ HE) as [s1 H1]. eauto.
  - eapply execution_prefix; eauto.
  - destruct (vruns_cut _ _ _ _ _ _ HV) as (s1 & H1 & _). eauto.
Qed.

Lemma clock_cut : forall srv H A B, clock_forward srv H (readings (A ++ B)) -> clock_forward srv H (readings A).
Proof.
  intros srv H A B [C1 C2]. rewrite readings_app in *. split.
  - revert C1. generalize (readings A), (readings B). clear. induction l as [|x l IH]; intros l2 S; [constructor|]. cbn in S.
    inversion S as [|? ? S1 S2]; subst. apply Forall_app in S2 as [S2 _]. constructor; eauto.
  - intros en t Hi Hs Ht. eapply C2; eauto. apply in_or_app. now left.
Qed.

Lemma ids_step : forall O cf tr s srv, execution O cf tr s -> eid_le (Eid srv 0 0) (get_last_event_id (m_sys (s_mem s)) srv) /\
    eid_server (get_last_event_id (m_sys (s_mem s)) srv) = srv.
Proof.
  intros O cf tr s srv H. destruct (final_C14 _ _ _ _ H) as (_ & HF & HL). specialize (HL srv).
  destruct HL as [(H1 & x & H2 & E & E1 & E2 & E3)|[_ N]].
  - split; [|exact E2]. left. rewrite <- E1.
    assert (Hi : In x (w_all (watch_run cf tr))) by (rewrite E; apply in_or_app; right; now left).
    pose proof (all_ok _ _ (execution_inv _ _ _ _ H)) as Ho. rewrite E in Ho.
    assert (Ha : goes_on H1 (en_conf x) (en_ev x) = true).
    { clear - Ho. replace (H1 ++ x :: H2) with ((H1 ++ [x]) ++ H2) in Ho by now rewrite <- app_assoc.
      revert Ho. induction H2 as [|y H2 IH] using rev_ind; intros Ho.
      - rewrite app_nil_r in Ho. apply hist_ok_snoc in Ho. tauto.
      - rewrite app_assoc in Ho. apply hist_ok_snoc in Ho as [Ho _]. auto. }
    apply goes_follows in Ha. unfold follows in Ha. apply andb_prop in Ha as [Ha _]. apply andb_prop in Ha as [Ha _].
    rewrite E1, E2 in Ha. rewrite E1. now apply eid_ltb_spec.
  - rewrite N. split; [right; reflexivity|reflexivity].
Qed.

Lemma take_in : forall cf es H en, In en (take_events cf H es) -> In (en_ev en) es.
Proof.
  intros cf. induction es as [|e es IH]; intros H en Hi; cbn [take_events] in Hi; [destruct Hi|]. destruct (accepts H cf e).
  - destruct Hi as [<-|Hi]; [now left|right; eauto].
  - right; eauto.
Qed.

Lemma entries_from : forall tr w en, In en (w_all (fold_left watch_step tr w)) -> In en (w_all w) \/ In (en_ev en) (events_of tr).
Proof.
  induction tr as [|[o x] tr IH]; intros w en Hi; [now left|]. cbn [fold_left] in Hi. change ((o, x) :: tr) with ([(o, x)] ++ tr). rewrite ev_app, in_app_iff.
  apply IH in Hi as [Hi|Hi]; [|auto]. assert (G : In en (w_all w) \/ In (en_ev en) (events_of [(o, x)])); [|tauto].
  destruct o; try (left; exact Hi); unfold w_all in *.
  - cbn [watch_step w_disk w_queue w_cur] in Hi. rewrite !in_app_iff in *. destruct Hi as [Hi|[Hi|[Hi|Hi]]]; auto. right.
    unfold events_of. cbn. rewrite app_nil_r. eapply take_in; eauto.
  - cbn [watch_step w_disk w_queue w_cur] in Hi. rewrite concat_app in Hi. cbn [concat] in Hi. rewrite !app_nil_r in Hi. now left.
  - destruct x; try (left; exact Hi). cbn [watch_step w_disk w_queue w_cur] in Hi. left. destruct (w_queue w); cbn [hd tl concat] in *; rewrite ?in_app_iff in *; tauto.
  - cbn [watch_step w_disk w_queue w_cur concat] in Hi. left. rewrite !in_app_iff in *. cbn [In] in Hi. tauto.
Qed.

(** A batch of the engine follows what the backend has. *)
Lemma batch_follows : forall O cf tr0 vtr0 srv tk ms size A i es x, service O cf tr0 vtr0 srv tk ms size (A ++ [SBatch i (ORegister es, x)]) ->
    clock_forward srv (w_all (watch_run cf tr0)) (readings (engine_part (A ++ [SBatch i (ORegister es, x)]))) ->
    let H := w_all (watch_run cf (tr0 ++ backend_part A)) in
    ordered_batch es /\ Forall (fun e => follows H e = true) es /\ Forall (fun e => eid_server (ev_id e) = srv) es.
Proof.
  intros O cf tr0 vtr0 srv tk ms size A i es x HS HC. cbv zeta.
  pose proof (service_cut _ _ _ _ _ _ _ _ _ _ HS) as ((wA & bA & HPA) & _).
  destruct HS as ((w & b & HP) & (s0 & est & H0 & HE) & (s & HX) & _).
  apply process_last in HP as (w1 & b1 & _ & M). inversion M as [|o l ? ? Hh| | | | | |]; subst.
  rewrite ep_app in HE, HC. cbn [engine_part flat_map app] in HE, HC.
  assert (Hin : In (Hand es) l) by (apply hand_in; rewrite Hh; now left).
  destruct (ids_step _ _ _ _ srv H0) as [L1 L2].
  destruct (final_C31_increasing _ _ _ _ _ HE) as [S F]. rewrite L2 in F. rewrite handed_snoc, Hh, concat_app in S, F. cbn [concat] in S, F. rewrite app_nil_r in S, F.
  rewrite map_app in S. inversion S as [|? ? S1 S2]; subst. apply Forall_app in F as [F1 F2].
  destruct (hand_time _ _ _ _ _ _ _ _ HE Hin) as (now & T1 & T2 & T3). destruct HC as [C1 C2]. specialize (T3 C1).
  rewrite Forall_forall in S2, F2, T1.
  assert (So : forall a b, StronglySorted eid_lt (a ++ b) -> StronglySorted eid_lt b /\ forall u v, In u a -> In v b -> eid_lt u v).
  { clear. induction a as [|u a IH]; intros b S; [split; [exact S|intros ? ? []]|]. cbn in S. inversion S as [|? ? S1 S2]; subst.
    destruct (IH _ S1) as [I1 I2]. split; [exact I1|]. intros p q [->|Hp] Hq; [|auto]. rewrite Forall_forall in S2. apply S2. apply in_or_app. now right. }
  apply So in S1 as [S3 S4].
  assert (Hok : Forall event_ok es).
  { rewrite bp_app, app_assoc in HX. apply execution_snoc in HX as (? & _ & _ & _ & HF). cbn in HF. now rewrite app_nil_r in HF. }
  split; [|split; [|apply Forall_forall; exact F2]].
  - clear - S3 T1. induction es as [|e es IH]; [constructor|]. cbn in S3. inversion S3 as [|? ? A B]; subst. constructor.
    + apply IH; [exact A|]. intros z Hz. apply T1. now right.
    + rewrite Forall_forall in *. intros z Hz. split; [apply eid_ltb_spec, B; now apply in_map|].
      rewrite (T1 e), (T1 z) by (try (now left); now right). apply ts_leb_refl.
  - apply Forall_forall. intros e He. unfold follows. rewrite (F2 _ He), (T1 _ He).
    assert (B1 : eid_ltb (Eid srv 0 0) (ev_id e) = true).
    { apply eid_ltb_spec. eapply le_lt; [exact L1|]. apply S2. apply in_or_app. right. now apply in_map. }
    assert (B2 : ts_leb min_timestamp now = true).
    { rewrite Forall_forall in Hok. destruct (Hok _ He) as (_ & _ & Ht & _). rewrite (T1 _ He) in Ht. destruct Ht as [Ht1 Ht2].
      unfold ts_leb, min_timestamp. cbn [ts_s ts_us]. lia. }
    rewrite B1, B2. cbn [andb]. apply forallb_forall. intros en Hen. destruct (server_eqb (en_ev en) e) eqn:Es; [|reflexivity]. cbn [negb orb].
    apply server_eqb_iff in Es. rewrite (F2 _ He) in Es.
    assert (D : In en (w_all (watch_run cf tr0)) \/ In (en_ev en) (concat (handed (engine_part A)))).
    { rewrite watch_run_app in Hen. apply entries_from in Hen as [Hen|Hen]; [now left|right]. eapply own_events; eauto. }
    apply andb_true_intro. destruct D as [D|D].
    + split; [|eapply C2; eauto]. apply eid_ltb_spec. eapply final_C35_stored; [exact H0|exact HE|exact D|exact Es|].
      rewrite handed_snoc, Hh, concat_app. apply in_or_app. right. cbn. now rewrite app_nil_r.
    + split; [apply eid_ltb_spec, S4; now apply in_map|].
      apply T3. destruct (eruns_pre _ _ _ _ _ _ HE) as [s1 HE1]. eapply handed_reading; eauto.
Qed.
