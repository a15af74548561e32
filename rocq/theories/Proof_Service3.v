(** A server process: registered requests are stored, and answers to queries. *)
From Coq Require Import String Bool ZArith Arith Lia Sorted List.
From Verif Require Import Base Kv Model_Types Model_Subscription Model_Codec Keys Spec_Order Proof_Order Model_Lmdb Model_LmdbSys
  Spec_Lmdb Spec_LmdbContent Spec_LmdbQuery Spec_LmdbTs Proof_Lmdb3 Proof_Lmdb4 Proof_Lmdb8 Proof_Lmdb9 Proof_Lmdb14 Proof_Lmdb23
  Model_Engine Spec_Engine Proof_Engine Proof_Engine2 Proof_Engine3 Proof_Engine5 Model_Eventer Spec_Eventer Proof_Eventer Proof_Eventer2 Proof_Eventer3 Proof_Eventer8
  Proof_LmdbCleanup Model_Service Spec_Service Proof_Service Proof_Service2.
Import ListNotations.
Open Scope list_scope.
Open Scope nat_scope.

Lemma conf_kept : forall tr w, no_reopen tr -> w_conf (fold_left watch_step tr w) = w_conf w.
Proof.
  induction tr as [|[o x] tr IH]; intros w Hn; [reflexivity|]. cbn [fold_left]. rewrite IH by (intros c y Hi; apply (Hn c y); now right).
  destruct o; try reflexivity; [destruct x; reflexivity|]. exfalso. apply (Hn cf x). now left.
Qed.

Lemma no_reopen_split : forall a b, no_reopen (a ++ b) -> no_reopen a /\ no_reopen b.
Proof. intros a b H. split; intros c y Hi; apply (H c y), in_or_app; auto. Qed.

(** ** Batches *)

Lemma batch_stored : forall O cf tr0 vtr0 srv tk ms size T1 i es x T2, let tr := T1 ++ SBatch i (ORegister es, x) :: T2 in
    service O cf tr0 vtr0 srv tk ms size tr -> clock_forward srv (w_all (watch_run cf tr0)) (readings (engine_part (T1 ++ [SBatch i (ORegister es, x)]))) ->
    forall e, In e es -> cf_cond (conf_at cf tr0) e = true ->
    eid_server (ev_id e) = srv /\
    (has_place (conf_at cf tr0) e = true -> In (Entry (conf_at cf tr0) e) (w_all (watch_run cf (tr0 ++ backend_part tr)))) /\
    (covers (conf_at cf tr0) (ev_type e) = true ->
     exists a b, events_of (tr0 ++ backend_part tr) = a ++ e :: b /\ shown (conf_at cf tr0) (w_all (watch_run cf (tr0 ++ backend_part tr))) a e b).
Proof.
  intros O cf tr0 vtr0 srv tk ms size T1 i es x T2 tr HS HC e He Hc. unfold tr in *. clear tr.
  replace (T1 ++ SBatch i (ORegister es, x) :: T2) with ((T1 ++ [SBatch i (ORegister es, x)]) ++ T2) in * by (rewrite <- app_assoc; reflexivity).
  destruct HS as ((w & b & HP) & HS'). pose proof (conj (ex_intro _ w (ex_intro _ b HP)) HS' : service O cf tr0 vtr0 srv tk ms size _) as HS. clear HS'.
  destruct (batch_follows _ _ _ _ _ _ _ _ _ _ _ _ (service_cut _ _ _ _ _ _ _ _ _ _ HS) HC) as (B1 & B2 & B3).
  pose proof (process_no_reopen _ _ _ _ _ HP) as Hn. rewrite bp_app in Hn. apply no_reopen_split in Hn as [Hn1 Hn2]. rewrite bp_app in Hn1.
  apply no_reopen_split in Hn1 as [Hn1 _].
  set (w1 := watch_run cf (tr0 ++ backend_part T1)) in *.
  assert (Ec : w_conf w1 = conf_at cf tr0) by (unfold w1; rewrite watch_run_app; now apply conf_kept).
  assert (Ew : watch_run cf (tr0 ++ backend_part ((T1 ++ [SBatch i (ORegister es, x)]) ++ T2)) = fold_left watch_step (backend_part T2) (watch_step w1 (ORegister es, x))).
  { rewrite bp_app, app_assoc, watch_run_app. rewrite (bp_app T1), app_assoc, watch_run_app. reflexivity. }
  assert (Ea : w_all (watch_step w1 (ORegister es, x)) = w_all w1 ++ take_events (conf_at cf tr0) (w_all w1) es).
  { unfold w_all at 1. cbn [watch_step w_disk w_queue w_cur]. rewrite Ec. unfold w_all. now rewrite <- !app_assoc. }
  rewrite Ew. split; [rewrite Forall_forall in B3; auto|]. split.
  - intros Hp. apply all_grows; [exact Hn2|]. rewrite Ea. apply in_or_app. right. now apply take_placed.
  - intros Hv. destruct (take_shown _ _ _ B1 B2 e He Hc Hv) as (a & b' & -> & S). rewrite <- Ea in S.
    destruct (shown_run (conf_at cf tr0) (backend_part T2) (watch_step w1 (ORegister (a ++ e :: b'), x)) (events_of (tr0 ++ backend_part T1) ++ a) e b' Hn2 Ec S) as [S' _].
    exists (events_of (tr0 ++ backend_part T1) ++ a), (b' ++ events_of (backend_part T2)). split; [|exact S'].
    rewrite !bp_app, !ev_app. cbn [backend_part flat_map app]. unfold events_of at 3. cbn [flat_map fst app]. rewrite app_nil_r.
    rewrite <- !app_assoc. reflexivity.
Qed.

(** ** Answers of the engine *)

Lemma used_run : forall ms size last tr s, engine_run ms size last tr s ->
    (forall r, In (ERegister r) (ops_of tr) -> In (rq_fut r) (e_used s)) /\ In 0 (e_used s) /\
    (forall r1 r2, In (ERegister r1) (ops_of tr) -> In (ERegister r2) (ops_of tr) -> rq_fut r1 = rq_fut r2 -> r1 = r2) /\
    (forall r, In (ERegister r) (ops_of tr) -> rq_fut r <> 0).
Proof.
  intros ms size last. apply run_ind.
  - cbn. repeat split; try (intros; tauto); auto.
  - intros tr s o l s2 H (I1 & I2 & I3 & I4) Hx.
    assert (U : (exists r, o = ERegister r /\ ~ In (rq_fut r) (e_used s) /\ e_used s2 = e_used s ++ [rq_fut r]) \/ ((forall r, o <> ERegister r) /\ e_used s2 = e_used s)).
    { destruct o; try (right; split; [discriminate|]).
      3: { left. exists r. split; [reflexivity|]. cbn [eexec] in Hx. destruct (memb (rq_fut r) (e_used s)) eqn:E; [discriminate|].
           split; [rewrite <- memb_in; congruence|]. destruct (rq_events r); injection Hx as <- _; reflexivity. }
      all: clear -Hx; unfold eexec, shut in Hx; repeat match type of Hx with context [match ?x with _ => _ end] => destruct x; try discriminate end; injection Hx as <- _; reflexivity. }
    rewrite ops_snoc. destruct U as [(r & -> & U1 & U2)|[U1 U2]]; rewrite U2.
    + assert (G : forall q, In (ERegister q) (ops_of tr ++ [ERegister r]) -> In (ERegister q) (ops_of tr) \/ q = r).
      { intros q Hq. apply in_app_or in Hq as [Hq|[[= ->]|[]]]; auto. }
      repeat split.
      * intros q Hq. apply in_or_app. apply G in Hq as [Hq| ->]; [auto|right; now left].
      * apply in_or_app. auto.
      * intros r1 r2 H1 H2 E. apply G in H1 as [H1| ->]; apply G in H2 as [H2| ->]; auto; exfalso; apply U1; [rewrite <- E|rewrite E]; auto.
      * intros q Hq. apply G in Hq as [Hq| ->]; [auto|]. intros E. apply U1. now rewrite E.
    + assert (G : forall q, In (ERegister q) (ops_of tr ++ [o]) -> In (ERegister q) (ops_of tr)).
      { intros q Hq. apply in_app_or in Hq as [Hq|[Hq|[]]]; auto. exfalso. eapply U1; eauto. }
      repeat split; auto.
Qed.

Lemma register_hand : forall ms size last tr s, engine_run ms size last tr s -> forall r k, In (ERegister r, k) tr -> handed_in k = [].
Proof.
  intros ms size last. apply (run_ind ms size last (fun tr s => forall r k, In (ERegister r, k) tr -> handed_in k = [])).
  - intros r k [].
  - intros tr s o l s2 H I Hx r k Hi. apply in_app_or in Hi as [Hi|[[= -> ->]|[]]]; [eauto|].
    cbn [eexec] in Hx. destruct (memb _ _); [discriminate|]. destruct (rq_events r); injection Hx as _ <-; reflexivity.
Qed.

Lemma out_step : forall tr y, In y (outs_of tr) -> exists E1 o l E2, tr = E1 ++ (o, l) :: E2 /\ In y l.
Proof.
  intros tr y H. unfold outs_of in H. apply in_flat_map in H as ([o l] & H & Hy). apply in_split in H as (E1 & E2 & ->). eauto 6.
Qed.

Lemma not_registered_hand : forall ms size s ok s2 l, eexec ms size s (ERegistered ok) = Some (s2, l) -> handed_in l = [].
Proof.
  intros ms size s ok s2 l H. cbn [eexec] in H. destruct (e_loop s); try discriminate. injection H as _ <-. apply handed_reply.
Qed.

(** Answers are given when the batch was registered by the backend. *)
Lemma reply_batch : forall O cf tr0 vtr0 srv tk ms size T, service O cf tr0 vtr0 srv tk ms size T ->
    forall n, ~ In (Reply n NoEvents) (outs_of (engine_part T)) /\
    forall es r, In (Reply n (Events es)) (outs_of (engine_part T)) -> In (ERegister r) (ops_of (engine_part T)) -> rq_fut r = n ->
      map reg_of es = rq_events r /\ (es = [] \/ exists T1 i rest x T2, T = T1 ++ SBatch i (ORegister (es ++ rest), x) :: T2).
Proof.
  intros O cf tr0 vtr0 srv tk ms size T HS n. pose proof HS as ((w & b & HP) & (s0 & est & H0 & HE) & _).
  assert (R : forall E1 ok l E2, engine_part T = E1 ++ (ERegistered ok, l) :: E2 -> ok = true /\ exists T1 y T2 w', T = T1 ++ y :: T2 /\ engine_part T1 = E1 /\ process srv tr0 T1 w' false).
  { intros E1 ok l E2 E. destruct (engine_at _ _ _ _ E) as (T1 & y & T2 & ET & E1' & E2' & D).
    rewrite ET in HP. destruct (process_at _ _ _ _ _ _ _ HP) as (w1 & b1 & w2 & b2 & P1 & M & _).
    rewrite E in HE. assert (HE1 : exists s, engine_run ms size (get_last_event_id (m_sys (s_mem s0)) srv) (E1 ++ [(ERegistered ok, l)]) s).
    { apply (eruns_pre _ _ _ _ E2 est). rewrite <- app_assoc. exact HE. }
    destruct HE1 as [sE HE1]. apply eruns_inv in HE1 as (sE1 & o' & l' & EE & _ & HX). injection EE as <- <-.
    assert (HN := not_registered_hand _ _ _ _ _ _ HX).
    destruct D as [->|[[x ->]|[v ->]]].
    - inversion M; subst.
      + match goal with X : forall k, ERegistered ok = ERegistered k -> _ |- _ => destruct (X ok eq_refl) as [-> ->] end. split; [reflexivity|]. exists T1, (SEngine (ERegistered true, l)), T2, w2. auto.
      + cbn [snd] in HN. congruence.
    - inversion M; subst. cbn [snd] in HN. congruence.
    - inversion M. }
  split.
  - intros Hi. apply out_step in Hi as (E1 & o & l & E2 & E & Hl). pose proof HE as HE'. rewrite E in HE'.
    replace (E1 ++ (o, l) :: E2) with ((E1 ++ [(o, l)]) ++ E2) in HE' by (rewrite <- app_assoc; reflexivity).
    destruct (eruns_pre _ _ _ _ _ _ HE') as [s1 HE1]. destruct (final_C32_answer _ _ _ _ _ _ _ _ _ HE1 Hl) as [-> _].
    destruct (R _ _ _ _ E) as [X _]. discriminate.
  - intros es r Hi Hr En. apply out_step in Hi as (E1 & o & l & E2 & E & Hl). pose proof HE as HE'. rewrite E in HE'.
    replace (E1 ++ (o, l) :: E2) with ((E1 ++ [(o, l)]) ++ E2) in HE' by (rewrite <- app_assoc; reflexivity).
    destruct (used_run _ _ _ _ _ HE) as (_ & _ & Huq & Hnz).
    destruct (eruns_pre _ _ _ _ _ _ HE') as [s1 HE1]. destruct (final_C32_answer _ _ _ _ _ _ _ _ _ HE1 Hl) as [(r' & -> & E3 & E4 & ->)|(-> & bs & r' & hs & rest & F1 & F2 & F3 & F4 & F5)].
    + assert (r' = r). { apply Huq; [|exact Hr|congruence]. rewrite E, ops_app. apply in_or_app. right. now left. }
      subst r'. rewrite E4. auto.
    + destruct (R _ _ _ _ E) as (_ & T1 & y & T2 & w' & ET & ET1 & HP1).
      assert (Hb : In r' (begun E1)) by (rewrite F1; apply in_or_app; right; now left).
      destruct (eruns_pre _ _ _ _ _ _ HE1) as [s2 HE2]. destruct (req_run _ _ _ _ _ HE2 r' (or_intror Hb)) as [[->|Hr'] _].
      { exfalso. apply (Hnz r Hr). rewrite En, <- F4. reflexivity. }
      assert (r' = r). { apply Huq; [|exact Hr|congruence]. rewrite E, ops_app. apply in_or_app. now left. }
      subst r'. split; [exact F5|right].
      destruct (batch_given _ _ _ _ _ HP1) with (h := es ++ rest) as (T11 & i & x & T12 & ->); [|reflexivity| |].
      * rewrite ET1. eapply register_hand; eauto.
      * rewrite ET1, F2. apply in_or_app. right. now left.
      * exists T11, i, rest, x, (T12 ++ y :: T2). rewrite ET, <- app_assoc. reflexivity.
Qed.
