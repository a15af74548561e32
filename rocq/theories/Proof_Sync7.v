(** Synchronization: it can always be finished. *)
From Coq Require Import String Bool ZArith Arith Lia Sorted List.
From Verif Require Import Base Model_Types Proof_Order Proof_Lmdb3 Model_Sync Spec_Sync Proof_Sync Proof_Sync2 Proof_Sync3 Proof_Sync4 Proof_Sync5 Proof_Sync6.
Import ListNotations.
Open Scope string_scope.
Open Scope list_scope.
Open Scope nat_scope.

Definition quiet_op (o : yop) : Prop := match o with RCommit _ | RClean _ | YClose => False | _ => True end.
Definition reach (sv : Z) (last0 : event_id) (s : ystate) (P : ystate -> Prop) : Prop :=
  exists tr s', yruns sv last0 s tr s' /\ quiet tr /\ P s'.

Lemma yruns_app : forall sv last0 s1 a s2 b s3, yruns sv last0 s1 a s2 -> yruns sv last0 s2 b s3 -> yruns sv last0 s1 (a ++ b) s3.
Proof.
  intros sv last0 s1 a s2 b s3 H H'. induction H'; [now rewrite app_nil_r|]. rewrite app_assoc. econstructor; eauto.
Qed.
Lemma reach_now : forall sv last0 s (P : ystate -> Prop), P s -> reach sv last0 s P.
Proof. intros. exists [], s. split; [constructor|]. split; auto. constructor. Qed.
Lemma reach_step : forall sv last0 s o p (P : ystate -> Prop), yexec sv last0 s o = Some p -> quiet_op o -> reach sv last0 (fst p) P -> reach sv last0 s P.
Proof.
  intros sv last0 s o [s' l] P H Hq (tr & s2 & R & Q & HP). exists ([(o, l)] ++ tr), s2. split; [|split; auto].
  - eapply yruns_app; eauto. apply (yruns_snoc _ _ s [] s o l s'); auto. constructor.
  - apply Forall_app. split; auto.
Qed.
Lemma reach_trans : forall sv last0 s (P Q : ystate -> Prop), reach sv last0 s P -> (forall s', P s' -> reach sv last0 s' Q) -> reach sv last0 s Q.
Proof.
  intros sv last0 s P Q (tr & s' & R & q & HP) H. destruct (H _ HP) as (tr' & s2 & R' & q' & HQ). exists (tr ++ tr'), s2. split; [eapply yruns_app; eauto|]. split; auto. apply Forall_app. auto.
Qed.

Definition done (s : ystate) : Prop := y_phase s = PDone.
Ltac go s := unfold yexec; match goal with E : y_phase s = _ |- _ => rewrite E end.

Lemma next_queued_len : forall i q es q', next_queued i q = Some (es, q') -> length q' < length q.
Proof. intros i. induction q as [|b q IH]; cbn; intros es q' H; [discriminate|]. destruct (filter (newer i) b); [apply IH in H; lia|]. injection H as <- <-. lia. Qed.
Lemma reach_drain : forall sv last0 n s, length (match y_queue s with Some q => q | None => [] end) <= n -> reach sv last0 (fst (drain s)) done.
Proof.
  intros sv last0. induction n as [|n IH]; intros s Hn; unfold drain; destruct (next_queued _ _) as [[es q]|] eqn:E; cbn [fst]; try (apply reach_now; reflexivity).
  - apply next_queued_len in E. lia.
  - apply next_queued_len in E. eapply (reach_step _ _ _ YGo); [reflexivity|exact I|]. apply IH. cbn. lia.
Qed.
Lemma span_len : forall e r, length (snd (span_session (eid_session (ev_id e)) (e :: r))) <= length r.
Proof.
  intros e r. cbn. rewrite Z.eqb_refl. cbn. pose proof (span_app (eid_session (ev_id e)) r) as H. rewrite <- H at 2. rewrite app_length. lia.
Qed.
Definition asked (s : ystate) : Prop := y_phase s = PAsk /\ r_req s <> None.
Lemma reach_sessions : forall sv last0 n s, length (y_ev s) <= n ->
    reach sv last0 (fst (sessions s)) (if y_more s then asked else done).
Proof.
  intros sv last0. induction n as [|n IH]; intros s Hn.
  - unfold sessions. destruct (y_ev s) as [|e r] eqn:E; [|cbn in Hn; lia]. unfold next. rewrite E. destruct (y_more s); [apply reach_now; split; [reflexivity|discriminate]|].
    eapply reach_drain. reflexivity.
  - unfold sessions. destruct (y_ev s) as [|e r] eqn:E.
    + unfold next. rewrite E. destruct (y_more s); [apply reach_now; split; [reflexivity|discriminate]|]. eapply reach_drain. reflexivity.
    + cbv zeta. destruct (Z.eqb _ _).
      * unfold next. rewrite E. destruct (y_more s); [apply reach_now; split; [reflexivity|discriminate]|]. cbn [fst].
        eapply (reach_step _ _ _ YGo); [reflexivity|exact I|]. eapply reach_drain. reflexivity.
      * cbn [fst]. eapply (reach_step _ _ _ YGo); [reflexivity|exact I|]. apply (IH (y_set s PLoop _ _ _)). cbn [y_set y_ev]. pose proof (span_len e r) as H. cbn in Hn. lia.
Qed.

(** The result of the query is received. *)
Definition got (m : bool) (s : ystate) : Prop := exists q, y_phase s = PResp q /\ qr_more q = m.
Lemma reach_recv : forall sv last0 chan q s, y_phase s = PAsk -> r_chan s = chan -> results_of chan = [q] -> reach sv last0 s (got (qr_more q)).
Proof.
  intros sv last0. induction chan as [|m chan IH]; intros q s P C H; [discriminate|].
  assert (K : forall s, y_phase s = PAsk -> r_chan s = m :: chan -> y_busy s = false -> reach sv last0 s (got (qr_more q))).
  { clear s P C. intros s P C B. destruct m as [b|q'].
    - destruct (y_queue s) as [w|] eqn:Q.
      + eapply (reach_step _ _ _ YRecv); [go s; rewrite B, C, Q; reflexivity|exact I|]. apply IH; auto.
      + eapply (reach_step _ _ _ YRecv); [go s; rewrite B, C, Q; reflexivity|exact I|]. apply IH; auto.
    - cbn in H. injection H as -> H. eapply (reach_step _ _ _ YRecv); [go s; rewrite B, C; reflexivity|exact I|]. apply reach_now. exists q. auto. }
  destruct (y_busy s) eqn:B; [|auto]. eapply (reach_step _ _ _ YDone); [go s; rewrite B; reflexivity|exact I|]. apply K; auto.
Qed.
Lemma reach_wired : forall sv last0 q s, y_phase s = PAsk -> wired s = [q] -> reach sv last0 s (got (qr_more q)).
Proof.
  intros sv last0 q s P W. unfold wired in W. destruct (r_resp s) as [q'|] eqn:R; [|rewrite app_nil_r in W; eapply reach_recv; eauto].
  eapply (reach_step _ _ _ RRespond); [go s; rewrite R; reflexivity|exact I|]. eapply reach_recv; [exact P|reflexivity|]. cbn [fst y_remote r_chan]. rewrite results_app. exact W.
Qed.
Lemma reach_got : forall sv last0 m s, got m s -> reach sv last0 s (if m then asked else done).
Proof.
  intros sv last0 m s (q & P & <-). 
  assert (K : forall s', y_phase s' = PSync -> y_more s' = qr_more q -> reach sv last0 s' (if qr_more q then asked else done)).
  { intros s' P' M. eapply (reach_step _ _ _ YGo); [go s'; reflexivity|exact I|]. rewrite <- M. unfold advance.
    match goal with |- reach _ _ (fst (sessions ?x)) _ => apply (reach_sessions sv last0 (length (y_ev x)) x) end. lia. }
  destruct (qr_events q) as [|e r] eqn:E.
  - eapply (reach_step _ _ _ YWake); [go s; rewrite E; reflexivity|exact I|]. unfold advance.
    match goal with |- reach _ _ (fst (sessions ?x)) _ => apply (reach_sessions sv last0 (length (y_ev x)) x) end. lia.
  - destruct (Nat.eqb (y_count s) 0) eqn:Z.
    + eapply (reach_step _ _ _ YWake); [go s; rewrite E, Z; reflexivity|exact I|]. apply K; reflexivity.
    + eapply (reach_step _ _ _ YWake); [go s; rewrite E, Z; reflexivity|exact I|]. unfold advance.
      match goal with |- reach _ _ (fst (sessions ?x)) _ => apply (reach_sessions sv last0 (length (y_ev x)) x) end. lia.
Qed.
Definition plain (s : ystate) : Prop := y_phase s = PAsk /\ wired s = [] /\ exists i, r_req s = Some i.
Lemma reach_plain : forall sv last0 s, plain s -> reach sv last0 s done.
Proof.
  intros sv last0 s (P & W & i & R). unfold wired in W. apply app_eq_nil in W as [W _].
  eapply (reach_step _ _ _ (RQuery (length (filter (newer i) (r_stored s))))); [go s; rewrite R; reflexivity|exact I|]. rewrite Nat.ltb_irrefl.
  eapply reach_trans; [eapply reach_wired; [exact P|unfold wired; cbn [fst y_remote r_chan r_resp]; rewrite W; reflexivity]|]. intros s' G. exact (reach_got _ _ _ _ G).
Qed.

Lemma final_C41_can : forall sv last0 tr s, sync_run sv last0 tr s -> ~ In YClose (map fst tr) ->
    exists tr' s', sync_run sv last0 (tr ++ tr') s' /\ quiet tr' /\ finished (tr ++ tr').
Proof.
  intros sv last0 tr s H Hc.
  assert (Hp : y_phase s <> PEnd).
  { intros E. destruct (yend _ _ _ _ H E) as (t & s' & -> & _). apply Hc. rewrite map_app. apply in_or_app. right. now left. }
  enough (K : reach sv last0 s done).
  { destruct K as (tr' & s' & R & Q & D). exists tr', s'. assert (R' : sync_run sv last0 (tr ++ tr') s') by (eapply yruns_app; eauto). split; auto. split; auto.
    eapply finished_done; eauto. congruence. }
  (* a run that goes on is a run *)
  assert (J : forall s1, reach sv last0 s (fun x => x = s1) -> asked s1 -> plain s1).
  { intros s1 (tr' & s' & R & Q & ->) [A B]. assert (R' : sync_run sv last0 (tr ++ tr') s1) by (eapply yruns_app; eauto). pose proof (yflow_run _ _ _ _ R') as F. unfold yflow in F. rewrite A in F.
    destruct F as (_ & [(F1 & F2 & _)|(F1 & _)]); [|congruence]. split; auto. split; eauto. }
  assert (J' : reach sv last0 s asked -> reach sv last0 s done).
  { intros A. destruct A as (tr' & s' & R & Q & A). assert (reach sv last0 s (fun x => x = s')) by (exists tr', s'; auto). eapply reach_trans; [exact H0|]. cbn. intros x ->. apply reach_plain. auto. }
  assert (J2 : forall m : bool, reach sv last0 s (if m then asked else done) -> reach sv last0 s done) by (intros m; destruct m; auto).
  assert (Jc : forall s', y_phase s' = PConn -> reach sv last0 s' asked).
  { intros s' E. eapply (reach_step _ _ _ YGo); [go s'; reflexivity|exact I|]. apply reach_now. split; [reflexivity|discriminate]. }
  pose proof (yflow_run _ _ _ _ H) as F. unfold yflow in F.
  destruct (y_phase s) eqn:P; try (now destruct Hp).
  - apply J'. destruct (r_up s) eqn:U.
    + eapply (reach_step _ _ _ YBegin); [go s; rewrite U; reflexivity|exact I|]. now apply Jc.
    + eapply (reach_step _ _ _ RConnect); [go s; rewrite U; reflexivity|exact I|]. eapply (reach_step _ _ _ YBegin); [unfold yexec, y_remote; cbn [y_phase r_up]; rewrite P; reflexivity|exact I|]. now apply Jc.
  - auto.
  - destruct F as (_ & [(F1 & F2 & _)|(_ & q & W & _)]).
    + apply reach_plain. split; auto. split; eauto.
    + apply (J2 (qr_more q)). eapply reach_trans; [eapply reach_wired; eauto|]. intros s' G. exact (reach_got _ _ _ _ G).
  - apply (J2 (qr_more q)). apply reach_got. exists q. auto.
  - apply (J2 (y_more s)). eapply (reach_step _ _ _ YGo); [go s; reflexivity|exact I|]. unfold advance.
    match goal with |- reach _ _ (fst (sessions ?x)) _ => apply (reach_sessions sv last0 (length (y_ev x)) x) end. lia.
  - apply (J2 (y_more s)). eapply (reach_step _ _ _ YGo); [go s; reflexivity|exact I|]. eapply reach_sessions. reflexivity.
  - eapply (reach_step _ _ _ YGo); [go s; reflexivity|exact I|]. eapply reach_drain. reflexivity.
  - eapply (reach_step _ _ _ YGo); [go s; reflexivity|exact I|]. eapply reach_drain. reflexivity.
  - apply reach_now. exact P.
Qed.
