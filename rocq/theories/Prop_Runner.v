(** C44: the engine runner. *)
From Coq Require Import Bool Arith List.
From Verif Require Import Base Model_Types Model_Runner Spec_Runner Proof_Runner2 Ex_Runner.
Import ListNotations.
Open Scope list_scope.
Open Scope nat_scope.

Example runner_example : nruns (ntrace n_second) (nend_of n_second) /\ nruns (ntrace n_third) (nend_of n_third).
Proof. split; apply nplayed; vm_compute; reflexivity. Qed.

(** C44.  The server is OPERATIONAL exactly while an engine is given to it; no
    combination is refused. *)
Theorem C44_operational : forall tr s, nruns tr s ->
  (forall st e, In (SetStatus st e) (done_ tr) -> (st = OPERATIONAL <-> e <> None)) /\ ~ In Refused (done_ tr) /\
  last (sets (done_ tr)) (STANDBY, None) = (n_srv s, n_seng s).
Proof. exact final_C44_operational. Qed.
Print Assumptions C44_operational.

(** C44.  Statuses follow the cycle; only at the end, when the runner is
    closed, STOPPING and STANDBY may follow any status. *)
Theorem C44_cycle_partial : forall tr s, nruns tr s ->
  exists c t, statuses (done_ tr) = c ++ t /\ cycle STANDBY c /\ (t = [] \/ n_open s = false /\ (t = [STOPPING] \/ t = [STOPPING; STANDBY])).
Proof. exact final_C44_cycle. Qed.
Print Assumptions C44_cycle_partial.

Example C44_cycle_example : statuses (done_ (ntrace n_third)) =
  [STARTING; OPERATIONAL; STOPPING; STANDBY; STARTING; OPERATIONAL; STOPPING; STANDBY] /\ n_open (nend_of n_second) = true.
Proof. vm_compute. auto. Qed.

(** C44.  At the end they need not: a runner closed while waiting for a remote
    says STOPPING in STANDBY. *)
Theorem C44_cycle_refuted : exists tr s, nruns tr s /\ ~ cycle STANDBY (statuses (done_ tr)).
Proof.
  exists (ntrace n_wait), (nend_of n_wait). split; [apply nplayed; vm_compute; reflexivity|]. vm_compute. intros [H _]. discriminate.
Qed.
Print Assumptions C44_cycle_refuted.

(** C44.  When STARTING is set no remote is active. *)
Theorem C44_allowed_partial : forall a o l b s, nruns (a ++ (o, l) :: b) s -> In (SetStatus STARTING None) l -> remote_now a = false.
Proof. exact final_C44_allowed. Qed.
Print Assumptions C44_allowed_partial.

Example C44_allowed_example : exists a l b, ntrace n_first = a ++ (NWake, l) :: b /\ In (SetStatus STARTING None) l.
Proof. exists [(NRemote true, []); (NBegin, []); (NRemote false, [])], [SetStatus STARTING None]. eexists. split; [vm_compute; reflexivity|cbn; auto]. Qed.

(** C44.  One may be when the engine is created. *)
Theorem C44_allowed_refuted : exists a o l s, nruns (a ++ [(o, l)]) s /\ In CreateEngine l /\ remote_now a = true.
Proof.
  exists (ntrace (firstn 2 n_late)), NOk, [CreateEngine], (nend_of n_late).
  split; [|split; [cbn; auto|vm_compute; reflexivity]].
  match goal with |- nruns ?t _ => replace t with (ntrace n_late) by (vm_compute; reflexivity) end. apply nplayed. vm_compute. reflexivity.
Qed.
Print Assumptions C44_allowed_refuted.

(** C44.  A new engine is created only after all former ones were closed and
    the backend flushed since. *)
Theorem C44_after : forall a o l b s, nruns (a ++ (o, l) :: b) s -> In CreateEngine l -> forall n, In (Created n) (done_ a) -> settled n (done_ a).
Proof. exact final_C44_after. Qed.
Print Assumptions C44_after.

Example C44_after_example : done_ (ntrace n_second) =
  [SetStatus STARTING None; CreateEngine; Created 0; SetStatus OPERATIONAL (Some 0); ToEngine 0; ToEngine 0; ToEngine 0; Closing 0; SetStatus STOPPING None;
   EngineClosed 0; FlushBegin; Flushed; SetStatus STANDBY None; SetStatus STARTING None; CreateEngine; Created 1; SetStatus OPERATIONAL (Some 1)].
Proof. vm_compute. reflexivity. Qed.

(** C44.  So there are never two engines not yet closed. *)
Theorem C44_single : forall tr s, nruns tr s -> forall n m, In (Created n) (done_ tr) -> In (Created m) (done_ tr) ->
  ~ In (EngineClosed n) (done_ tr) -> ~ In (EngineClosed m) (done_ tr) -> n = m.
Proof. exact final_C44_single. Qed.
Print Assumptions C44_single.

(** C44.  Events are given only to an engine that was created and is not being
    closed; those of clients only while the server is OPERATIONAL. *)
Theorem C44_served : forall a o l b s n, nruns (a ++ (o, l) :: b) s -> In (ToEngine n) l ->
  In (Created n) (done_ a) /\ ~ In (Closing n) (done_ a) /\ (o <> NSynced -> last (sets (done_ a)) (STANDBY, None) = (OPERATIONAL, Some n)).
Proof. exact final_C44_served. Qed.
Print Assumptions C44_served.

(** C44.  While it is, every register request gets to that engine. *)
Theorem C44_passed : forall a l b s n, nruns (a ++ (NRegister, l) :: b) s -> last (sets (done_ a)) (STANDBY, None) = (OPERATIONAL, Some n) -> l = [ToEngine n].
Proof. exact final_C44_passed. Qed.
Print Assumptions C44_passed.

Example C44_served_example : map snd (filter (fun x => match fst x with NRegister | NPresence | NSynced => true | _ => false end) (ntrace n_third)) =
  [[ToEngine 0]; [ToEngine 0]; [ToEngine 0]; []; [ToEngine 1]; []].
Proof. vm_compute. reflexivity. Qed.

(** C44.  A runner that ended has left the server in STANDBY, all engines
    closed and the backend flushed, unless it never started or closing raised. *)
Theorem C44_finished : forall tr s, nruns tr s -> n_pc s = NDone ->
  done_ tr = [] \/ broke_off tr \/ (last (statuses (done_ tr)) STANDBY = STANDBY /\ forall n, In (Created n) (done_ tr) -> settled n (done_ tr)).
Proof. exact final_C44_finished. Qed.
Print Assumptions C44_finished.

Example C44_finished_example : n_pc (nend_of n_third) = NDone /\ ~ broke_off (ntrace n_third) /\ In (Created 1) (done_ (ntrace n_third)).
Proof. split; [vm_compute; reflexivity|]. split; [|vm_compute; auto 30]. intros H. unfold broke_off in H. vm_compute in H. intuition discriminate. Qed.

(** C44.  An exception while the runner is open makes it close, also if it was
    closing an engine to restart. *)
Theorem C44_raise : forall tr s s' l, nruns tr s -> n_open s = true -> nexec s NRaise = Some (s', l) -> In (SetStatus STOPPING None) l /\ n_open s' = false.
Proof. exact final_C44_raise. Qed.
Print Assumptions C44_raise.

Example C44_raise_example : let s := nend_of (firstn 16 n_second) in n_pc s = NFlush false /\ n_open s = true /\ exists s' l, nexec s NRaise = Some (s', l).
Proof. vm_compute. eauto. Qed.

(** C44.  After an engine closed by itself no other one is created. *)
Theorem C44_gone : forall a l b s, nruns (a ++ (NEngineClosed, l) :: b) s -> last (statuses (done_ a)) STANDBY = OPERATIONAL -> ~ In CreateEngine (done_ b).
Proof. exact final_C44_gone. Qed.
Print Assumptions C44_gone.

Example C44_gone_example : exists a b, ntrace n_third = a ++ (NEngineClosed, []) :: b /\ last (statuses (done_ a)) STANDBY = OPERATIONAL /\ b <> [].
Proof.
  exists (firstn 22 (ntrace n_third)), (skipn 23 (ntrace n_third)). split; [vm_compute; reflexivity|]. split; [vm_compute; reflexivity|]. vm_compute. discriminate.
Qed.

(** C44.  A restart asked for since STARTING is not lost: the runner waiting on
    its engine goes on to STOPPING. *)
Theorem C44_restart : forall tr s, nruns tr s -> n_pc s = NRun -> n_open s = true -> restart_asked tr = true ->
  exists s' l, nruns (tr ++ [(NOk, []); (NOk, l)]) s' /\ In (SetStatus STOPPING None) l.
Proof. exact final_C44_restart. Qed.
Print Assumptions C44_restart.

Example C44_restart_example : n_pc (nend_of n_first) = NRun /\ n_open (nend_of n_first) = true /\ restart_asked (ntrace n_first) = true.
Proof. vm_compute. auto. Qed.

(** C44.  A closed runner can end: what it waits for has to return. *)
Theorem C44_can_stop : forall tr s, nruns tr s -> n_open s = false ->
  exists b s', (forall o l, In (o, l) b -> o = NCancel \/ o = NOk) /\ nruns (tr ++ b) s' /\ n_pc s' = NDone.
Proof. exact final_C44_can_stop. Qed.
Print Assumptions C44_can_stop.

Example C44_can_stop_example : nruns (ntrace n_wait) (nend_of n_wait) /\ n_open (nend_of n_wait) = false /\ n_pc (nend_of n_wait) = NStop true.
Proof. split; [apply nplayed; vm_compute; reflexivity|vm_compute; auto]. Qed.
