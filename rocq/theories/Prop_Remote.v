(** C43: remote activity. *)
From Coq Require Import String Bool ZArith List.
From Verif Require Import Base Model_Types Model_Monitor Model_Remote Spec_Conditions Spec_Monitor Spec_Remote Proof_Remote2 Ex_Remote.
Import ListNotations.
Open Scope string_scope.
Open Scope list_scope.
Open Scope Z_scope.

Example remote_example : xruns x_group x_token (xtrace x_ops) (xend_of x_ops) /\ xruns x_group x_token (xtrace x_closed) (xend_of x_closed).
Proof. split; apply xplayed; vm_compute; reflexivity. Qed.

(** C43.  The runner says that a remote is active exactly if some connection's
    last status is not STANDBY. *)
Theorem C43_active : forall g t tr s, xruns g t tr s -> (x_remote s = true <-> remote_is_active tr).
Proof. exact final_C43_active. Qed.
Print Assumptions C43_active.

(** C43.  Listeners are told when that changes, and only then. *)
Theorem C43_when : forall g t a o l b s, xruns g t (a ++ (o, l) :: b) s ->
  (In (Tell true) l <-> ~ remote_is_active a /\ remote_is_active (a ++ [(o, l)])) /\
  (In (Tell false) l <-> remote_is_active a /\ ~ remote_is_active (a ++ [(o, l)])).
Proof. exact final_C43_when. Qed.
Print Assumptions C43_when.

(** C43.  So what they are told alternates, and is what the runner says. *)
Theorem C43_told : forall g t tr s, xruns g t tr s -> changes false (told tr) /\ last (told tr) false = x_remote s.
Proof. exact final_C43_told. Qed.
Print Assumptions C43_told.

Example C43_told_example : told (xtrace x_ops) = [true; false; true] /\ x_remote (xend_of x_ops) = true /\
  link d2 (xtrace x_ops) = None /\ link d3 (xtrace x_ops) = Some STARTING /\ told (xtrace x_closed) = [true; false; true; false].
Proof. vm_compute. auto. Qed.

(** C43.  As long as the runner is open, every server published by the monitor
    has its loop, and no server has two. *)
Theorem C43_loops : forall g t tr s, xruns g t tr s -> monitors_ok tr -> running tr ->
  NoDup (map fst (x_tasks s)) /\ (forall d, known g t tr d -> In d (map fst (x_tasks s))).
Proof. exact final_C43_loops. Qed.
Print Assumptions C43_loops.

Example C43_loops_example : monitors_ok (xtrace x_ops) /\ running (xtrace x_ops) /\ known x_group x_token (xtrace x_ops) d3 /\
  x_tasks (xend_of x_ops) = [(d3, XOpen)].
Proof.
  split; [|split; [|split; [|vm_compute; reflexivity]]].
  - intros st l H. vm_compute in H. repeat destruct H as [[= <- <-]|H]; try easy; [exact x_ms_ok|exact x_ms2_ok].
  - intros l H. vm_compute in H. repeat destruct H as [[=]|H]. easy.
  - exists x_ms2, x_three. split; [vm_compute; reflexivity|]. split; [cbn; auto|]. split.
    { intros o [= <-] (X & _). discriminate. }
    split; [reflexivity|]. split; [exists (JInt 3); split; [eexists; split; [reflexivity|cbn; auto]|constructor]|]. split.
    + eexists _, _. split; [eexists; split; [reflexivity|cbn; eauto]|]. split; [eexists; split; [reflexivity|cbn; eauto]|]. split; [eexists; split; [reflexivity|cbn; eauto]|constructor].
    + exists (Some "secret"). split; [|auto]. constructor. eexists. split; [reflexivity|cbn; auto].
Qed.

(** C43.  A connection is tried when its loop gets to its head, exactly if the
    monitor's latest state publishes the server and the runner is open; never
    while another attempt or connection of the server lasts. *)
Theorem C43_tries : forall g t a o l b s d, xruns g t (a ++ (o, l) :: b) s -> monitors_ok a ->
  (In (Try d) l <-> o = XStep d /\ known g t a d /\ running a) /\ (In (Try d) l -> busy d a = false).
Proof. exact final_C43_tries. Qed.
Print Assumptions C43_tries.

Example C43_tries_example : map snd (xtrace x_ops) =
  [[]; [Try d2]; [Try d3]; []; []; [Tell true]; [Try d3]; []; []; [Try d2]; []; []; []; [Tell false]; [Tell true]].
Proof. vm_compute. reflexivity. Qed.

(** C43.  When no loop is left, no remote counts as active. *)
Theorem C43_ended : forall g t tr s, xruns g t tr s -> x_tasks s = [] -> x_remote s = false /\ forall d, link d tr = None.
Proof. exact final_C43_ended. Qed.
Print Assumptions C43_ended.

(** C43.  A closed runner's loops can all end, by steps of their own. *)
Theorem C43_can_end : forall g t tr s, xruns g t tr s -> ~ running tr ->
  exists b s', (forall o l, In (o, l) b -> exists d, o = XCancel d \/ o = XStep d) /\ xruns g t (tr ++ b) s' /\ x_tasks s' = [] /\ x_remote s' = false.
Proof. exact final_C43_can_end. Qed.
Print Assumptions C43_can_end.

Example C43_ended_example : x_tasks (xend_of x_closed) = [] /\ ~ running (xtrace x_closed).
Proof. split; [vm_compute; reflexivity|]. intros H. apply (H []). vm_compute. auto 20. Qed.
