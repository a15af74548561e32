(** C45, C55, C56, C57: components. *)
From Coq Require Import String Bool ZArith List.
From Verif Require Import Base Model_Types Model_Monitor Model_Component Spec_Conditions Spec_Monitor Spec_Component Proof_Component Proof_Component2 Ex_Component.
Import ListNotations.
Open Scope string_scope.
Open Scope list_scope.
Open Scope Z_scope.

Ltac played := vm_compute; reflexivity.

Example component_example : cruns c_conf (ctrace c_moved) (cend_of c_moved) /\ cruns c_conf (ctrace c_ended) (cend_of c_ended) /\ states_ok (ctrace c_moved).
Proof.
  split; [apply cplayed; played|]. split; [apply cplayed; played|]. apply c_states_ok; [played|].
  intros st I. cbn in I. repeat destruct I as [[= <-]|I]; try discriminate; try contradiction; auto.
Qed.

(** C45.  The server chosen for a state of the monitor is what the first active
    server of the group publishes, if that is complete and has the token. *)
Theorem C45_choice : forall cf st d, monitor_ok st -> (active_of cf st = Some d <-> chosen cf st d).
Proof. exact active_of_spec. Qed.
Print Assumptions C45_choice.

Example C45_choice_example : monitor_ok c_ms2 /\ chosen c_conf c_ms2 e2 /\ (forall d, ~ chosen c_conf c_ms0 d) /\
  active_of (Cconf "event" (Some "other") None) c_ms2 = None.
Proof.
  split; [exact c_ms2_ok|]. split; [apply C45_choice; [exact c_ms2_ok|played]|]. split; [|played].
  intros d H. apply C45_choice in H; [discriminate|exact c_ms0_ok].
Qed.

(** C45.  There is one connection at a time, its client closed before another one
    is tried; the callback is called once per connection with the server
    connected to, and the runner closed once. *)
Theorem C45_one : forall cf tr s, cruns cf tr s -> link tr <> None.
Proof. exact final_C45_one. Qed.
Print Assumptions C45_one.

Example C45_one_example : flat_map snd (ctrace c_ended) =
  [Dial e2 (Some 2); Dial e2 (Some 2); Call e2; Made; RClosed; CClosed; Dial e2 (Some 2); Call e2; Made; RClosed; CClosed;
   Dial e3 (Some 3); Call e3; Made; CloseSelf; RClosed; CClosed].
Proof. played. Qed.

(** C45.  Connections are tried only while the monitor component has a runner,
    to a server that was chosen at some time, with its id unless another one is
    configured; and to the one chosen now unless a change is not yet noticed. *)
Theorem C45_dial : forall cf tr s o s' l d i, cruns cf tr s -> states_ok tr -> cexec cf s o = Some (s', l) -> In (Dial d i) l ->
  alive tr = true /\ i = match cf_id cf with Some j => j | None => Some (cd_id d) end /\
  (choice cf tr (Some d) \/ cexec cf s LTake <> None) /\ exists a b, tr = a ++ b /\ choice cf a (Some d).
Proof. exact final_C45_dial. Qed.
Print Assumptions C45_dial.

(** C45.  The same for calls of the callback. *)
Theorem C45_call : forall cf tr s o s' l d, cruns cf tr s -> states_ok tr -> cexec cf s o = Some (s', l) -> In (Call d) l ->
  alive tr = true /\ link tr = Some (Dialing d) /\ (choice cf tr (Some d) \/ cexec cf s LTake <> None).
Proof. exact final_C45_call. Qed.
Print Assumptions C45_call.

(** C45.  When nothing is left to be done, the connection, if there is one, is to
    the server chosen now; *)
Theorem C45_settled : forall cf tr s k, cruns cf tr s -> states_ok tr -> alive tr = true -> settled cf s -> link tr = Some k ->
  match peer k with Some d => choice cf tr (Some d) | None => True end.
Proof. exact final_C45_settled. Qed.
Print Assumptions C45_settled.

(** C45.  and if none is chosen there is no connection. *)
Theorem C45_none : forall cf tr s, cruns cf tr s -> states_ok tr -> alive tr = true -> settled cf s -> choice cf tr None -> link tr = Some Off.
Proof. exact final_C45_none. Qed.
Print Assumptions C45_none.

Example C45_settled_example : settled c_conf (cend_of c_moved) /\ link (ctrace c_moved) = Some (Running e3) /\ alive (ctrace c_moved) = true.
Proof. split; [unfold settled; vm_compute; auto|]. split; played. Qed.

(** C45.  When the choice changed, the component can always get to the server
    chosen now (or to none) by its own steps, whatever it was doing: it closes
    the runner and the client, and connects. *)
Theorem C45_moves : forall cf tr s o, cruns cf tr s -> states_ok tr -> alive tr = true ->
  cexec cf s LTake <> None \/ (forall d, c_loop s <> LRun d) -> choice cf tr o ->
  exists b s', cruns cf (tr ++ b) s' /\ settled cf s' /\ (forall x l, In (x, l) b -> own_step x) /\
    match o with Some d => link (tr ++ b) = Some (Dialing d) | None => link (tr ++ b) = Some Off end.
Proof. exact final_C45_moves. Qed.
Print Assumptions C45_moves.

Example C45_moves_example : alive (ctrace c_ops) = true /\ link (ctrace c_ops) = Some (Running e2) /\ c_loop (cend_of c_ops) = LClosing None /\
  active_of c_conf (latest (ctrace c_ops)) = Some e3.
Proof. repeat split; played. Qed.

(** C55.  A client is closed while the runner made for it is not only if the
    component did not get hold of that runner. *)
Theorem C55_partial : forall cf tr s o s' l d, cruns cf tr s -> cexec cf s o = Some (s', l) -> In CClosed l -> link tr = Some (Running d) -> pending tr = true.
Proof. exact final_C55_partial. Qed.
Print Assumptions C55_partial.

(** C55.  That happens: a runner returned just before the choice changes is never
    closed. *)
Theorem C55_refuted : exists cf tr s, cruns cf tr s /\ states_ok tr /\ In Made (flat_map snd tr) /\ In CClosed (flat_map snd tr) /\ ~ In RClosed (flat_map snd tr) /\
  link tr = Some (Dialing e3).
Proof.
  exists c_conf, (ctrace c_leak), (cend_of c_leak). split; [apply cplayed; played|]. split.
  - apply c_states_ok; [played|]. intros st I. cbn in I. repeat destruct I as [[= <-]|I]; try discriminate; try contradiction; auto.
  - split; [vm_compute; auto 10|]. split; [vm_compute; auto 10|]. split; [vm_compute; intuition discriminate|played].
Qed.
Print Assumptions C55_refuted.

(** C56.  While a server is chosen, the component is connected to it, is
    connecting, or can start doing so, unless a callback was cancelled because
    its connection was lost, or the component closed itself. *)
Theorem C56_partial : forall cf tr s d, cruns cf tr s -> states_ok tr -> alive tr = true -> settled cf s -> choice cf tr (Some d) -> gave_up tr = false -> ~ closed_itself tr ->
  link tr = Some (Dialing d) \/ link tr = Some (Calling d) \/ link tr = Some (Running d) \/
  exists o s' i, (o = KStart \/ o = KWake) /\ cexec cf s o = Some (s', [Dial d i]).
Proof. exact final_C56_partial. Qed.
Print Assumptions C56_partial.

Example C56_example : let ops := firstn 14 c_ops in gave_up (ctrace ops) = false /\ link (ctrace ops) = Some Off /\ c_k (cend_of ops) = KSleep /\
  settled c_conf (cend_of ops) /\ alive (ctrace ops) = true.
Proof. split; [played|]. split; [played|]. split; [played|]. split; [unfold settled; vm_compute; auto|played]. Qed.

(** C56.  In the former case the component, though open, does not connect again
    as long as the same server is chosen. *)
Theorem C56_refuted : exists tr s d, cruns c_conf tr s /\ states_ok tr /\ alive tr = true /\ c_open s = true /\ settled c_conf s /\ choice c_conf tr (Some d) /\ link tr = Some Off /\
  forall b s', cruns c_conf (tr ++ b) s' -> states_ok b -> (forall st l, In (CState st, l) b -> chosen c_conf st d) -> (forall l, ~ In (CDrop, l) b) ->
    forall e, ~ dialed b e.
Proof. exact c_refuted. Qed.
Print Assumptions C56_refuted.

(** C57.  A component closes itself only if the callback raised or the runner
    ended. *)
Theorem C57_only : forall cf tr s o s' l, cruns cf tr s -> cexec cf s o = Some (s', l) -> In CloseSelf l ->
  (In KEnds (since_call tr) \/ In KRaise (since_call tr)) /\ c_open s' = false.
Proof. exact final_C57_only. Qed.
Print Assumptions C57_only.

(** C57.  When it notices that the runner or the connection ended, it closes if
    the connection is not lost; *)
Theorem C57_when : forall cf tr s cl rn s' l, cruns cf tr s -> cexec cf s (KNotice cl rn) = Some (s', l) -> ~ In KLost (since_call tr) -> l = [CloseSelf] /\ c_open s' = false.
Proof. exact final_C57_when. Qed.
Print Assumptions C57_when.

(** C57.  not if only the connection is lost; *)
Theorem C57_again : forall cf tr s cl rn s' l, cruns cf tr s -> cexec cf s (KNotice cl rn) = Some (s', l) -> ~ In KEnds (since_call tr) -> l = [] /\ c_open s' = c_open s.
Proof. exact final_C57_again. Qed.
Print Assumptions C57_again.

(** C57.  and if the callback raised it closes as soon as the client is closed. *)
Theorem C57_raise : forall cf tr s s' l s2 l2, cruns cf tr s -> cexec cf s KRaise = Some (s', l) -> cexec cf s' KClientClosed = Some (s2, l2) -> l2 = [CClosed; CloseSelf] /\ c_open s2 = false.
Proof. exact final_C57_raise. Qed.
Print Assumptions C57_raise.

Example C57_example : let s := cend_of (c_moved ++ [KEnds]) in (exists s' l, cexec c_conf s (KNotice false true) = Some (s', l)) /\
  since_call (ctrace (c_moved ++ [KEnds])) = [KReturn; KResume; KEnds] /\
  (let s0 := cend_of (firstn 8 c_ops) in exists s1 l1 s2 l2, cexec c_conf s0 KRaise = Some (s1, l1) /\ cexec c_conf s1 KClientClosed = Some (s2, l2)).
Proof. split; [vm_compute; eauto|]. split; [played|]. vm_compute. eauto 10. Qed.
