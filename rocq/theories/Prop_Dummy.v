(** C78: the dummy backend.  [dummy_run rb fb tr]: a backend with or without a
    registered ([rb]) and a flushed callback ([fb]) was created, then [tr]
    happened: calls of its methods in any interleaving, callbacks that return or
    raise at any time, callers that are cancelled. *)
From Coq Require Import String Bool ZArith Arith List.
From Verif Require Import Base Model_Types Model_Subscription Ex_Lmdb Model_Eventer Model_Engine Spec_Engine Ex_Engine Model_Dummy Spec_Dummy Proof_Dummy Ex_Dummy.
Import ListNotations.
Open Scope string_scope.
Open Scope list_scope.
Open Scope nat_scope.

(** C78.  Of each call of [register] one sees the call of the registered
    callback, that of the flushed one and its return, each once, in this order
    and with the events of the call, or a beginning of that, or it was broken
    off by an exception. *)
Theorem C78_call : forall rb fb tr, dummy_run rb fb tr ->
    NoDup (map fst (requested tr)) /\
    (forall n es, In (n, es) (requested tr) -> part_of n (seen_of n tr) (whole rb fb n es)) /\
    (forall n, ~ In n (map fst (requested tr)) -> seen_of n tr = []).
Proof. exact final_C78_call. Qed.
Print Assumptions C78_call.

(** C78.  It does not stop: a call that has not ended goes on with the next one
    of these when the callback returns. *)
Theorem C78_goes_on : forall rb fb tr n es, dummy_run rb fb tr -> In (n, es) (requested tr) -> ~ ended n tr ->
    exists x b, dummy_run rb fb (tr ++ [(MReturns n true, [x])]) /\ whole rb fb n es = seen_of n tr ++ x :: b.
Proof. exact final_C78_goes_on. Qed.
Print Assumptions C78_goes_on.

Example C78_call_example : let tr := mtrace true true k_ops in
  dummy_run true true tr /\ requested tr = [(0, [k1]); (1, [k2; k3]); (2, [k3])] /\
  seen_of 1 tr = [CalledRegistered 1 [k2; k3]; CalledFlushed 1 [k2; k3]; Returned 1 [k2; k3]] /\ seen_of 2 tr = [CalledRegistered 2 [k3]; Broken 2] /\
  let tr' := mtrace true true (firstn 4 k_ops) in dummy_run true true tr' /\ In (1, [k2; k3]) (requested tr') /\ ~ ended 1 tr'.
Proof.
  cbv zeta. split; [apply mplayed; vm_compute; reflexivity|]. split; [vm_compute; reflexivity|]. split; [vm_compute; reflexivity|]. split; [vm_compute; reflexivity|].
  split; [apply mplayed; vm_compute; reflexivity|]. split; [vm_compute; auto|].
  assert (S : seen (mtrace true true (firstn 4 k_ops)) = [LastId (Eid 1 0 0); CalledRegistered 0 [k1]; CalledRegistered 1 [k2; k3]; CalledFlushed 1 [k2; k3]]) by (vm_compute; reflexivity).
  unfold ended. rewrite S. intros [(es & H)|H]; repeat (destruct H as [H|H]; [discriminate H|]); destruct H.
Qed.

(** C78.  The registered callback is called for all batches, in the order in
    which they were given. *)
Theorem C78_registered : forall fb tr, dummy_run true fb tr -> registered_calls tr = requested tr.
Proof. exact final_C78_registered. Qed.
Print Assumptions C78_registered.

Example C78_registered_example : dummy_run true true (mtrace true true k_ops) /\ registered_calls (mtrace true true k_ops) = [(0, [k1]); (1, [k2; k3]); (2, [k3])].
Proof. split; [apply mplayed; vm_compute; reflexivity|vm_compute; reflexivity]. Qed.

(** C78.  The flushed callback is called in that order, for no batch twice, if
    no call begins before the other ones have ended.  Missing: calls that
    overlap. *)
Theorem C78_flushed_partial : forall rb tr, dummy_run rb true tr -> one_by_one tr -> sublist (flushed_calls tr) (requested tr).
Proof. exact final_C78_flushed. Qed.
Print Assumptions C78_flushed_partial.

Example C78_flushed_example : let tr := mtrace true true k_turns in
  dummy_run true true tr /\ one_by_one tr /\ requested tr = [(0, [k1]); (1, [k2]); (2, [k3])] /\ flushed_calls tr = [(0, [k1]); (2, [k3])].
Proof.
  cbv zeta. split; [apply mplayed; vm_compute; reflexivity|]. split; [apply turnsb_ok; vm_compute; reflexivity|]. split; vm_compute; reflexivity.
Qed.

(** C78.  When calls overlap, batches are notified as flushed in another order
    than they were given, though no callback raises. *)
Theorem C78_flushed_refuted : exists tr, dummy_run true true tr /\ ~ In false (flat_map (fun x => match fst x with MReturns _ ok => [ok] | MCancel _ => [false] | _ => [] end) tr) /\
    ~ sublist (flushed_calls tr) (requested tr).
Proof.
  exists (mtrace true true [MRegister 0 [k1]; MRegister 1 [k2]; MReturns 1 true; MReturns 0 true]). split; [apply mplayed; vm_compute; reflexivity|].
  split; [vm_compute; intros [H|[H|[]]]; discriminate H|].
  assert (E : flushed_calls (mtrace true true [MRegister 0 [k1]; MRegister 1 [k2]; MReturns 1 true; MReturns 0 true]) = [(1, [k2]); (0, [k1])]) by (vm_compute; reflexivity).
  assert (E' : requested (mtrace true true [MRegister 0 [k1]; MRegister 1 [k2]; MReturns 1 true; MReturns 0 true]) = [(0, [k1]); (1, [k2])]) by (vm_compute; reflexivity).
  rewrite E, E'. intros H. inversion H as [|? ? ? H1|? ? ? H1]; subst. inversion H1 as [|? ? ? H2|? ? ? H2]; subst; inversion H2.
Qed.
Print Assumptions C78_flushed_refuted.

(** C78.  Queries find nothing, whatever was registered, the last id is the
    first one, and a flush returns. *)
Theorem C78_answers : forall rb fb A o l B, dummy_run rb fb (A ++ (o, l) :: B) ->
    (forall p, o = MQuery p -> l = [Result (QRes [] false)]) /\ (forall srv, o = MLast srv -> l = [LastId (Eid srv 0 0)]) /\ (o = MFlush -> l = [FlushDone]).
Proof. exact final_C78_answers. Qed.
Print Assumptions C78_answers.

Example C78_answers_example : let A := mtrace true true (firstn 9 k_ops) in
  dummy_run true true (A ++ (MQuery (QPLatest (QLatest None)), [Result (QRes [] false)]) :: [(MReturns 0 true, [Returned 0 [k1]])]) /\ In (Returned 1 [k2; k3]) (seen A).
Proof.
  cbv zeta. split; [|vm_compute; tauto].
  match goal with |- dummy_run _ _ ?t => replace t with (mtrace true true (firstn 11 k_ops)) by (vm_compute; reflexivity) end. apply mplayed. vm_compute. reflexivity.
Qed.

(** C78.  Engines that use it give the same ids again and again: the first
    events of the n-th batches of any two of them have the same id. *)
Theorem C78_ids : forall rb fb tr srv i1 i2, dummy_run rb fb tr -> In (MLast srv, [LastId i1]) tr -> In (MLast srv, [LastId i2]) tr ->
    forall ms1 z1 B1 l1 es1 s1 ms2 z2 B2 l2 es2 s2, engine_run ms1 z1 i1 (B1 ++ [(EStep, l1)]) s1 -> In (Hand es1) l1 -> engine_run ms2 z2 i2 (B2 ++ [(EStep, l2)]) s2 -> In (Hand es2) l2 ->
    List.length (begun B1) = List.length (begun B2) ->
    exists e1 t1 e2 t2, es1 = e1 :: t1 /\ es2 = e2 :: t2 /\ ev_id e1 = ev_id e2.
Proof. exact final_C78_ids. Qed.
Print Assumptions C78_ids.

(** C78.  So ids are not distinct: two engines of one server, one after the
    other, give the same id to different events. *)
Theorem C78_ids_refuted : exists tr i1 i2 etr1 es1 etr2 es2 a b, dummy_run true true tr /\ In (MLast 1, [LastId i1]) tr /\ In (MLast 1, [LastId i2]) tr /\
    engine_run [] 5 i1 etr1 es1 /\ engine_run [] 5 i2 etr2 es2 /\ requested tr = [(0, nth 0 (handed etr1) []); (1, nth 1 (handed etr1) []); (2, nth 0 (handed etr2) []); (3, nth 1 (handed etr2) [])] /\
    In a (concat (handed etr1)) /\ In b (concat (handed etr2)) /\ ev_id a = ev_id b /\ a <> b.
Proof.
  set (i := Eid 1 0 0).
  exists (mtrace true true [MLast 1; MRegister 0 (nth 0 (life_batches i 10) []); MReturns 0 true; MReturns 0 true; MRegister 1 (nth 1 (life_batches i 10) []); MReturns 1 true; MReturns 1 true;
                            MLast 1; MRegister 2 (nth 0 (life_batches i 20) []); MReturns 2 true; MReturns 2 true; MRegister 3 (nth 1 (life_batches i 20) []); MReturns 3 true; MReturns 3 true]), i, i,
    (Ex_Engine.etrace [] 5 i (life 10)), (Ex_Engine.eend [] 5 i (life 10)), (Ex_Engine.etrace [] 5 i (life 20)), (Ex_Engine.eend [] 5 i (life 20)),
    (Ev (Eid 1 1 1) ["event"; "1"; "engine"] (Ts 10 0) None (Some (PJson (JStr "STARTED")))), (Ev (Eid 1 1 1) ["event"; "1"; "engine"] (Ts 20 0) None (Some (PJson (JStr "STARTED")))).
  split; [apply mplayed; vm_compute; reflexivity|]. split; [vm_compute; left; reflexivity|]. split; [vm_compute; left; reflexivity|].
  split; [apply eplayed; vm_compute; reflexivity|]. split; [apply eplayed; vm_compute; reflexivity|]. split; [vm_compute; reflexivity|].
  split; [vm_compute; left; reflexivity|]. split; [vm_compute; left; reflexivity|]. split; [reflexivity|discriminate].
Qed.
Print Assumptions C78_ids_refuted.

(** The hypotheses of [C78_ids] hold of these engines: both have given their
    first batch. *)
Example C78_ids_example : let i := Eid 1 0 0 in let tr := mtrace true true [MLast 1%Z; MLast 1%Z] in exists B1 l1 s1 B2 l2 s2,
  dummy_run true true tr /\ In (MLast 1, [LastId i]) tr /\
  engine_run [] 5 i (B1 ++ [(EStep, l1)]) s1 /\ In (Hand (nth 0 (life_batches i 10) [])) l1 /\ engine_run [] 5 i (B2 ++ [(EStep, l2)]) s2 /\ In (Hand (nth 0 (life_batches i 20) [])) l2 /\
  List.length (begun B1) = List.length (begun B2).
Proof.
  cbv zeta. set (i := Eid 1 0 0).
  exists (Ex_Engine.etrace [] 5 i (firstn 4 (life 10))), [Hand (nth 0 (life_batches i 10) [])], (Ex_Engine.eend [] 5 i (firstn 5 (life 10))),
    (Ex_Engine.etrace [] 5 i (firstn 4 (life 20))), [Hand (nth 0 (life_batches i 20) [])], (Ex_Engine.eend [] 5 i (firstn 5 (life 20))).
  split; [apply mplayed; vm_compute; reflexivity|]. split; [vm_compute; left; reflexivity|].
  split; [match goal with |- engine_run _ _ _ ?t _ => replace t with (Ex_Engine.etrace [] 5 i (firstn 5 (life 10))) by (vm_compute; reflexivity) end; apply eplayed; vm_compute; reflexivity|].
  split; [left; reflexivity|].
  split; [match goal with |- engine_run _ _ _ ?t _ => replace t with (Ex_Engine.etrace [] 5 i (firstn 5 (life 20))) by (vm_compute; reflexivity) end; apply eplayed; vm_compute; reflexivity|].
  split; [left; reflexivity|]. vm_compute. reflexivity.
Qed.

(** C78.  Other than the LMDB backend it is not protected by being closed: a
    call that begins afterwards is served. *)
Theorem C78_closed_refuted : exists A n es l B, dummy_run true true (A ++ (MRegister n es, l) :: B) /\ In MClose (map fst A) /\ In (Returned n es) (seen B).
Proof.
  exists [(MClose, [])], 0, [k1], [CalledRegistered 0 [k1]], [(MReturns 0 true, [CalledFlushed 0 [k1]]); (MReturns 0 true, [Returned 0 [k1]])].
  split; [|split; [left; reflexivity|right; left; reflexivity]].
  match goal with |- dummy_run _ _ ?t => replace t with (mtrace true true [MClose; MRegister 0 [k1]; MReturns 0 true; MReturns 0 true]) by (vm_compute; reflexivity) end. apply mplayed. vm_compute. reflexivity.
Qed.
Print Assumptions C78_closed_refuted.
