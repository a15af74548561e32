(** C36-C39, C52: the eventer server. *)
From Coq Require Import String Bool ZArith Arith List.
From Verif Require Import Base Model_Types Model_Subscription Spec_Subscription Spec_Creation Model_Eventer Spec_Eventer
  Proof_Eventer3 Proof_Eventer5 Proof_Eventer6 Proof_Eventer7 Proof_Eventer8 Ex_Eventer.
Import ListNotations.
Open Scope string_scope.
Open Scope list_scope.
Open Scope nat_scope.

(** C36.  The messages of one call of [notify_events]: at most one for each
    client, only for accepted clients that asked for this kind of
    notification, with exactly the events the client asked for, in order, at
    least one. *)
Theorem C36_message : forall sv tk a n es p ack l b s, server_run sv tk (a ++ (VNotify n es p ack, l) :: b) s ->
    NoDup (map conn_of (notes n b)) /\
    forall c es' last, In (c, es', last) (notes n b) ->
      welcomed c a = true /\ last = negb ack /\ es' <> [] /\
      exists conv req, init_of c a = Some (conv, req) /\ ir_persisted req = p /\ picked (interested req) es es'.
Proof. exact final_C36_message. Qed.
Print Assumptions C36_message.

(** C36.  Every accepted and connected client with an event it asked for is
    notified by the time the call returns (unless the server is closing). *)
Theorem C36_all : forall sv tk a n es p ack l b s c conv req e, server_run sv tk (a ++ (VNotify n es p ack, l) :: b) s ->
    returned n ((VNotify n es p ack, l) :: b) -> welcomed c a = true -> gone c (a ++ (VNotify n es p ack, l) :: b) = false -> ~ dropped n c b ->
    init_of c a = Some (conv, req) -> ir_persisted req = p -> In e es -> interested req e ->
    exists es', In (c, es', negb ack) (notes n b).
Proof. exact final_C36_all. Qed.
Print Assumptions C36_all.

(** C36.  Clients get no events otherwise. *)
Theorem C36_only : forall sv tk tr s c conv es' last, server_run sv tk tr s -> In (MEvents conv es' last) (sent_to c tr) ->
    exists a n es p ack l b, tr = a ++ (VNotify n es p ack, l) :: b /\ In (c, es', last) (notes n b).
Proof. exact final_C36_only. Qed.
Print Assumptions C36_only.

Example C36_example :
  let a := vtrace (v_hello ++ v_talk) in
  let b := skipn (S (length a)) (vtrace (v_hello ++ v_talk ++ [v_call1] ++ v_note1)) in
  server_run 1 (Some "secret") (a ++ (v_call1, []) :: b) (vend (v_hello ++ v_talk ++ [v_call1] ++ v_note1)) /\
  notes 3 b = [(1, [vev1; vev2], true); (3, [vev1; vev3], true)] /\
  returned 3 b /\ init_of 3 a = Some (12, vreq3) /\ interested vreq3 vev3 /\ ~ interested vreq3 vev2.
Proof.
  cbv zeta. split.
  { match goal with |- server_run _ _ ?t _ => replace t with (vtrace (v_hello ++ v_talk ++ [v_call1] ++ v_note1)) by (vm_compute; reflexivity) end.
    apply vplayed. vm_compute. reflexivity. }
  split; [vm_compute; reflexivity|]. split; [vm_compute; auto|]. split; [vm_compute; reflexivity|]. split.
  - split; [|reflexivity]. exists ["b"]. split; [right; left; reflexivity|]. split; [|apply qm_same; [discriminate|constructor]].
    intros p r H. destruct p as [|x [|y p]]; cbn in H; try discriminate; auto.
  - intros [_ H]. cbn in H. discriminate.
Qed.

(** C37.  When the last call that changed the status has returned, every
    accepted and connected client was last told this status. *)
Theorem C37_server_partial : forall sv tk tr s c, server_run sv tk tr s -> welcomed c tr = true -> gone c tr = false ->
    (forall n, snd (status_at tr) = Some n -> returned n tr) ->
    last_told (sent_to c tr) = Some (fst (status_at tr)).
Proof. exact final_C37_server. Qed.
Print Assumptions C37_server_partial.

Example C37_example :
  let tr := vtrace v_hello in
  server_run 1 (Some "secret") tr (vend v_hello) /\ status_at tr = (OPERATIONAL, Some 2) /\ returned 2 tr /\
  map (fun m => told m) (sent_to 1 tr) = [Some STANDBY; Some STARTING; Some OPERATIONAL] /\
  map (fun m => told m) (sent_to 3 tr) = [Some OPERATIONAL] /\ welcomed 1 tr = true /\ welcomed 3 tr = true /\
  gone 1 tr = false /\ gone 3 tr = false.
Proof. cbv zeta. split; [apply vplayed; vm_compute; reflexivity|]. split; [vm_compute; reflexivity|]. split; [vm_compute; auto 30|]. repeat split. Qed.

(** C37.  A call that was given up is not made up for: another call with the
    same status returns at once, and the client is never told. *)
Definition v_lost_status : list vop :=
  [VAccept; VInit 1 10 vreq1 true; VSetStatus 1 STARTING false; VGiveUp 1; VSetStatus 2 STARTING false].
Theorem C37_given_up_refuted : exists sv tk tr s c n, server_run sv tk tr s /\ welcomed c tr = true /\ gone c tr = false /\
    (exists a, tr = a ++ [(VSetStatus n (fst (status_at tr)) false, [Returned n])]) /\
    last_told (sent_to c tr) <> Some (fst (status_at tr)).
Proof.
  exists 1%Z, (Some "secret"), (vtrace v_lost_status), (vend v_lost_status), 1, 2.
  split; [apply vplayed; vm_compute; reflexivity|]. split; [vm_compute; reflexivity|]. split; [vm_compute; reflexivity|]. split.
  - exists (vtrace [VAccept; VInit 1 10 vreq1 true; VSetStatus 1 STARTING false; VGiveUp 1]). vm_compute. reflexivity.
  - vm_compute. discriminate.
Qed.
Print Assumptions C37_given_up_refuted.

(** C38.  An accepted client gave no token or the right one and its
    subscriptions are valid, or covered by earlier ones. *)
Theorem C38_accepted_partial : forall sv tk tr s c conv st, server_run sv tk tr s -> In (MInitRes conv (Some st)) (sent_to c tr) ->
    exists req, init_of c tr = Some (conv, req) /\ token_ok tk req /\ creatable req.
Proof. exact final_C38_accepted. Qed.
Print Assumptions C38_accepted_partial.

(** C38.  A refused client didn't, or the engine failed. *)
Theorem C38_refused_partial : forall sv tk tr s c conv, server_run sv tk tr s -> In (MInitRes conv None) (sent_to c tr) ->
    exists req, init_of c tr = Some (conv, req) /\ (~ (token_ok tk req /\ creatable req) \/ exists l, In (VHello c false, l) tr).
Proof. exact final_C38_refused. Qed.
Print Assumptions C38_refused_partial.

(** C38.  Init requests are decided at once, or when the engine has registered
    the event about the client; acceptance tells the status at that time. *)
Theorem C38_answer : forall sv tk a c conv req e l b s, server_run sv tk (a ++ (VInit c conv req e, l) :: b) s -> gone c a = false ->
    (token_ok tk req -> creatable req ->
       l = [Sent c (MInitRes conv (Some (fst (status_at a))))] \/
       exists r, l = [EngineCall c [r]]) /\
    (~ (token_ok tk req /\ creatable req) -> l = [Sent c (MInitRes conv None)]).
Proof. exact final_C38_answer. Qed.
Print Assumptions C38_answer.

Theorem C38_engine : forall sv tk a c ok l b s, server_run sv tk (a ++ (VHello c ok, l) :: b) s -> gone c a = false ->
    exists conv req, init_of c a = Some (conv, req) /\ l = [Sent c (MInitRes conv (if ok then Some (fst (status_at a)) else None))].
Proof. exact final_C38_engine. Qed.
Print Assumptions C38_engine.

(** C38.  A client is sent nothing; or a refusal and nothing else; or an
    acceptance, followed by messages of other kinds. *)
Theorem C38_messages : forall sv tk tr s c, server_run sv tk tr s ->
    sent_to c tr = [] \/ (exists conv, sent_to c tr = [MInitRes conv None]) \/
    exists conv st rest, sent_to c tr = MInitRes conv (Some st) :: rest /\ forall m, In m rest -> is_initres m = false.
Proof. exact final_C38_messages. Qed.
Print Assumptions C38_messages.

(** C38.  Only accepted clients reach the backend and the engine; the engine
    also gets the events about clients. *)
Theorem C38_query : forall sv tk a o l b s c p, server_run sv tk (a ++ (o, l) :: b) s -> In (QueryCall c p) l ->
    welcomed c a = true /\ exists conv, o = VQuery c conv p.
Proof. exact final_C38_query. Qed.
Print Assumptions C38_query.

Theorem C38_register : forall sv tk a o l b s c rs, server_run sv tk (a ++ (o, l) :: b) s -> In (EngineCall c rs) l ->
    (welcomed c a = true /\ exists conv last, o = VRegister c conv last rs) \/
    exists conv req r, init_of c (a ++ [(o, l)]) = Some (conv, req) /\ rs = [r] /\ about_client sv (ir_name req) r.
Proof. exact final_C38_register. Qed.
Print Assumptions C38_register.

(** C38.  Connection ids are never reused. *)
Theorem C38_ids : forall sv tk tr s, server_run sv tk tr s -> NoDup (ids tr).
Proof. exact final_C38_ids. Qed.
Print Assumptions C38_ids.

Example C38_example :
  let tr := vtrace v_all in
  server_run 1 (Some "secret") tr (vend v_all) /\ ids tr = [1; 2; 3; 4] /\
  map (fun c => welcomed c tr) [1; 2; 3; 4] = [true; false; true; false] /\
  sent_to 2 tr = [MInitRes 11 None] /\ sent_to 4 tr = [MInitRes 13 None] /\ length (sent_to 3 tr) = 4 /\
  In (QueryCall 3 vquery) (vouts tr) /\ In (EngineCall 1 [RegEv ["a"] None None]) (vouts tr).
Proof.
  cbv zeta. split; [apply vplayed; vm_compute; reflexivity|]. repeat (split; [vm_compute; reflexivity|]).
  split; vm_compute; auto 40.
Qed.

(** C38.  An invalid query type covered by an earlier one goes unnoticed. *)
Theorem C38_covered_refuted : exists sv tk tr s c conv req, server_run sv tk tr s /\ init_of c tr = Some (conv, req) /\
    ~ subs_ok req /\ welcomed c tr = true.
Proof.
  exists 1%Z, (Some "secret"), (vtrace [VAccept; VInit 1 10 vreq5 true]), (vend [VAccept; VInit 1 10 vreq5 true]), 1, 10, vreq5.
  split; [apply vplayed; vm_compute; reflexivity|]. split; [reflexivity|]. split; [|reflexivity].
  intros H. unfold subs_ok in H. cbn in H. inversion_clear H as [|? ? _ H']. inversion_clear H' as [|? ? H _].
  specialize (H [] ["a"] eq_refl). discriminate.
Qed.
Print Assumptions C38_covered_refuted.

(** C38.  A valid client is refused if the engine raises. *)
Theorem C38_engine_refuted : exists sv tk tr s c conv req, server_run sv tk tr s /\ init_of c tr = Some (conv, req) /\
    token_ok tk req /\ subs_ok req /\ gone c tr = false /\ sent_to c tr = [MInitRes conv None].
Proof.
  set (ops := [VSetStatus 1 OPERATIONAL true; VStatusDone 1; VAccept; VInit 1 10 vreq1 true; VHello 1 false]).
  exists 1%Z, (Some "secret"), (vtrace ops), (vend ops), 1, 10, vreq1.
  split; [apply vplayed; vm_compute; reflexivity|]. split; [reflexivity|]. split; [left; reflexivity|]. split; [|split; reflexivity].
  apply Forall_cons; [|apply Forall_nil]. intros p r H. destruct p as [|x [|y p]]; cbn in H; try discriminate.
  - now injection H as _ <-.
  - now destruct p.
Qed.
Print Assumptions C38_engine_refuted.

(** C39.  When a call with acknowledgement returns, each client that was sent
    a message acknowledged it, or disconnected, or the server is closing; or
    the server has noticed that some (other) client disconnected. *)
Theorem C39_acknowledged_partial : forall sv tk a n es p l b s c es' last, server_run sv tk (a ++ (VNotify n es p true, l) :: b) s ->
    In (c, es', last) (notes n b) -> returned n b ->
    answered c es' b \/ gone c (a ++ (VNotify n es p true, l) :: b) = true \/ noticed (a ++ [(VNotify n es p true, l)]) b \/ dropped n c b.
Proof. exact final_C39. Qed.
Print Assumptions C39_acknowledged_partial.

Example C39_example :
  let a := vtrace (v_hello ++ v_talk ++ [v_call1] ++ v_note1) in
  let b := skipn (S (length a)) (vtrace v_all) in
  server_run 1 (Some "secret") (a ++ (v_call2, []) :: b) (vend v_all) /\
  notes 4 b = [(3, [vev1; vev3], false); (1, [vev1; vev2], false)] /\
  returned 4 b /\ gone 1 (vtrace v_all) = false /\ gone 3 (vtrace v_all) = false /\
  filter (fun i => match fst i with VAck _ _ => true | _ => false end) b = [(VAck 1 3, []); (VAck 3 2, [])].
Proof.
  cbv zeta. split.
  { match goal with |- server_run _ _ ?t _ => replace t with (vtrace v_all) by (vm_compute; reflexivity) end.
    apply vplayed. vm_compute. reflexivity. }
  split; [vm_compute; reflexivity|]. split; [vm_compute; auto 30|]. repeat split.
Qed.

(** C39.  The last alternative happens: when one client disconnects, the call
    returns though another, connected client has not acknowledged. *)
Theorem C39_refuted : exists sv tk a n es p l b s c es', server_run sv tk (a ++ (VNotify n es p true, l) :: b) s /\
    In (c, es', false) (notes n b) /\ returned n b /\ gone c (a ++ (VNotify n es p true, l) :: b) = false /\
    (forall m c', ~ dropped m c' b) /\ forall conv, ~ exists l', In (VAck c conv, l') b.
Proof.
  set (ops := [VTask 4 3; VTask 4 1; VTaskWait 4 3; VTaskWait 4 1; VLost 3; VEnd 3; VNotifyDone 4]).
  exists 1%Z, (Some "secret"), (vtrace v_hello), 4, [vev1; vev2; vev3; vev4], false, [],
    (skipn (S (length (vtrace v_hello))) (vtrace (v_hello ++ [v_call2] ++ ops))), (vend (v_hello ++ [v_call2] ++ ops)), 1, [vev1; vev2].
  split.
  { match goal with |- server_run _ _ ?t _ => replace t with (vtrace (v_hello ++ [v_call2] ++ ops)) by (vm_compute; reflexivity) end.
    apply vplayed. vm_compute. reflexivity. }
  split; [vm_compute; auto 30|]. split; [vm_compute; auto 30|]. split; [vm_compute; reflexivity|]. split.
  - intros m c' [l' H]. vm_compute in H. intuition discriminate.
  - intros conv [l' H]. vm_compute in H. intuition discriminate.
Qed.
Print Assumptions C39_refuted.

(** C52.  Requests of a client are answered in order, each at most once; only
    the last one may still be open. *)
Theorem C52_order : forall sv tk tr s c, server_run sv tk tr s ->
    asks c tr = answers c tr \/ exists x, asks c tr = answers c tr ++ [x].
Proof. exact final_C52_order. Qed.
Print Assumptions C52_order.

(** C52.  What the engine answers is for the last request of that client and is
    sent back with the conversation of that request, or not at all if no answer
    is wanted. *)
Theorem C52_register : forall sv tk a c r l b s, server_run sv tk (a ++ (VRegistered c r, l) :: b) s ->
    exists a1 conv last rs a2, a = a1 ++ (VRegister c conv last rs, [EngineCall c rs]) :: a2 /\ quiet c a2 /\
      (gone c a = false -> l = if last then [] else [Sent c (MRegisterRes conv r)]).
Proof. exact final_C52_register. Qed.
Print Assumptions C52_register.

(** C52.  The same for queries. *)
Theorem C52_query : forall sv tk a c r l b s, server_run sv tk (a ++ (VQueried c r, l) :: b) s ->
    exists a1 conv p a2, a = a1 ++ (VQuery c conv p, [QueryCall c p]) :: a2 /\ quiet c a2 /\
      (gone c a = false -> l = [Sent c (MQueryRes conv r)]).
Proof. exact final_C52_query. Qed.
Print Assumptions C52_query.

(** C52.  A register request is passed to the engine as it is, or answered with
    a failure at once. *)
Theorem C52_handed : forall sv tk a c conv last rs l b s, server_run sv tk (a ++ (VRegister c conv last rs, l) :: b) s -> gone c a = false ->
    l = [EngineCall c rs] \/ l = if last then [] else [Sent c (MRegisterRes conv None)].
Proof. exact final_C52_no_engine. Qed.
Print Assumptions C52_handed.

Example C52_example :
  let tr := vtrace v_all in
  server_run 1 (Some "secret") tr (vend v_all) /\
  asks 1 tr = [(true, 20)] /\ answers 1 tr = [(true, 20)] /\ asks 3 tr = [(false, 21)] /\ answers 3 tr = [(false, 21)] /\
  In (MRegisterRes 20 (Some [vev2])) (sent_to 1 tr) /\ In (MQueryRes 21 (QRes [vev1] false)) (sent_to 3 tr) /\ gone 1 tr = false.
Proof.
  cbv zeta. split; [apply vplayed; vm_compute; reflexivity|]. repeat (split; [vm_compute; reflexivity|]).
  split; [vm_compute; auto 30|]. split; [vm_compute; auto 30|reflexivity].
Qed.
