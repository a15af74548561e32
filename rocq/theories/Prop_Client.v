(** C37, C40, C53: the eventer client, alone and together with the server. *)
From Coq Require Import String Bool ZArith Arith List.
From Verif Require Import Base Model_Types Model_Subscription Model_Eventer Spec_Eventer Ex_Eventer Model_Client Spec_Client Proof_Client
  Proof_Client2 Proof_Client3 Proof_Client4 Proof_Client5 Ex_Client.
Import ListNotations.
Open Scope string_scope.
Open Scope list_scope.
Open Scope nat_scope.

(** C37.  The status that a connected client reports is the one it was last
    told. *)
Theorem C37_client : forall tr s, client_run tr s -> connected tr -> shut tr = false -> last_told (received tr) = Some (c_status s).
Proof. exact final_C37_client. Qed.
Print Assumptions C37_client.

(** C37.  A connected client that has received all messages sent to it reports
    the status of the server, once the last call that changed it has
    returned. *)
Theorem C37_together_partial : forall sv tk str ss ctr cs c, server_run sv tk str ss -> client_run ctr cs -> received ctr = sent_to c str ->
    connected ctr -> shut ctr = false -> gone c str = false -> (forall n, snd (status_at str) = Some n -> returned n str) ->
    c_status cs = fst (status_at str).
Proof. exact final_C37_together. Qed.
Print Assumptions C37_together_partial.

Example C37_together_example :
  let str := vtrace x_server in let ctr := ctrace x_client in
  server_run 1 (Some "secret") str (vend x_server) /\ client_run ctr (cend x_client) /\ received ctr = sent_to 1 str /\
  connected ctr /\ shut ctr = false /\ gone 1 str = false /\ status_at str = (OPERATIONAL, Some 2) /\ returned 2 str /\
  c_status (cend x_client) = OPERATIONAL.
Proof.
  cbv zeta. split; [apply vplayed; vm_compute; reflexivity|]. split; [apply cplayed; vm_compute; reflexivity|]. split; [vm_compute; reflexivity|].
  split; [vm_compute; auto|]. split; [reflexivity|]. split; [reflexivity|]. split; [reflexivity|]. split; [vm_compute; auto 30|]. reflexivity.
Qed.

(** C40.  A call returns the first response with its request's conversation
    received after the caller began to wait. *)
Theorem C40_own : forall a o l b s n r, client_run (a ++ (o, l) :: b) s -> In (CAnswer n r) l ->
    exists a1 q conv a2 a3 m k a4, a = a1 ++ (CRequest n q, [CSent (request_msg conv q)]) :: a2 ++ (CWait n, []) :: a3 ++ (CMsg m, k) :: a4 /\
      wants_response q = true /\ response m = Some (conv, r) /\ responded conv a3 = false.
Proof. exact final_C40_own. Qed.
Print Assumptions C40_own.

(** C40.  Calls end at most once, and no two requests share a conversation. *)
Theorem C40_once : forall tr s, client_run tr s -> NoDup (fins tr).
Proof. exact final_C40_once. Qed.
Print Assumptions C40_once.

Theorem C40_convs : forall tr s, client_run tr s -> NoDup (map conv_of (filter is_request (csent tr))).
Proof. exact final_C40_convs. Qed.
Print Assumptions C40_convs.

(** C40.  Together with the server: a call returns what the server answered to
    that very request. *)
Theorem C40_served : forall sv tk str ss ctr cs c req n r, server_run sv tk str ss -> client_run ctr cs -> linked c req str ctr ->
    In (CAnswer n r) (couts ctr) ->
    exists conv q, In (CRequest n q, [CSent (request_msg conv q)]) ctr /\
      match q with
      | RRegister resp rs => resp = true /\ exists x, r = ARegister x /\ served_register c conv rs x str
      | RQuery p => exists x, r = AQuery x /\ served_query c conv p x str
      end.
Proof. exact final_C40_together. Qed.
Print Assumptions C40_served.

Example C40_example :
  let str := vtrace x_server in let ctr := ctrace x_client in
  server_run 1 (Some "secret") str (vend x_server) /\ client_run ctr (cend x_client) /\ linked 1 vreq1 str ctr /\
  In (CAnswer 1 (ARegister (Some [vev2]))) (couts ctr) /\ In (CAnswer 2 (AQuery (QRes [vev1] false))) (couts ctr) /\ fins ctr = [1; 2] /\
  map conv_of (filter is_request (csent ctr)) = [1; 2].
Proof.
  cbv zeta. split; [apply vplayed; vm_compute; reflexivity|]. split; [apply cplayed; vm_compute; reflexivity|].
  split; [split; exists []; vm_compute; reflexivity|]. split; [vm_compute; auto 30|]. split; [vm_compute; auto 30|]. split; reflexivity.
Qed.

(** C40.  A request made while the connection is up is sent. *)
Theorem C40_sent : forall a n q l b s, client_run (a ++ (CRequest n q, l) :: b) s -> shut a = false ->
    exists conv, l = CSent (request_msg conv q) :: if wants_response q then [] else [CReturned n].
Proof. exact final_C40_sent. Qed.
Print Assumptions C40_sent.

(** C40.  Errors are due to a closed connection, and calls made after the
    connection was closed end with an error at once. *)
Theorem C40_error : forall a o l b s n, client_run (a ++ (o, l) :: b) s -> In (CError n) l -> shut a = true.
Proof. exact final_C40_error. Qed.
Print Assumptions C40_error.

Theorem C40_after : forall a n q l b s, client_run (a ++ (CRequest n q, l) :: b) s -> shut a = true -> l = [CError n].
Proof. exact final_C40_after. Qed.
Print Assumptions C40_after.

(** C40.  When the connection is closed, steps of the client itself suffice to
    end each pending call: with an error, or with a response that came before.
    (The receive loop has started.) *)
Theorem C40_closed_partial : forall tr s n, client_run tr s -> shut tr = true -> started tr = true -> outstanding n tr ->
    exists ext s', client_run (tr ++ ext) s' /\ (forall o l, In (o, l) ext -> o = CStop \/ o = CWait n \/ o = CResume n) /\
      (In (CError n) (couts ext) \/ exists r, In (CAnswer n r) (couts ext)).
Proof. exact final_C40_closed. Qed.
Print Assumptions C40_closed_partial.

Example C40_closed_example :
  let ops := x_hello ++ x_requests ++ [CLost] in let tr := ctrace ops in
  client_run tr (cend ops) /\ shut tr = true /\ started tr = true /\ outstanding 1 tr /\ outstanding 2 tr /\
  couts (ctrace (ops ++ [CStop; CResume 2; CRequest 3 (RQuery vquery); CResume 1])) = couts tr ++ [CError 2; CError 3; CError 1].
Proof.
  cbv zeta. split; [apply cplayed; vm_compute; reflexivity|]. split; [reflexivity|]. split; [reflexivity|]. split.
  - exists (ctrace x_hello), (RRegister true x_register), [CSent (QRegister 1 false x_register)],
      (skipn 4 (ctrace (x_hello ++ x_requests ++ [CLost]))). vm_compute. auto.
  - split; [|reflexivity].
    exists (ctrace (x_hello ++ [CRequest 1 (RRegister true x_register)])), (RQuery vquery), [CSent (QQuery 2 vquery)],
      (skipn 5 (ctrace (x_hello ++ x_requests ++ [CLost]))). vm_compute. auto.
Qed.

(** C40.  If the connection is closed before the receive loop's first step, the
    loop does not run at all and pending calls never end. *)
Theorem C40_refuted : exists tr s n, client_run tr s /\ shut tr = true /\ outstanding n tr /\
    forall ext s', client_run (tr ++ ext) s' -> ~ In (CError n) (couts ext) /\ forall r, ~ In (CAnswer n r) (couts ext).
Proof.
  set (ops := [CMsg (MInitRes 0 (Some STANDBY)); CRequest 1 (RQuery vquery); CWait 1; CLost; CStop]).
  assert (Hr : client_run (ctrace ops) (cend ops)) by (apply cplayed; vm_compute; reflexivity).
  exists (ctrace ops), (cend ops), 1. split; auto. split; [reflexivity|]. split.
  - exists (ctrace [CMsg (MInitRes 0 (Some STANDBY))]), (RQuery vquery), [CSent (QQuery 1 vquery)], (skipn 2 (ctrace ops)). vm_compute. auto.
  - intros ext s' H. apply cruns_split with (a := ctrace ops) (b := ext) in H as (s1 & H1 & H2); auto.
    assert (s1 = cend ops) as -> by (eapply cruns_fun; eauto).
    destruct (stuck_run 1 _ _ _ H2) as (_ & E1 & E2); auto. repeat split; auto. intros x [<-|[]] _. reflexivity.
Qed.
Print Assumptions C40_refuted.

(** C40.  Responses nobody waits for are ignored: nothing is seen, and the
    client goes on as if they had not come. *)
Theorem C40_ignored : forall a m l b s conv r, client_run (a ++ (CMsg m, l) :: b) s -> connected a -> response m = Some (conv, r) -> ~ waiting conv a ->
    l = [] /\ client_run (a ++ b) s.
Proof. exact final_C40_ignored. Qed.
Print Assumptions C40_ignored.

Example C40_ignored_example :
  let a := ctrace (x_hello ++ [CDone]) in let ops := x_hello ++ [CDone; CMsg (MQueryRes 1 (QRes [vev1] false)); CRequest 1 (RQuery vquery)] in
  client_run (a ++ (CMsg (MQueryRes 1 (QRes [vev1] false)), []) :: [(CRequest 1 (RQuery vquery), [CSent (QQuery 1 vquery)])]) (cend ops) /\
  connected a /\ ~ waiting 1 a.
Proof.
  cbv zeta. split.
  { match goal with |- client_run ?t (cend ?o) => replace t with (ctrace o) by (vm_compute; reflexivity) end. apply cplayed. vm_compute. reflexivity. }
  split; [vm_compute; auto|].
  intros (a & n & q & b1 & b2 & E & _).
  assert (H : In (CRequest n q, [CSent (request_msg 1 q)]) (ctrace (x_hello ++ [CDone]))). { rewrite E. apply in_or_app. right. now left. }
  vm_compute in H. intuition discriminate.
Qed.

(** C53.  Callbacks are called for exactly the notifications received (after
    the init response), in order, one call at a time. *)
Theorem C53_callbacks : forall tr s, client_run tr s -> callbacks tr = flat_map callback_of (tl (received tr)).
Proof. exact final_C53_callbacks. Qed.
Print Assumptions C53_callbacks.

Theorem C53_serial : forall a m k b m' k' d s, client_run (a ++ (CMsg m, k) :: b ++ (CMsg m', k') :: d) s -> connected a -> callback_of m <> [] ->
    exists l, In (CDone, l) b.
Proof. exact final_C53_serial. Qed.
Print Assumptions C53_serial.

(** C53.  Notifications that want an acknowledgement are acknowledged in order,
    each once; while the connection is up at most one is not acknowledged yet. *)
Theorem C53_acks : forall tr s, client_run tr s ->
    prefix (acks tr) (flat_map ack_of (tl (received tr))) /\
    (shut tr = false -> flat_map ack_of (tl (received tr)) = acks tr \/ exists x, flat_map ack_of (tl (received tr)) = acks tr ++ [x]).
Proof. exact final_C53_acks. Qed.
Print Assumptions C53_acks.

(** C53.  An acknowledgement is sent when the callback for its notification has
    ended. *)
Theorem C53_after : forall a o l b s conv, client_run (a ++ (o, l) :: b) s -> In (CSent (QAck conv)) l ->
    o = CDone /\ exists a1 es a2, a = a1 ++ (CMsg (MEvents conv es false), [EventsCb es]) :: a2 /\ existsb (fun i => of_loop (fst i)) a2 = false.
Proof. exact final_C53_after. Qed.
Print Assumptions C53_after.

Example C53_example :
  let ctr := ctrace x_client in
  client_run ctr (cend x_client) /\ callbacks ctr = [StatusCb STARTING; StatusCb OPERATIONAL; EventsCb [vev1]] /\ acks ctr = [0] /\
  length (received ctr) = 6 /\ shut ctr = false.
Proof. cbv zeta. split; [apply cplayed; vm_compute; reflexivity|]. repeat split. Qed.
