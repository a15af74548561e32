(** What is expected of the eventer client. *)
From Coq Require Import String Bool ZArith Arith List.
From Verif Require Import Base Model_Types Model_Eventer Spec_Eventer Model_Client.
Import ListNotations.
Open Scope string_scope.
Open Scope list_scope.
Open Scope nat_scope.

(** Life of a client. *)
Definition client_run (tr : list citem) (s : cstate) : Prop := cruns cstart tr s.

Definition couts (tr : list citem) : list cout := flat_map snd tr.

(** Messages received, messages sent after the init request. *)
Definition received (tr : list citem) : list smsg := flat_map (fun i => match fst i with CMsg m => [m] | _ => [] end) tr.
Definition csent_in (l : list cout) : list cmsg := flat_map (fun x => match x with CSent m => [m] | _ => [] end) l.
Definition csent (tr : list citem) : list cmsg := csent_in (couts tr).

(** The connection was closed by either side or because of an error. *)
Definition shuts (i : citem) : bool :=
  match fst i with
  | CLost | CStop | CBad | CRaised => true
  | CMsg (MInitRes _ _) => negb (existsb (fun x => match x with Connected => true | _ => false end) (snd i))
  | CMsg _ => existsb (fun x => match x with Refused => true | _ => false end) (snd i)
  | _ => false
  end.
Definition shut (tr : list citem) : bool := existsb shuts tr.
(** The receive loop was started. *)
Definition starts (i : citem) : bool := match fst i with CStart => true | _ => false end.
Definition started (tr : list citem) : bool := existsb starts tr.
Definition connected (tr : list citem) : Prop := In Connected (couts tr).

(** Responses to requests. *)
Definition response (m : smsg) : option (nat * cres) :=
  match m with
  | MRegisterRes conv r => Some (conv, ARegister r)
  | MQueryRes conv r => Some (conv, AQuery r)
  | _ => None
  end.
Definition responds (conv : nat) (i : citem) : bool :=
  match fst i with
  | CMsg m => match response m with Some (x, _) => Nat.eqb x conv | None => false end
  | _ => false
  end.
Definition responded (conv : nat) (tr : list citem) : bool := existsb (responds conv) tr.

(** Conversations of requests sent. *)
Definition conv_of (m : cmsg) : nat :=
  match m with QInit conv _ | QAck conv | QRegister conv _ _ | QQuery conv _ => conv end.
Definition is_request (m : cmsg) : bool := match m with QRegister _ _ _ | QQuery _ _ => true | _ => false end.

(** The end of a call: its result, an error, or the caller gives up. *)
Definition ends (n : nat) (i : citem) : bool :=
  (match fst i with CCancel k => Nat.eqb k n | _ => false end) ||
  existsb (fun x => match x with CAnswer k _ | CReturned k | CError k => Nat.eqb k n | _ => false end) (snd i).
Definition outstanding (n : nat) (tr : list citem) : Prop :=
  exists a q l b, tr = a ++ (CRequest n q, l) :: b /\ ends n (CRequest n q, l) = false /\ existsb (ends n) b = false.

(** Calls that have ended with a result or an error. *)
Definition fin_in (l : list cout) : list nat := flat_map (fun x => match x with CAnswer n _ | CReturned n | CError n => [n] | _ => [] end) l.
Definition fins (tr : list citem) : list nat := fin_in (couts tr).

(** The message for a request, which tells whether it is the last one of its
    conversation; requests that want a response. *)
Definition request_msg (conv : nat) (q : creq) : cmsg :=
  match q with RRegister resp rs => QRegister conv (if resp then false else true) rs | RQuery p => QQuery conv p end.
Definition wants_response (q : creq) : bool := match q with RRegister resp _ => resp | RQuery _ => true end.

(** A request with that conversation waits for its response. *)
Definition waiting (conv : nat) (tr : list citem) : Prop :=
  exists a n q b1 b2, tr = a ++ (CRequest n q, [CSent (request_msg conv q)]) :: b1 ++ (CWait n, []) :: b2 /\
    existsb (ends n) (b1 ++ (CWait n, []) :: b2) = false /\ responded conv b2 = false.

(** Calls of callbacks, and those expected upon messages. *)
Definition callbacks (tr : list citem) : list cout :=
  filter (fun x => match x with StatusCb _ | EventsCb _ => true | _ => false end) (couts tr).
Definition callback_of (m : smsg) : list cout :=
  match m with MStatus st => [StatusCb st] | MEvents _ es _ => [EventsCb es] | _ => [] end.

(** Acknowledgements sent, and those wanted by messages. *)
Definition acks (tr : list citem) : list nat := flat_map (fun m => match m with QAck conv => [conv] | _ => [] end) (csent tr).
Definition ack_of (m : smsg) : list nat := match m with MEvents conv _ false => [conv] | _ => [] end.

(** Steps of the receive loop. *)
Definition of_loop (o : cop) : bool :=
  match o with CMsg _ | CBad | CStart | CDone | CRaised | CStop => true | _ => false end.

(** What the server has got of a client's messages. *)
Definition got (c : nat) (tr : list vitem) : list cmsg :=
  flat_map (fun i => match fst i with
                     | VInit k conv req _ => if Nat.eqb k c then [QInit conv req] else []
                     | VAck k conv => if Nat.eqb k c then [QAck conv] else []
                     | VRegister k conv last rs => if Nat.eqb k c then [QRegister conv last rs] else []
                     | VQuery k conv p => if Nat.eqb k c then [QQuery conv p] else []
                     | _ => []
                     end) tr.

(** A client and the server are connected: each has got a beginning of what the
    other has sent. *)
Definition prefix {A} (l l' : list A) : Prop := exists r, l' = l ++ r.
Definition linked (c : nat) (req : init_req) (str : list vitem) (ctr : list citem) : Prop :=
  prefix (received ctr) (sent_to c str) /\ prefix (got c str) (QInit 0 req :: csent ctr).

(** The server's answer to a request of a client. *)
Definition served_register (c conv : nat) (rs : list reg_event) (r : option (list event)) (str : list vitem) : Prop :=
  exists a l b, str = a ++ (VRegister c conv false rs, l) :: b /\
    (l = [Sent c (MRegisterRes conv r)] /\ r = None \/
     l = [EngineCall c rs] /\ exists b1 k b2, b = b1 ++ (VRegistered c r, k) :: b2 /\ quiet c b1).
Definition served_query (c conv : nat) (p : query_params) (r : query_result) (str : list vitem) : Prop :=
  exists a b1 k b2, str = a ++ (VQuery c conv p, [QueryCall c p]) :: b1 ++ (VQueried c r, k) :: b2 /\ quiet c b1.
