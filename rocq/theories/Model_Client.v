(** Eventer client.  Models src_py/hat/event/eventer/client.py:32-261 as a
    transition system: code between two [await]s is one step, other tasks may
    run between steps.

    The server and the users of the client (callers and callbacks) are
    arbitrary.  A missing callback is one that is done at once.  Assumed about
    [hat.drivers.chatter] as in Model_Eventer.v; about [hat.aio]: closing the
    connection cancels the receive loop, and a task that is cancelled before its
    first step does nothing at all (asyncio). *)
From Coq Require Import String Bool ZArith Arith List.
From Verif Require Import Base Model_Types Model_Eventer.
Import ListNotations.
Open Scope string_scope.
Open Scope list_scope.
Open Scope nat_scope.

(** Messages to the server (client.py:76-84, 133-137, 148-151, 221-224); [conv]
    is the conversation. *)
Inductive cmsg :=
| QInit (conv : nat) (req : init_req)
| QAck (conv : nat)
| QRegister (conv : nat) (last : bool) (rs : list reg_event)
| QQuery (conv : nat) (p : query_params).

(** Requests of users: [register] with or without response, [query]. *)
Inductive creq := RRegister (resp : bool) (rs : list reg_event) | RQuery (p : query_params).
(** What [register] and [query] return. *)
Inductive cres := ARegister (r : option (list event)) | AQuery (r : query_result).

(** Where [connect] and the receive loop are: waiting for the init response
    (86), spawned but not yet running (100), waiting for a message (160), in the
    status callback (209), in the events callback (215), ended. *)
Inductive lphase := LInit | LNew | LIdle | LStatus | LEvents (conv : nat) (last : bool) | LEnd.

(** A pending request: its message is sent (133, 148), its future is waited for
    (201), the future has a result or a [ConnectionError] (191, 240, 249). *)
Inductive rstate := RSent | RWait | RDone (r : cres) | RFail.
Record pend := Pend { p_call : nat; p_conv : nat; p_state : rstate }.

(** [c_conv] is the next conversation, [c_used] are the numbers of calls so
    far. *)
Record cstate := CState {
  c_open : bool; c_loop : lphase; c_status : status; c_conv : nat; c_reqs : list pend; c_used : list nat }.

(** What happens: a message is received, the receive loop starts, a callback is
    done or raises, the connection is closed (by either side), the loop notices;
    a user makes a request (given the number [n]), the request goes on to wait,
    it is resumed, the caller is cancelled. *)
Inductive cop :=
| CMsg (m : smsg)
| CBad
| CStart
| CDone
| CRaised
| CLost
| CStop
| CRequest (n : nat) (q : creq)
| CWait (n : nat)
| CResume (n : nat)
| CCancel (n : nat).

(** What is seen: messages sent, the end of [connect], callbacks called, results
    of requests. *)
Inductive cout :=
| CSent (m : cmsg)
| Connected
| Refused
| StatusCb (st : status)
| EventsCb (es : list event)
| CAnswer (n : nat) (r : cres)
| CReturned (n : nat)
| CError (n : nat).

Definition c_with_loop (s : cstate) (h : lphase) : cstate := CState (c_open s) h (c_status s) (c_conv s) (c_reqs s) (c_used s).
Definition c_with_reqs (s : cstate) (l : list pend) : cstate := CState (c_open s) (c_loop s) (c_status s) (c_conv s) l (c_used s).
Definition c_with_status (s : cstate) (st : status) : cstate := CState (c_open s) (c_loop s) st (c_conv s) (c_reqs s) (c_used s).

(** client.py:184-192: the end of the receive loop. *)
Definition finish (s : cstate) : cstate :=
  CState false LEnd (c_status s) (c_conv s)
    (map (fun x => match p_state x with RWait => Pend (p_call x) (p_conv x) RFail | _ => x end) (c_reqs s)) (c_used s).

(** client.py:226-249: a response sets the result of the future of its
    conversation; other responses are ignored. *)
Definition resolve (s : cstate) (conv : nat) (r : cres) : cstate :=
  c_with_reqs s (map (fun x => match p_state x with
                               | RWait => if Nat.eqb conv (p_conv x) then Pend (p_call x) conv (RDone r) else x
                               | _ => x end) (c_reqs s)).

Definition find_req (n : nat) (l : list pend) : option pend := find (fun x => Nat.eqb n (p_call x)) l.
Definition del_req (n : nat) (l : list pend) : list pend := filter (fun x => negb (Nat.eqb n (p_call x))) l.
Definition set_req (n : nat) (t : rstate) (l : list pend) : list pend :=
  map (fun x => if Nat.eqb n (p_call x) then Pend n (p_conv x) t else x) l.

(** The message of a request (client.py:133-137, 148-151). *)
Definition req_msg (conv : nat) (q : creq) : cmsg :=
  match q with RRegister resp rs => QRegister conv (negb resp) rs | RQuery p => QQuery conv p end.
Definition wants (q : creq) : bool := match q with RRegister resp _ => resp | RQuery _ => true end.

Definition cexec (s : cstate) (o : cop) : option (cstate * list cout) :=
  match o with
  | CMsg m =>
      match c_loop s with
      | LInit =>                             (* client.py:86-105; the conversation of the init request is 0 *)
          match m with
          | MInitRes 0 (Some st) => Some (c_with_loop (c_with_status s st) LNew, [Connected])
          | _ => Some (finish s, [Refused])
          end
      | LIdle =>
          match m with
          | MStatus st => Some (c_with_loop (c_with_status s st) LStatus, [StatusCb st])   (* client.py:206-210 *)
          | MEvents conv es last => Some (c_with_loop s (LEvents conv last), [EventsCb es]) (* client.py:212-217 *)
          | MRegisterRes conv r => Some (resolve s conv (ARegister r), [])
          | MQueryRes conv r => Some (resolve s conv (AQuery r), [])
          | MInitRes _ _ => Some (finish s, [])                                             (* client.py:178-179 *)
          end
      | _ => None
      end
  | CBad =>                                  (* another message, or one that can't be decoded *)
      match c_loop s with
      | LInit => Some (finish s, [Refused])
      | LIdle => Some (finish s, [])
      | _ => None
      end
  | CStart =>                                (* client.py:155-160 *)
      match c_loop s with
      | LNew => if c_open s then Some (c_with_loop s LIdle, []) else None
      | _ => None
      end
  | CDone =>                                 (* client.py:209-224 *)
      match c_loop s with
      | LStatus => Some (c_with_loop s LIdle, [])
      | LEvents conv last =>
          if last then Some (c_with_loop s LIdle, [])
          else if c_open s then Some (c_with_loop s LIdle, [CSent (QAck conv)]) else Some (finish s, [])
      | _ => None
      end
  | CRaised =>                               (* client.py:181-182 *)
      match c_loop s with
      | LStatus | LEvents _ _ => Some (finish s, [])
      | _ => None
      end
  | CLost => Some (CState false (c_loop s) (c_status s) (c_conv s) (c_reqs s) (c_used s), [])
  | CStop =>                                 (* client.py:102-104, 178-192: [ConnectionError] or cancellation *)
      if c_open s then None
      else match c_loop s with
           | LInit => Some (finish s, [Refused])
           | LNew => Some (c_with_loop s LEnd, [])
           | LEnd => None
           | _ => Some (finish s, [])
           end
  | CRequest n q =>
      match c_loop s with
      | LInit => None
      | _ =>
          if nmem n (c_used s) then None
          else if c_open s
          then if wants q
               then Some (CState (c_open s) (c_loop s) (c_status s) (S (c_conv s)) (c_reqs s ++ [Pend n (c_conv s) RSent]) (c_used s ++ [n]),
                          [CSent (req_msg (c_conv s) q)])
               else Some (CState (c_open s) (c_loop s) (c_status s) (S (c_conv s)) (c_reqs s) (c_used s ++ [n]),
                          [CSent (req_msg (c_conv s) q); CReturned n])
          else Some (CState (c_open s) (c_loop s) (c_status s) (c_conv s) (c_reqs s) (c_used s ++ [n]), [CError n])
      end
  | CWait n =>                               (* client.py:194-201 *)
      match find_req n (c_reqs s) with
      | Some (Pend _ _ RSent) =>
          if c_open s then Some (c_with_reqs s (set_req n RWait (c_reqs s)), [])
          else Some (c_with_reqs s (del_req n (c_reqs s)), [CError n])
      | _ => None
      end
  | CResume n =>                             (* client.py:201-204 *)
      match find_req n (c_reqs s) with
      | Some (Pend _ _ (RDone r)) => Some (c_with_reqs s (del_req n (c_reqs s)), [CAnswer n r])
      | Some (Pend _ _ RFail) => Some (c_with_reqs s (del_req n (c_reqs s)), [CError n])
      | _ => None
      end
  | CCancel n =>
      match find_req n (c_reqs s) with
      | Some _ => Some (c_with_reqs s (del_req n (c_reqs s)), [])
      | None => None
      end
  end.

(** client.py:69-84: connected, the init request is sent. *)
Definition cstart : cstate := CState true LInit STANDBY 1 [] [].

Definition citem := (cop * list cout)%type.
Inductive cruns : cstate -> list citem -> cstate -> Prop :=
| cruns_nil : forall s, cruns s [] s
| cruns_snoc : forall s tr s1 o l s2, cruns s tr s1 -> cexec s1 o = Some (s2, l) -> cruns s (tr ++ [(o, l)]) s2.
