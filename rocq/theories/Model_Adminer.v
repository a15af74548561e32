(** Adminer clients and the adminer server.  Models
    src_py/hat/event/adminer/{client,server}.py and
    src_py/hat/event/server/adminer_server.py as one transition system: one server
    with any number of connections, each with a client at its other end; code
    between two [await]s is one step.

    Assumed about [hat.drivers.chatter] as in Model_Eventer.v (messages of one
    direction keep their order, conversations of a connection are distinct, a
    response is given the conversation of its request); each side of a connection
    may notice that it is closed at any time, what was sent before may or may not
    still be received by the server.  [hat.json.decode] inverts
    [hat.json.encode].  [dictConfig] is an oracle: it raises with some text or
    not. *)
From Coq Require Import String Bool Arith List.
From Verif Require Import Model_Types.
Import ListNotations.
Open Scope list_scope.
Open Scope nat_scope.

(** Calls of users (client.py:56-69). *)
Inductive areq := AGet | ASet (conf : json).
(** What a call ends with: a configuration, nothing, [AdminerError],
    [ConnectionError]. *)
Inductive ares := RConf (conf : json) | RDone | RError (text : string) | RLost.

(** Message types of responses (client.py:60, 69). *)
Inductive akind := KGet | KSet.
Definition kind (q : areq) : akind := match q with AGet => KGet | ASet _ => KSet end.
Definition kind_eqb (a b : akind) : bool := match a, b with KGet, KGet | KSet, KSet => true | _, _ => false end.

(** A call which did not end yet: its message is sent (client.py:72-76), its future is
    waited for (85), has a result (109, 112), has a [ConnectionError] (125). *)
Inductive astate := SSent | SWait | SDone (r : ares) | SFail.
Record apend := Apend { ap_call : nat; ap_conv : nat; ap_kind : akind; ap_state : astate }.

(** A connection: the next conversation, is the client open, does its receive loop
    run, does the server's loop run, messages to the server, messages to the
    client, calls. *)
Record aconn := Aconn {
  a_conv : nat; a_open : bool; a_loop : bool; a_srv : bool;
  a_reqs : list (nat * areq); a_ress : list (nat * akind * ares); a_pend : list apend }.

(** [ad_conf]: [_log_conf] (adminer_server.py:16, 43); [ad_used]: numbers of calls so far. *)
Record adm := Adm { ad_conf : json; ad_conns : nat -> aconn; ad_used : list nat }.

Definition aconn_init : aconn := Aconn 0 true true true [] [] [].
Definition adm_init (conf : json) : adm := Adm conf (fun _ => aconn_init) [].

(** Calls and what they end with; [n] is the number of the call. *)
Inductive ahist := HCall (n : nat) (q : areq) | HRet (n : nat) (r : ares).

Inductive aevent :=
| ACall (c n : nat) (q : areq)  (* a user calls *)
| AWait (c n : nat)             (* sending is over *)
| AServe (c : nat) (sent : bool)(* the server handles a request; [sent]: the response is sent *)
| ASrvEnd (c : nat)             (* the server's loop ends *)
| ADeliver (c : nat)            (* the client receives a response *)
| ALost (c : nat)               (* the client's side is closed, by its user or by chatter *)
| AStop (c : nat)               (* the receive loop notices *)
| AResume (c n : nat)           (* the call goes on *)
| ACancel (c n : nat).          (* the caller is cancelled *)

Definition upd (f : nat -> aconn) (c : nat) (x : aconn) : nat -> aconn := fun k => if k =? c then x else f k.

Definition with_pend (x : aconn) (l : list apend) : aconn :=
  Aconn (a_conv x) (a_open x) (a_loop x) (a_srv x) (a_reqs x) (a_ress x) l.

Definition find_call (n : nat) (l : list apend) : option apend := find (fun p => ap_call p =? n) l.
Definition del_call (n : nat) (l : list apend) : list apend := filter (fun p => negb (ap_call p =? n)) l.
Definition set_call (n : nat) (st : astate) (l : list apend) : list apend :=
  map (fun p => if ap_call p =? n then Apend (ap_call p) (ap_conv p) (ap_kind p) st else p) l.

(** [_conv_msg_type_futures] (client.py:82, 88): calls whose future exists. *)
Definition has_future (p : apend) : bool := match ap_state p with SSent => false | _ => true end.
Definition find_future (v : nat) (l : list apend) : option apend :=
  find (fun p => has_future p && (ap_conv p =? v)) l.

(** client.py:119-125: the end of the receive loop. *)
Definition fail_futures (l : list apend) : list apend :=
  map (fun p => match ap_state p with SWait => Apend (ap_call p) (ap_conv p) (ap_kind p) SFail | _ => p end) l.
Definition finish_loop (x : aconn) : aconn :=
  Aconn (a_conv x) false false (a_srv x) (a_reqs x) [] (fail_futures (a_pend x)).

(** server.py:80-112, adminer_server.py:38-43: the configuration and the response. *)
Definition serve (dict_config : json -> option string) (conf : json) (q : areq) : json * ares :=
  match q with
  | AGet => (conf, RConf conf)
  | ASet c => match dict_config c with
              | None => (c, RDone)
              | Some text => (conf, RError text)
              end
  end.

(** client.py:97-112: one turn of the receive loop. *)
Definition deliver (x : aconn) (v : nat) (k : akind) (r : ares) : aconn :=
  match find_future v (a_pend x) with
  | None => finish_loop x
  | Some p =>
      match ap_state p with
      | SWait => if kind_eqb (ap_kind p) k then with_pend x (set_call (ap_call p) (SDone r) (a_pend x)) else finish_loop x
      | _ => finish_loop x
      end
  end.

Definition astep (dict_config : json -> option string) (s : adm) (e : aevent) : option (adm * list ahist) :=
  let set c x := Adm (ad_conf s) (upd (ad_conns s) c x) (ad_used s) in
  match e with
  | ACall c n q =>
      let x := ad_conns s c in
      if existsb (Nat.eqb n) (ad_used s) then None
      else if a_open x
      then Some (Adm (ad_conf s) (upd (ad_conns s) c
                   (Aconn (S (a_conv x)) true (a_loop x) (a_srv x)
                      (if a_srv x then a_reqs x ++ [(a_conv x, q)] else a_reqs x) (a_ress x)
                      (a_pend x ++ [Apend n (a_conv x) (kind q) SSent]))) (n :: ad_used s), [HCall n q])
      else Some (Adm (ad_conf s) (ad_conns s) (n :: ad_used s), [HCall n q; HRet n RLost])
  | AWait c n =>
      let x := ad_conns s c in
      match find_call n (a_pend x) with
      | Some p =>
          match ap_state p with
          | SSent => if a_open x then Some (set c (with_pend x (set_call n SWait (a_pend x))), [])
                     else Some (set c (with_pend x (del_call n (a_pend x))), [HRet n RLost])
          | _ => None
          end
      | None => None
      end
  | AServe c sent =>
      let x := ad_conns s c in
      match a_reqs x with
      | (v, q) :: l =>
          let '(conf, r) := serve dict_config (ad_conf s) q in
          Some (Adm conf (upd (ad_conns s) c
                  (if sent
                   then Aconn (a_conv x) (a_open x) (a_loop x) (a_srv x) l
                          (if a_open x then a_ress x ++ [(v, kind q, r)] else a_ress x) (a_pend x)
                   else Aconn (a_conv x) (a_open x) (a_loop x) false [] (a_ress x) (a_pend x))) (ad_used s), [])
      | [] => None
      end
  | ASrvEnd c =>
      let x := ad_conns s c in
      Some (set c (Aconn (a_conv x) (a_open x) (a_loop x) false [] (a_ress x) (a_pend x)), [])
  | ADeliver c =>
      let x := ad_conns s c in
      match a_ress x with
      | (v, k, r) :: l =>
          if a_open x && a_loop x
          then Some (set c (deliver (Aconn (a_conv x) (a_open x) (a_loop x) (a_srv x) (a_reqs x) l (a_pend x)) v k r), [])
          else None
      | [] => None
      end
  | ALost c =>
      let x := ad_conns s c in
      Some (set c (Aconn (a_conv x) false (a_loop x) (a_srv x) (a_reqs x) [] (a_pend x)), [])
  | AStop c =>
      let x := ad_conns s c in
      if a_open x then None
      else if a_loop x then Some (set c (finish_loop x), []) else None
  | AResume c n =>
      let x := ad_conns s c in
      match find_call n (a_pend x) with
      | Some p =>
          match ap_state p with
          | SDone r => Some (set c (with_pend x (del_call n (a_pend x))), [HRet n r])
          | SFail => Some (set c (with_pend x (del_call n (a_pend x))), [HRet n RLost])
          | _ => None
          end
      | None => None
      end
  | ACancel c n =>
      let x := ad_conns s c in
      match find_call n (a_pend x) with
      | Some p => Some (set c (with_pend x (del_call n (a_pend x))), [])
      | None => None
      end
  end.

(** Executions, oldest step first. *)
Inductive aruns (dc : json -> option string) : adm -> list (aevent * list ahist) -> adm -> Prop :=
| ar_nil : forall s, aruns dc s [] s
| ar_step : forall s e o s1 tr s2, astep dc s e = Some (s1, o) -> aruns dc s1 tr s2 -> aruns dc s ((e, o) :: tr) s2.
