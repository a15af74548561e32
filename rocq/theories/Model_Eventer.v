(** Eventer server.  Models src_py/hat/event/eventer/server.py:47-285 together
    with src_py/hat/event/server/eventer_server.py:18-119, which provides its
    callbacks, as a transition system: code between two [await]s is one step,
    other tasks may run between steps.

    The engine, the backend and clients are arbitrary: what they answer or send
    is part of the step.  Assumed about [hat.drivers.chatter] (another package):
    [send] raises [ConnectionError] once the connection is closed; otherwise it
    hands the message over for transmission before it gives up control, and
    messages arrive in that order; a conversation begun by [send] is different
    from others of that connection; [receive] raises [ConnectionError] once the
    connection is closed.  Messages are given as decoded data (see
    Model_Sbs.v). *)
From Coq Require Import String Bool ZArith Arith DecimalString List.
From Verif Require Import Base Model_Types Model_Subscription.
Import ListNotations.
Open Scope string_scope.
Open Scope list_scope.
Open Scope nat_scope.

(** Data of HatEventer.MsgInitReq (client.py:76-80). *)
Record init_req := InitReq {
  ir_name : string; ir_token : option string; ir_subs : list etype; ir_server : option Z; ir_persisted : bool }.

(** server.py:23-29 [ConnectionInfo]; connections are known by their ids. *)
Record info := Info {
  in_name : string; in_token : option string; in_sub : node; in_server : option Z; in_persisted : bool }.

(** Messages to clients: responses repeat the conversation of the request. *)
Inductive smsg :=
| MInitRes (conv : nat) (r : option status)
| MStatus (st : status)
| MEvents (conv : nat) (es : list event) (last : bool)
| MRegisterRes (conv : nat) (r : option (list event))
| MQueryRes (conv : nat) (r : query_result).

(** Where the connection loop is (server.py:130-211): waiting for the init
    request (136), in [connected_cb] (151), refused (167-171), waiting for a
    message (175), in [register_cb] (218), in [query_cb] (240), about to call
    [disconnected_cb] (209-211), ended. *)
Inductive phase :=
| HNew
| HHello (conv : nat) (i : info)
| HRefused
| HIdle (i : info)
| HRegister (i : info) (conv : nat) (last : bool)
| HQuery (i : info) (conv : nat)
| HBye (i : info)
| HEnd.

Record conn := Conn { k_up : bool; k_phase : phase }.

(** A task notifying with acknowledgement (server.py:261-285): not begun, in
    [send], waiting for its future. *)
Inductive tstate := TNew (es : list event) | TSent (conv : nat) | TWait (conv : nat).
Record task := Task { tk_call : nat; tk_conn : nat; tk_state : tstate }.

(** [v_next] is the next connection id, [v_infos] are [_conn_infos] in order of
    insertion, [v_engine] tells whether an engine is set; [v_sets] are calls of
    [set_status] with the connections left to be notified, [v_notes] calls of
    [notify_events] without acknowledgement with what is left to be sent,
    [v_acks] those with acknowledgement; [v_conv] is the next conversation;
    [v_used] are the numbers of calls so far. *)
Record vstate := VState {
  v_status : status; v_engine : bool; v_open : bool; v_next : nat; v_conns : list (nat * conn); v_infos : list (nat * info);
  v_sets : list (nat * list nat); v_notes : list (nat * list (nat * list event)); v_acks : list nat; v_tasks : list task;
  v_conv : nat; v_used : list nat }.

(** What happens.  [VInit] to [VQueried] belong to a connection: messages of
    the client, and answers of the engine ([VHello], [VRegistered]) or the
    backend ([VQueried]) or an exception ([VRaised]); [eopen] tells whether the
    engine is open.  [VLost]: the connection is closed.  Then calls of
    [set_status] and [notify_events] and their steps. *)
Inductive vop :=
| VAccept
| VInit (c conv : nat) (req : init_req) (eopen : bool)
| VHello (c : nat) (ok : bool)
| VBad (c : nat)
| VAck (c conv : nat)
| VRegister (c conv : nat) (last : bool) (rs : list reg_event)
| VRegistered (c : nat) (r : option (list event))
| VQuery (c conv : nat) (p : query_params)
| VQueried (c : nat) (r : query_result)
| VRaised (c : nat)
| VLost (c : nat)
| VEnd (c : nat)
| VBye (c : nat) (eopen : bool)
| VSetStatus (n : nat) (st : status) (engine : bool)
| VStatusStep (n : nat)
| VStatusDone (n : nat)
| VNotify (n : nat) (es : list event) (persisted ack : bool)
| VNotifyStep (n : nat)
| VTask (n c : nat)
| VTaskWait (n c : nat)
| VNotifyDone (n : nat)
| VGiveUp (n : nat)
| VClose
| VTaskCancel (n c : nat).

(** What is seen: a new connection, messages sent, calls of the engine's
    [register] and of the backend's [query] on behalf of a connection, the end
    of a call (normal or with [ValueError]). *)
Inductive vout :=
| Accepted (c : nat)
| Sent (c : nat) (m : smsg)
| EngineCall (c : nat) (rs : list reg_event)
| QueryCall (c : nat) (p : query_params)
| Returned (n : nat)
| Invalid (n : nat).

Definition nmem (n : nat) (l : list nat) : bool := existsb (Nat.eqb n) l.
Definition nget {A} (n : nat) (l : list (nat * A)) : option A := dget Nat.eqb n l.
Definition nset {A} (n : nat) (x : A) (l : list (nat * A)) : list (nat * A) := dset Nat.eqb n x l.
Definition ndel {A} (n : nat) (l : list (nat * A)) : list (nat * A) := ddel Nat.eqb n l.

Definition is_up (s : vstate) (c : nat) : bool :=
  match nget c (v_conns s) with Some k => k_up k | None => false end.
Definition phase_of (s : vstate) (c : nat) : phase :=
  match nget c (v_conns s) with Some k => k_phase k | None => HEnd end.

Definition with_conns (s : vstate) (x : list (nat * conn)) : vstate :=
  VState (v_status s) (v_engine s) (v_open s) (v_next s) x (v_infos s) (v_sets s) (v_notes s) (v_acks s) (v_tasks s) (v_conv s) (v_used s).
Definition with_infos (s : vstate) (x : list (nat * info)) : vstate :=
  VState (v_status s) (v_engine s) (v_open s) (v_next s) (v_conns s) x (v_sets s) (v_notes s) (v_acks s) (v_tasks s) (v_conv s) (v_used s).
Definition with_sets (s : vstate) (x : list (nat * list nat)) : vstate :=
  VState (v_status s) (v_engine s) (v_open s) (v_next s) (v_conns s) (v_infos s) x (v_notes s) (v_acks s) (v_tasks s) (v_conv s) (v_used s).
Definition with_notes (s : vstate) (x : list (nat * list (nat * list event))) : vstate :=
  VState (v_status s) (v_engine s) (v_open s) (v_next s) (v_conns s) (v_infos s) (v_sets s) x (v_acks s) (v_tasks s) (v_conv s) (v_used s).
Definition with_acks (s : vstate) (x : list nat) (y : list task) : vstate :=
  VState (v_status s) (v_engine s) (v_open s) (v_next s) (v_conns s) (v_infos s) (v_sets s) (v_notes s) x y (v_conv s) (v_used s).
Definition with_status (s : vstate) (st : status) (e : bool) : vstate :=
  VState st e (v_open s) (v_next s) (v_conns s) (v_infos s) (v_sets s) (v_notes s) (v_acks s) (v_tasks s) (v_conv s) (v_used s).
Definition next_conv (s : vstate) : vstate :=
  VState (v_status s) (v_engine s) (v_open s) (v_next s) (v_conns s) (v_infos s) (v_sets s) (v_notes s) (v_acks s) (v_tasks s) (S (v_conv s)) (v_used s).
Definition use (s : vstate) (n : nat) : vstate :=
  VState (v_status s) (v_engine s) (v_open s) (v_next s) (v_conns s) (v_infos s) (v_sets s) (v_notes s) (v_acks s) (v_tasks s) (v_conv s) (v_used s ++ [n]).

Definition set_phase (s : vstate) (c : nat) (h : phase) : vstate :=
  with_conns s (nset c (Conn (is_up s c) h) (v_conns s)).

(** A message for a connection, if it is not closed. *)
Definition send (s : vstate) (c : nat) (m : smsg) : list vout := if is_up s c then [Sent c m] else [].

(** Information about the client that the loop has (server.py:133-160). *)
Definition info_of (h : phase) : option info :=
  match h with HHello _ i | HIdle i | HRegister i _ _ | HQuery i _ => Some i | _ => None end.

(** server.py:200-211: the end of the connection loop; every future of
    [_conn_conv_futures] is done (of all connections). *)
Definition leave (s : vstate) (c : nat) : vstate :=
  let h := match info_of (phase_of s c) with Some i => HBye i | None => HEnd end in
  with_infos
    (with_acks (with_conns s (nset c (Conn false h) (v_conns s))) (v_acks s)
               (filter (fun t => match tk_state t with TWait _ => false | _ => true end) (v_tasks s)))
    (ndel c (v_infos s)).

(** eventer_server.py:110-114 [_create_eventer_event] *)
Definition eventer_event (server : Z) (i : info) (st : string) : reg_event :=
  RegEv ["event"; NilZero.string_of_int (Z.to_int server); "eventer"; in_name i] None (Some (PJson (JStr st))).

(** server.py:153-154, 163-165: a client is accepted (the status is taken and
    the client is added to [_conn_infos] without a pause). *)
Definition accept (s : vstate) (c conv : nat) (i : info) : vstate * list vout :=
  if is_up s c
  then (with_infos (set_phase s c (HIdle i)) (nset c i (v_infos s)), [Sent c (MInitRes conv (Some (v_status s)))])
  else (leave s c, []).

(** server.py:156-165: a client is refused. *)
Definition refuse (s : vstate) (c conv : nat) : vstate * list vout :=
  if is_up s c
  then (set_phase s c HRefused, [Sent c (MInitRes conv None)])
  else (leave (set_phase s c HRefused) c, []).

Definition status_eqb (a b : status) : bool :=
  match a, b with
  | STANDBY, STANDBY | STARTING, STARTING | OPERATIONAL, OPERATIONAL | STOPPING, STOPPING => true
  | _, _ => false
  end.

(** server.py:107-111: events for a client. *)
Definition wanted (i : info) (es : list event) : list event :=
  filter (fun e => node_matches (in_sub i) (ev_type e) &&
                   match in_server i with None => true | Some x => (x =? eid_server (ev_id e))%Z end) es.

(** server.py:101-115 *)
Definition targets (infos : list (nat * info)) (es : list event) (persisted : bool) : list (nat * list event) :=
  flat_map (fun ci =>
    if Bool.eqb (in_persisted (snd ci)) persisted
    then match wanted (snd ci) es with [] => [] | l => [(fst ci, l)] end
    else []) infos.

(** A message or answer ends the connection loop with an exception. *)
Definition fail (s : vstate) (c : nat) : option (vstate * list vout) := Some (leave s c, []).

Definition of_task (n c : nat) (t : task) : bool := Nat.eqb n (tk_call t) && Nat.eqb c (tk_conn t).
Definition find_task (n c : nat) (l : list task) : option tstate := option_map tk_state (find (of_task n c) l).
Definition del_task (n c : nat) (l : list task) : list task := filter (fun t => negb (of_task n c t)) l.
Definition set_task (n c : nat) (x : tstate) (l : list task) : list task :=
  map (fun t => if of_task n c t then Task n c x else t) l.

(** One step; [server] and [token] are the id and the token of the server;
    [None]: not possible. *)
Definition vexec (server : Z) (token : option string) (s : vstate) (o : vop) : option (vstate * list vout) :=
  match o with
  | VAccept =>                           (* server.py:130-133 *)
      let c := v_next s in
      if v_open s then
        Some (VState (v_status s) (v_engine s) (v_open s) (S c) (v_conns s ++ [(c, Conn true HNew)]) (v_infos s) (v_sets s)
                     (v_notes s) (v_acks s) (v_tasks s) (v_conv s) (v_used s), [Accepted c])
      else None
  | VInit c conv req eopen =>            (* server.py:136-154, eventer_server.py:80-90 *)
      match phase_of s c with
      | HNew =>
          match py_create (ir_subs req) with
          | None => Some (refuse s c conv)
          | Some sub =>
              let i := Info (ir_name req) (ir_token req) sub (ir_server req) (ir_persisted req) in
              if match ir_token req, token with
                 | None, _ => false
                 | Some t, Some t' => negb (String.eqb t t')
                 | Some _, None => true
                 end
              then Some (refuse s c conv)
              else if v_engine s && eopen
                   then Some (set_phase s c (HHello conv i), [EngineCall c [eventer_event server i "CONNECTED"]])
                   else Some (accept s c conv i)
          end
      | _ => None
      end
  | VHello c ok =>                       (* server.py:151-165 *)
      match phase_of s c with
      | HHello conv i => Some (if ok then accept s c conv i else refuse s c conv)
      | _ => None
      end
  | VBad c =>                            (* server.py:137-138, 191-192, 197-198: another message *)
      match phase_of s c with
      | HNew | HIdle _ => fail s c
      | _ => None
      end
  | VAck c conv =>                       (* server.py:177-181 *)
      match phase_of s c with
      | HIdle _ =>
          Some (with_acks s (v_acks s)
                  (filter (fun t => negb (Nat.eqb c (tk_conn t) &&
                             match tk_state t with TWait x => Nat.eqb conv x | _ => false end)) (v_tasks s)), [])
      | _ => None
      end
  | VRegister c conv last rs =>          (* server.py:183-185, 213-234, eventer_server.py:100-105 *)
      match phase_of s c with
      | HIdle i =>
          if v_engine s then Some (set_phase s c (HRegister i conv last), [EngineCall c rs])
          else if last then Some (s, [])
          else if is_up s c then Some (s, [Sent c (MRegisterRes conv None)]) else fail s c
      | _ => None
      end
  | VRegistered c r =>                   (* server.py:218-234 *)
      match phase_of s c with
      | HRegister i conv last =>
          if last then Some (set_phase s c (HIdle i), [])
          else if is_up s c then Some (set_phase s c (HIdle i), [Sent c (MRegisterRes conv r)]) else fail s c
      | _ => None
      end
  | VQuery c conv p =>                   (* server.py:187-189, 236-240, eventer_server.py:107-108 *)
      match phase_of s c with
      | HIdle i => Some (set_phase s c (HQuery i conv), [QueryCall c p])
      | _ => None
      end
  | VQueried c r =>                      (* server.py:240-248 *)
      match phase_of s c with
      | HQuery i conv =>
          if is_up s c then Some (set_phase s c (HIdle i), [Sent c (MQueryRes conv r)]) else fail s c
      | _ => None
      end
  | VRaised c =>                         (* server.py:197-198 *)
      match phase_of s c with
      | HRegister _ _ _ | HQuery _ _ => fail s c
      | _ => None
      end
  | VLost c =>
      match nget c (v_conns s) with
      | Some k => Some (with_conns s (nset c (Conn false (k_phase k)) (v_conns s)), [])
      | None => None
      end
  | VEnd c =>                            (* server.py:136, 168-171, 175: [ConnectionError], or end of waiting, or cancellation *)
      match phase_of s c with
      | HNew | HIdle _ => if negb (is_up s c) || negb (v_open s) then fail s c else None
      | HRefused => fail s c
      | HHello _ _ | HRegister _ _ _ | HQuery _ _ => if v_open s then None else fail s c
      | HBye _ | HEnd => None
      end
  | VBye c eopen =>                      (* server.py:209-211, eventer_server.py:92-98 *)
      match phase_of s c with
      | HBye i => Some (set_phase s c HEnd, if v_engine s && eopen then [EngineCall c [eventer_event server i "DISCONNECTED"]] else [])
      | _ => None
      end
  | VSetStatus n st engine =>            (* eventer_server.py:58-71, server.py:86-93 *)
      if nmem n (v_used s) then None
      else if xorb (status_eqb st OPERATIONAL) engine then Some (use s n, [Invalid n])
      else if status_eqb (v_status s) st then Some (use (with_status s (v_status s) engine) n, [Returned n])
      else Some (use (with_sets (with_status s st engine) (v_sets s ++ [(n, keys (v_infos s))])) n, [])
  | VStatusStep n =>                     (* server.py:93-94, 250-259 *)
      match nget n (v_sets s) with
      | Some (c :: cs) => Some (with_sets s (nset n cs (v_sets s)), send s c (MStatus (v_status s)))
      | _ => None
      end
  | VStatusDone n =>
      match nget n (v_sets s) with
      | Some [] => Some (with_sets s (ndel n (v_sets s)), [Returned n])
      | _ => None
      end
  | VNotify n es persisted ack =>        (* server.py:96-128 *)
      if nmem n (v_used s) then None
      else match targets (v_infos s) es persisted with
           | [] => Some (use s n, [Returned n])
           | ts =>
               if ack
               then Some (use (with_acks s (v_acks s ++ [n]) (v_tasks s ++ map (fun x => Task n (fst x) (TNew (snd x))) ts)) n, [])
               else Some (use (with_notes s (v_notes s ++ [(n, ts)])) n, [])
           end
  | VNotifyStep n =>                     (* server.py:126-128, 261-270 *)
      match nget n (v_notes s) with
      | Some ((c, es) :: ts) =>
          Some (next_conv (with_notes s (nset n ts (v_notes s))), send s c (MEvents (v_conv s) es true))
      | _ => None
      end
  | VTask n c =>                         (* server.py:261-267 *)
      match find_task n c (v_tasks s) with
      | Some (TNew es) =>
          if is_up s c
          then Some (next_conv (with_acks s (v_acks s) (set_task n c (TSent (v_conv s)) (v_tasks s))),
                     [Sent c (MEvents (v_conv s) es false)])
          else Some (with_acks s (v_acks s) (del_task n c (v_tasks s)), [])
      | _ => None
      end
  | VTaskWait n c =>                     (* server.py:272-276 *)
      match find_task n c (v_tasks s) with
      | Some (TSent conv) => Some (with_acks s (v_acks s) (set_task n c (TWait conv) (v_tasks s)), [])
      | _ => None
      end
  | VNotifyDone n =>
      match nget n (v_notes s) with
      | Some [] => Some (with_notes s (ndel n (v_notes s)), [Returned n])
      | Some _ => None
      | None =>
          if nmem n (v_acks s) && forallb (fun t => negb (Nat.eqb n (tk_call t))) (v_tasks s)
          then Some (with_acks s (filter (fun m => negb (Nat.eqb n m)) (v_acks s)) (v_tasks s), [Returned n])
          else None
      end
  | VGiveUp n =>                         (* the caller of [set_status] or [notify_events] is cancelled *)
      if nmem n (v_used s)
      then Some (with_acks (with_notes (with_sets s (ndel n (v_sets s))) (ndel n (v_notes s)))
                           (filter (fun m => negb (Nat.eqb n m)) (v_acks s)) (v_tasks s), [])
      else None
  | VClose =>
      Some (VState (v_status s) (v_engine s) false (v_next s) (v_conns s) (v_infos s) (v_sets s)
                   (v_notes s) (v_acks s) (v_tasks s) (v_conv s) (v_used s), [])
  | VTaskCancel n c =>                   (* server.py:120-124: closing the group cancels its tasks *)
      if v_open s then None
      else match find_task n c (v_tasks s) with
           | Some _ => Some (with_acks s (v_acks s) (del_task n c (v_tasks s)), [])
           | None => None
           end
  end.

(** server.py:46-72, eventer_server.py:16-37: a new server. *)
Definition vstart : vstate := VState STANDBY false true 1 [] [] [] [] [] [] 0 [].

Definition vitem := (vop * list vout)%type.
Inductive vruns (server : Z) (token : option string) : vstate -> list vitem -> vstate -> Prop :=
| vruns_nil : forall s, vruns server token s [] s
| vruns_snoc : forall s tr s1 o l s2, vruns server token s tr s1 -> vexec server token s1 o = Some (s2, l) ->
    vruns server token s (tr ++ [(o, l)]) s2.
