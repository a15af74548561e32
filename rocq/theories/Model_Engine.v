(** Engine.  Models src_py/hat/event/server/engine.py:19-216 as a transition
    system: code between two [await]s is one step, other tasks may run between
    steps.

    Modules and the backend are arbitrary: what they answer is part of the
    step.  Assumed about [hat.aio] (another package): [Queue] is first in first
    out, [put] waits while the queue is full and raises [QueueClosedError] once
    it is closed, items can still be taken from a closed queue; closing a group
    cancels its tasks.  Not modelled: the register loop being cancelled before
    it ran at all, a second cancellation during the registration of the STOPPED
    event, numbers beyond 64 bits. *)
From Coq Require Import String Bool ZArith Arith DecimalString List.
From Verif Require Import Base Model_Types Model_Subscription.
Import ListNotations.
Open Scope string_scope.
Open Scope list_scope.
Open Scope nat_scope.

(** src_py/hat/event/common/module.py:17-26 [SourceType], [Source] *)
Inductive source_type := EVENTER | MODULE | ENGINE | SERVER.
Record source := Source { so_type : source_type; so_id : Z }.

(** Item of [_register_queue]; futures are numbered, number 0 is the future of
    the STARTED event (engine.py:41). *)
Record request := Request { rq_fut : nat; rq_src : source; rq_events : list reg_event }.

(** engine.py:195-199 [_create_status_reg_event] *)
Definition status_reg_event (server : Z) (st : string) : reg_event :=
  RegEv ["event"; NilZero.string_of_int (Z.to_int server); "engine"] None (Some (PJson (JStr st))).

(** engine.py:201-206 [_create_session] *)
Definition create_session (i : event_id) : event_id := Eid (eid_server i) (eid_session i + 1) 0.

(** engine.py:208-216 [_create_event] *)
Definition create_event (i : event_id) (now : timestamp) (r : reg_event) : event_id * event :=
  let i := Eid (eid_server i) (eid_session i) (eid_instance i + 1) in
  (i, Ev i (re_type r) now (re_src r) (re_payload r)).

(** engine.py:162-164, 181-183: events are created one after the other. *)
Fixpoint create_events (i : event_id) (now : timestamp) (rs : list reg_event) : event_id * list event :=
  match rs with
  | [] => (i, [])
  | r :: rs' =>
      let '(i, e) := create_event i now r in
      let '(i, es) := create_events i now rs' in
      (i, e :: es)
  end.

(** engine.py:170-171: pairs of a module and an input, in the order of the two
    loops. *)
Definition pairs (n : nat) (ins : list (source * event)) : list (nat * (source * event)) :=
  flat_map (fun m => map (fun x => (m, x)) ins) (seq 0 n).

(** engine.py:49: source of a module *)
Definition module_source (m : nat) : source := Source MODULE (Z.of_nat m).

(** Where the register loop is: engine not yet created (engine.py:46-60), at
    [get] (118), telling modules of the start (158-160), between [process]
    calls (167-188), in a [process] call (175), telling of the stop (190-191),
    in [register] of the backend (125), in the last [register] (153), ended.
    [all] are the events of the session so far, [outs] those of the round that
    were produced by modules, [todo] the rest of the round. *)
Inductive eloop :=
| PInit
| PWait
| PStart (r : request) (now : timestamp) (ms : list nat)
| PRun (r : request) (now : timestamp) (all : list event) (outs : list (source * event)) (todo : list (nat * (source * event)))
| PCall (r : request) (now : timestamp) (all : list event) (outs : list (source * event)) (m : nat) (todo : list (nat * (source * event)))
| PStop (r : request) (all : list event) (ms : list nat)
| PReg (r : request) (all : list event)
| PLast
| PDone.

(** [e_last] is [_last_event_id]; [e_put] are calls of [register] waiting in
    [put]; [e_gone] futures cancelled with their callers; [e_used] the futures
    made so far. *)
Record estate := EState {
  e_last : event_id; e_open : bool; e_qopen : bool; e_put : list request; e_queue : list request;
  e_gone : list nat; e_used : list nat; e_loop : eloop }.

(** What happens: creation finishes or fails, calls of [register], their [put],
    their cancellation, closing; steps of the register loop; the last four are
    what others do during an [await] of the loop: answer of [process], answer
    of the backend's [register], an exception, cancellation. *)
Inductive eop :=
| EBegin
| EInitFailed
| ERegister (r : request)
| EPut (n : nat)
| EGiveUp (n : nat)
| EClose
| EGet (now : timestamp)
| EStep
| EProcessed (rs : list reg_event)
| ERegistered (some : bool)
| ERaise (now : timestamp)
| ECancel (now : timestamp)
| ELast.

(** Answer of [register]: events, [None], an exception. *)
Inductive reply := Events (es : list event) | NoEvents | Failed.

(** What is seen: a session begins for a request; calls of modules; the call of
    the backend's [register]; answers. *)
Inductive eout :=
| Begin (r : request)
| Started (m : nat) (session : Z)
| Process (m : nat) (s : source) (e : event)
| Stopped (m : nat) (session : Z)
| Hand (es : list event)
| Reply (n : nat) (a : reply).

Definition memb (n : nat) (l : list nat) : bool := existsb (Nat.eqb n) l.

Definition set_eloop (s : estate) (l : eloop) : estate :=
  EState (e_last s) (e_open s) (e_qopen s) (e_put s) (e_queue s) (e_gone s) (e_used s) l.
Definition set_last (s : estate) (i : event_id) (l : eloop) : estate :=
  EState i (e_open s) (e_qopen s) (e_put s) (e_queue s) (e_gone s) (e_used s) l.

Definition find_put (n : nat) (l : list request) : option request := find (fun r => Nat.eqb n (rq_fut r)) l.
Definition del_put (n : nat) (l : list request) : list request := filter (fun r => negb (Nat.eqb n (rq_fut r))) l.

(** Sets the result of a future that is not done. *)
Definition reply_to (s : estate) (a : reply) (n : nat) : list eout :=
  if memb n (e_gone s) then [] else [Reply n a].

(** Request the loop is busy with. *)
Definition busy (l : eloop) : list request :=
  match l with
  | PStart r _ _ | PRun r _ _ _ _ | PCall r _ _ _ _ _ | PStop r _ _ | PReg r _ => [r]
  | _ => []
  end.

(** engine.py:138-153: end of the loop.  ([future] is the request the loop is
    busy with, or one that is done already.) *)
Definition shut (s : estate) (now : timestamp) : estate * list eout :=
  let '(i, e) := create_event (create_session (e_last s)) now (status_reg_event (eid_server (e_last s)) "STOPPED") in
  (EState i false false (e_put s) [] (e_gone s) (e_used s) PLast,
   flat_map (fun r => reply_to s Failed (rq_fut r)) (busy (e_loop s) ++ e_queue s) ++ [Hand [e]]).

(** One step; [ms] are the subscriptions of the modules, [size] is
    [register_queue_size]; [None]: not possible. *)
Definition eexec (ms : list node) (size : nat) (s : estate) (o : eop) : option (estate * list eout) :=
  match o with
  | EBegin =>                            (* engine.py:60-66; a closed group spawns no task *)
      match e_loop s with PInit => if e_open s then Some (set_eloop s PWait, []) else None | _ => None end
  | EInitFailed =>                       (* engine.py:62-64: the loop never runs, the queue stays open *)
      match e_loop s with
      | PInit => Some (EState (e_last s) false (e_qopen s) (e_put s) (e_queue s) (e_gone s) (e_used s) PDone, [])
      | _ => None
      end
  | ERegister r =>                       (* engine.py:84-90 *)
      if memb (rq_fut r) (e_used s) then None
      else match rq_events r with
           | [] => Some (EState (e_last s) (e_open s) (e_qopen s) (e_put s) (e_queue s) (e_gone s) (e_used s ++ [rq_fut r]) (e_loop s),
                         [Reply (rq_fut r) (Events [])])
           | _ => Some (EState (e_last s) (e_open s) (e_qopen s) (e_put s ++ [r]) (e_queue s) (e_gone s) (e_used s ++ [rq_fut r]) (e_loop s), [])
           end
  | EPut n =>                            (* engine.py:90-95 *)
      match find_put n (e_put s) with
      | None => None
      | Some r =>
          if e_qopen s then
            if Nat.ltb (List.length (e_queue s)) size then
              Some (EState (e_last s) (e_open s) (e_qopen s) (del_put n (e_put s)) (e_queue s ++ [r]) (e_gone s) (e_used s) (e_loop s), [])
            else None
          else Some (EState (e_last s) (e_open s) (e_qopen s) (del_put n (e_put s)) (e_queue s) (e_gone s) (e_used s) (e_loop s),
                     [Reply n Failed])
      end
  | EGiveUp n =>
      if memb n (e_used s) then
        Some (EState (e_last s) (e_open s) (e_qopen s) (del_put n (e_put s)) (e_queue s) (e_gone s ++ [n]) (e_used s) (e_loop s), [])
      else None
  | EClose => Some (EState (e_last s) false (e_qopen s) (e_put s) (e_queue s) (e_gone s) (e_used s) (e_loop s), [])
  | EGet now =>                          (* engine.py:118-122, 156 *)
      match e_loop s, e_queue s with
      | PWait, r :: q =>
          Some (EState (create_session (e_last s)) (e_open s) (e_qopen s) (e_put s) q (e_gone s) (e_used s)
                       (PStart r now (seq 0 (List.length ms))), [Begin r])
      | _, _ => None
      end
  | EStep =>
      match e_loop s with
      | PStart r now (m :: l) =>         (* engine.py:158-160 *)
          Some (set_eloop s (PStart r now l), [Started m (eid_session (e_last s))])
      | PStart r now [] =>               (* engine.py:162-168 *)
          let '(i, es) := create_events (e_last s) now (rq_events r) in
          Some (set_last s i (PRun r now es [] (pairs (List.length ms) (map (fun e => (rq_src r, e)) es))), [])
      | PRun r now all outs ((m, (src, e)) :: todo) =>  (* engine.py:170-176 *)
          if match nth_error ms m with Some n => node_matches n (ev_type e) | None => false end
          then Some (set_eloop s (PCall r now all outs m todo), [Process m src e])
          else Some (set_eloop s (PRun r now all outs todo), [])
      | PRun r now all [] [] =>          (* engine.py:167: no more input *)
          Some (set_eloop s (PStop r all (seq 0 (List.length ms))), [])
      | PRun r now all outs [] =>        (* engine.py:188, 167-168 *)
          Some (set_eloop s (PRun r now all [] (pairs (List.length ms) outs)), [])
      | PStop r all (m :: l) =>          (* engine.py:190-191 *)
          Some (set_eloop s (PStop r all l), [Stopped m (eid_session (e_last s))])
      | PStop r all [] =>                (* engine.py:193, 125 *)
          Some (set_eloop s (PReg r all), [Hand all])
      | _ => None
      end
  | EProcessed rs =>                     (* engine.py:175-186; [[]] stands also for [None] *)
      match e_loop s with
      | PCall r now all outs m todo =>
          let '(i, es) := create_events (e_last s) now rs in
          Some (set_last s i (PRun r now (all ++ es) (outs ++ map (fun e => (module_source m, e)) es) todo), [])
      | _ => None
      end
  | ERegistered some =>                  (* engine.py:125-133; the backend returns the events it was given, or [None] *)
      match e_loop s with
      | PReg r all =>
          Some (set_eloop s PWait,
                reply_to s (if some then Events (firstn (List.length (rq_events r)) all) else NoEvents) (rq_fut r))
      | _ => None
      end
  | ERaise now =>                        (* engine.py:135: an exception of a module or of the backend *)
      match e_loop s with
      | PStart _ _ _ | PCall _ _ _ _ _ _ | PStop _ _ _ | PReg _ _ => Some (shut s now)
      | _ => None
      end
  | ECancel now =>
      if e_open s then None
      else match e_loop s with
           | PWait | PStart _ _ _ | PCall _ _ _ _ _ _ | PStop _ _ _ | PReg _ _ => Some (shut s now)
           | _ => None
           end
  | ELast =>
      match e_loop s with PLast => Some (set_eloop s PDone, []) | _ => None end
  end.

(** engine.py:28-44: a new engine of a server; [last] is what the backend says. *)
Definition estart (last : event_id) : estate :=
  EState last true true [] [Request 0 (Source ENGINE 0) [status_reg_event (eid_server last) "STARTED"]] [] [0] PInit.

Definition eitem := (eop * list eout)%type.
Inductive eruns (ms : list node) (size : nat) : estate -> list eitem -> estate -> Prop :=
| eruns_nil : forall s, eruns ms size s [] s
| eruns_snoc : forall s tr s1 o l s2, eruns ms size s tr s1 -> eexec ms size s1 o = Some (s2, l) ->
    eruns ms size s (tr ++ [(o, l)]) s2.
