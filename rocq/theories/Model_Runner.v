(** Model of server/engine_runner.py and of the part of
    server/eventer_server.py that passes requests to the engine. *)
From Coq Require Import Bool Arith List.
From Verif Require Import Base Model_Types.
Import ListNotations.
Open Scope list_scope.
Open Scope nat_scope.

(** Where the task [_run] (engine_runner.py:62-101) is.  [fin] tells whether
    [_close] (lines 103-117) runs for the last time (line 101), where it is not
    cancelled. *)
Inductive npc :=
| NNew                 (* spawned, not yet started *)
| NWait                (* waiting in [_wait_while_remote_active] *)
| NStart               (* in set_status(STARTING) *)
| NCreate              (* in [create_engine] *)
| NOper                (* in set_status(OPERATIONAL) *)
| NRun                 (* in [asyncio.wait], lines 85-88 *)
| NSub                 (* the subgroup is closing, line 84 *)
| NStop (fin : bool)   (* in set_status(STOPPING) *)
| NEngine (fin : bool) (* in [engine.async_close()] *)
| NFlush (fin : bool)  (* in [backend.flush()] *)
| NStandby (fin : bool)(* in set_status(STANDBY) *)
| NDone.

(** The runner and what it works on.  Engines are numbered in order of
    creation.  [n_srv] is the eventer server's status, [n_seng] its engine. *)
Record nstate := Nstate {
  n_pc : npc;
  n_eng : option nat;    (* [self._engine] *)
  n_eopen : bool;        (* [self._engine.is_open] *)
  n_next : nat;
  n_restart : bool;      (* the event [self._restart] *)
  n_remote : bool;       (* [eventer_client_runner.remote_active] *)
  n_woken : bool;        (* the callback waited for has been called *)
  n_open : bool;         (* the runner's group is open *)
  n_srv : status;
  n_seng : option nat
}.

(** engine_runner.py:27-36; eventer_server.py:29; the eventer server starts in
    STANDBY. *)
Definition nstart : nstate := Nstate NNew None false 0 false false false true STANDBY None.

Inductive nop :=
| NBegin              (* the task's first step *)
| NRemote (b : bool)  (* remote activity changes *)
| NWake               (* the task goes on after the callback *)
| NOk                 (* what the task waits for returns *)
| NRaise              (* it raises *)
| NEngineClosed       (* the engine closes by itself *)
| NRestart            (* [engine.restart()] *)
| NClose              (* the runner is closed *)
| NCancel             (* the task's cancellation takes effect *)
| NRegister           (* a client's register request *)
| NPresence           (* a client is connected or disconnected *)
| NSynced.            (* [set_synced] *)

Inductive nout :=
| SetStatus (st : status) (e : option nat) (* the eventer server's status and engine are set *)
| Refused                                  (* [set_status] raises ValueError *)
| CreateEngine                             (* [create_engine] is called *)
| Created (n : nat)                        (* it has returned *)
| Closing (n : nat)                        (* [engine.close()] is called *)
| EngineClosed (n : nat)                   (* [engine.async_close()] has returned *)
| FlushBegin                               (* [backend.flush()] is called *)
| Flushed                                  (* it has returned *)
| ToEngine (n : nat).                      (* an event is given to the engine *)

Definition at_pc (s : nstate) (pc : npc) : nstate :=
  Nstate pc (n_eng s) (n_eopen s) (n_next s) (n_restart s) (n_remote s) (n_woken s) (n_open s) (n_srv s) (n_seng s).

(** eventer_server.py:58-71 [set_status], up to its first wait. *)
Definition srv_set (s : nstate) (st : status) (e : option nat) : option nstate :=
  let ok := match st, e with OPERATIONAL, Some _ => true | OPERATIONAL, None => false | _, None => true | _, Some _ => false end in
  if ok then Some (Nstate (n_pc s) (n_eng s) (n_eopen s) (n_next s) (n_restart s) (n_remote s) (n_woken s) (n_open s) st e) else None.

(** engine_runner.py:103-107, [_close] up to its first wait; without [fin] an
    exception leads to the last [_close], with it to the end. *)
Definition stop_fin (s : nstate) : nstate * list nout :=
  let l := match n_eng s with Some n => [Closing n] | None => [] end in
  let s1 := Nstate (n_pc s) (n_eng s) false (n_next s) (n_restart s) (n_remote s) (n_woken s) (n_open s) (n_srv s) (n_seng s) in
  match srv_set s1 STOPPING None with
  | Some s2 => (at_pc s2 (NStop true), l ++ [SetStatus STOPPING None])
  | None => (at_pc s1 NDone, l ++ [Refused])
  end.

(** engine_runner.py:98-101, the handler at the end of [_run]. *)
Definition final (s : nstate) : nstate * list nout :=
  stop_fin (Nstate (n_pc s) (n_eng s) (n_eopen s) (n_next s) (n_restart s) (n_remote s) (n_woken s) false (n_srv s) (n_seng s)).

(** engine_runner.py:93, 103-107. *)
Definition stop (s : nstate) : nstate * list nout :=
  let l := match n_eng s with Some n => [Closing n] | None => [] end in
  let s1 := Nstate (n_pc s) (n_eng s) false (n_next s) (n_restart s) (n_remote s) (n_woken s) (n_open s) (n_srv s) (n_seng s) in
  match srv_set s1 STOPPING None with
  | Some s2 => (at_pc s2 (NStop false), l ++ [SetStatus STOPPING None])
  | None => let '(s2, l2) := final s1 in (s2, l ++ Refused :: l2)
  end.

(** An exception of what the task waits for, or its cancellation. *)
Definition fail (s : nstate) (fin : bool) : nstate * list nout := if fin then (at_pc s NDone, []) else final s.

(** engine_runner.py:65-71, 119-127: the head of the loop. *)
Definition nhead (s : nstate) : nstate * list nout :=
  if n_remote s
  then (Nstate NWait (n_eng s) (n_eopen s) (n_next s) (n_restart s) (n_remote s) false (n_open s) (n_srv s) (n_seng s), [])
  else
    let s1 := Nstate (n_pc s) (n_eng s) (n_eopen s) (n_next s) false (n_remote s) (n_woken s) (n_open s) (n_srv s) (n_seng s) in
    match srv_set s1 STARTING None with
    | Some s2 => (at_pc s2 NStart, [SetStatus STARTING None])
    | None => let '(s2, l2) := final s1 in (s2, Refused :: l2)
    end.

(** engine_runner.py:74-82: [create_engine] returns engine [n_next s]. *)
Definition created (s : nstate) : nstate * list nout :=
  let n := n_next s in
  let s1 := Nstate (n_pc s) (Some n) true (S n) (n_restart s) (n_remote s) (n_woken s) (n_open s) (n_srv s) (n_seng s) in
  match srv_set s1 OPERATIONAL (Some n) with
  | Some s2 => (at_pc s2 NOper, [Created n; SetStatus OPERATIONAL (Some n)])
  | None => let '(s2, l2) := final s1 in (s2, Created n :: Refused :: l2)
  end.

(** What follows when [set_status(STOPPING)] (with [fin], in the handler at the
    end) has returned, lines 109-112. *)
Definition engine_close (s : nstate) (fin : bool) : nstate * list nout :=
  match n_eng s with
  | Some _ => (at_pc s (NEngine fin), [])
  | None => (at_pc s (NFlush fin), [FlushBegin])
  end.

(** ... and when [backend.flush()] has returned, line 117. *)
Definition standby (s : nstate) (fin : bool) : nstate * list nout :=
  match srv_set s STANDBY None with
  | Some s2 => (at_pc s2 (NStandby fin), [Flushed; SetStatus STANDBY None])
  | None => let '(s2, l2) := fail s fin in (s2, Flushed :: Refused :: l2)
  end.

(** One step; [None] if it is not possible.  [restart] may be called at any
    time, also by modules of an engine which is being created. *)
Definition nexec (s : nstate) (o : nop) : option (nstate * list nout) :=
  match o with
  | NBegin => match n_pc s with NNew => if n_open s then Some (nhead s) else None | _ => None end
  | NRemote b =>
      Some (Nstate (n_pc s) (n_eng s) (n_eopen s) (n_next s) (n_restart s) b true (n_open s) (n_srv s) (n_seng s), [])
  | NWake => match n_pc s with NWait => if n_woken s && n_open s then Some (nhead s) else None | _ => None end
  | NOk =>
      match n_pc s with
      | NNew | NWait | NDone => None
      | NStart => if n_open s then Some (at_pc s NCreate, [CreateEngine]) else None
      | NCreate => if n_open s then Some (created s) else None
      | NOper => if n_open s then Some (at_pc s NRun, []) else None
      | NRun => if n_open s && (n_restart s || negb (n_eopen s)) then Some (at_pc s NSub, []) else None
      | NSub => if n_open s then Some (if n_eopen s then stop s else final s) else None
      | NStop fin => if n_open s || fin then Some (engine_close s fin) else None
      | NEngine fin =>
          match n_eng s with
          | Some n => if n_open s || fin then Some (at_pc s (NFlush fin), [EngineClosed n; FlushBegin]) else None
          | None => None
          end
      | NFlush fin => if n_open s || fin then Some (standby s fin) else None
      | NStandby false => if n_open s then Some (nhead s) else None
      | NStandby true => Some (at_pc s NDone, [])
      end
  | NRaise =>
      match n_pc s with
      | NStart | NCreate | NOper => if n_open s then Some (final s) else None
      | NStop fin | NEngine fin | NFlush fin | NStandby fin => if n_open s || fin then Some (fail s fin) else None
      | _ => None
      end
  | NEngineClosed =>
      match n_eng s with
      | Some _ => Some (Nstate (n_pc s) (n_eng s) false (n_next s) (n_restart s) (n_remote s) (n_woken s) (n_open s) (n_srv s) (n_seng s), [])
      | None => None
      end
  | NRestart => Some (Nstate (n_pc s) (n_eng s) (n_eopen s) (n_next s) true (n_remote s) (n_woken s) (n_open s) (n_srv s) (n_seng s), [])
  | NClose => Some (Nstate (n_pc s) (n_eng s) (n_eopen s) (n_next s) (n_restart s) (n_remote s) (n_woken s) false (n_srv s) (n_seng s), [])
  | NCancel =>
      if n_open s then None
      else
        match n_pc s with
        | NDone | NStop true | NEngine true | NFlush true | NStandby true => None
        | NNew => Some (at_pc s NDone, [])
        | _ => Some (final s)
        end
  | NRegister => (* eventer_server.py:100-105 [_on_register] *)
      Some (s, match n_seng s with Some n => [ToEngine n] | None => [] end)
  | NPresence => (* eventer_server.py:80-98 [_on_connected], [_on_disconnected]; the server's engine is the runner's, see [ni_seng] *)
      Some (s, match n_seng s with Some n => if n_eopen s then [ToEngine n] else [] | None => [] end)
  | NSynced => (* engine_runner.py:42-60 [set_synced] *)
      Some (s, match n_eng s with Some n => if n_eopen s then [ToEngine n] else [] | None => [] end)
  end.

Definition nitem := (nop * list nout)%type.

Inductive nruns : list nitem -> nstate -> Prop :=
| nruns_nil : nruns [] nstart
| nruns_snoc : forall tr s o s' l, nruns tr s -> nexec s o = Some (s', l) -> nruns (tr ++ [(o, l)]) s'.
