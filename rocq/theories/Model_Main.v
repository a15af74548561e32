(** The main runner of the server.  Models
    src_py/hat/event/server/main_runner.py.

    Steps are what happens between two points where [_run] waits, and what others
    do meanwhile.  Assumed: creations, [set_ready] and [flush] return, raise or
    are cancelled; a cancelled or failed creation leaves nothing behind;
    [async_close] closes, also the runner of a monitor component, and does not
    raise; a closed group cancels [_run] and makes no task; [aio.uncancellable]
    is not cancelled. *)
From Coq Require Import Bool List.
Import ListNotations.
Open Scope list_scope.

(** What the runner creates.  [REngine]: the engine runner of a server without
    monitor. *)
Inductive res := RBackend | RServer | RAdminer | RClient | RMonitor | REngine.
Definition res_eqb (a b : res) : bool :=
  match a, b with
  | RBackend, RBackend | RServer, RServer | RAdminer, RAdminer | RClient, RClient | RMonitor, RMonitor | REngine, REngine => true
  | _, _ => false
  end.
Definition has (r : res) (l : list res) : bool := existsb (res_eqb r) l.

(** The configuration: is there an adminer server, a monitor component. *)
Record mconf := Mconf { mc_adminer : bool; mc_monitor : bool }.

(** main_runner.py:79-144 [_start]: what is created, in order. *)
Definition creations (cf : mconf) : list res :=
  [RBackend; RServer] ++ (if mc_adminer cf then [RAdminer] else []) ++
  (if mc_monitor cf then [RClient; RMonitor] else [REngine]).

(** What [_stop] does: closes something or flushes the backend.  [REngine] stands
    for [_engine_runner], also one made for a monitor component. *)
Inductive action := AClose (r : res) | AFlush.

(** main_runner.py:146-166 [_stop].  [created]: attributes which are set;
    [engine]: an engine runner was made by [_create_monitor_runner]. *)
Definition stops (created : list res) (engine : bool) : list action :=
  (if (has REngine created || engine) && negb (has RMonitor created) then [AClose REngine] else []) ++
  (if has RClient created then [AClose RClient] else []) ++
  (if has RMonitor created then [AClose RMonitor] else []) ++
  (if has RAdminer created then [AClose RAdminer] else []) ++
  (if has RServer created then [AFlush; AClose RServer] else []) ++
  (if has RBackend created then [AClose RBackend] else []).

(** Where [_run] (main_runner.py:47-77) is. *)
Inductive phase :=
| PNew                            (* spawned, not started *)
| PStart (r : res) (l : list res) (* creating [r], [l] is left *)
| PForever                        (* line 53 *)
| PTrue                           (* lines 56, 69: set_ready(True) *)
| PWait                           (* line 60 *)
| PFalse                          (* line 62: set_ready(False) *)
| PToken (seen : bool)            (* line 207; [seen]: the event is set *)
| PTokenDone                      (* line 65: the wait is over, [_run] does not know yet *)
| PStop (a : action) (l : list action)
| POver.

Record mstate := Mst {
  m_phase : phase;
  m_open : bool;            (* the group *)
  m_created : list res;     (* newest last *)
  m_ending : list res;      (* closing by themselves *)
  m_engine : bool;          (* made by [_create_monitor_runner] *)
  m_reset : bool;           (* [_reset_monitor_ready] *)
  m_token : bool }.         (* the component has a blessing token *)

Definition minit : mstate := Mst PNew true [] [] false false false.

Inductive mevent :=
| EStart                (* first step of [_run] *)
| ECreated              (* a creation returns *)
| ERaise                (* a creation or [set_ready] raises *)
| EEnding (r : res)     (* a created resource starts to close by itself *)
| EBound                (* the task of [_bind_resource] notices it *)
| EClose                (* the main runner is closed by others *)
| ECancel               (* [_run] is cancelled *)
| EReady                (* [set_ready] returns *)
| EReset                (* [_reset_monitor_ready.set] *)
| EWake                 (* line 60 ends *)
| EState (token : bool) (* the monitor component has a new state *)
| ECheck                (* line 207 ends, the state is looked at *)
| ETimeout              (* line 65 *)
| EToken                (* [_run] goes on after line 65 *)
| EEngine               (* the monitor component asks for a runner *)
| EDone.                (* [async_close] or [flush] is over *)

(** What others see: a creation starts, something is closed, the backend is
    flushed, readiness is set, the runner is closed. *)
Inductive mout := OCreate (r : res) | OClose (r : res) | OFlush | OReady (b : bool) | OOver.

Definition with_phase (s : mstate) (p : phase) : mstate :=
  Mst p (m_open s) (m_created s) (m_ending s) (m_engine s) (m_reset s) (m_token s).

(** The call that a stop action begins with. *)
Definition action_out (a : action) : mout := match a with AClose r => OClose r | AFlush => OFlush end.

(** main_runner.py:74-77: [close] and the first action of [_stop]. *)
Definition stop (s : mstate) : mstate * list mout :=
  match stops (m_created s) (m_engine s) with
  | [] => (Mst POver false (m_created s) (m_ending s) (m_engine s) (m_reset s) (m_token s), [OOver])
  | a :: l => (Mst (PStop a l) false (m_created s) (m_ending s) (m_engine s) (m_reset s) (m_token s), [action_out a])
  end.

(** The next creation, or what follows the last one (lines 50-56). *)
Definition next_creation (cf : mconf) (s : mstate) (l : list res) : mstate * list mout :=
  match l with
  | r :: l' => (with_phase s (PStart r l'), [OCreate r])
  | [] => if mc_monitor cf then (with_phase s PTrue, [OReady true]) else (with_phase s PForever, [])
  end.

(** Lines 58-60: the loop from its beginning. *)
Definition loop (s : mstate) : mstate :=
  Mst PWait (m_open s) (m_created s) (m_ending s) (m_engine s) false (m_token s).

Definition waits (p : phase) : bool :=
  match p with PNew | PStop _ _ | POver => false | _ => true end.

Definition mstep (cf : mconf) (s : mstate) (e : mevent) : option (mstate * list mout) :=
  match e with
  | EStart => match m_phase s with
              | PNew => if m_open s then Some (next_creation cf s (creations cf)) else None
              | _ => None
              end
  | ECreated =>
      match m_phase s with
      | PStart r l =>
          if m_open s
          then Some (next_creation cf (Mst (m_phase s) (m_open s) (m_created s ++ [r]) (m_ending s) (m_engine s) (m_reset s) (m_token s)) l)
          else None
      | _ => None
      end
  | ERaise =>
      match m_phase s with
      | PStart _ _ | PTrue | PFalse => Some (stop s)
      | _ => None
      end
  | EEnding r =>
      if has r (m_created s)
      then Some (Mst (m_phase s) (m_open s) (m_created s) (r :: m_ending s) (m_engine s) (m_reset s) (m_token s), [])
      else None
  | EBound =>
      if m_open s && negb (match m_ending s with [] => true | _ => false end)
      then Some (Mst (m_phase s) false (m_created s) (m_ending s) (m_engine s) (m_reset s) (m_token s), [])
      else None
  | EClose => Some (Mst (m_phase s) false (m_created s) (m_ending s) (m_engine s) (m_reset s) (m_token s), [])
  | ECancel =>
      if m_open s then None
      else match m_phase s with
           | PNew => Some (with_phase s POver, [OOver])
           | p => if waits p then Some (stop s) else None
           end
  | EReady =>
      if m_open s
      then match m_phase s with
           | PTrue => Some (loop s, [])
           | PFalse => if m_token s then Some (with_phase s (PToken false), []) else Some (with_phase s PTokenDone, [])
           | _ => None
           end
      else None
  | EReset => Some (Mst (m_phase s) (m_open s) (m_created s) (m_ending s) (m_engine s) true (m_token s), [])
  | EWake => match m_phase s with
             | PWait => if m_open s && m_reset s then Some (with_phase s PFalse, [OReady false]) else None
             | _ => None
             end
  | EState b =>
      Some (Mst (match m_phase s with PToken _ => PToken true | p => p end)
                (m_open s) (m_created s) (m_ending s) (m_engine s) (m_reset s) b, [])
  | ECheck => match m_phase s with
              | PToken true => if m_token s then Some (with_phase s (PToken false), []) else Some (with_phase s PTokenDone, [])
              | _ => None
              end
  | ETimeout => match m_phase s with
                | PToken _ => Some (with_phase s PTokenDone, [])
                | _ => None
                end
  | EToken => match m_phase s with
              | PTokenDone => if m_open s then Some (with_phase s PTrue, [OReady true]) else None
              | _ => None
              end
  | EEngine =>
      (* main_runner.py:168-176; while the monitor component is created or there *)
      if mc_monitor cf && (has RMonitor (m_created s) || match m_phase s with PStart RMonitor _ => true | _ => false end)
      then Some (Mst (m_phase s) (m_open s) (m_created s) (m_ending s) true (m_reset s) (m_token s), [])
      else None
  | EDone =>
      match m_phase s with
      | PStop _ (a :: l) => Some (with_phase s (PStop a l), [action_out a])
      | PStop _ [] => Some (with_phase s POver, [OOver])
      | _ => None
      end
  end.

(** Executions, oldest step first. *)
Inductive mruns (cf : mconf) : mstate -> list (mevent * list mout) -> mstate -> Prop :=
| mr_nil : forall s, mruns cf s [] s
| mr_step : forall s e o s1 tr s2, mstep cf s e = Some (s1, o) -> mruns cf s1 tr s2 -> mruns cf s ((e, o) :: tr) s2.
