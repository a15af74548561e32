(** The process of the server: how it ends.  Models
    src_py/hat/event/server/main.py:66-82 over the main runner
    (Model_Main.v) and the flush loop of the LMDB backend (Model_LmdbFlush.v),
    joined as in src_py/hat/event/server/main_runner.py:79-88,146-166.

    A step is one of [async_main], of the main runner or of the backend.
    Assumed: a signal cancels [async_main]; [aio.uncancellable] is not cancelled
    and remembers it; [async_close] of the backend returns once its group is
    closed, that is after the flush loop has ended; the backend is created as a
    whole; nobody but the main runner closes the backend, which also closes by
    itself when its flush loop ends.  What is left in the process is arbitrary.
    [flush] in [_stop] may return, or raise, at any time. *)
From Coq Require Import String Bool ZArith Arith List.
From Verif Require Import Base Model_Types Model_Lmdb Model_LmdbSys Model_LmdbFlush.
From Verif Require Model_Main.
Import ListNotations.
Open Scope list_scope.
Open Scope nat_scope.

(** Where [async_main] is: line 79 [wait_closing], line 75 [async_close], line 76
    [sleep], returned (or raised) and the process is gone. *)
Inductive point := AWait | AClose | ASleep | AGone.

(** [x_back]: the backend, once it is created. *)
Record xstate := Xst { x_main : Model_Main.mstate; x_back : option fstate; x_at : point }.

(** main.py:72 *)
Definition xinit : xstate := Xst Model_Main.minit None AWait.

Inductive xop :=
| XMain (e : Model_Main.mevent)   (* a step of the main runner, or what happens to it *)
| XBack (o : fop)                 (* a step of the backend *)
| XSignal                         (* the process is asked to end *)
| XClosing                        (* line 79: [wait_closing] returns *)
| XClosed                         (* line 75: [async_close] returns *)
| XExit.                          (* line 76: [sleep] returns *)

(** A step with what the main runner and the backend did. *)
Definition xitem := (xop * list (Model_Main.mevent * list Model_Main.mout) * list fitem)%type.

(** What the main runner does depends on the backend: closing it is over when
    its flush loop has ended; it closes by itself only when it is not open;
    [EClose] is left to [async_main]. *)
Definition allowed (s : xstate) (e : Model_Main.mevent) : bool :=
  match e with
  | Model_Main.EClose => false
  | Model_Main.EDone =>
      match Model_Main.m_phase (x_main s), x_back s with
      | Model_Main.PStop (Model_Main.AClose Model_Main.RBackend) _, Some b => match f_loop b with LDone => true | _ => false end
      | Model_Main.PStop (Model_Main.AClose Model_Main.RBackend) _, None => false
      | _, _ => true
      end
  | Model_Main.EEnding Model_Main.RBackend => match x_back s with Some b => negb (f_open b) | None => false end
  | _ => true
  end.

(** main_runner.py:82-87: the backend is created; [d] is what its database is
    opened with. *)
Definition created (d : sys) (s : xstate) (e : Model_Main.mevent) : option fstate :=
  match e, Model_Main.m_phase (x_main s) with
  | Model_Main.ECreated, Model_Main.PStart Model_Main.RBackend _ => Some (fstart d)
  | _, _ => x_back s
  end.

Definition closes (o : list Model_Main.mout) : bool :=
  existsb (fun x => match x with Model_Main.OClose Model_Main.RBackend => true | _ => false end) o.

(** main_runner.py:166: [async_close] of the backend begins with [close]. *)
Definition close_back (O : oracle) (b : option fstate) : option fstate * list fitem :=
  match b with
  | Some f => match fexec O f FClose with
              | Some (f', xs, l) => (Some f', [(FClose, xs, l)])
              | None => (b, [])
              end
  | None => (None, [])
  end.

(** main.py:74-75,82: cleanup begins with [close] of the main runner. *)
Definition clean (mc : Model_Main.mconf) (s : xstate) : option (xstate * list (Model_Main.mevent * list Model_Main.mout) * list fitem) :=
  match Model_Main.mstep mc (x_main s) Model_Main.EClose with
  | Some (m, o) => Some (Xst m (x_back s) AClose, [(Model_Main.EClose, o)], [])
  | None => None
  end.

Definition xexec (O : oracle) (mc : Model_Main.mconf) (d : sys) (s : xstate) (o : xop) :
  option (xstate * list (Model_Main.mevent * list Model_Main.mout) * list fitem) :=
  match x_at s with
  | AGone => None
  | _ =>
      match o with
      | XMain e =>
          if allowed s e
          then match Model_Main.mstep mc (x_main s) e with
               | Some (m, l) =>
                   let b := created d s e in
                   let '(b', i) := if closes l then close_back O b else (b, []) in
                   Some (Xst m b' (x_at s), [(e, l)], i)
               | None => None
               end
          else None
      | XBack o =>
          match x_back s, o with
          | _, FClose => None
          | Some b, _ => match fexec O b o with
                         | Some (b', xs, l) => Some (Xst (x_main s) (Some b') (x_at s), [], [(o, xs, l)])
                         | None => None
                         end
          | None, _ => None
          end
      | XSignal => match x_at s with AWait => clean mc s | _ => Some (s, [], []) end
      | XClosing => match x_at s with
                    | AWait => if Model_Main.m_open (x_main s) then None else clean mc s
                    | _ => None
                    end
      | XClosed => match x_at s, Model_Main.m_phase (x_main s) with
                   | AClose, Model_Main.POver => Some (Xst (x_main s) (x_back s) ASleep, [], [])
                   | _, _ => None
                   end
      | XExit => match x_at s with ASleep => Some (Xst (x_main s) (x_back s) AGone, [], []) | _ => None end
      end
  end.

(** Executions, newest step last. *)
Inductive xruns (O : oracle) (mc : Model_Main.mconf) (d : sys) : list xitem -> xstate -> Prop :=
| xruns_nil : xruns O mc d [] xinit
| xruns_snoc : forall tr s o ms fs s2, xruns O mc d tr s -> xexec O mc d s o = Some (s2, ms, fs) -> xruns O mc d (tr ++ [(o, ms, fs)]) s2.
