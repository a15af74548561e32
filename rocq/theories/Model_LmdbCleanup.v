(** The cleanup loop of the LMDB backend. *)
From Coq Require Import Bool ZArith List.
From Verif Require Import Base Model_Types Model_Lmdb Model_LmdbSys.
Import ListNotations.

(** src_py/hat/event/backends/lmdb/backend.py:273-283 [_cleanup_loop]: about to
    ask for a cleanup, waiting for the worker thread, asleep for the cleanup
    period.  An exception of the worker closes the backend (not modelled: the
    cleanup itself doesn't raise in the model). *)
Inductive cl := ClAsk | ClWait | ClSleep.

(** What the loop does on a step of the backend; [None]: the end of the sleep.
    The result [None] means that the loop doesn't do that.  A restart begins
    the loop anew. *)
Definition cl_step (c : cl) (x : option (op * out)) : option cl :=
  match x with
  | None => match c with ClSleep => Some ClAsk | _ => None end
  | Some (OCleanup _, _) => match c with ClAsk => Some ClWait | _ => None end
  | Some (OWork, Cleaned ks) => match c with ClWait => Some (if cleanup_repeat ks then ClAsk else ClSleep) | _ => None end
  | Some (OReopen _, _) => Some ClAsk
  | Some _ => Some c
  end.

Fixpoint cl_run (c : cl) (l : list (option (op * out))) : option cl :=
  match l with
  | [] => Some c
  | x :: l' => match cl_step c x with Some c' => cl_run c' l' | None => None end
  end.
