(** The dummy backend.  Models src_py/hat/event/backends/dummy.py.

    Any number of [register] calls may be under way at the same time: each one
    runs without a pause up to the callback it waits for.  Callbacks may return
    or raise at any time; a caller may be cancelled, and the callback with it.
    Logging and the configuration, which is not used, are left out. *)
From Coq Require Import String Bool ZArith List.
From Verif Require Import Base Model_Types Model_Eventer.
Import ListNotations.
Open Scope list_scope.
Open Scope nat_scope.

(** A call of [register]: it waits for the registered or the flushed
    callback. *)
Inductive mphase := InRegistered | InFlushed.
Record mstate := MState { k_calls : list (nat * (mphase * list event)); k_used : list nat; k_open : bool }.

(** Steps: [register] is called (calls are numbered); the callback it waits for
    returns ([true]) or raises; its caller is cancelled; other methods. *)
Inductive mop :=
| MRegister (n : nat) (es : list event)
| MReturns (n : nat) (ok : bool)
| MCancel (n : nat)
| MQuery (p : query_params)
| MLast (srv : Z)
| MFlush
| MClose.

(** What is seen: a callback is called, [register] returns, ends with an
    exception; results of the other methods. *)
Inductive mout :=
| CalledRegistered (n : nat) (es : list event)
| CalledFlushed (n : nat) (es : list event)
| Returned (n : nat) (es : list event)
| Broken (n : nat)
| Result (q : query_result)
| LastId (i : event_id)
| FlushDone.

Definition set_call (s : mstate) (n : nat) (x : mphase * list event) : mstate := MState (nset n x (k_calls s)) (k_used s) (k_open s).
Definition end_call (s : mstate) (n : nat) : mstate := MState (ndel n (k_calls s)) (k_used s) (k_open s).

(** dummy.py:36-39: from the flushed callback on. *)
Definition go_flushed (fb : bool) (s : mstate) (n : nat) (es : list event) : mstate * list mout :=
  if fb then (set_call s n (InFlushed, es), [CalledFlushed n es])
  else (end_call s n, [Returned n es]).

(** One step; [rb], [fb]: there is a registered, a flushed callback. *)
Definition mexec (rb fb : bool) (s : mstate) (o : mop) : option (mstate * list mout) :=
  match o with
  | MRegister n es =>                    (* dummy.py:32-34 *)
      if existsb (Nat.eqb n) (k_used s) then None
      else
        let s := MState (k_calls s) (n :: k_used s) (k_open s) in
        if rb then Some (set_call s n (InRegistered, es), [CalledRegistered n es])
        else Some (go_flushed fb s n es)
  | MReturns n ok =>
      match nget n (k_calls s) with
      | None => None
      | Some (ph, es) =>
          if ok then
            match ph with
            | InRegistered => Some (go_flushed fb s n es)
            | InFlushed => Some (end_call s n, [Returned n es])
            end
          else Some (end_call s n, [Broken n])
      end
  | MCancel n =>
      match nget n (k_calls s) with
      | None => None
      | Some _ => Some (end_call s n, [Broken n])
      end
  | MQuery p => Some (s, [Result (QRes [] false)])          (* dummy.py:41-43 *)
  | MLast srv => Some (s, [LastId (Eid srv 0 0)])           (* dummy.py:29-30 *)
  | MFlush => Some (s, [FlushDone])                         (* dummy.py:45-46 *)
  | MClose => Some (MState (k_calls s) (k_used s) false, [])
  end.

Definition mstart : mstate := MState [] [] true.

Definition mitem := (mop * list mout)%type.
Inductive mruns (rb fb : bool) : mstate -> list mitem -> mstate -> Prop :=
| mruns_nil : forall s, mruns rb fb s [] s
| mruns_snoc : forall s tr s1 o l s2, mruns rb fb s tr s1 -> mexec rb fb s1 o = Some (s2, l) -> mruns rb fb s (tr ++ [(o, l)]) s2.
