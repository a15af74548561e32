(** Flush loop of the LMDB backend.  Models
    src_py/hat/event/backends/lmdb/backend.py:185-192,213-271,291-315 over the
    transition system of Model_LmdbSys.v.

    [hat.aio.Queue] and [hat.aio.uncancellable] (another package) are taken to
    do what their documentation says: [put] waits while the queue is full and
    raises [QueueClosedError] once it is closed, items can still be taken from
    a closed queue; [uncancellable] runs a coroutine (as a new task) to its end
    and raises [CancelledError] afterwards if it was requested. *)
From Coq Require Import String Bool ZArith Arith List.
From Verif Require Import Base Model_Types Model_Lmdb Model_LmdbSys.
Import ListNotations.
Open Scope list_scope.

(** backend.py:25 [flush_queue_size] *)
Definition flush_queue_size : nat := 4096.

(** Where the flush loop is: waiting for the queue or the period (backend.py:
    233-248), about to run [_flush] (250, 271), waiting for the worker thread
    (308), calling back (313-315), ended.  [futs] are the futures taken from
    the queue, [bs] the batches to be notified, [fin] tells [_flush] being
    called from [cleanup] (225-229). *)
Inductive loop :=
| LWait
| LGo (futs : list (option nat)) (fin : bool)
| LWrite (futs : list (option nat)) (bs : list (list event)) (fin : bool)
| LNotify (futs : list (option nat)) (bs : list (list event)) (fin : bool)
| LDone.

(** The backend with its flush loop.  Futures are numbered; [f_put] are flush
    calls waiting in [put], [f_queue] the queue ([None] is put by [register]),
    [f_gone] futures that were cancelled with their callers, [f_reg] the
    batches of [_registered_queue], [f_used] the futures made so far. *)
Record fstate := FState {
  f_sys : sys; f_open : bool; f_qopen : bool; f_put : list nat; f_queue : list (option nat);
  f_gone : list nat; f_used : list nat; f_reg : list (list event); f_loop : loop }.

Inductive fop :=
| FRegister (es : list event)
| FKick
| FCall (n : nat)
| FPut (n : nat)
| FGiveUp (n : nat)
| FClose
| FOther (o : op)
| FFailed
| FWake
| FStart
| FWrote
| FNotify (ok : bool)
| FAnswer
| FCancel
| FEnd.

(** What callers see: the end of a flush call (normally or with
    [BackendClosedError]), a call of [flushed_events_cb]. *)
Inductive fout :=
| Flushed (es : list event)
| Answered (n : nat) (ok : bool).

Definition memn (n : nat) (l : list nat) : bool := existsb (Nat.eqb n) l.
Definition remn (n : nat) (l : list nat) : list nat := filter (fun m => negb (Nat.eqb n m)) l.

(** backend.py:252-255, 267-269: futures that are not done. *)
Definition answers (gone : list nat) (ok : bool) (futs : list (option nat)) : list fout :=
  flat_map (fun f => match f with
                     | Some n => if memn n gone then [] else [Answered n ok]
                     | None => []
                     end) futs.

Definition set_loop (s : fstate) (l : loop) : fstate :=
  FState (f_sys s) (f_open s) (f_qopen s) (f_put s) (f_queue s) (f_gone s) (f_used s) (f_reg s) l.
Definition set_sys (s : fstate) (x : sys) : fstate :=
  FState x (f_open s) (f_qopen s) (f_put s) (f_queue s) (f_gone s) (f_used s) (f_reg s) (f_loop s).

(** backend.py:257-271: end of the loop, with the futures at hand. *)
Definition finalise (s : fstate) (futs : list (option nat)) : fstate * list fout :=
  (FState (f_sys s) false false (f_put s) [] (f_gone s) (f_used s) (f_reg s) (LGo [] true),
   answers (f_gone s) false (futs ++ f_queue s)).

(** No flush is left for the worker thread. *)
Definition flush_done (s : sys) : bool :=
  forallb (fun j => match j with JFlush _ => false | _ => true end) (s_jobs s).

(** Operations of Model_LmdbSys.v that do not belong to [register] or the
    flush loop. *)
Definition other (o : op) : bool :=
  match o with ORegister _ | OFlush | OReopen _ => false | _ => true end.

(** One step: the new state, the step of Model_LmdbSys.v it contains, and what
    is seen; [None]: not possible. *)
Definition fexec (O : oracle) (s : fstate) (o : fop) : option (fstate * list (op * out) * list fout) :=
  let inner (o : op) (k : sys -> out -> option (fstate * list (op * out) * list fout)) :=
    match exec O (f_sys s) o with
    | None => None
    | Some (x, r) => k x r
    end in
  match o with
  | FRegister es =>                      (* backend.py:143-144,185 *)
      if f_open s then
        inner (ORegister es) (fun x r =>
          Some (FState x (f_open s) (f_qopen s) (f_put s) (f_queue s) (f_gone s) (f_used s) (f_reg s ++ [es]) (f_loop s),
                [(ORegister es, r)], []))
      else None
  | FKick =>                             (* backend.py:188-189; may happen at any time *)
      if f_qopen s then
        if Nat.ltb (List.length (f_queue s)) flush_queue_size then
          Some (FState (f_sys s) (f_open s) (f_qopen s) (f_put s) (f_queue s ++ [None]) (f_gone s) (f_used s) (f_reg s) (f_loop s),
                [], [])
        else None
      else None
  | FCall n =>                           (* backend.py:213-216: [put] is called *)
      if memn n (f_used s) then None
      else Some (FState (f_sys s) (f_open s) (f_qopen s) (f_put s ++ [n]) (f_queue s) (f_gone s) (f_used s ++ [n]) (f_reg s) (f_loop s),
                 [], [])
  | FPut n =>                            (* backend.py:216-220: [put] returns or raises *)
      if memn n (f_put s) then
        if f_qopen s then
          if Nat.ltb (List.length (f_queue s)) flush_queue_size then
            Some (FState (f_sys s) (f_open s) (f_qopen s) (remn n (f_put s)) (f_queue s ++ [Some n]) (f_gone s) (f_used s) (f_reg s) (f_loop s),
                  [], [])
          else None
        else
          Some (FState (f_sys s) (f_open s) (f_qopen s) (remn n (f_put s)) (f_queue s) (f_gone s) (f_used s) (f_reg s) (f_loop s),
                [], [Answered n false])
      else None
  | FGiveUp n =>                         (* the caller of [flush] is cancelled *)
      if memn n (f_used s) then
        Some (FState (f_sys s) (f_open s) (f_qopen s) (remn n (f_put s)) (f_queue s) (f_gone s ++ [n]) (f_used s) (f_reg s) (f_loop s),
              [], [])
      else None
  | FClose =>                            (* [close]: the loop is going to be cancelled *)
      Some (FState (f_sys s) false (f_qopen s) (f_put s) (f_queue s) (f_gone s) (f_used s) (f_reg s) (f_loop s), [], [])
  | FOther o =>
      if other o then inner o (fun x r => Some (set_sys s x, [(o, r)], [])) else None
  | FFailed =>                           (* backend.py:308: the write transaction raises and is aborted *)
      match s_jobs (f_sys s), f_loop s with
      | JFlush _ :: js, LWrite futs bs fin =>
          let y := f_sys s in
          let s := set_sys s (Sys (s_conf y) (s_disk y) (s_mem y) (s_old y) (s_cur y) js (s_ready y)) in
          if fin then Some (set_loop s (LNotify [] [] true), [], [])
          else let '(s, l) := finalise s futs in Some (s, [], l)
      | _, _ => None
      end
  | FWake =>                             (* backend.py:233-248 *)
      match f_loop s with
      | LWait => Some (FState (f_sys s) (f_open s) (f_qopen s) (f_put s) [] (f_gone s) (f_used s) (f_reg s) (LGo (f_queue s) false), [], [])
      | _ => None
      end
  | FStart =>                            (* backend.py:291-308 *)
      match f_loop s with
      | LGo futs fin =>
          inner OFlush (fun x r =>
            Some (FState x (f_open s) (f_qopen s) (f_put s) (f_queue s) (f_gone s) (f_used s) [] (LWrite futs (f_reg s) fin),
                  [(OFlush, r)], []))
      | _ => None
      end
  | FWrote =>                            (* backend.py:308: [execute] returns *)
      match f_loop s with
      | LWrite futs bs fin =>
          if flush_done (f_sys s) then Some (set_loop s (LNotify futs bs fin), [], []) else None
      | _ => None
      end
  | FNotify ok =>                        (* backend.py:313-315; [ok]: the callback does not raise *)
      match f_loop s with
      | LNotify futs (b :: bs) fin =>
          if ok then Some (set_loop s (LNotify futs bs fin), [], [Flushed b])
          else if fin then Some (set_loop s (LNotify futs [] fin), [], [Flushed b])
          else let '(s, l) := finalise s futs in Some (s, [], Flushed b :: l)
      | _ => None
      end
  | FAnswer =>                           (* backend.py:252-255 *)
      match f_loop s with
      | LNotify futs [] false => Some (set_loop s LWait, [], answers (f_gone s) true futs)
      | _ => None
      end
  | FCancel =>                           (* backend.py:241-245, 250: cancellation by [close] *)
      if f_open s then None
      else match f_loop s with
           | LWait => let '(s, l) := finalise s [] in Some (s, [], l)
           | LNotify futs [] false => let '(s, l) := finalise s futs in Some (s, [], l)
           | _ => None
           end
  | FEnd =>                              (* backend.py:229 *)
      match f_loop s with
      | LNotify futs [] true => Some (set_loop s LDone, [], [])
      | _ => None
      end
  end.

(** The loop of a backend that was just opened. *)
Definition fstart (s : sys) : fstate := FState s true true [] [] [] [] [] LWait.

(** [fruns O s tr s']: the steps, with what they contain and what is seen. *)
Definition fitem := (fop * list (op * out) * list fout)%type.
Inductive fruns (O : oracle) : fstate -> list fitem -> fstate -> Prop :=
| fruns_nil : forall s, fruns O s [] s
| fruns_snoc : forall s tr s1 o xs l s2, fruns O s tr s1 -> fexec O s1 o = Some (s2, xs, l) ->
    fruns O s (tr ++ [(o, xs, l)]) s2.
