(** LMDB backend as a transition system.  Models the concurrency of
    src_py/hat/event/backends/lmdb/backend.py:132-211,273-334,
    refdb.py:64-103, timeseriesdb.py:85-189 and environment.py:40-46.

    The event loop runs the code between two [await]s atomically.  Database
    work is handed to the only worker thread (environment.py:18,
    [aio.Executor(1)]), which runs the functions in the order of the [execute]
    calls, each in one LMDB transaction (atomic and durable).  After that the
    caller is resumed by the event loop at some later time.  The object
    [_changes] is captured by reference (refdb.py:76, timeseriesdb.py:153): a
    query remembers the number of the generation of changes it captured, and
    reads that generation when it is resumed. *)
From Coq Require Import String Bool ZArith List.
From Verif Require Import Base Kv Model_Types Model_Subscription Model_Codec Keys Model_Lmdb.
Import ListNotations.
Open Scope Z_scope.

(** Work for the worker thread.  [q] identifies the query, [g] the captured
    generation; [pre] are the events found before (descending order). *)
Inductive job :=
| JFlush (c : changes)
| JCleanup (now : timestamp)
| JServer (q : nat) (p : query_server) (max : Z) (g : nat)
| JTs (q : nat) (p : query_timeseries) (part : Z) (sub : option node) (max : Z) (g : nat)
      (pre : list event) (f : filter_state).

(** Queries whose database part is done. *)
Inductive ready :=
| RServer (q : nat) (p : query_server) (max : Z) (g : nat) (es : list event)
| RTs (q : nat) (p : query_timeseries) (part : Z) (sub : option node) (max : Z) (g : nat)
      (es : list event) (f : filter_state).

Definition ready_id (r : ready) : nat :=
  match r with RServer q _ _ _ _ => q | RTs q _ _ _ _ _ _ _ => q end.

(** [s_old] are the generations of changes already captured by a flush (oldest
    first), [s_cur] the current one. *)
Record sys := Sys {
  s_conf : conf; s_disk : ldb; s_mem : mem; s_old : list changes; s_cur : changes;
  s_jobs : list job; s_ready : list ready }.

Definition gen (s : sys) (g : nat) : changes := nth g (s_old s ++ [s_cur s]) no_changes.
Definition cur_gen (s : sys) : nat := List.length (s_old s).

(** What happens: calls of the backend, the flush loop, the cleanup loop, a
    step of the worker thread, resumption of a query, and a restart (after a
    crash at any point, or after closing) with a configuration. *)
Inductive op :=
| ORegister (es : list event)
| OFlush
| OCleanup (now : timestamp)
| OLatest (p : query_latest)
| OServer (q : nat) (p : query_server)
| OTs (q : nat) (p : query_timeseries)
| OWork
| ODeliver (q : nat)
| OReopen (cf : conf).

(** What is seen: nothing, an answer ([None]: exception), a committed flush, a
    committed cleanup. *)
Inductive out :=
| Quiet
| Answer (r : option query_result)
| Wrote
| Cleaned (ks : list ts_key).

Definition push (s : sys) (j : job) : sys :=
  Sys (s_conf s) (s_disk s) (s_mem s) (s_old s) (s_cur s) (s_jobs s ++ [j]) (s_ready s).
Definition done_ (s : sys) (db : ldb) (js : list job) (rs : list ready) : sys :=
  Sys (s_conf s) db (s_mem s) (s_old s) (s_cur s) js rs.

(** timeseriesdb.py:150-182 up to the first [await]. *)
Definition ts_query_step (O : oracle) (s : sys) (q : nat) (p : query_timeseries) : sys * out :=
  match ts_query_start O (s_conf s) (m_parts (s_mem s)) p with
  | None => (s, Answer None)
  | Some (_, _, None) => (s, Answer (Some (QRes [] false)))
  | Some (sub, max, Some part) =>
      let f := Flt (qt_last p) (max + 1) in
      let g := cur_gen s in
      match qt_order p with
      | DESCENDING =>
          let '(es, f) := query_pending (part_changes (ch_ts (s_cur s)) part) p sub f in
          if filter_done f then (s, Answer (ts_result max es))
          else (push s (JTs q p part sub max g es f), Quiet)
      | ASCENDING => (push s (JTs q p part sub max g [] f), Quiet)
      end
  end.

(** A step of the worker thread; [None]: endless loop in a query. *)
Definition work (O : oracle) (s : sys) : option (sys * out) :=
  match s_jobs s with
  | [] => Some (s, Quiet)
  | JFlush c :: js => Some (done_ s (flush_write (s_disk s) c) js (s_ready s), Wrote)
  | JCleanup now :: js =>
      let '(db, ks) := cleanup O (m_parts (s_mem s)) now (s_disk s) in
      Some (done_ s db js (s_ready s), Cleaned ks)
  | JServer q p max g :: js =>
      match query_refs O (s_disk s) (qs_server p) (max + 1) (qs_last p) with
      | None => None
      | Some es => Some (done_ s (s_disk s) js (s_ready s ++ [RServer q p max g es]), Quiet)
      end
  | JTs q p part sub max g pre f :: js =>
      let '(es, f) := query_stored (cf_cond (s_conf s)) (s_disk s) part p sub f in
      Some (done_ s (s_disk s) js (s_ready s ++ [RTs q p part sub max g (pre ++ es) f]), Quiet)
  end.

(** Resumption of a query. *)
Definition finish (s : sys) (r : ready) : option query_result :=
  match r with
  | RServer _ p max g es => server_query_finish p max es (ch_ref (gen s g))
  | RTs _ p part sub max g es f =>
      match qt_order p with
      | DESCENDING => ts_result max es
      | ASCENDING =>
          if filter_done f then ts_result max es
          else ts_result max (es ++ fst (query_pending (part_changes (ch_ts (gen s g)) part) p sub f))
      end
  end.

Fixpoint take_ready (q : nat) (l : list ready) : option (ready * list ready) :=
  match l with
  | [] => None
  | r :: l' =>
      if Nat.eqb q (ready_id r) then Some (r, l')
      else match take_ready q l' with Some (x, l'') => Some (x, r :: l'') | None => None end
  end.

(** One step; [None]: not possible (an exception in [register], a failing
    start, an endless query, no such query). *)
Definition exec (O : oracle) (s : sys) (o : op) : option (sys * out) :=
  match o with
  | ORegister es =>
      match register_events (s_conf s) (s_mem s) (s_cur s) es with
      | None => None
      | Some (m, c) => Some (Sys (s_conf s) (s_disk s) m (s_old s) c (s_jobs s) (s_ready s), Quiet)
      end
  | OFlush =>
      Some (Sys (s_conf s) (s_disk s) (s_mem s) (s_old s ++ [s_cur s]) no_changes
                (s_jobs s ++ [JFlush (s_cur s)]) (s_ready s), Quiet)
  | OCleanup now => Some (push s (JCleanup now), Quiet)
  | OLatest p => Some (s, Answer (latest_query (m_latest (s_mem s)) p))
  | OServer q p =>
      match server_query_start p with
      | None => Some (s, Answer None)
      | Some max => Some (push s (JServer q p max (cur_gen s)), Quiet)
      end
  | OTs q p => Some (ts_query_step O s q p)
  | OWork => work O s
  | ODeliver q =>
      match take_ready q (s_ready s) with
      | None => None
      | Some (r, rs) => Some (done_ s (s_disk s) (s_jobs s) rs, Answer (finish s r))
      end
  | OReopen cf =>
      match open_db cf (s_disk s) with
      | None => None
      | Some (db, m) => Some (Sys cf db m [] no_changes [] [], Quiet)
      end
  end.

(** First start, on an empty database file. *)
Definition start (cf : conf) : option sys :=
  match open_db cf empty_db with
  | None => None
  | Some (db, m) => Some (Sys cf db m [] no_changes [] [])
  end.

(** [runs O s tr s']: the steps and what is seen of them lead from [s] to
    [s']. *)
Inductive runs (O : oracle) : sys -> list (op * out) -> sys -> Prop :=
| runs_nil : forall s, runs O s [] s
| runs_cons : forall s o x s1 tr s2, exec O s o = Some (s1, x) -> runs O s1 tr s2 ->
    runs O s ((o, x) :: tr) s2.
