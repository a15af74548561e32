(** LMDB backend as a transition system over the bytes of its file.  As
    Model_LmdbSys, from src_py/hat/event/backends/lmdb/backend.py:132-211,273-334,
    refdb.py:64-103, timeseriesdb.py:85-189, environment.py:40-46, but what the
    worker thread writes and reads are the bytes of the file, and a start reads
    the file.  Everything that does not touch the file is that of Model_LmdbSys;
    the field [s_disk] is not used ([empty_db]). *)
From Coq Require Import String Bool ZArith List.
From Verif Require Import Base Kv Model_Types Model_Subscription Model_Codec Keys Model_Sbs Model_Lmdb Model_LmdbSys Model_Convert Model_ConvertBytes
  Model_ConvertCut Model_CopyBytes Model_LmdbBytes.
Import ListNotations.
Open Scope Z_scope.

Section File.
  Variable C : codecs.
  Variable O : oracle.
  (** Entries for a size limit, see Model_LmdbBytes. *)
  Variable size : Z -> env -> option Z.

  (** timeseriesdb.py:229-245 [_ext_query_partition_events] *)
  Definition raw_query_stored (cond : event -> bool) (e : env) (part : Z) (p : query_timeseries) (sub : option node)
      (f : filter_state) : option (list event * filter_state) :=
    do es <- match qt_order_by p with
             | TIMESTAMP => raw_query_range C e part (qt_from p) (qt_to p) (qt_order p)
             | SOURCE_TIMESTAMP => raw_query_range C e part (qt_sfrom p) (qt_sto p) (qt_order p)
             end;
    Some (filter_process p sub f (filter cond es)).

  (** environment.py:40-46 with the functions that are executed: a step of the
      worker thread; [None]: an exception, or an endless loop in a query. *)
  Definition file_work (s : sys) (e : env) : option (sys * env * out) :=
    match s_jobs s with
    | [] => Some (s, e, Quiet)
    | JFlush c :: js => do e <- raw_flush C c e; Some (done_ s empty_db js (s_ready s), e, Wrote)
    | JCleanup now :: js =>
        do r <- raw_cleanup C size (m_parts (s_mem s)) now e;
        Some (done_ s empty_db js (s_ready s), fst r, Cleaned (snd r))
    | JServer q p max g :: js =>
        do r <- raw_query_refs C O e (qs_server p) (max + 1) (qs_last p);
        do es <- r;
        Some (done_ s empty_db js (s_ready s ++ [RServer q p max g es]), e, Quiet)
    | JTs q p part sub max g pre f :: js =>
        do r <- raw_query_stored (cf_cond (s_conf s)) e part p sub f;
        Some (done_ s empty_db js (s_ready s ++ [RTs q p part sub max g (pre ++ fst r) (snd r)]), e, Quiet)
    end.

  (** backend.py:108-123 [_ext_create_dbs]: the file is written, and the state in
      memory is made from what is read (systemdb.py:20-29, latestdb.py:24-45);
      partitions are those of [raw_open]. *)
  Definition file_open (cf : conf) (e : env) : option (sys * env) :=
    do r <- raw_open C cf e;
    do d <- read9 C e;
    let m := Mem (SystemDb (fold_left (fun d kv => dset Z.eqb (fst kv) (snd kv) d) (db_ids d) [])
                           (fold_left (fun d kv => dset Z.eqb (fst kv) (snd kv) d) (db_tss d) []))
                 (latest_open (cf_cond cf) (cf_latest cf) d) [] (snd r) in
    Some (Sys cf empty_db m [] no_changes [] [], fst r).

  (** One step. *)
  Definition file_exec (s : sys) (e : env) (o : op) : option (sys * env * out) :=
    match o with
    | OWork => file_work s e
    | OReopen cf => do r <- file_open cf e; Some (fst r, snd r, Quiet)
    | _ => do r <- exec O s o; Some (fst r, e, snd r)
    end.

  (** First start: the file is created (environment.py:92-100). *)
  Definition file_start (cf : conf) : option (sys * env) := file_open cf (opened9 9).

  Inductive file_runs : sys -> env -> list (op * out) -> sys -> env -> Prop :=
  | file_nil : forall s e, file_runs s e [] s e
  | file_cons : forall s e o x s1 e1 tr s2 e2, file_exec s e o = Some (s1, e1, x) -> file_runs s1 e1 tr s2 e2 ->
      file_runs s e ((o, x) :: tr) s2 e2.
End File.
