(** Executions whose numbers fit the encodings of the file. *)
From Coq Require Import String Bool ZArith QArith List.
From Verif Require Import Base Model_Types Model_Time Model_Codec Spec_Codec Model_Sbs Model_Lmdb Model_LmdbSys Model_ConvertBytes Spec_ConvertBytes Model_LmdbBytes Spec_Lmdb Spec_LmdbBytes.
Import ListNotations.
Open Scope list_scope.
Open Scope Z_scope.

Definition opt_fits (t : option timestamp) : Prop := forall x, t = Some x -> ts_fits x.

(** What the worker thread does next. *)
Definition job_fits (F : Z -> Z -> Prop) (s : sys) (j : job) : Prop :=
  match j with
  | JFlush c => changes_fit F (s_disk s) c
  | JCleanup now => txn_fits F (s_disk s) (TCleanup (m_parts (s_mem s)) now)
  | JServer _ p _ _ => u64 (qs_server p) /\ u64 (qs_server p + 1) /\ (forall i, qs_last p = Some i -> eid_fits i)
  | JTs _ p part _ _ _ _ _ => u64 part /\ opt_fits (qt_from p) /\ opt_fits (qt_to p) /\ opt_fits (qt_sfrom p) /\ opt_fits (qt_sto p)
  end.
Definition step_fits (F : Z -> Z -> Prop) (s : sys) (o : op) : Prop :=
  match o with
  | OWork => match s_jobs s with j :: _ => job_fits F s j | [] => True end
  | OReopen cf => txn_fits F (s_disk s) (TOpen cf)
  | _ => True
  end.
Fixpoint run_fits (F : Z -> Z -> Prop) (O : oracle) (s : sys) (tr : list (op * out)) : Prop :=
  match tr with
  | [] => True
  | (o, _) :: tr' => step_fits F s o /\ match exec O s o with Some (s1, _) => run_fits F O s1 tr' | None => True end
  end.

(** The first start and all steps. *)
Definition execution_fits (F : Z -> Z -> Prop) (O : oracle) (cf : conf) (tr : list (op * out)) : Prop :=
  txn_fits F empty_db (TOpen cf) /\ match start cf with Some s0 => run_fits F O s0 tr | None => True end.

(** What is in memory. *)
Definition in_memory (s : sys) : conf * mem * list changes * changes * list job * list ready :=
  (s_conf s, s_mem s, s_old s, s_cur s, s_jobs s, s_ready s).

(** A condition that speaks only about what is configured and asked for: payloads
    that the JSON library gives back, not too many events and partitions, numbers
    in queries that fit, and limits whose times fit at each cleanup. *)
Definition op_fits (cfs : list conf) (o : op) : Prop :=
  match o with
  | OCleanup now =>
      forall c p lm, In c cfs -> In p (cf_parts c) -> pt_limit p = Some lm ->
        (forall d, lm_duration lm = Some d -> ts_fits (ts_add now (- d)%Q)) /\ (forall n, lm_min lm = Some n -> 0 <= n)
  | OServer _ p => u64 (qs_server p) /\ u64 (qs_server p + 1) /\ (forall i, qs_last p = Some i -> eid_fits i)
  | OTs _ p => opt_fits (qt_from p) /\ opt_fits (qt_to p) /\ opt_fits (qt_sfrom p) /\ opt_fits (qt_sto p)
  | _ => True
  end.
Definition parts_of (cfs : list conf) : Z := fold_right (fun c n => Z.of_nat (List.length (cf_parts c)) + n) 0 cfs.
Record trace_fits (F : Z -> Z -> Prop) (cf : conf) (tr : list (op * out)) : Prop := {
  tf_payloads : Forall (payload_ok F) (events_of tr);
  tf_many : (Z.of_nat (List.length (events_of tr)) + 1) * (parts_of (cf :: confs_of tr) + 2) < 2 ^ 64;
  tf_ops : Forall (fun ox => op_fits (cf :: confs_of tr) (fst ox)) tr }.

(** Content of a file in which numbers of latest events are at most [N], numbers
    of partitions at most [P], and counters at most their product. *)
Definition event_fits (F : Z -> Z -> Prop) (x : event) : Prop := eid_fits (ev_id x) /\ ts_fits (ev_ts x) /\ opt_fits (ev_src x) /\ payload_ok F x.
Record content_fits (F : Z -> Z -> Prop) (N P : Z) (d : ldb) : Prop := {
  cn_bounds : 0 <= N /\ 0 <= P;
  cn_types : forall k t, In (k, t) (db_types d) -> 1 <= k <= N;
  cn_latest : forall k x, In (k, x) (db_latest d) -> event_fits F x;
  cn_parts : forall p x, In (p, x) (db_parts d) -> 1 <= p <= P;
  cn_counts : forall p n, In (p, n) (db_counts d) -> 0 <= n <= N * P }.
Record trace_fits_from (F : Z -> Z -> Prop) (N P : Z) (cf : conf) (tr : list (op * out)) : Prop := {
  tff_events : Forall event_ok (events_of tr);
  tff_payloads : Forall (payload_ok F) (events_of tr);
  tff_many : (N + Z.of_nat (List.length (events_of tr)) + 1) * (P + parts_of (cf :: confs_of tr) + 2) < 2 ^ 64;
  tff_ops : Forall (fun ox => op_fits (cf :: confs_of tr) (fst ox)) tr }.
