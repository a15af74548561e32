(** Changes whose numbers fit the encodings of the file. *)
From Coq Require Import String Bool ZArith QArith List.
From Verif Require Import Base Model_Types Model_Time Model_Codec Spec_Codec Model_Sbs Model_Lmdb Model_ConvertBytes Spec_ConvertBytes Model_LmdbBytes.
Import ListNotations.
Open Scope list_scope.
Open Scope Z_scope.

(** JSON payloads that the JSON library gives back (floats are in [F]). *)
Definition payload_ok (F : Z -> Z -> Prop) (x : event) : Prop := match ev_payload x with Some (PJson j) => json_wf F j | _ => True end.

(** Number of events to be stored. *)
Definition amount (c : ts_changes) : Z := fold_right (fun pl n => Z.of_nat (List.length (snd pl)) + n) 0 c.

Record changes_fit (F : Z -> Z -> Prop) (d : ldb) (c : changes) : Prop := {
  fits_ids : forall s i, In (s, i) (sc_ids (ch_sys c)) -> u64 s /\ eid_fits i;
  fits_tss : forall s t, In (s, t) (sc_tss (ch_sys c)) -> u64 s /\ ts_fits t;
  fits_data : forall k x, In (k, x) (lc_data (ch_latest c)) -> u64 k /\ payload_ok F x;
  fits_types : forall k t, In (k, t) (lc_types (ch_latest c)) -> u64 k;
  fits_parts : forall p l, In (p, l) (ch_ts c) -> u64 p;
  fits_series : forall p l t x, In (p, l) (ch_ts c) -> In (t, x) l -> ts_fits t /\ eid_fits (ev_id x) /\ payload_ok F x;
  fits_counts : forall p n, In (p, n) (db_counts d) -> 0 <= n /\ n + amount (ch_ts c) < 2 ^ 64;
  fits_amount : amount (ch_ts c) < 2 ^ 64;
  fits_added : forall s sc i x rs, In (s, sc) (ch_ref c) -> In (i, (x, rs)) (rc_added sc) -> eid_fits i /\ Forall ref_fits rs;
  fits_removed : forall s sc i rs, In (s, sc) (ch_ref c) -> In (i, rs) (rc_removed sc) -> eid_fits i }.

(** The partitions of a server and the time of a cleanup. *)
Definition limits_fit (now : timestamp) (parts : list (Z * partition)) : Prop :=
  forall i p lm, In (i, p) parts -> pt_limit p = Some lm ->
    u64 i /\ u64 (i + 1) /\ (forall d, lm_duration lm = Some d -> ts_fits (ts_add now (- d)%Q)) /\
    (forall n, lm_min lm = Some n -> 0 <= n).

(** A transaction on the content [d] whose numbers fit: numbers of partitions,
    counters, and those of changes and limits. *)
Definition txn_fits (F : Z -> Z -> Prop) (d : ldb) (t : txn) : Prop :=
  match t with
  | TOpen cf =>
      let n := Z.of_nat (List.length (cf_parts cf)) in
      n + 1 < 2 ^ 64 /\ forall p x, In (p, x) (db_parts d) -> p + n + 1 < 2 ^ 64
  | TFlush c => changes_fit F d c
  | TCleanup parts now => (forall p n, In (p, n) (db_counts d) -> u64 n) /\ limits_fit now parts
  end.
Fixpoint txns_fit (F : Z -> Z -> Prop) (O : oracle) (d : ldb) (ts : list txn) : Prop :=
  match ts with
  | [] => True
  | t :: ts' => txn_fits F d t /\ forall d', content_txn O d t = Some d' -> txns_fit F O d' ts'
  end.
