(** C47: copying a database. *)
From Coq Require Import String Bool ZArith List.
From Verif Require Import Base Kv Model_Types Model_Codec Keys Model_Lmdb Model_LmdbSys Spec_Lmdb Spec_LmdbContent
  Model_Copy Spec_Copy Proof_Copy Proof_Lmdb10 Ex_Lmdb.
Import ListNotations.
Open Scope string_scope.
Open Scope list_scope.
Open Scope Z_scope.

(** C47.  Without skipping, the copy is identical. *)
Theorem C47_same : forall d, kept_sorted d -> copy false false d None = (true, Some d).
Proof. exact final_C47_same. Qed.
Print Assumptions C47_same.

(** C47.  Otherwise what is not skipped is identical, what is skipped is empty, and
    the reference index has exactly the references to places not skipped. *)
Theorem C47_skip : forall sl st d, kept_sorted d -> exists c, copy sl st d None = (true, Some c) /\ kept_sorted c /\
  db_settings c = db_settings d /\ db_ids c = db_ids d /\ db_tss c = db_tss d /\
  same_or_skipped sl (db_latest d) (db_latest c) /\ same_or_skipped sl (db_types d) (db_types c) /\
  same_or_skipped st (db_ts d) (db_ts c) /\ same_or_skipped st (db_parts d) (db_parts c) /\
  same_or_skipped st (db_counts d) (db_counts c) /\
  (forall i r, listed c i r <-> listed d i r /\ ~ skipped sl st r).
Proof. exact final_C47_skip. Qed.
Print Assumptions C47_skip.

(** C47.  If the index of the source is exact, so is that of the copy: it lists
    exactly the remaining places. *)
Theorem C47_exact : forall sl st d c, kept_sorted d -> copy sl st d None = (true, Some c) ->
  (forall i r, listed d i r <-> at_ref d r i) -> forall i r, listed c i r <-> at_ref c r i.
Proof. exact final_C47_exact. Qed.
Print Assumptions C47_exact.

(** C47.  No list of references of the copy is empty or has a reference twice, *)
Theorem C47_lists : forall sl st d c, kept_sorted d -> copy sl st d None = (true, Some c) -> lists_ok d -> lists_ok c.
Proof. exact final_C47_lists. Qed.
Print Assumptions C47_lists.

(** and the counters of the copy are the numbers of entries. *)
Theorem C47_counters : forall sl st d c, kept_sorted d -> copy sl st d None = (true, Some c) ->
  (forall p n, counter d p n <-> n = entries_in d p) -> forall p n, counter c p n <-> n = entries_in c p.
Proof. exact final_C47_counters. Qed.
Print Assumptions C47_counters.

(** C47.  Copies of a backend's database: all their places are in the index, the
    counters are right, and a backend can be opened with the copy whenever it can
    be opened with the original; it then has the same last ids and timestamps. *)
Theorem C47_backend : forall O cf tr s sl st cf', execution O cf tr s ->
  exists c, copy sl st (s_disk s) None = (true, Some c) /\
    (forall r i, at_ref c r i -> listed c i r) /\ lists_ok c /\
    (forall p n, counter c p n <-> n = entries_in c p) /\
    match open_db cf' (s_disk s), open_db cf' c with
    | None, None => True
    | Some (_, m), Some (_, m') =>
        forall i, get_last_event_id (m_sys m') i = get_last_event_id (m_sys m) i /\
                  get_last_timestamp (m_sys m') i = get_last_timestamp (m_sys m) i
    | _, _ => False
    end.
Proof. exact final_C47_backend. Qed.
Print Assumptions C47_backend.

(** C47.  An existing destination is refused and not touched. *)
Theorem C47_refused : forall sl st d x, copy sl st d (Some x) = (false, Some x).
Proof. exact final_C47_refused. Qed.
Print Assumptions C47_refused.

(** A database that meets all hypotheses, and what is left of its index. *)
Example C47_example : kept_sorted (s_disk ex_s) /\ lists_ok (s_disk ex_s) /\
  (forall i r, listed (s_disk ex_s) i r <-> at_ref (s_disk ex_s) r i) /\
  db_ref (copy_content false true (s_disk ex_s)) <> db_ref (s_disk ex_s) /\
  db_ref (copy_content false true (s_disk ex_s)) <> [] /\
  db_ref (copy_content true false (s_disk ex_s)) <> db_ref (s_disk ex_s) /\
  db_ref (copy_content true false (s_disk ex_s)) <> [] /\
  db_ref (copy_content true true (s_disk ex_s)) = [].
Proof.
  split; [exact (reached_sorted _ _ _ _ ex_run)|]. split; [exact (proj1 (proj2 (final_C21 _ _ _ _ ex_run)))|].
  split.
  - intros i r. apply (final_C21_exact _ _ _ _ ex_run).
    replace (confs_of ex_tr) with (@nil conf) by (vm_compute; reflexivity).
    constructor; [constructor|constructor].
  - repeat split; vm_compute; discriminate.
Qed.
