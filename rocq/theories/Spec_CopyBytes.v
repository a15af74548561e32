(** What is expected of files and of their copies. *)
From Coq Require Import String Bool ZArith Sorted List.
From Verif Require Import Base Kv Model_Types Model_Codec Spec_Codec Model_Lmdb Spec_Copy Model_ConvertBytes.
Import ListNotations.
Open Scope string_scope.
Open Scope list_scope.

(** The databases of version 0.9. *)
Definition database9 (name : string) : Prop :=
  In name ["SYSTEM_SETTINGS"; "SYSTEM_LAST_EVENT_ID"; "SYSTEM_LAST_TIMESTAMP"; "REF"; "LATEST_DATA"; "LATEST_TYPE"; "TIMESERIES_DATA";
           "TIMESERIES_PARTITION"; "TIMESERIES_COUNT"].

(** All databases are there; keys are bytes, in increasing order, as LMDB keeps
    them; references are bytes. *)
Record file_ok (e : env) : Prop := {
  fo_all : forall name, database9 name -> exists r, dget String.eqb name e = Some r;
  fo_sorted : forall name r, dget String.eqb name e = Some r -> StronglySorted bytes_lt (map fst r);
  fo_keys : forall name r k v, dget String.eqb name e = Some r -> In (k, v) r -> is_bytes k;
  fo_refs : forall r k v, dget String.eqb "REF" e = Some r -> In (k, v) r -> is_bytes v }.

(** What a copy has of the content [d]. *)
Definition copy_of (sl st : bool) (d c : ldb) : Prop :=
  db_settings c = db_settings d /\ db_ids c = db_ids d /\ db_tss c = db_tss d /\
  same_or_skipped sl (db_latest d) (db_latest c) /\ same_or_skipped sl (db_types d) (db_types c) /\
  same_or_skipped st (db_ts d) (db_ts c) /\ same_or_skipped st (db_parts d) (db_parts c) /\
  same_or_skipped st (db_counts d) (db_counts c) /\
  (forall i r, listed c i r <-> listed d i r /\ ~ skipped sl st r).
