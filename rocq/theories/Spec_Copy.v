(** What is expected of copies of a database. *)
From Coq Require Import ZArith List.
From Verif Require Import Base Kv Model_Types Model_Codec Keys Model_Lmdb.
Import ListNotations.

(** Databases as LMDB keeps them: sorted by key, one value for a key. *)
Record kept_sorted (d : ldb) : Prop := {
  ks_settings : ksorted zord (db_settings d);
  ks_ids : ksorted zord (db_ids d);
  ks_tss : ksorted zord (db_tss d);
  ks_ref : ksorted eidord (db_ref d);
  ks_latest : ksorted zord (db_latest d);
  ks_types : ksorted zord (db_types d);
  ks_ts : ksorted keyord (db_ts d);
  ks_parts : ksorted zord (db_parts d);
  ks_counts : ksorted zord (db_counts d) }.

(** A place is listed under an id. *)
Definition listed (d : ldb) (i : event_id) (r : event_ref) : Prop := exists rs, In (i, rs) (db_ref d) /\ In r rs.

(** A place in a skipped part. *)
Definition skipped (skip_latest skip_ts : bool) (r : event_ref) : Prop :=
  match r with LatestRef _ => skip_latest = true | TimeseriesRef _ => skip_ts = true end.

(** Lists of references are not empty and hold a reference once. *)
Definition lists_ok (d : ldb) : Prop := forall i rs, In (i, rs) (db_ref d) -> rs <> [] /\ NoDup rs.

(** A part of the copy is the same, or empty if it is skipped. *)
Definition same_or_skipped {A : Type} (skip : bool) (src dst : list A) : Prop :=
  if skip then dst = [] else dst = src.
