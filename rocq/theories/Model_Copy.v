(** Copying of an LMDB database.  Models
    src_py/hat/event/backends/lmdb/manager/copy.py.

    As in Model_Lmdb.v, databases are stores of decoded keys and values sorted
    by key; a cursor goes through a database in that order.  The source is
    assumed to hold all databases ([ext_open_db] with [create=False] raises
    otherwise); both transactions are complete when [copy] returns. *)
From Coq Require Import Bool ZArith List.
From Verif Require Import Base Kv Model_Types Model_Codec Keys Model_Lmdb.
Import ListNotations.

(** copy.py:90-92 [_copy_db] into a new database *)
Definition copy_db {K V : Type} (o : ord K) (src : list (K * V)) : list (K * V) :=
  fold_left (fun dst kv => kput o (fst kv) (snd kv) dst) src [].

(** [isinstance(event_ref, common.LatestEventRef)] *)
Definition is_latest_ref (r : event_ref) : bool := match r with LatestRef _ => true | TimeseriesRef _ => false end.

(** copy.py:57-69: references that are kept. *)
Definition kept_refs (skip_latest skip_ts : bool) (refs : list event_ref) : list event_ref :=
  let refs := if skip_latest then filter (fun r => negb (is_latest_ref r)) refs else refs in
  let refs := if skip_ts then filter is_latest_ref refs else refs in
  sof reford refs.

(** copy.py:47-74 [_copy_ref] *)
Definition copy_ref (skip_latest skip_ts : bool) (src : list (event_id * list event_ref)) : list (event_id * list event_ref) :=
  fold_left
    (fun dst kv =>
       if negb skip_latest && negb skip_ts then kput eidord (fst kv) (snd kv) dst
       else match kept_refs skip_latest skip_ts (snd kv) with
            | [] => dst
            | refs => kput eidord (fst kv) refs dst
            end)
    src [].

(** copy.py:27-37, 40-44, 77-87: the content of the destination. *)
Definition copy_content (skip_latest skip_ts : bool) (src : ldb) : ldb :=
  Ldb (copy_db zord (db_settings src)) (copy_db zord (db_ids src)) (copy_db zord (db_tss src))
      (copy_ref skip_latest skip_ts (db_ref src))
      (if skip_latest then [] else copy_db zord (db_latest src))
      (if skip_latest then [] else copy_db zord (db_types src))
      (if skip_ts then [] else copy_db keyord (db_ts src))
      (if skip_ts then [] else copy_db zord (db_parts src))
      (if skip_ts then [] else copy_db zord (db_counts src)).

(** copy.py:16-20 [copy].  [dst]: what is at the destination path.  The first
    result is [false] if [copy] raises; the second one is what is at the
    destination path afterwards. *)
Definition copy (skip_latest skip_ts : bool) (src : ldb) (dst : option ldb) : bool * option ldb :=
  match dst with
  | Some _ => (false, dst)
  | None => (true, Some (copy_content skip_latest skip_ts src))
  end.
