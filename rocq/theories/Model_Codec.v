(** Byte codecs.  Models src_py/hat/event/common/encoder.py:25-42 and
    src_py/hat/event/backends/lmdb/common.py:69-253.  A byte string is a list
    of integers; [None] stands for an exception. *)
From Coq Require Import List String Bool ZArith.
From Verif Require Import Model_Types.
Import ListNotations.
Open Scope Z_scope.

Definition bytes := list Z.

(** [struct] format characters Q and I (big endian, [n] bytes): the digits. *)
Fixpoint be (n : nat) (v : Z) : bytes :=
  match n with
  | O => []
  | S n' => v / 256 ^ Z.of_nat n' :: be n' (v mod 256 ^ Z.of_nat n')
  end.

(** [struct.pack] of one unsigned big endian integer of [n] bytes; values out
    of range raise [struct.error]. *)
Definition pack (n : nat) (v : Z) : option bytes :=
  if (0 <=? v) && (v <? 256 ^ Z.of_nat n) then Some (be n v) else None.

(** Value of big endian bytes. *)
Definition unbe (bs : bytes) : Z := fold_left (fun acc b => acc * 256 + b) bs 0.

(** [struct.unpack] of one unsigned integer; a wrong length raises
    [struct.error]. *)
Definition unpack (n : nat) (bs : bytes) : option Z :=
  if Nat.eqb (List.length bs) n then Some (unbe bs) else None.

Definition obind {A B} (o : option A) (f : A -> option B) : option B :=
  match o with Some x => f x | None => None end.
Notation "'do' x <- e ; f" := (obind e (fun x => f)) (at level 200, x name, e at level 100, f at level 200).

(** encoder.py:25-32 [timestamp_to_bytes]. *)
Definition timestamp_to_bytes (t : timestamp) : option bytes :=
  do a <- pack 8 (ts_s t + 2 ^ 63);
  do b <- pack 4 (ts_us t);
  Some (a ++ b).

(** encoder.py:35-42 [timestamp_from_bytes]; [struct.unpack] checks the whole
    length (12). *)
Definition timestamp_from_bytes (bs : bytes) : option timestamp :=
  if Nat.eqb (List.length bs) 12 then
    do s <- unpack 8 (firstn 8 bs);
    do us <- unpack 4 (skipn 8 bs);
    Some (Ts (s - 2 ^ 63) us)
  else None.

(** lmdb/common.py:164-169 [_encode_uint], [_decode_uint]. *)
Definition encode_uint (v : Z) : option bytes := pack 8 v.
Definition decode_uint (bs : bytes) : option Z := unpack 8 bs.

(** lmdb/common.py:172-174 [_encode_event_id]. *)
Definition encode_event_id (i : event_id) : option bytes :=
  do a <- pack 8 (eid_server i);
  do b <- pack 8 (eid_session i);
  do c <- pack 8 (eid_instance i);
  Some (a ++ b ++ c).

(** lmdb/common.py:177-181 [_decode_event_id]. *)
Definition decode_event_id (bs : bytes) : option event_id :=
  if Nat.eqb (List.length bs) 24 then
    do a <- unpack 8 (firstn 8 bs);
    do b <- unpack 8 (firstn 8 (skipn 8 bs));
    do c <- unpack 8 (skipn 16 bs);
    Some (Eid a b c)
  else None.

(** lmdb/common.py:184-190 [_encode_timestamp], [_decode_timestamp]: the same
    code as in encoder.py. *)
Definition encode_timestamp := timestamp_to_bytes.
Definition decode_timestamp := timestamp_from_bytes.

(** lmdb/common.py:71 [TimeseriesKey]. *)
Definition ts_key : Type := Z * timestamp * event_id.

(** lmdb/common.py:242-246 [_encode_timeseries_key]. *)
Definition encode_ts_key (k : ts_key) : option bytes :=
  let '(p, t, i) := k in
  do a <- encode_uint p;
  do b <- encode_timestamp t;
  do c <- encode_event_id i;
  Some (a ++ b ++ c).

(** lmdb/common.py:249-253 [_decode_timeseries_key]. *)
Definition decode_ts_key (bs : bytes) : option ts_key :=
  do p <- decode_uint (firstn 8 bs);
  do t <- decode_timestamp (firstn 12 (skipn 8 bs));
  do i <- decode_event_id (skipn 20 bs);
  Some (p, t, i).

(** lmdb/common.py:79-87 [LatestEventRef], [TimeseriesEventRef], [EventRef]. *)
Inductive event_ref :=
| LatestRef (key : Z)
| TimeseriesRef (key : ts_key).

(** lmdb/common.py:35,37: [DbType.LATEST_DATA], [DbType.TIMESERIES_DATA]. *)
Definition db_latest_data : Z := 4.
Definition db_timeseries_data : Z := 6.

(** lmdb/common.py:193-203 [_encode_event_ref] (key encoders of 115-131). *)
Definition encode_event_ref (r : event_ref) : option bytes :=
  match r with
  | LatestRef k => do b <- encode_uint k; Some (db_latest_data :: b)
  | TimeseriesRef k => do b <- encode_ts_key k; Some (db_timeseries_data :: b)
  end.

(** lmdb/common.py:206-216 [_decode_event_ref].  The remaining database types
    raise ([ValueError], maybe after decoding the key). *)
Definition decode_event_ref (bs : bytes) : option event_ref :=
  match bs with
  | [] => None
  | d :: key =>
      if d =? db_latest_data then do k <- decode_uint key; Some (LatestRef k)
      else if d =? db_timeseries_data then do k <- decode_ts_key key; Some (TimeseriesRef k)
      else None
  end.

(** lmdb/common.py:219-221 [_encode_event_refs]; a set is given as the list in
    its iteration order. *)
Fixpoint encode_event_refs (rs : list event_ref) : option bytes :=
  match rs with
  | [] => Some []
  | r :: rs' => do a <- encode_event_ref r; do b <- encode_event_refs rs'; Some (a ++ b)
  end.

(** lmdb/common.py:224-239 [_decode_event_refs].  Each turn consumes at least
    one byte, so the number of bytes is enough fuel. *)
Fixpoint decode_event_refs_loop (fuel : nat) (bs : bytes) : option (list event_ref) :=
  match bs, fuel with
  | [], _ => Some []
  | _, O => None
  | d :: _, S fuel' =>
      do len <- (if d =? db_latest_data then Some 8%nat
                 else if d =? db_timeseries_data then Some 44%nat
                 else None);
      do r <- decode_event_ref (firstn (len + 1) bs);
      do rs <- decode_event_refs_loop fuel' (skipn (len + 1) bs);
      Some (r :: rs)
  end.
Definition decode_event_refs (bs : bytes) : option (list event_ref) :=
  decode_event_refs_loop (List.length bs) bs.
