(** Bytes, their lexicographic order, and the ranges of encodable values. *)
From Coq Require Import List ZArith.
From Verif Require Import Model_Types Model_Codec Spec_Order.
Import ListNotations.
Open Scope Z_scope.

Definition is_bytes (bs : list Z) : Prop := Forall (fun b => 0 <= b < 256) bs.

(** Order of byte strings as used by LMDB ([memcmp], shorter first). *)
Inductive bytes_lt : list Z -> list Z -> Prop :=
| bl_end : forall b y, bytes_lt [] (b :: y)
| bl_here : forall a b x y, a < b -> bytes_lt (a :: x) (b :: y)
| bl_next : forall a x y, bytes_lt x y -> bytes_lt (a :: x) (a :: y).

Definition u64 (v : Z) : Prop := 0 <= v < 2 ^ 64.

(** Timestamps and ids that fit the byte form. *)
Definition ts_fits (t : timestamp) : Prop := - 2 ^ 63 <= ts_s t < 2 ^ 63 /\ 0 <= ts_us t < 2 ^ 32.
Definition eid_fits (i : event_id) : Prop := u64 (eid_server i) /\ u64 (eid_session i) /\ u64 (eid_instance i).
Definition key_fits (k : Z * timestamp * event_id) : Prop :=
  let '(p, t, i) := k in u64 p /\ ts_fits t /\ eid_fits i.

(** Order of timeseries keys: partition, then timestamp, then event id. *)
Definition key_lt (a b : Z * timestamp * event_id) : Prop :=
  let '(p, t, i) := a in
  let '(q, u, j) := b in
  p < q \/ p = q /\ (ts_lt t u \/ t = u /\ eid_lt i j).

Definition ref_fits (r : event_ref) : Prop :=
  match r with LatestRef k => u64 k | TimeseriesRef k => key_fits k end.
