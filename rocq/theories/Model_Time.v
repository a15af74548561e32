(** Timestamp arithmetic and conversions.  Models
    src_py/hat/event/common/common.py:45-50 and
    src_py/hat/event/common/encoder.py:45-115.

    A finite float is its (rational) value.  Float operations round the exact
    result to the nearest float with 53 significant bits, ties to even; the
    exponent is unbounded here (no overflow or subnormal numbers: they do not
    occur for the magnitudes in these functions). *)
From Coq Require Import Bool ZArith QArith Qpower Qabs.
From Verif Require Import Model_Types.
Open Scope Z_scope.

(** [round] of Python: nearest integer of [a / b], ties to even. *)
Definition rne (a b : Z) : Z :=
  let q := a / b in
  let r := a mod b in
  if 2 * r <? b then q
  else if b <? 2 * r then q + 1
  else if Z.even q then q else q + 1.
Definition rneQ (x : Q) : Z := rne (Qnum x) (QDen x).

(** [int] of Python on floats: truncation towards zero. *)
Definition truncQ (x : Q) : Z :=
  if 0 <=? Qnum x then Qnum x / QDen x else - (- Qnum x / QDen x).

(** Exponent of the leading binary digit of a nonzero number. *)
Definition ilog2 (x : Q) : Z :=
  let d := Z.log2 (Z.abs (Qnum x)) - Z.log2 (QDen x) in
  if Qle_bool (2 ^ d)%Q (Qabs x) then d else d - 1.

(** The float nearest to [x]. *)
Definition fl (x : Q) : Q :=
  if Qnum x =? 0 then 0%Q
  else let u := (2 ^ (ilog2 x - 52))%Q in (inject_Z (rneQ (x / u)) * u)%Q.

Definition million : Z := 1000000.

(** common.py:45-50 [Timestamp.add]: [1e6] is exact, so [s - int(s)] and the
    product round. *)
Definition ts_add (t : timestamp) (s : Q) : timestamp :=
  let us := ts_us t + rneQ (fl (fl (s - inject_Z (truncQ s)) * inject_Z million)) in
  let s' := ts_s t + truncQ s in
  Ts (s' + us / million) (us mod million).

(** encoder.py:45-51 [timestamp_to_float]; the conversion of [t.s] to float is
    exact up to 2^53, which is where the theorems use it. *)
Definition timestamp_to_float (t : timestamp) : Q :=
  fl (inject_Z (ts_s t) + fl (inject_Z (ts_us t) * fl (1 # 1000000))).

(** encoder.py:54-70 [timestamp_from_float]. *)
Definition timestamp_from_float (ts : Q) : timestamp :=
  let s := truncQ ts in
  let s := if Qnum ts <? 0 then s - 1 else s in
  let us := rneQ (fl (fl (ts - inject_Z s) * inject_Z million)) in
  if us =? million then Ts (s + 1) 0 else Ts s us.

(** A UTC [datetime]: whole seconds since the epoch (year .. second) and the
    microsecond field.  The calendar arithmetic of the standard library is not
    modelled. *)
Record datetime := Dt { dt_s : Z; dt_us : Z }.

(** [datetime.min], [datetime.max] in seconds: years 1 .. 9999. *)
Definition dt_min : Z := -62135596800.
Definition dt_max : Z := 253402300799.

(** encoder.py:73-95 [timestamp_to_datetime]; out of range raises. *)
Definition timestamp_to_datetime (t : timestamp) : option datetime :=
  if (dt_min <=? ts_s t) && (ts_s t <=? dt_max) && (0 <=? ts_us t) && (ts_us t <? million)
  then Some (Dt (ts_s t) (ts_us t)) else None.

(** [datetime.timestamp()] of an aware datetime: the quotient of integer
    microseconds and 10^6, correctly rounded. *)
Definition dt_timestamp (d : datetime) : Q := fl ((dt_s d * million + dt_us d) # 1000000).

(** encoder.py:98-115 [timestamp_from_datetime] (aware, or naive taken as
    UTC). *)
Definition timestamp_from_datetime (d : datetime) : timestamp :=
  let s := truncQ (dt_timestamp d) in
  let s := if Qnum (dt_timestamp d) <? 0 then s - 1 else s in
  Ts s (dt_us d).
