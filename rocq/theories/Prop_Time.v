(** C10, C49: timestamp arithmetic and conversions.  A float is its rational
    value; [fl q] is the float nearest to [q].  [ts_total] counts
    microseconds since the epoch. *)
From Coq Require Import Bool ZArith QArith Qabs Lia.
From Verif Require Import Model_Types Model_Time Spec_Order Proof_Time.
Open Scope Z_scope.

(** C10.  Adding [k] microseconds, given as the nearest float number of
    seconds, moves the timestamp by exactly [k] microseconds and keeps it
    normalized (durations up to 2^33 s, some 272 years). *)
Theorem C10_add : forall t k, Z.abs k < 2 ^ 33 * 1000000 ->
    ts_normal (ts_add t (fl (k # 1000000))) /\ ts_total (ts_add t (fl (k # 1000000))) = ts_total t + k.
Proof. exact final_C10_add_us. Qed.
Print Assumptions C10_add.

(** C10.  For a duration of any size, also one that is no whole number of
    microseconds: normalized, and off by at most half a microsecond (and
    2^-33 of one). *)
Theorem C10_add_any : forall t s,
    ts_normal (ts_add t s) /\
    (Qabs (inject_Z (ts_total (ts_add t s) - ts_total t) - s * 1000000) <= (1 # 2) + (1 # 8589934592))%Q.
Proof. exact (fun t s => conj (ts_add_normal t s) (ts_add_near t s)). Qed.
Print Assumptions C10_add_any.

(** C10.  A duration half way between two numbers of microseconds (an odd
    multiple of 1/128 s, no other float is) moves the timestamp by the even
    one. *)
Theorem C10_add_half : forall t m, Z.odd m = true ->
    exists k, 15625 * m = 2 * k + 1 /\ ts_total (ts_add t (m # 128)) = ts_total t + (if Z.even k then k else k + 1).
Proof. exact final_C10_half. Qed.
Print Assumptions C10_add_half.

Example C10_example_half : Z.odd (-3) = true /\ ts_add (Ts 5 0) (-3 # 128) = Ts 4 976562 /\ ts_add (Ts 5 0) (1 # 128) = Ts 5 7812.
Proof. vm_compute. auto. Qed.

Example C10_example_add :
  Z.abs (-1500001) < 2 ^ 33 * 1000000 /\ ts_add (Ts 5 0) (fl (-1500001 # 1000000)) = Ts 3 499999.
Proof. split; [lia|vm_compute; reflexivity]. Qed.

(** C10.  Converting to datetime and back is not the identity: whole seconds
    before 1970 are moved by one second, ... *)
Theorem C10_datetime_refuted : exists t d, ts_normal t /\ timestamp_to_datetime t = Some d /\ timestamp_from_datetime d <> t.
Proof. exists (Ts (-1) 0), (Dt (-1) 0). split; [unfold ts_normal; cbn; lia|]. split; [reflexivity|vm_compute; congruence]. Qed.
Print Assumptions C10_datetime_refuted.

(** ... and so are the last microseconds of a second in the far future. *)
Theorem C10_datetime_far_refuted : exists t d, ts_normal t /\ 0 <= ts_s t /\
    timestamp_to_datetime t = Some d /\ timestamp_from_datetime d = Ts (ts_s t + 1) (ts_us t).
Proof.
  exists (Ts (2 ^ 34) 999999), (Dt (2 ^ 34) 999999). split; [unfold ts_normal; cbn; lia|].
  split; [cbn; lia|]. split; vm_compute; reflexivity.
Qed.
Print Assumptions C10_datetime_far_refuted.

(** C10.  It is the identity within 2^34 s (years 1425 to 2514) of 1970 except
    on whole seconds before 1970.  Missing: those, and years farther away. *)
Theorem C10_datetime_partial : forall t, ts_normal t -> - 2 ^ 34 < ts_s t < 2 ^ 34 ->
    0 <= ts_s t \/ ts_us t <> 0 ->
    exists d, timestamp_to_datetime t = Some d /\ timestamp_from_datetime d = t.
Proof. exact final_C10_datetime_partial. Qed.
Print Assumptions C10_datetime_partial.

Example C10_example_datetime :
  ts_normal (Ts (-3) 250000) /\ timestamp_to_datetime (Ts (-3) 250000) = Some (Dt (-3) 250000) /\
  timestamp_from_datetime (Dt (-3) 250000) = Ts (-3) 250000.
Proof. split; [unfold ts_normal; cbn; lia|]. split; vm_compute; reflexivity. Qed.

(** C49.  Converting to float and back is the identity within 2^33 s
    (years 1697 to 2242) of 1970. *)
Theorem C49_float_round_trip : forall t, ts_normal t -> - 2 ^ 33 < ts_s t < 2 ^ 33 - 1 ->
    timestamp_from_float (timestamp_to_float t) = t.
Proof. exact final_C49. Qed.
Print Assumptions C49_float_round_trip.

(** C49.  Farther away it is not: the range is close to the best possible. *)
Theorem C49_range_needed : exists t, ts_normal t /\ ts_s t = 2 ^ 34 /\ timestamp_from_float (timestamp_to_float t) <> t.
Proof. exists (Ts (2 ^ 34) 1). split; [unfold ts_normal; cbn; lia|]. split; [reflexivity|vm_compute; congruence]. Qed.
Print Assumptions C49_range_needed.

Example C49_example :
  timestamp_from_float (timestamp_to_float (Ts (-5) 0)) = Ts (-5) 0 /\
  timestamp_from_float (timestamp_to_float (Ts 8589934590 999999)) = Ts 8589934590 999999.
Proof. split; vm_compute; reflexivity. Qed.
