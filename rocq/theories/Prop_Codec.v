(** C09, C12, C13: byte forms.  [None] is an exception. *)
From Coq Require Import List String Bool ZArith Lia.
From Verif Require Import Model_Types Model_Codec Spec_Order Spec_Codec Proof_Codec.
Import ListNotations.
Open Scope Z_scope.

(** C09.  12 bytes, decoding returns the timestamp, rejected out of range,
    different timestamps give different bytes, bytewise order is
    chronological. *)
Theorem C09_timestamp_bytes :
  (forall t, ts_fits t -> exists bs, timestamp_to_bytes t = Some bs /\ List.length bs = 12%nat /\ is_bytes bs /\
     timestamp_from_bytes bs = Some t) /\
  (forall t, ~ ts_fits t -> timestamp_to_bytes t = None) /\
  (forall t u x y, timestamp_to_bytes t = Some x -> timestamp_to_bytes u = Some y ->
     (x = y <-> t = u) /\ (bytes_lt x y <-> ts_lt t u)).
Proof. exact final_C09_bytes. Qed.
Print Assumptions C09_timestamp_bytes.

(** C09.  Every 12 bytes are the form of a timestamp. *)
Theorem C09_every_bytes : forall bs, List.length bs = 12%nat -> is_bytes bs ->
    exists t, timestamp_from_bytes bs = Some t /\ timestamp_to_bytes t = Some bs.
Proof. exact ts_dec_total. Qed.
Print Assumptions C09_every_bytes.

Example C09_example :
  timestamp_to_bytes (Ts (-1) 999999) = Some [127; 255; 255; 255; 255; 255; 255; 255; 0; 15; 66; 63] /\
  timestamp_from_bytes [127; 255; 255; 255; 255; 255; 255; 255; 0; 15; 66; 63] = Some (Ts (-1) 999999) /\
  ts_fits min_timestamp /\ ts_fits max_timestamp /\ timestamp_to_bytes (Ts (2 ^ 63) 0) = None.
Proof. repeat split; vm_compute; congruence. Qed.

(** C12.  Integer keys. *)
Theorem C12_uint_key :
  (forall v, u64 v -> exists bs, encode_uint v = Some bs /\ List.length bs = 8%nat /\ decode_uint bs = Some v) /\
  (forall v, ~ u64 v -> encode_uint v = None) /\
  (forall v w x y, encode_uint v = Some x -> encode_uint w = Some y -> (x = y <-> v = w) /\ (bytes_lt x y <-> v < w)).
Proof. exact final_C12_uint. Qed.
Print Assumptions C12_uint_key.

(** C12.  Event id keys. *)
Theorem C12_event_id_key :
  (forall i, eid_fits i -> exists bs, encode_event_id i = Some bs /\ List.length bs = 24%nat /\ decode_event_id bs = Some i) /\
  (forall i, ~ eid_fits i -> encode_event_id i = None) /\
  (forall i j x y, encode_event_id i = Some x -> encode_event_id j = Some y -> (x = y <-> i = j) /\ (bytes_lt x y <-> eid_lt i j)).
Proof. exact final_C12_event_id. Qed.
Print Assumptions C12_event_id_key.

(** C12.  Timeseries keys: ordered by partition, timestamp, event id. *)
Theorem C12_timeseries_key :
  (forall k, key_fits k -> exists bs, encode_ts_key k = Some bs /\ List.length bs = 44%nat /\ decode_ts_key bs = Some k) /\
  (forall k, ~ key_fits k -> encode_ts_key k = None) /\
  (forall k l x y, encode_ts_key k = Some x -> encode_ts_key l = Some y -> (x = y <-> k = l) /\ (bytes_lt x y <-> key_lt k l)).
Proof. exact final_C12_ts_key. Qed.
Print Assumptions C12_timeseries_key.

Example C12_example :
  key_fits (3, Ts (-5) 7, Eid 1 2 3) /\ key_lt (3, Ts (-5) 7, Eid 1 2 3) (3, Ts (-5) 7, Eid 1 3 0) /\
  (exists bs, encode_ts_key (3, Ts (-5) 7, Eid 1 2 3) = Some bs /\ decode_ts_key bs = Some (3, Ts (-5) 7, Eid 1 2 3)) /\
  encode_event_id (Eid (-1) 0 0) = None.
Proof.
  split; [unfold key_fits, ts_fits, eid_fits, u64; cbn [ts_s ts_us eid_server eid_session eid_instance]; lia|].
  split; [right; split; [reflexivity|]; right; split; [reflexivity|]; unfold eid_lt; cbn; lia|].
  split; [eexists; split; [vm_compute; reflexivity|vm_compute; reflexivity]|reflexivity].
Qed.

(** C13.  A list of references (a set in its iteration order) is read back as
    written; references out of range are rejected. *)
Theorem C13_refs_round_trip :
  (forall rs, Forall ref_fits rs -> exists bs, encode_event_refs rs = Some bs /\ decode_event_refs bs = Some rs) /\
  (forall rs, ~ Forall ref_fits rs -> encode_event_refs rs = None).
Proof. exact final_C13. Qed.
Print Assumptions C13_refs_round_trip.

Example C13_example :
  let rs := [TimeseriesRef (3, Ts (-5) 7, Eid 1 2 3); LatestRef 6; LatestRef 4; TimeseriesRef (0, Ts 0 0, Eid 0 0 0)] in
  Forall ref_fits rs /\
  exists bs, encode_event_refs rs = Some bs /\ List.length bs = 108%nat /\ decode_event_refs bs = Some rs.
Proof.
  cbn zeta. split.
  - repeat apply Forall_cons; [..|apply Forall_nil]; unfold ref_fits, key_fits, ts_fits, eid_fits, u64;
      cbn [ts_s ts_us eid_server eid_session eid_instance]; lia.
  - eexists; split; [vm_compute; reflexivity|]. split; vm_compute; reflexivity.
Qed.
