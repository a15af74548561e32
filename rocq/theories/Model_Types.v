(** Basic data of the event system.  Models
    src_py/hat/event/common/common.py:23-176. *)
From Coq Require Import List String Bool ZArith.
Import ListNotations.
Open Scope string_scope.
Open Scope list_scope.

(** common.py:32-36 [EventTypeSegment], [EventType].  A Python [str] is
    represented by its UTF-8 bytes (a Coq [string]). *)
Definition segment := string.
Definition etype := list segment.

(** common.py:39-43 [Timestamp]. *)
Record timestamp := Ts { ts_s : Z; ts_us : Z }.

(** common.py:53-57 [min_timestamp], [max_timestamp]. *)
Definition min_timestamp : timestamp := Ts (- 2 ^ 63) 0.
Definition max_timestamp : timestamp := Ts (2 ^ 63 - 1) 999999.

(** common.py:60-64 [Status]. *)
Inductive status := STANDBY | STARTING | OPERATIONAL | STOPPING.

(** common.py:67-69 [Order]. *)
Inductive order := DESCENDING | ASCENDING.

(** common.py:72-74 [OrderBy]. *)
Inductive order_by := TIMESTAMP | SOURCE_TIMESTAMP.

(** common.py:77-80 [EventId].  Python integers are unbounded. *)
Record event_id := Eid { eid_server : Z; eid_session : Z; eid_instance : Z }.

(** JSON data ([hat.json.Data]).  Numbers: integers, and finite floats as
    [m * 2^e].  NaN and infinities are left out. *)
Inductive json :=
| JNull
| JBool (b : bool)
| JInt (z : Z)
| JFloat (m e : Z)
| JStr (s : string)
| JArr (l : list json)
| JObj (l : list (string * json)).

(** common.py:83-92 [EventPayloadBinary], [EventPayloadJson].  Bytes are a
    list of integers. *)
Inductive payload :=
| PBinary (ty : string) (data : list Z)
| PJson (data : json).

(** common.py:95-107 [Event]. *)
Record event := Ev {
  ev_id : event_id;
  ev_type : etype;
  ev_ts : timestamp;
  ev_src : option timestamp;
  ev_payload : option payload }.

(** common.py:140-143 [RegisterEvent]. *)
Record reg_event := RegEv {
  re_type : etype;
  re_src : option timestamp;
  re_payload : option payload }.

(** common.py:146-147 [QueryLatestParams]. *)
Record query_latest := QLatest { ql_types : option (list etype) }.

(** common.py:150-159 [QueryTimeseriesParams]. *)
Record query_timeseries := QTimeseries {
  qt_types : option (list etype);
  qt_from : option timestamp;
  qt_to : option timestamp;
  qt_sfrom : option timestamp;
  qt_sto : option timestamp;
  qt_order : order;
  qt_order_by : order_by;
  qt_max : option Z;
  qt_last : option event_id }.

(** common.py:162-166 [QueryServerParams]. *)
Record query_server := QServer {
  qs_server : Z;
  qs_persisted : bool;
  qs_max : option Z;
  qs_last : option event_id }.

(** common.py:169-171 [QueryParams]. *)
Inductive query_params :=
| QPLatest (p : query_latest)
| QPTimeseries (p : query_timeseries)
| QPServer (p : query_server).

(** common.py:174-176 [QueryResult]. *)
Record query_result := QRes { qr_events : list event; qr_more : bool }.

(** Tuple comparison of Python on [Timestamp] (a [NamedTuple]):
    [==], [<], [<=]. *)
Definition ts_eqb (a b : timestamp) : bool :=
  ((ts_s a =? ts_s b) && (ts_us a =? ts_us b))%Z.
Definition ts_ltb (a b : timestamp) : bool :=
  ((ts_s a <? ts_s b) || ((ts_s a =? ts_s b) && (ts_us a <? ts_us b)))%Z.
Definition ts_leb (a b : timestamp) : bool :=
  ((ts_s a <? ts_s b) || ((ts_s a =? ts_s b) && (ts_us a <=? ts_us b)))%Z.

(** Tuple comparison of Python on [EventId]. *)
Definition eid_eqb (a b : event_id) : bool :=
  ((eid_server a =? eid_server b) && (eid_session a =? eid_session b)
   && (eid_instance a =? eid_instance b))%Z.
Definition eid_ltb (a b : event_id) : bool :=
  ((eid_server a <? eid_server b)
   || ((eid_server a =? eid_server b)
       && ((eid_session a <? eid_session b)
           || ((eid_session a =? eid_session b)
               && (eid_instance a <? eid_instance b)))))%Z.
Definition eid_leb (a b : event_id) : bool :=
  ((eid_server a <? eid_server b)
   || ((eid_server a =? eid_server b)
       && ((eid_session a <? eid_session b)
           || ((eid_session a =? eid_session b)
               && (eid_instance a <=? eid_instance b)))))%Z.

(** Tuple equality of event types. *)
Fixpoint etype_eqb (a b : etype) : bool :=
  match a, b with
  | [], [] => true
  | x :: a', y :: b' => String.eqb x y && etype_eqb a' b'
  | _, _ => false
  end.

(** Range of timestamps that are documented as valid: microseconds in
    [0, 1e6) (common.py:40-43), and byte serializable
    (common.py:53-57). *)
Definition ts_normal (t : timestamp) : Prop := (0 <= ts_us t < 1000000)%Z.
Definition ts_range (t : timestamp) : Prop :=
  (- 2 ^ 63 <= ts_s t < 2 ^ 63 /\ 0 <= ts_us t < 2 ^ 32)%Z.
