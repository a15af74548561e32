(** Transfer form of events and queries.  Models
    src_py/hat/event/common/encoder.py:118-305 and schemas_sbs/eventer.sbs.
    The SBS byte encoding itself is in the hat-sbs library and is not
    modelled. *)
From Coq Require Import List String Bool ZArith.
From Verif Require Import Base Model_Types Model_Codec.
Import ListNotations.
Open Scope string_scope.
Open Scope list_scope.

(** [sbs.Data]: records are dicts, choices are pairs (name, data). *)
Inductive sbs :=
| SNone
| SBool (b : bool)
| SInt (z : Z)
| SStr (s : string)
| SBytes (b : list Z)
| SArr (l : list sbs)
| SChoice (name : string) (d : sbs)
| SRec (l : list (string * sbs)).

(** Python operations on data; [None] is an exception. *)
Definition sfield (d : sbs) (k : string) : option sbs :=
  match d with SRec l => dget String.eqb k l | _ => None end.
Definition as_int (d : sbs) : option Z := match d with SInt z => Some z | _ => None end.
Definition as_str (d : sbs) : option string := match d with SStr s => Some s | _ => None end.
Definition as_bool (d : sbs) : option bool := match d with SBool b => Some b | _ => None end.
Definition as_bytes (d : sbs) : option (list Z) := match d with SBytes b => Some b | _ => None end.
Definition as_list (d : sbs) : option (list sbs) := match d with SArr l => Some l | _ => None end.
Definition as_choice (d : sbs) : option (string * sbs) := match d with SChoice n x => Some (n, x) | _ => None end.

Fixpoint traverse {A B} (f : A -> option B) (l : list A) : option (list B) :=
  match l with
  | [] => Some []
  | x :: l' => do y <- f x; do ys <- traverse f l'; Some (y :: ys)
  end.

(** encoder.py:300-301 [_optional_to_sbs]. *)
Definition optional_to_sbs {A} (f : A -> sbs) (v : option A) : sbs :=
  match v with Some x => SChoice "value" (f x) | None => SChoice "none" SNone end.

(** encoder.py:304-305 [_optional_from_sbs]. *)
Definition optional_from_sbs {A} (f : sbs -> option A) (d : sbs) : option (option A) :=
  do c <- as_choice d;
  if fst c =? "value" then do x <- f (snd c); Some (Some x) else Some None.

(** encoder.py:118-120 [timestamp_to_sbs]. *)
Definition timestamp_to_sbs (t : timestamp) : sbs := SRec [("s", SInt (ts_s t)); ("us", SInt (ts_us t))].

(** encoder.py:123-125 [timestamp_from_sbs]. *)
Definition timestamp_from_sbs (d : sbs) : option timestamp :=
  do s <- (do x <- sfield d "s"; as_int x);
  do us <- (do x <- sfield d "us"; as_int x);
  Some (Ts s us).

(** common.py:60-64: values of [Status]. *)
Definition status_value (s : status) : string :=
  match s with
  | STANDBY => "standby" | STARTING => "starting" | OPERATIONAL => "operational" | STOPPING => "stopping"
  end.
Definition status_of_value (v : string) : option status :=
  if v =? "standby" then Some STANDBY
  else if v =? "starting" then Some STARTING
  else if v =? "operational" then Some OPERATIONAL
  else if v =? "stopping" then Some STOPPING
  else None.

(** encoder.py:128-135 [status_to_sbs], [status_from_sbs]. *)
Definition status_to_sbs (s : status) : sbs := SChoice (status_value s) SNone.
Definition status_from_sbs (d : sbs) : option status := do c <- as_choice d; status_of_value (fst c).

(** encoder.py:280-289 [_event_id_to_sbs], [_event_id_from_sbs]. *)
Definition event_id_to_sbs (i : event_id) : sbs :=
  SRec [("server", SInt (eid_server i)); ("session", SInt (eid_session i)); ("instance", SInt (eid_instance i))].
Definition event_id_from_sbs (d : sbs) : option event_id :=
  do a <- (do x <- sfield d "server"; as_int x);
  do b <- (do x <- sfield d "session"; as_int x);
  do c <- (do x <- sfield d "instance"; as_int x);
  Some (Eid a b c).

(** [list(event.type)] and [tuple(data['type'])] (encoder.py:141,151). *)
Definition etype_to_sbs (t : etype) : sbs := SArr (map SStr t).
Definition etype_from_sbs (d : sbs) : option etype := do l <- as_list d; traverse as_str l.

(** encoder.py:292-297 [_event_types_to_sbs], [_event_types_from_sbs]. *)
Definition etypes_to_sbs (ts : list etype) : sbs := SArr (map etype_to_sbs ts).
Definition etypes_from_sbs (d : sbs) : option (list etype) := do l <- as_list d; traverse etype_from_sbs l.

(** common.py:67-74: values of [Order] and [OrderBy]. *)
Definition order_value (o : order) : string := match o with DESCENDING => "descending" | ASCENDING => "ascending" end.
Definition order_of_value (v : string) : option order :=
  if v =? "descending" then Some DESCENDING else if v =? "ascending" then Some ASCENDING else None.
Definition order_by_value (o : order_by) : string :=
  match o with TIMESTAMP => "timestamp" | SOURCE_TIMESTAMP => "sourceTimestamp" end.
Definition order_by_of_value (v : string) : option order_by :=
  if v =? "timestamp" then Some TIMESTAMP else if v =? "sourceTimestamp" then Some SOURCE_TIMESTAMP else None.

Section Json.
  (** [json.encode], [json.decode] of hat-json (external). *)
  Variable json_encode : json -> string.
  Variable json_decode : string -> option json.

  (** encoder.py:256-265 [event_payload_to_sbs]. *)
  Definition payload_to_sbs (p : payload) : sbs :=
    match p with
    | PBinary ty data => SChoice "binary" (SRec [("type", SStr ty); ("data", SBytes data)])
    | PJson data => SChoice "json" (SStr (json_encode data))
    end.

  (** encoder.py:268-277 [event_payload_from_sbs]. *)
  Definition payload_from_sbs (d : sbs) : option payload :=
    do c <- as_choice d;
    if fst c =? "binary" then
      do ty <- (do x <- sfield (snd c) "type"; as_str x);
      do data <- (do x <- sfield (snd c) "data"; as_bytes x);
      Some (PBinary ty data)
    else if fst c =? "json" then
      do s <- as_str (snd c); do j <- json_decode s; Some (PJson j)
    else None.

  (** encoder.py:138-145 [event_to_sbs]. *)
  Definition event_to_sbs (e : event) : sbs :=
    SRec [("id", event_id_to_sbs (ev_id e));
          ("type", etype_to_sbs (ev_type e));
          ("timestamp", timestamp_to_sbs (ev_ts e));
          ("sourceTimestamp", optional_to_sbs timestamp_to_sbs (ev_src e));
          ("payload", optional_to_sbs payload_to_sbs (ev_payload e))].

  (** encoder.py:148-156 [event_from_sbs]. *)
  Definition event_from_sbs (d : sbs) : option event :=
    do i <- (do x <- sfield d "id"; event_id_from_sbs x);
    do t <- (do x <- sfield d "type"; etype_from_sbs x);
    do ts <- (do x <- sfield d "timestamp"; timestamp_from_sbs x);
    do src <- (do x <- sfield d "sourceTimestamp"; optional_from_sbs timestamp_from_sbs x);
    do p <- (do x <- sfield d "payload"; optional_from_sbs payload_from_sbs x);
    Some (Ev i t ts src p).

  (** encoder.py:159-164 [register_event_to_sbs]. *)
  Definition register_event_to_sbs (e : reg_event) : sbs :=
    SRec [("type", etype_to_sbs (re_type e));
          ("sourceTimestamp", optional_to_sbs timestamp_to_sbs (re_src e));
          ("payload", optional_to_sbs payload_to_sbs (re_payload e))].

  (** encoder.py:167-173 [register_event_from_sbs]. *)
  Definition register_event_from_sbs (d : sbs) : option reg_event :=
    do t <- (do x <- sfield d "type"; etype_from_sbs x);
    do src <- (do x <- sfield d "sourceTimestamp"; optional_from_sbs timestamp_from_sbs x);
    do p <- (do x <- sfield d "payload"; optional_from_sbs payload_from_sbs x);
    Some (RegEv t src p).

  (** encoder.py:244-247 [query_result_to_sbs]. *)
  Definition query_result_to_sbs (r : query_result) : sbs :=
    SRec [("events", SArr (map event_to_sbs (qr_events r))); ("moreFollows", SBool (qr_more r))].

  (** encoder.py:250-253 [query_result_from_sbs]. *)
  Definition query_result_from_sbs (d : sbs) : option query_result :=
    do es <- (do x <- sfield d "events"; do l <- as_list x; traverse event_from_sbs l);
    do m <- (do x <- sfield d "moreFollows"; as_bool x);
    Some (QRes es m).
End Json.

(** encoder.py:176-207 [query_params_to_sbs]. *)
Definition query_params_to_sbs (p : query_params) : sbs :=
  match p with
  | QPLatest p => SChoice "latest" (SRec [("eventTypes", optional_to_sbs etypes_to_sbs (ql_types p))])
  | QPTimeseries p =>
      SChoice "timeseries" (SRec [
        ("eventTypes", optional_to_sbs etypes_to_sbs (qt_types p));
        ("tFrom", optional_to_sbs timestamp_to_sbs (qt_from p));
        ("tTo", optional_to_sbs timestamp_to_sbs (qt_to p));
        ("sourceTFrom", optional_to_sbs timestamp_to_sbs (qt_sfrom p));
        ("sourceTTo", optional_to_sbs timestamp_to_sbs (qt_sto p));
        ("order", SChoice (order_value (qt_order p)) SNone);
        ("orderBy", SChoice (order_by_value (qt_order_by p)) SNone);
        ("maxResults", optional_to_sbs SInt (qt_max p));
        ("lastEventId", optional_to_sbs event_id_to_sbs (qt_last p))])
  | QPServer p =>
      SChoice "server" (SRec [
        ("serverId", SInt (qs_server p));
        ("persisted", SBool (qs_persisted p));
        ("maxResults", optional_to_sbs SInt (qs_max p));
        ("lastEventId", optional_to_sbs event_id_to_sbs (qs_last p))])
  end.

(** encoder.py:210-241 [query_params_from_sbs]. *)
Definition query_params_from_sbs (d : sbs) : option query_params :=
  do c <- as_choice d;
  let r := snd c in
  if fst c =? "latest" then
    do ts <- (do x <- sfield r "eventTypes"; optional_from_sbs etypes_from_sbs x);
    Some (QPLatest (QLatest ts))
  else if fst c =? "timeseries" then
    do ts <- (do x <- sfield r "eventTypes"; optional_from_sbs etypes_from_sbs x);
    do tf <- (do x <- sfield r "tFrom"; optional_from_sbs timestamp_from_sbs x);
    do tt <- (do x <- sfield r "tTo"; optional_from_sbs timestamp_from_sbs x);
    do sf <- (do x <- sfield r "sourceTFrom"; optional_from_sbs timestamp_from_sbs x);
    do st <- (do x <- sfield r "sourceTTo"; optional_from_sbs timestamp_from_sbs x);
    do o <- (do x <- sfield r "order"; do c <- as_choice x; order_of_value (fst c));
    do ob <- (do x <- sfield r "orderBy"; do c <- as_choice x; order_by_of_value (fst c));
    do m <- (do x <- sfield r "maxResults"; optional_from_sbs as_int x);
    do l <- (do x <- sfield r "lastEventId"; optional_from_sbs event_id_from_sbs x);
    Some (QPTimeseries (QTimeseries ts tf tt sf st o ob m l))
  else if fst c =? "server" then
    do s <- (do x <- sfield r "serverId"; as_int x);
    do p <- (do x <- sfield r "persisted"; as_bool x);
    do m <- (do x <- sfield r "maxResults"; optional_from_sbs as_int x);
    do l <- (do x <- sfield r "lastEventId"; optional_from_sbs event_id_from_sbs x);
    Some (QPServer (QServer s p m l))
  else None.

(** ** Schema types: schemas_sbs/eventer.sbs *)

Inductive sty :=
| TNone | TBool | TInt | TStr | TBytes
| TArr (t : sty)
| TChoice (l : list (string * sty))
| TRec (l : list (string * sty)).

(** [Optional(T)] of SBS. *)
Definition TOpt (t : sty) : sty := TChoice [("none", TNone); ("value", t)].

(** eventer.sbs: Status, Timestamp, EventId, Order, OrderBy, EventType,
    EventPayload, Event, RegisterEvent, QueryParams, QueryResult. *)
Definition T_Status := TChoice [("standby", TNone); ("starting", TNone); ("operational", TNone); ("stopping", TNone)].
Definition T_Timestamp := TRec [("s", TInt); ("us", TInt)].
Definition T_EventId := TRec [("server", TInt); ("session", TInt); ("instance", TInt)].
Definition T_Order := TChoice [("descending", TNone); ("ascending", TNone)].
Definition T_OrderBy := TChoice [("timestamp", TNone); ("sourceTimestamp", TNone)].
Definition T_EventType := TArr TStr.
Definition T_EventPayload := TChoice [("binary", TRec [("type", TStr); ("data", TBytes)]); ("json", TStr)].
Definition T_Event := TRec [("id", T_EventId); ("type", T_EventType); ("timestamp", T_Timestamp);
                            ("sourceTimestamp", TOpt T_Timestamp); ("payload", TOpt T_EventPayload)].
Definition T_RegisterEvent := TRec [("type", T_EventType); ("sourceTimestamp", TOpt T_Timestamp);
                                    ("payload", TOpt T_EventPayload)].
Definition T_QueryLatestParams := TRec [("eventTypes", TOpt (TArr T_EventType))].
Definition T_QueryTimeseriesParams := TRec [
  ("eventTypes", TOpt (TArr T_EventType)); ("tFrom", TOpt T_Timestamp); ("tTo", TOpt T_Timestamp);
  ("sourceTFrom", TOpt T_Timestamp); ("sourceTTo", TOpt T_Timestamp); ("order", T_Order);
  ("orderBy", T_OrderBy); ("maxResults", TOpt TInt); ("lastEventId", TOpt T_EventId)].
Definition T_QueryServerParams := TRec [("serverId", TInt); ("persisted", TBool); ("maxResults", TOpt TInt);
                                        ("lastEventId", TOpt T_EventId)].
Definition T_QueryParams := TChoice [("latest", T_QueryLatestParams); ("timeseries", T_QueryTimeseriesParams);
                                     ("server", T_QueryServerParams)].
Definition T_QueryResult := TRec [("events", TArr T_Event); ("moreFollows", TBool)].

(** [conforms t d]: data [d] is of schema type [t] (a record has exactly the
    schema's fields, in order). *)
Inductive conforms : sty -> sbs -> Prop :=
| cf_none : conforms TNone SNone
| cf_bool : forall b, conforms TBool (SBool b)
| cf_int : forall z, conforms TInt (SInt z)
| cf_str : forall s, conforms TStr (SStr s)
| cf_bytes : forall b, conforms TBytes (SBytes b)
| cf_arr : forall t l, Forall (conforms t) l -> conforms (TArr t) (SArr l)
| cf_choice : forall ts n t d, In (n, t) ts -> conforms t d -> conforms (TChoice ts) (SChoice n d)
| cf_rec : forall ts ds, Forall2 (fun t d => fst t = fst d /\ conforms (snd t) (snd d)) ts ds ->
    conforms (TRec ts) (SRec ds).
