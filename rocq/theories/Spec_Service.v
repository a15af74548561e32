(** What is expected of a server process: registered events are found by
    queries. *)
From Coq Require Import String Bool ZArith Arith Sorted List.
From Verif Require Import Base Model_Types Model_Subscription Model_Codec Model_Lmdb Model_LmdbSys Spec_Lmdb Spec_LmdbContent Spec_LmdbQuery Spec_LmdbTs
  Model_Engine Spec_Engine Model_Eventer Spec_Eventer Model_Service.
Import ListNotations.
Open Scope list_scope.
Open Scope nat_scope.

(** A process of server [srv]: [tr0] and [vtr0] happened to the backend and to
    the eventer server before the engine was created. *)
Definition service (O : oracle) (cf : conf) (tr0 : list (op * out)) (vtr0 : list vitem) (srv : Z) (token : option string) (ms : list node) (size : nat)
  (tr : list pstep) : Prop :=
  (exists w b, process srv tr0 tr w b) /\
  (exists s0 es, execution O cf tr0 s0 /\ engine_run ms size (get_last_event_id (m_sys (s_mem s0)) srv) (engine_part tr) es) /\
  (exists s, execution O cf (tr0 ++ backend_part tr) s) /\
  (exists vs, server_run srv token (vtr0 ++ server_part tr) vs).

(** Readings of the clock by the engine. *)
Definition readings (etr : list eitem) : list timestamp :=
  flat_map (fun o => match o with EGet now | ERaise now | ECancel now => [now] | _ => [] end) (ops_of etr).

(** The clock does not go back, and is not behind the events that the server has
    registered before. *)
Definition clock_forward (srv : Z) (H : history) (ts : list timestamp) : Prop :=
  StronglySorted (fun a b => ts_leb a b = true) ts /\
  forall en t, In en H -> eid_server (ev_id (en_ev en)) = srv -> In t ts -> ts_leb (ev_ts (en_ev en)) t = true.

(** [e'] was registered after [e]. *)
Definition registered_after (es : list event) (e e' : event) : Prop := exists a b, es = a ++ e :: b /\ In e' b.

(** What is found in the place of an event: the event, one with a greater
    timestamp, or one with the same timestamp that was registered later. *)
Definition up_to_date (es : list event) (e e' : event) : Prop :=
  ev_type e' = ev_type e /\
  (e' = e \/ ts_ltb (ev_ts e) (ev_ts e') = true \/ (ev_ts e' = ev_ts e /\ registered_after es e e')).

(** The configuration in force. *)
Definition conf_at (cf : conf) (tr0 : list (op * out)) : conf := w_conf (watch_run cf tr0).

(** No range of the timestamps that order events, or these are timestamps of
    events of one server. *)
Definition plain_query (p : query_timeseries) (es : list event) (srv : Z) : Prop :=
  (order_from p = None /\ order_to p = None) \/ (qt_order_by p = TIMESTAMP /\ forall e, In e es -> eid_server (ev_id e) = srv).
