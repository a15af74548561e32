(** What is expected of paging through a timeseries query while events are
    registered, flushed and removed. *)
From Coq Require Import String Bool ZArith Sorted List.
From Verif Require Import Base Model_Types Model_Subscription Model_Codec Model_Lmdb Model_LmdbSys
  Spec_Lmdb Spec_LmdbContent Spec_LmdbQuery Spec_LmdbTs.
Import ListNotations.
Open Scope list_scope.
Open Scope Z_scope.

(** By timestamp, and by id for equal timestamps. *)
Definition earlier (t u : timestamp) (i j : event_id) : bool := ts_ltb t u || (ts_eqb t u && eid_ltb i j).

(** [a] comes before [b] in the requested order. *)
Definition precedes (p : query_timeseries) (a b : event) : Prop :=
  exists t u, order_ts p a = Some t /\ order_ts p b = Some u /\
    match qt_order p with
    | ASCENDING => earlier t u (ev_id a) (ev_id b) = true
    | DESCENDING => earlier u t (ev_id b) (ev_id a) = true
    end.

(** A requested page: the last id, what happened before the query, and what
    happened until it was answered. *)
Record ts_page := TsPage { pg_last : option event_id; pg_before : list (op * out); pg_during : list (op * out) }.

(** Paging from the beginning, after [tr0]: the state of this after an
    execution, the last id received, all received events, [more_follows], and
    the pages.  Anything but a restart may happen during and between queries. *)
Inductive ts_pages (cf : conf) (p : query_timeseries) (tr0 : list (op * out)) :
  list (op * out) -> option event_id -> list event -> bool -> list ts_page -> Prop :=
| ts_pages_start : ts_pages cf p tr0 tr0 None [] true []
| ts_pages_later : forall tr last acc pgs trA q max trB es more,
    ts_pages cf p tr0 tr last acc true pgs -> no_reopen trA -> no_reopen trB ->
    1 <= ts_max (w_conf (watch_run cf tr0)) (ask_page p last max) ->
    ~ In q (queries_of tr) -> ~ In q (queries_of trA) -> ~ In q (queries_of trB) ->
    ts_pages cf p tr0 (tr ++ trA ++ (OTs q (ask_page p last max), Quiet) :: trB ++ [(ODeliver q, Answer (Some (QRes es more)))])
      (last_received last es) (acc ++ es) more (pgs ++ [TsPage last (tr ++ trA) trB])
| ts_pages_at_once : forall tr last acc pgs trA q max es more,
    ts_pages cf p tr0 tr last acc true pgs -> no_reopen trA ->
    1 <= ts_max (w_conf (watch_run cf tr0)) (ask_page p last max) ->
    ts_pages cf p tr0 (tr ++ trA ++ [(OTs q (ask_page p last max), Answer (Some (QRes es more)))])
      (last_received last es) (acc ++ es) more (pgs ++ [TsPage last (tr ++ trA) []]).

(** All events are of one server and are ordered by timestamp; or no query
    finds pending entries. *)
Definition orderly (cf : conf) (p : query_timeseries) (tr : list (op * out)) (pgs : list ts_page) : Prop :=
  (qt_order_by p = TIMESTAMP /\ exists srv, forall e, In e (events_of tr) -> eid_server (ev_id e) = srv) \/
  (forall pg, In pg pgs -> pending_for p cf (pg_before pg) (pg_during pg) = []).

(** No page was asked for after the last event of the former page was removed
    from partition [n]. *)
Definition lasts_kept (cf : conf) (n : Z) (pgs : list ts_page) : Prop :=
  forall pg i t, In pg pgs -> pg_last pg = Some i -> ~ In (n, t, i) (w_gone (watch_run cf (pg_before pg ++ pg_during pg))).
