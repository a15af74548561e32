(** What is expected of server queries to the LMDB backend, over whole
    executions. *)
From Coq Require Import String Bool ZArith Sorted List.
From Verif Require Import Base Model_Types Model_Subscription Model_Codec Model_Lmdb Model_LmdbSys Spec_Lmdb Spec_LmdbContent.
Import ListNotations.
Open Scope list_scope.
Open Scope Z_scope.

(** [util.first] of a set that is not empty takes one of its elements. *)
Definition pick_ok (O : oracle) : Prop := forall l, l <> [] -> exists r, or_pick O l = Some r /\ In r l.

(** In increasing order of ids, so each id once. *)
Definition by_id (l : list event) : Prop := StronglySorted (fun a b => eid_ltb (ev_id a) (ev_id b) = true) l.

(** The first [max] of [l], and whether this leaves something out. *)
Definition page (max : Z) (l : list event) : query_result :=
  QRes (firstn (Z.to_nat max) l) (max <? Z.of_nat (List.length l)).

(** An accepted event that has not been replaced by a newer one, or belongs to
    some partition. *)
Definition live (H : history) (en : entry) : Prop :=
  latest_of H (ev_type (en_ev en)) = Some (en_ev en) \/ has_place (en_conf en) (en_ev en) = true.

(** Events of the current generation, followed until it is closed by a flush. *)
Fixpoint pending_at (w : watch) (tr : list (op * out)) : watch :=
  match tr with
  | [] => w
  | (OFlush, _) :: _ => w
  | x :: tr' => pending_at (watch_step w x) tr'
  end.

(** Ids of queries that were started. *)
Definition queries_of (tr : list (op * out)) : list nat :=
  flat_map (fun x => match fst x with OServer q _ => [q] | OTs q _ => [q] | _ => [] end) tr.

(** After the given last id. *)
Definition after (last : option event_id) (e : event) : Prop :=
  match last with Some i => eid_ltb i (ev_id e) = true | None => True end.

(** The smaller one of the requested and the fixed number of events. *)
Definition server_max (p : query_server) : Z :=
  match qs_max p with Some m => Z.min m 4096 | None => 4096 end.

(** An event that waits for a flush, and is still live with the events written
    by that flush. *)
Definition waits (w : watch) (e : event) : Prop :=
  exists Q1 g Q2 en, w_queue w ++ [w_cur w] = Q1 ++ g :: Q2 /\ In en g /\ en_ev en = e /\ live (w_disk w ++ concat Q1 ++ g) en.

(** An event is kept: it is in the database or, unless only what is persisted
    counts, waits for a flush. *)
Definition held (persisted : bool) (d : ldb) (w : watch) (e : event) : Prop :=
  stored_event d e \/ (persisted = false /\ waits w e).

(** The last id received. *)
Definition last_received (last : option event_id) (es : list event) : option event_id :=
  match rev es with e :: _ => Some (ev_id e) | [] => last end.

(** Paging through a server query, starting after [tr0]: the state of this
    after an execution ([tr]), the last id received, all received events and
    [more_follows].  Anything but a restart may happen during and between the
    queries. *)
Inductive paging (srv : Z) (persisted : bool) (last0 : option event_id) (tr0 : list (op * out)) :
  list (op * out) -> option event_id -> list event -> bool -> Prop :=
| paging_start : paging srv persisted last0 tr0 tr0 last0 [] true
| paging_page : forall tr last acc trA q p trB es more,
    paging srv persisted last0 tr0 tr last acc true ->
    no_reopen trA -> no_reopen trB ->
    qs_server p = srv -> qs_persisted p = persisted -> qs_last p = last -> 1 <= server_max p ->
    ~ In q (queries_of tr) -> ~ In q (queries_of trA) -> ~ In q (queries_of trB) ->
    paging srv persisted last0 tr0
      (tr ++ trA ++ (OServer q p, Quiet) :: trB ++ [(ODeliver q, Answer (Some (QRes es more)))])
      (last_received last es) (acc ++ es) more.
