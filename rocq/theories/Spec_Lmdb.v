(** What the LMDB backend is expected to keep: a history of accepted events,
    from which the content of the database and the answers to queries follow.
    Nothing here depends on how the backend works. *)
From Coq Require Import String Bool ZArith List.
From Verif Require Import Base Model_Types Model_Subscription Model_Codec Model_Lmdb Model_LmdbSys.
Import ListNotations.
Open Scope Z_scope.

(** An accepted event and the configuration in force when it was accepted. *)
Record entry := Entry { en_conf : conf; en_ev : event }.
(** Oldest first. *)
Definition history := list entry.

Definition server_eqb (a b : event) : bool := eid_server (ev_id a) =? eid_server (ev_id b).

(** Newer: by id for events of one server, otherwise by timestamp. *)
Definition newer (a b : event) : bool :=
  if server_eqb a b then eid_ltb (ev_id b) (ev_id a) else ts_ltb (ev_ts b) (ev_ts a).

(** The subscription of latest events. *)
Definition covers (cf : conf) (t : etype) : bool := node_matches (cf_latest cf) t.

(** The latest event of a type: later entries replace it unless what is there
    is newer.  Events which do not meet the conditions in force are ignored. *)
Definition latest_step (t : etype) (cur : option event) (en : entry) : option event :=
  if etype_eqb (ev_type (en_ev en)) t && covers (en_conf en) t then
    match cur with
    | Some p => if cf_cond (en_conf en) p && newer p (en_ev en) then cur else Some (en_ev en)
    | None => Some (en_ev en)
    end
  else cur.
Definition latest_of (H : history) (t : etype) : option event := fold_left (latest_step t) H None.

(** ... as far as a configuration lets it be seen. *)
Definition visible (cf : conf) (H : history) (t : etype) : option event :=
  match latest_of H t with
  | Some e => if covers cf t && cf_cond cf e then Some e else None
  | None => None
  end.

(** The timestamp of an event in a partition, if it belongs there. *)
Definition place (pt : partition) (e : event) : option timestamp :=
  if node_matches (pt_sub pt) (ev_type e) then
    match pt_order pt with
    | TIMESTAMP => Some (ev_ts e)
    | SOURCE_TIMESTAMP => ev_src e
    end
  else None.

(** The event comes after all events of its server. *)
Definition follows (H : history) (e : event) : bool :=
  eid_ltb (Eid (eid_server (ev_id e)) 0 0) (ev_id e) && ts_leb min_timestamp (ev_ts e) &&
  forallb (fun en => negb (server_eqb (en_ev en) e)
                     || (eid_ltb (ev_id (en_ev en)) (ev_id e) && ts_leb (ev_ts (en_ev en)) (ev_ts e))) H.

(** The event becomes the latest one of its type. *)
Definition becomes_latest (H : history) (cf : conf) (e : event) : bool :=
  covers cf (ev_type e) &&
  match visible cf H (ev_type e) with Some p => negb (newer p e) | None => true end.

(** The event belongs to some partition. *)
Definition has_place (cf : conf) (e : event) : bool :=
  existsb (fun pt => match place pt e with Some _ => true | None => false end) (cf_parts cf).

(** Events which are accepted. *)
Definition accepts (H : history) (cf : conf) (e : event) : bool :=
  follows H e && cf_cond cf e && (becomes_latest H cf e || has_place cf e).

(** [take_events cf H es]: what is accepted of [es] after [H]. *)
Fixpoint take_events (cf : conf) (H : history) (es : list event) : history :=
  match es with
  | [] => []
  | e :: es' =>
      if accepts H cf e then Entry cf e :: take_events cf (H ++ [Entry cf e]) es'
      else take_events cf H es'
  end.

(** What is known from watching a backend: configuration; accepted events that
    were written, that wait for being written (one list for each flush in
    progress) and that were registered since the last flush; what was removed
    from the partitions. *)
Record watch := Watch {
  w_conf : conf;
  w_disk : history;
  w_queue : list history;
  w_cur : history;
  w_gone : list ts_key }.

Definition w_all (w : watch) : history := w_disk w ++ concat (w_queue w) ++ w_cur w.

Definition watch_step (w : watch) (x : op * out) : watch :=
  match x with
  | (ORegister es, _) =>
      Watch (w_conf w) (w_disk w) (w_queue w) (w_cur w ++ take_events (w_conf w) (w_all w) es) (w_gone w)
  | (OFlush, _) => Watch (w_conf w) (w_disk w) (w_queue w ++ [w_cur w]) [] (w_gone w)
  | (OWork, Wrote) => Watch (w_conf w) (w_disk w ++ hd [] (w_queue w)) (tl (w_queue w)) (w_cur w) (w_gone w)
  | (OWork, Cleaned ks) => Watch (w_conf w) (w_disk w) (w_queue w) (w_cur w) (w_gone w ++ ks)
  | (OReopen cf, _) => Watch cf (w_disk w) [] [] (w_gone w)
  | _ => w
  end.

Definition watch_start (cf : conf) : watch := Watch cf [] [] [] [].
Definition watch_run (cf : conf) (tr : list (op * out)) : watch := fold_left watch_step tr (watch_start cf).

(** Configurations as they can be: subscriptions are made by the library. *)
Definition conf_ok (cf : conf) : Prop :=
  py_subscription (cf_latest cf) /\ Forall (fun pt => py_subscription (pt_sub pt)) (cf_parts cf).

(** Events as they can be: ids and timestamps fit the byte form (otherwise they
    can not be written), microseconds are normalized; the very last id is left
    out. *)
Definition ts_ok (t : timestamp) : Prop := - 2 ^ 63 <= ts_s t < 2 ^ 63 /\ 0 <= ts_us t < 1000000.
Definition event_ok (e : event) : Prop :=
  (0 <= eid_server (ev_id e) < 2 ^ 64 /\ 0 <= eid_session (ev_id e) < 2 ^ 64 /\ 0 <= eid_instance (ev_id e) < 2 ^ 64) /\
  ev_id e <> Eid (2 ^ 64 - 1) (2 ^ 64 - 1) (2 ^ 64 - 1) /\
  ts_ok (ev_ts e) /\ (forall t, ev_src e = Some t -> ts_ok t).

Definition confs_of (tr : list (op * out)) : list conf :=
  flat_map (fun x => match fst x with OReopen cf => [cf] | _ => [] end) tr.

Definition events_of (tr : list (op * out)) : list event :=
  flat_map (fun x => match fst x with ORegister es => es | _ => [] end) tr.

(** An execution from the first start on, and what was seen of it. *)
Definition execution (O : oracle) (cf : conf) (tr : list (op * out)) (s : sys) : Prop :=
  exists s0, start cf = Some s0 /\ runs O s0 tr s /\ Forall conf_ok (cf :: confs_of tr) /\ Forall event_ok (events_of tr).
