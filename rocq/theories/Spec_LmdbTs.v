(** What is expected of timeseries queries to the LMDB backend, over whole
    executions. *)
From Coq Require Import String Bool ZArith Sorted List.
From Verif Require Import Base Model_Types Model_Subscription Model_Codec Spec_Subscription Model_Lmdb Model_LmdbSys
  Spec_Lmdb Spec_LmdbContent Spec_LmdbQuery.
Import ListNotations.
Open Scope list_scope.
Open Scope Z_scope.

(** [isdisjoint] answers as it should (C05). *)
Definition disj_ok (O : oracle) : Prop := forall qs1 qs2 a b, py_create qs1 = Some a -> py_create qs2 = Some b ->
  (or_disj O a b = true <-> forall t, ~ (selects qs1 t /\ selects qs2 t)).

(** Subscriptions of partitions are made of query types. *)
Definition made (cf : conf) : Prop := forall pt, In pt (cf_parts cf) -> exists qs, py_create qs = Some (pt_sub pt).

Definition types_asked (p : query_timeseries) (t : etype) : Prop :=
  match qt_types p with None => True | Some qs => selects qs t end.

(** A partition that can have requested events. *)
Definition suits (p : query_timeseries) (pt : partition) : Prop :=
  pt_order pt = qt_order_by p /\
  (qt_types p = None \/ exists t, node_matches (pt_sub pt) t = true /\ types_asked p t).

(** The first one of them, which has number [n]. *)
Definition chosen (cf : conf) (d : ldb) (p : query_timeseries) (n : Z) (pt : partition) : Prop :=
  exists a b, cf_parts cf = a ++ pt :: b /\ suits p pt /\ (forall x, In x a -> ~ suits p x) /\ In (n, part_data_of pt) (db_parts d).

(** Entries of a partition: those in the database, and those waiting for the
    next flush in the order of registration. *)
Definition stored_in (d : ldb) (n : Z) : list (timestamp * event) :=
  map (fun kv => (snd (fst (fst kv)), snd kv)) (filter (fun kv => fst (fst (fst kv)) =? n) (db_ts d)).
Definition pending_in (pt : partition) (h : history) : list (timestamp * event) :=
  flat_map (fun en => match place pt (en_ev en) with Some t => [(t, en_ev en)] | None => [] end) h.

Definition in_order (l : list (timestamp * event)) : Prop :=
  StronglySorted (fun a b => ts_leb (fst a) (fst b) = true) l.

(** The requested range of timestamps that order the events. *)
Definition order_from (p : query_timeseries) : option timestamp :=
  match qt_order_by p with TIMESTAMP => qt_from p | SOURCE_TIMESTAMP => qt_sfrom p end.
Definition order_to (p : query_timeseries) : option timestamp :=
  match qt_order_by p with TIMESTAMP => qt_to p | SOURCE_TIMESTAMP => qt_sto p end.
Definition within (lo hi : option timestamp) (t : timestamp) : bool :=
  match lo with Some x => ts_leb x t | None => true end && match hi with Some x => ts_leb t x | None => true end.

(** Pending entries are in order, or there is no range to look for. *)
Definition cuttable (p : query_timeseries) (l : list (timestamp * event)) : Prop :=
  in_order l \/ (order_from p = None /\ order_to p = None).

(** Entries within the range, in the requested order. *)
Definition in_sequence (p : query_timeseries) (l : list (timestamp * event)) : list event :=
  let es := map snd (filter (fun x => within (order_from p) (order_to p) (fst x)) l) in
  match qt_order p with ASCENDING => es | DESCENDING => rev es end.

(** What follows the event with the given id (nothing, if it is not there). *)
Fixpoint behind (i : event_id) (l : list event) : list event :=
  match l with
  | [] => []
  | e :: l' => if eid_eqb (ev_id e) i then l' else behind i l'
  end.
Definition following (last : option event_id) (l : list event) : list event :=
  match last with Some i => behind i l | None => l end.

(** An event that is asked for; events without source timestamp are not in any
    range of source timestamps. *)
Definition wanted (p : query_timeseries) (e : event) : Prop :=
  types_asked p (ev_type e) /\ within (qt_from p) (qt_to p) (ev_ts e) = true /\
  match ev_src e with
  | Some t => within (qt_sfrom p) (qt_sto p) t = true
  | None => qt_sfrom p = None /\ qt_sto p = None
  end.

(** The smaller one of the requested and the configured number of events. *)
Definition ts_max (cf : conf) (p : query_timeseries) : Z :=
  match qt_max p with Some m => Z.min m (cf_ts_max cf) | None => cf_ts_max cf end.

(** [L] is what is wanted of what follows the given last event. *)
Definition selected (p : query_timeseries) (S L : list event) : Prop :=
  exists w, (forall e, w e = true <-> wanted p e) /\ L = filter w (following (qt_last p) S).

(** The timestamp that orders events. *)
Definition order_ts (p : query_timeseries) (e : event) : option timestamp :=
  match qt_order_by p with TIMESTAMP => Some (ev_ts e) | SOURCE_TIMESTAMP => ev_src e end.
Definition ordered (p : query_timeseries) (l : list event) : Prop :=
  StronglySorted (fun a b => exists t u, order_ts p a = Some t /\ order_ts p b = Some u /\
    match qt_order p with ASCENDING => ts_leb t u = true | DESCENDING => ts_leb u t = true end) l.

(** The answer, given the entries [l] of the partition: a page of the selected
    events, each once; sorted if the entries are. *)
Definition ts_answer (cf : conf) (p : query_timeseries) (l : list (timestamp * event)) (a : out) : Prop :=
  exists L, selected p (in_sequence p l) L /\ a = Answer (Some (page (ts_max cf p) L)) /\ NoDup (map ev_id L) /\
    (in_order l -> ordered p L).

(** In general, pending entries are looked through in the requested order from
    the first one that does not precede the range, and up to the first one that
    is behind it. *)
Fixpoint from_first {A} (f : A -> bool) (l : list A) : list A :=
  match l with [] => [] | x :: l' => if f x then l else from_first f l' end.
Fixpoint as_long_as {A} (f : A -> bool) (l : list A) : list A :=
  match l with [] => [] | x :: l' => if f x then x :: as_long_as f l' else [] end.
Definition scanned (p : query_timeseries) (es : list (timestamp * event)) : list event :=
  let lower t := within (order_from p) None t in
  let upper t := within None (order_to p) t in
  map snd match qt_order p with
          | ASCENDING => as_long_as (fun x => upper (fst x)) (from_first (fun x => lower (fst x)) es)
          | DESCENDING => as_long_as (fun x => lower (fst x)) (from_first (fun x => upper (fst x)) (rev es))
          end.

(** All events that are looked at, given the stored entries [D] and the pending
    entries [P]. *)
Definition looked_at (p : query_timeseries) (D P : list (timestamp * event)) : list event :=
  match qt_order p with
  | ASCENDING => in_sequence p D ++ scanned p P
  | DESCENDING => scanned p P ++ in_sequence p D
  end.

Definition ts_exact (cf : conf) (p : query_timeseries) (S : list event) (a : out) : Prop :=
  exists L, selected p S L /\ a = Answer (Some (page (ts_max cf p) L)) /\ NoDup (map ev_id L).

(** Entries in the database which meet the conditions. *)
Definition seen (cond : event -> bool) (l : list (timestamp * event)) : list (timestamp * event) := filter (fun x => cond (snd x)) l.

(** Pending entries as a query sees them: at the time of the query, or (in
    ascending order) when it is answered, unless they were flushed before. *)
Definition pending_for (p : query_timeseries) (cf : conf) (trA trB : list (op * out)) : history :=
  match qt_order p with
  | ASCENDING => w_cur (pending_at (watch_run cf trA) trB)
  | DESCENDING => w_cur (watch_run cf trA)
  end.

(** Nothing is registered, flushed or removed, and no restart. *)
Definition still (tr : list (op * out)) : Prop := forall o x, In (o, x) tr ->
  match o with ORegister _ | OFlush | OReopen _ => False | _ => True end /\
  match x with Wrote | Cleaned _ => False | _ => True end.

(** The same query with another last id and number of events. *)
Definition ask_page (p : query_timeseries) (last : option event_id) (max : option Z) : query_timeseries :=
  QTimeseries (qt_types p) (qt_from p) (qt_to p) (qt_sfrom p) (qt_sto p) (qt_order p) (qt_order_by p) max last.

(** Paging through a timeseries query after [tr0]; see [paging].  A query can
    be answered later or at once. *)
Inductive ts_paging (cf : conf) (p : query_timeseries) (tr0 : list (op * out)) :
  list (op * out) -> option event_id -> list event -> bool -> Prop :=
| ts_paging_start : ts_paging cf p tr0 tr0 (qt_last p) [] true
| ts_paging_later : forall tr last acc trA q max trB es more,
    ts_paging cf p tr0 tr last acc true -> still trA -> still trB -> 1 <= ts_max (w_conf (watch_run cf tr0)) (ask_page p last max) ->
    ~ In q (queries_of tr) -> ~ In q (queries_of trA) -> ~ In q (queries_of trB) ->
    ts_paging cf p tr0 (tr ++ trA ++ (OTs q (ask_page p last max), Quiet) :: trB ++ [(ODeliver q, Answer (Some (QRes es more)))])
      (last_received last es) (acc ++ es) more
| ts_paging_at_once : forall tr last acc trA q max es more,
    ts_paging cf p tr0 tr last acc true -> still trA -> 1 <= ts_max (w_conf (watch_run cf tr0)) (ask_page p last max) ->
    ts_paging cf p tr0 (tr ++ trA ++ [(OTs q (ask_page p last max), Answer (Some (QRes es more)))])
      (last_received last es) (acc ++ es) more.

(** An accepted event has an entry in a partition: the configuration it was
    accepted with has a partition with the same description. *)
Definition belongs (pt : partition) (en : entry) (t : timestamp) : Prop :=
  (exists pt', In pt' (cf_parts (en_conf en)) /\ part_data_of pt' = part_data_of pt) /\ place pt (en_ev en) = Some t.
