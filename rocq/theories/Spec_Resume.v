(** A server that is started on a database it has not made from the beginning:
    what such a database has to be like, and the history it stands for. *)
From Coq Require Import String Bool ZArith List.
From Verif Require Import Base Kv Model_Types Model_Subscription Model_Codec Keys Model_Lmdb Model_LmdbSys Spec_Order Spec_Lmdb Spec_LmdbContent Spec_Copy
  Model_Convert Spec_Convert.
Import ListNotations.
Open Scope list_scope.
Open Scope Z_scope.

(** An event is stored, or was stored and has been removed: [G] are removed ones. *)
Definition once_stored (c : ldb) (G : list event) (e : event) : Prop := stored_event c e \/ In e G.
Definition last_stored (c : ldb) (G : list event) (sv : Z) (e : event) : Prop :=
  once_stored c G e /\ server_of e = sv /\ forall x, once_stored c G x -> server_of x = sv -> eid_le (ev_id x) (ev_id e).

(** Events and places of a database are consistent with each other.  Events [G]
    have been removed from it: what is recorded as the last id of a server may
    belong to one of them. *)
Record consistent_without (c : ldb) (G : list event) : Prop := {
  cs_sorted : kept_sorted c;
  cs_gone : forall e, In e G -> ~ stored_event c e;
  cs_event : forall e, once_stored c G e -> event_ok e /\ eid_lt (Eid (server_of e) 0 0) (ev_id e) /\ ts_le min_timestamp (ev_ts e);
  cs_once : forall a b, once_stored c G a -> once_stored c G b -> ev_id a = ev_id b -> a = b;
  cs_order : forall a b, once_stored c G a -> once_stored c G b -> server_of a = server_of b -> eid_lt (ev_id a) (ev_id b) -> ts_le (ev_ts a) (ev_ts b);
  cs_ids : forall s i, In (s, i) (db_ids c) <-> exists e, last_stored c G s e /\ ev_id e = i;
  cs_tss : forall s t, In (s, t) (db_tss c) <-> exists e, last_stored c G s e /\ ev_ts e = t;
  cs_types : forall r t, In (r, t) (db_types c) <-> exists e, In (r, e) (db_latest c) /\ ev_type e = t;
  cs_latest : NoDup (map ev_type (vals (db_latest c)));
  cs_parts : NoDup (vals (db_parts c));
  cs_ts : forall p t i e, In ((p, t, i), e) (db_ts c) ->
      i = ev_id e /\ exists pt, py_subscription (pt_sub pt) /\ In (p, part_data_of pt) (db_parts c) /\ place pt e = Some t;
  cs_refs : forall i r, listed c i r <-> at_ref c r i;
  cs_lists : forall i rs, In (i, rs) (db_ref c) -> rs <> [] /\ ssorted reford rs;
  cs_counts : forall p n, counter c p n <-> n = entries_in c p }.

Definition consistent (c : ldb) : Prop := exists G, consistent_without c G.

(** [H]: a history of accepted events that leads to the content of [c]. *)
Record stands_for (H : history) (c : ldb) : Prop := {
  sf_events : forall e, stored_event c e -> exists en, In en H /\ en_ev en = e;
  sf_last : forall s i, In (s, i) (db_ids c) <-> last_id H s i /\ exists en, In en H /\ server_of (en_ev en) = s;
  sf_latest : forall t e, latest_of H t = Some e <-> In e (vals (db_latest c)) /\ ev_type e = t;
  sf_ts : forall k e, In (k, e) (db_ts c) <->
      exists cf pt, In (Entry cf e) H /\ In pt (cf_parts cf) /\ In (fst (fst k), part_data_of pt) (db_parts c) /\
        place pt e = Some (snd (fst k)) /\ snd k = ev_id e }.

(** A server is started on [c] and goes on with [tr]. *)
Definition resumed (O : oracle) (cf : conf) (c : ldb) (tr : list (op * out)) (s : sys) : Prop :=
  exists d m, open_db cf c = Some (d, m) /\ runs O (Sys cf d m [] no_changes [] []) tr s /\
    Forall conf_ok (cf :: confs_of tr) /\ Forall event_ok (events_of tr).

(** What is known from watching it. *)
Definition watch_from (H : history) (cf : conf) (tr : list (op * out)) : watch := fold_left watch_step tr (Watch cf H [] [] []).


(** ** Databases of former versions *)

(** The event without its payload. *)
Definition plain7 (e : event7) : event := Ev (e7_id e) (e7_type e) (e7_ts e) (e7_src e) None.

Definition stored7 (d : db7) (e : event7) : Prop := In e (vals (d7_latest d)) \/ In e (vals (d7_data d)).
Definition server7 (e : event7) : Z := eid_server (e7_id e).
Definition once_stored7 (d : db7) (G : list event7) (e : event7) : Prop := stored7 d e \/ In e G.
Definition last_of7 (d : db7) (G : list event7) (sv : Z) (e : event7) : Prop :=
  once_stored7 d G e /\ server7 e = sv /\ forall x, once_stored7 d G x -> server7 x = sv -> eid_le (e7_id x) (e7_id e).

(** A partition has a definition that gives its entries their places. *)
Definition placed (parts : list (Z * part7)) (p : Z) (t : timestamp) (e : event) : Prop :=
  exists pt x, py_subscription (pt_sub pt) /\ In (p, x) parts /\ same_part x (part_data_of pt) /\ place pt e = Some t.

(** [G]: events that have been removed. *)
Record sound7_without (d : db7) (G : list event7) : Prop := {
  s7_valid : valid7 d;
  s7_gone : forall e, In e G -> ~ stored7 d e;
  s7_event : forall e, once_stored7 d G e -> event_ok (plain7 e) /\ eid_lt (Eid (server7 e) 0 0) (e7_id e) /\ ts_le min_timestamp (e7_ts e);
  s7_once : forall a b, once_stored7 d G a -> once_stored7 d G b -> e7_id a = e7_id b -> a = b;
  s7_order : forall a b, once_stored7 d G a -> once_stored7 d G b -> server7 a = server7 b -> eid_lt (e7_id a) (e7_id b) -> ts_le (e7_ts a) (e7_ts b);
  s7_system : forall s i t, In (s, (i, t)) (d7_system d) <-> exists e, last_of7 d G s e /\ e7_id e = i /\ e7_ts e = t;
  s7_types : forall r t, In (r, t) (d7_types d) <-> exists e, In (r, e) (d7_latest d) /\ e7_type e = t;
  s7_latest : NoDup (map e7_type (vals (d7_latest d)));
  s7_parts : NoDup (vals (d7_parts d));
  s7_data : forall p t i e, In ((p, t, i), e) (d7_data d) -> i = e7_id e /\ placed (d7_parts d) p t (plain7 e);
  s7_refs : forall i r, listed7 d i r <-> at_ref7 d r i;
  s7_lists : forall i rs, In (i, rs) (d7_ref d) -> rs <> [];
  s7_counts : forall p n, counter7 d p n <-> n = entries_in7 d p }.

Definition sound7 (d : db7) : Prop := exists G, sound7_without d G.

(** Version 0.6: all events belong to the server itself, whose number is [s]. *)
Definition plain6 (s : Z) (e : event6) : event :=
  Ev (Eid s (e6_instance e) (e6_instance e)) (e6_type e) (e6_ts e) (e6_src e) None.

Record sound6 (d : db6) (s : Z) : Prop := {
  s6_valid : valid6 d;
  s6_own : own d s;
  s6_mine : forall e, event_of6 d e -> (e6_server e = 0 \/ e6_server e = s) /\ 0 < e6_instance e;
  s6_event : forall e, event_of6 d e -> event_ok (plain6 s e) /\ ts_le min_timestamp (e6_ts e);
  s6_once : forall a b, event_of6 d a -> event_of6 d b -> e6_instance a = e6_instance b -> a = b;
  s6_order : forall a b, event_of6 d a -> event_of6 d b -> e6_instance a < e6_instance b -> ts_le (e6_ts a) (e6_ts b);
  s6_parts : NoDup (vals (d6_parts d));
  s6_data : forall p t n e, In ((p, t, n), e) (d6_data d) -> placed (d6_parts d) p t (plain6 s e);
  s6_counts : forall p n, counter6 d p n <-> n = entries_in6 d p }.
