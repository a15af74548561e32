(** What is expected of converted databases. *)
From Coq Require Import String Bool ZArith List.
From Verif Require Import Base Kv Model_Types Model_Codec Keys Model_Lmdb Spec_Order Spec_LmdbContent Spec_Copy Model_Convert.
Import ListNotations.
Open Scope string_scope.
Open Scope list_scope.
Open Scope Z_scope.

(** The same payload in the new version. *)
Inductive same_payload : option payload7 -> option payload -> Prop :=
| sp_none : same_payload None None
| sp_binary : forall b, same_payload (Some (P7Binary b)) (Some (PBinary "" b))
| sp_json : forall j, same_payload (Some (P7Json j)) (Some (PJson j))
| sp_sbs : forall t b, same_payload (Some (P7Sbs None t b)) (Some (PBinary t b))
| sp_module : forall m t b, same_payload (Some (P7Sbs (Some m) t b)) (Some (PBinary (m ++ "." ++ t) b)).

(** ** Version 0.7 *)

Definition same_event (a : event7) (b : event) : Prop :=
  ev_id b = e7_id a /\ ev_type b = e7_type a /\ ev_ts b = e7_ts a /\ ev_src b = e7_src a /\
  same_payload (e7_payload a) (ev_payload b).

(** The same partition: 1 stands for timestamps, 2 for source timestamps. *)
Definition same_part (a : part7) (b : part_data) : Prop :=
  pd_subs b = p7_subs a /\
  (p7_order a = 1 /\ pd_order b = "timestamp" \/ p7_order a = 2 /\ pd_order b = "sourceTimestamp").

(** Databases as LMDB keeps them, with known orders of partitions. *)
Record valid7 (d : db7) : Prop := {
  v7_system : NoDup (keys (d7_system d));
  v7_ref : NoDup (keys (d7_ref d));
  v7_latest : NoDup (keys (d7_latest d));
  v7_types : NoDup (keys (d7_types d));
  v7_data : NoDup (keys (d7_data d));
  v7_parts : NoDup (keys (d7_parts d));
  v7_counts : NoDup (keys (d7_counts d));
  v7_orders : forall p x, In (p, x) (d7_parts d) -> p7_order x = 1 \/ p7_order x = 2 }.

Definition listed7 (d : db7) (i : event_id) (r : event_ref) : Prop := exists rs, In (i, rs) (d7_ref d) /\ In r rs.
Definition at_ref7 (d : db7) (r : event_ref) (i : event_id) : Prop :=
  match r with
  | LatestRef k => exists e, In (k, e) (d7_latest d) /\ e7_id e = i
  | TimeseriesRef k => exists e, In (k, e) (d7_data d) /\ e7_id e = i
  end.
Definition entries_in7 (d : db7) (p : Z) : Z :=
  Z.of_nat (List.length (filter (fun kv => fst (fst (fst kv)) =? p) (d7_data d))).
Definition counter7 (d : db7) (p n : Z) : Prop :=
  In (p, n) (d7_counts d) \/ (n = 0 /\ ~ In p (keys (d7_counts d))).

(** ** Version 0.6 *)

(** The server's own number: 0 becomes 1. *)
Definition own (d : db6) (s : Z) : Prop :=
  (d6_server d = Some 0 /\ s = 1) \/ (d6_server d = Some s /\ 1 <= s).

(** The same event in the new version: events of server 0 belong to the server
    itself, and every event is a session of its own. *)
Definition new_server (s sv : Z) : Z := if sv =? 0 then s else sv.
Definition moved (s : Z) (a : event6) (b : event) : Prop :=
  ev_id b = Eid (new_server s (e6_server a)) (e6_instance a) (e6_instance a) /\
  ev_type b = e6_type a /\ ev_ts b = e6_ts a /\ ev_src b = e6_src a /\ same_payload (e6_payload a) (ev_payload b).

Definition event_of6 (d : db6) (e : event6) : Prop := In e (d6_latest d) \/ In e (vals (d6_data d)).

(** Databases as version 0.6 kept them: one latest event for a type, ordered data
    by number of the event. *)
Record valid6 (d : db6) : Prop := {
  v6_own : exists s, own d s;
  v6_servers : forall e, event_of6 d e -> 0 <= e6_server e;
  v6_types : NoDup (map e6_type (d6_latest d));
  v6_data : NoDup (keys (d6_data d));
  v6_number : forall p t n e, In ((p, t, n), e) (d6_data d) -> n = e6_instance e;
  v6_parts : NoDup (keys (d6_parts d));
  v6_counts : NoDup (keys (d6_counts d));
  v6_orders : forall p x, In (p, x) (d6_parts d) -> p7_order x = 1 \/ p7_order x = 2 }.

Definition entries_in6 (d : db6) (p : Z) : Z :=
  Z.of_nat (List.length (filter (fun kv => fst (fst (fst kv)) =? p) (d6_data d))).
Definition counter6 (d : db6) (p n : Z) : Prop :=
  In (p, n) (d6_counts d) \/ (n = 0 /\ ~ In p (keys (d6_counts d))).

(** The greatest id of the events of a database. *)
Definition greatest (c : ldb) (e : event) : Prop :=
  stored_event c e /\ forall x, stored_event c x -> eid_le (ev_id x) (ev_id e).

(** The last event of a server. *)
Definition last_of (c : ldb) (sv : Z) (e : event) : Prop :=
  stored_event c e /\ server_of e = sv /\
  forall x, stored_event c x -> server_of x = sv -> eid_le (ev_id x) (ev_id e).
