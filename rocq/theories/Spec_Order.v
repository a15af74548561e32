(** Chronological order of timestamps, order of event ids, and histories in
    which ids and timestamps of a server grow together. *)
From Coq Require Import ZArith.
From Verif Require Import Model_Types.
Open Scope Z_scope.

(** [t] as a number of microseconds (meaningful for normalized timestamps). *)
Definition ts_total (t : timestamp) : Z := ts_s t * 1000000 + ts_us t.

(** Earlier: lexicographic order of (seconds, microseconds). *)
Definition ts_lt (a b : timestamp) : Prop := ts_s a < ts_s b \/ ts_s a = ts_s b /\ ts_us a < ts_us b.
Definition ts_le (a b : timestamp) : Prop := ts_lt a b \/ a = b.

(** Lexicographic order of (server, session, instance). *)
Definition eid_lt (a b : event_id) : Prop :=
  eid_server a < eid_server b \/
  eid_server a = eid_server b /\
  (eid_session a < eid_session b \/
   eid_session a = eid_session b /\ eid_instance a < eid_instance b).
Definition eid_le (a b : event_id) : Prop := eid_lt a b \/ a = b.

Definition server_of (e : event) : Z := eid_server (ev_id e).

(** Events of one server have ids and timestamps that grow together (equal ids
    meaning equal timestamps). *)
Definition grow_together (S : event -> Prop) : Prop :=
  forall a b, S a -> S b -> server_of a = server_of b -> eid_le (ev_id a) (ev_id b) -> ts_le (ev_ts a) (ev_ts b).

(** Events of different servers never have the same timestamp. *)
Definition distinct_instants (S : event -> Prop) : Prop :=
  forall a b, S a -> S b -> ev_ts a = ev_ts b -> server_of a = server_of b.
