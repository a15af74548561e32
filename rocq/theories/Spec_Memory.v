(** What is expected of a backend that keeps everything it is given. *)
From Coq Require Import ZArith List.
From Verif Require Import Model_Types Spec_Subscription Spec_Order Model_Memory.
Import ListNotations.
Open Scope list_scope.
Open Scope Z_scope.

(** Events given until now, oldest first. *)
Definition given (tr : list (bcall * bout)) : list event :=
  flat_map (fun x => match fst x with BRegister es => es | _ => [] end) tr.

(** Types asked for. *)
Definition asks (p : query_latest) (t : etype) : Prop :=
  match ql_types p with None => True | Some qs => selects qs t end.
Definition valid_types (p : query_latest) : Prop :=
  match ql_types p with None => True | Some qs => Forall valid_query qs end.

(** Events of one server are given in order. *)
Definition in_order (l : list event) : Prop :=
  forall l1 a l2 b l3, l = l1 ++ a :: l2 ++ b :: l3 -> server_of a = server_of b ->
    eid_lt (ev_id a) (ev_id b) /\ ts_le (ev_ts a) (ev_ts b).

(** The last event of a type among those with the greatest timestamp. *)
Definition newest_given (l : list event) (t : etype) (e : event) : Prop :=
  exists l1 l2, l = l1 ++ e :: l2 /\ ev_type e = t /\
    (forall x, In x l1 -> ev_type x = t -> ts_le (ev_ts x) (ev_ts e)) /\
    (forall x, In x l2 -> ev_type x = t -> ts_lt (ev_ts x) (ev_ts e)).

(** The id of the last event of a server, and the id if there is none. *)
Definition last_given (l : list event) (s : Z) (i : event_id) : Prop :=
  (exists l1 e l2, l = l1 ++ e :: l2 /\ ev_id e = i /\ server_of e = s /\ forall x, In x l2 -> server_of x <> s) \/
  ((forall x, In x l -> server_of x <> s) /\ i = Eid s 0 0).
