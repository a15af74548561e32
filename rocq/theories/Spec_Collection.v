(** Specification of event type collections. *)
From Coq Require Import List String.
From Verif Require Import Model_Types Model_Subscription Model_Collection.
Import ListNotations.

(** [selected ops v t]: some subscription added for [v] since the last removal
    of [v] matches [t]. *)
Definition selected {V} (ops : list (coll_op V)) (v : V) (t : etype) : Prop :=
  exists before s after,
    ops = before ++ OpAdd s v :: after /\ ~ In (OpRemove v) after /\
    node_matches s t = true.

(** Subscriptions in the history are real ones. *)
Definition ops_ok {V} (ops : list (coll_op V)) : Prop :=
  forall s v, In (OpAdd s v) ops -> py_subscription s.

(** No value is added again before being removed. *)
Definition added_once {V} (ops : list (coll_op V)) : Prop :=
  forall a s v b s' c, ops = a ++ OpAdd s v :: b ++ OpAdd s' v :: c -> In (OpRemove v) b.
