(** Specification of histories of a collection whose additions may fail. *)
From Coq Require Import List String.
From Verif Require Import Model_Types Model_Subscription Model_Collection.
Import ListNotations.

(** [returned ops bs v t]: some subscription matching [t] was added for [v] since
    the last removal of [v], by a call that returned ([bs] tells for each operation
    whether it did). *)
Definition returned {V} (ops : list (coll_op V)) (bs : list bool) (v : V) (t : etype) : Prop :=
  exists before s after,
    combine ops bs = before ++ (OpAdd s v, true) :: after /\ ~ In (OpRemove v) (map fst after) /\
    node_matches s t = true.

(** Nothing was added for [v] since its last removal. *)
Definition absent {V} (ops : list (coll_op V)) (v : V) : Prop :=
  forall before s after, ops = before ++ OpAdd s v :: after -> In (OpRemove v) after.
