(** Query types that make the creation of a subscription fail. *)
From Coq Require Import String List.
From Verif Require Import Model_Types.
Import ListNotations.
Open Scope string_scope.
Open Scope list_scope.

(** A query type all of whose matches are selected by an earlier one ending in
    '*'. *)
Definition shadowed (before : list etype) (q : etype) : Prop :=
  exists p r, In (p ++ ["*"]) before /\ ~ In "*" p /\ q = p ++ r.
