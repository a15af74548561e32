(** Specification of event type queries, independent of the model. *)
From Coq Require Import List String.
From Verif Require Import Model_Types.
Import ListNotations.
Open Scope string_scope.
Open Scope list_scope.

(** '*' may appear only as the last subtype of a query type. *)
Definition valid_query (q : etype) : Prop :=
  forall p r, q = p ++ "*" :: r -> r = [].

(** [qmatch q t]: query type [q] matches event type [t] (documented rules). *)
Inductive qmatch : etype -> etype -> Prop :=
| qm_end : qmatch [] []
| qm_rest : forall t, qmatch ["*"] t
| qm_one : forall q s t, qmatch q t -> qmatch ("?" :: q) (s :: t)
| qm_same : forall q s t, s <> "*" -> qmatch q t -> qmatch (s :: q) (s :: t).

(** The event types selected by a collection of query types. *)
Definition selects (qs : list etype) (t : etype) : Prop :=
  exists q, In q qs /\ valid_query q /\ qmatch q t.

(** No '*' at all: used to delimit where intersection is exact. *)
Definition starless (q : etype) : Prop := ~ In "*" q.

(** Every [p + ('*',)] in the list is preceded by [p] itself. *)
Definition stars_announced (qs : list etype) : Prop :=
  forall l p r, qs = l ++ (p ++ ["*"]) :: r -> In p l.

(** No NUL byte in a segment, and in a query type. *)
Definition no_nul (s : string) : Prop := forall a b, s <> String.append a (String Ascii.zero b).
Definition no_nuls (q : etype) : Prop := Forall no_nul q.
