(** Which event types the intersection of subscriptions matches, and when C
    subscriptions are reported to overlap; on the level of query types. *)
From Coq Require Import String Arith List.
From Verif Require Import Model_Types Spec_Subscription.
Import ListNotations.
Open Scope string_scope.
Open Scope list_scope.

(** Some query type ending in '*' matches [t]. *)
Definition star_match (qs : list etype) (t : etype) : Prop :=
  exists p, In (p ++ ["*"]) qs /\ starless p /\ qmatch (p ++ ["*"]) t.

(** Some query type ending in '*' matches [t], its '*' standing for at least
    one subtype. *)
Definition star_match_more (qs : list etype) (t : etype) : Prop :=
  exists p, In (p ++ ["*"]) qs /\ starless p /\ qmatch (p ++ ["*"]) t /\ length p < length t.

(** [t] is matched other than by a '*' which stands for nothing: by a '*'
    standing for at least one subtype or by a query type [q] without '*' given
    before [q + ('*',)], if that is given at all. *)
Definition proper_match (qs : list etype) (t : etype) : Prop :=
  star_match_more qs t \/
  exists a q b, qs = a ++ q :: b /\ starless q /\ qmatch q t /\ ~ In (q ++ ["*"]) a.

(** The same, [q + ('*',)] is not given at all. *)
Definition proper_match_alone (qs : list etype) (t : etype) : Prop :=
  star_match_more qs t \/
  exists q, In q qs /\ starless q /\ qmatch q t /\ ~ In (q ++ ["*"]) qs.

(** Subtypes of query types which have a common instance. *)
Definition compatible (a b : string) : Prop := a = b \/ a = "?" \/ b = "?".

(** A query type of [qs1] without '*', which no other query type of [qs1]
    extends, is compatible with the beginning of a longer query type of
    [qs2]. *)
Definition clash (qs1 qs2 : list etype) : Prop :=
  exists q p x r, In q qs1 /\ starless q /\ (forall y s, ~ In (q ++ y :: s) qs1) /\
    In (p ++ x :: r) qs2 /\ valid_query (p ++ x :: r) /\ Forall2 compatible q p.
