(** What is expected of the dummy backend. *)
From Coq Require Import String Bool ZArith List.
From Verif Require Import Base Model_Types Model_Eventer Model_Dummy.
Import ListNotations.
Open Scope list_scope.
Open Scope nat_scope.

(** Life of a backend with a registered callback ([rb]), a flushed one ([fb]). *)
Definition dummy_run (rb fb : bool) (tr : list mitem) : Prop := exists s, mruns rb fb mstart tr s.

Definition seen (tr : list mitem) : list mout := flat_map snd tr.
(** Calls of [register], in order. *)
Definition requested (tr : list mitem) : list (nat * list event) := flat_map (fun x => match fst x with MRegister n es => [(n, es)] | _ => [] end) tr.

(** What is seen of one call. *)
Definition about (n : nat) (x : mout) : bool :=
  match x with CalledRegistered m _ | CalledFlushed m _ | Returned m _ | Broken m => Nat.eqb n m | _ => false end.
Definition seen_of (n : nat) (tr : list mitem) : list mout := filter (about n) (seen tr).

(** A call from its beginning to its end: both callbacks with all the events,
    then it returns the events. *)
Definition whole (rb fb : bool) (n : nat) (es : list event) : list mout :=
  (if rb then [CalledRegistered n es] else []) ++ (if fb then [CalledFlushed n es] else []) ++ [Returned n es].

(** It is under way or was broken off. *)
Definition part_of (n : nat) (l w : list mout) : Prop := exists a b, w = a ++ b /\ a <> [] /\ (l = a \/ (b <> [] /\ l = a ++ [Broken n])).

(** Batches in the order of the calls of the callbacks. *)
Definition registered_calls (tr : list mitem) : list (nat * list event) :=
  flat_map (fun x => match x with CalledRegistered n es => [(n, es)] | _ => [] end) (seen tr).
Definition flushed_calls (tr : list mitem) : list (nat * list event) :=
  flat_map (fun x => match x with CalledFlushed n es => [(n, es)] | _ => [] end) (seen tr).

(** No call begins while another one is under way. *)
Definition ended (n : nat) (tr : list mitem) : Prop := (exists es, In (Returned n es) (seen tr)) \/ In (Broken n) (seen tr).
Definition one_by_one (tr : list mitem) : Prop :=
  forall a n es l b m es', tr = a ++ (MRegister n es, l) :: b -> In (m, es') (requested a) -> ended m a.

(** [a] is [b] with some elements left out. *)
Inductive sublist {A : Type} : list A -> list A -> Prop :=
| sub_nil : sublist [] []
| sub_keep : forall x a b, sublist a b -> sublist (x :: a) (x :: b)
| sub_drop : forall x a b, sublist a b -> sublist a (x :: b).
