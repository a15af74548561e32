(** C07: event type collections.  [selected ops v t] says that some
    subscription added for [v] since its last removal matches [t]. *)
From Coq Require Import String List Bool Arith.
From Verif Require Import Base Model_Types Model_Subscription Model_Collection
  Spec_Subscription Spec_Collection Proof_Collection.
Import ListNotations.
Open Scope string_scope.
Open Scope list_scope.

(** List implementation: exact for every history, no value is returned twice. *)
Theorem C07_pylist : forall (V : Type) (veqb : V -> V -> bool),
    (forall a b, veqb a b = true <-> a = b) ->
    forall ops, ops_ok ops -> forall t,
      NoDup (pylist_get (pylist_run veqb ops) t) /\
      forall v, In v (pylist_get (pylist_run veqb ops) t) <-> selected ops v t.
Proof. exact pylist_correct. Qed.
Print Assumptions C07_pylist.

(** C implementation: exact for every history. *)
Theorem C07_ctree : forall (V : Type) (veqb : V -> V -> bool),
    (forall a b, veqb a b = true <-> a = b) ->
    forall ops, ops_ok ops -> forall t v,
      In v (ctcoll_get (ctcoll_run veqb ops) t) <-> selected ops v t.
Proof. exact ctree_exact. Qed.
Print Assumptions C07_ctree.

(** Python tree implementation: the claim is false when a value is added again
    with a subscription sharing a query type with an earlier one. *)
Theorem C07_pytree_refuted :
  exists (ops : list (coll_op nat)) (t : etype) (v : nat),
    ops_ok ops /\ selected ops v t /\
    forall c, pytree_run Nat.eqb ops = Some c -> ~ In v (pytree_get c t).
Proof. exact final_C07_pytree_refuted. Qed.
Print Assumptions C07_pytree_refuted.

(** Python tree implementation: exact if no value is added twice without being
    removed in between.  Missing: histories that do add a value again. *)
Theorem C07_pytree_partial : forall (V : Type) (veqb : V -> V -> bool),
    (forall a b, veqb a b = true <-> a = b) ->
    forall ops, ops_ok ops -> added_once ops ->
      exists c, pytree_run veqb ops = Some c /\
        forall t v, In v (pytree_get c t) <-> selected ops v t.
Proof. exact pytree_exact. Qed.
Print Assumptions C07_pytree_partial.

(** Python tree implementation, every history: no operation fails and nothing
    that should not be there is returned. *)
Theorem C07_pytree_sound_partial : forall (V : Type) (veqb : V -> V -> bool),
    (forall a b, veqb a b = true <-> a = b) ->
    forall ops, ops_ok ops -> exists c, pytree_run veqb ops = Some c /\
      forall t v, In v (pytree_get c t) -> selected ops v t.
Proof. exact pytree_sound. Qed.
Print Assumptions C07_pytree_sound_partial.

(** A history with two values, a removal and a second addition. *)
Definition sub (qs : list etype) : node :=
  match node_from_query_types qs with Some n => n | None => Node false [] end.
Definition ex_ops : list (coll_op nat) :=
  [OpAdd (sub [["a"; "*"]; ["b"]]) 1; OpAdd (sub [["?"]]) 2; OpRemove 1; OpAdd (sub [["b"; "?"]]) 1].

Example C07_example :
  pylist_get (pylist_run Nat.eqb ex_ops) ["b"] = [2] /\
  ctcoll_get (ctcoll_run Nat.eqb ex_ops) ["b"; "c"] = [1] /\
  (exists c, pytree_run Nat.eqb ex_ops = Some c /\ pytree_get c ["b"; "c"] = [1] /\ pytree_get c ["a"] = [2]).
Proof. repeat split. eexists. repeat split. Qed.

Example C07_example_hyps : ops_ok ex_ops /\ added_once ex_ops.
Proof.
  split.
  - intros s v [H|[H|[H|[H|[]]]]]; try discriminate; injection H as <- <-.
    + now apply (ps_node [["a"; "*"]; ["b"]]).
    + now apply (ps_node [["?"]]).
    + now apply (ps_node [["b"; "?"]]).
  - intros a s v b s' c H. unfold ex_ops in H.
    generalize dependent (sub [["a"; "*"]; ["b"]]). generalize (sub [["?"]]) (sub [["b"; "?"]]).
    intros n1 n2 n3 H.
    destruct a as [|? [|? [|? [|? [|? a]]]]]; cbn in H; try discriminate H; inversion H; clear H; subst;
      destruct b as [|? [|? [|? [|? b]]]];
      match goal with E : _ = _ |- _ => cbn in E; try discriminate E; inversion E; subst end; cbn; auto.
Qed.
