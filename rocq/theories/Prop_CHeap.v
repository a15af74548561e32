(** C65: memory of the C event type collection.  [ok] says for each allocation
    whether it succeeds; [None] as the result of a step is undefined behavior. *)
From Coq Require Import String List Bool Arith ZArith.
From Verif Require Import Base Model_Types Model_Subscription Model_Collection Model_CHeap
  Spec_Subscription Spec_Collection Spec_CHeap Proof_Collection Proof_CHeap6.
Import ListNotations.
Open Scope string_scope.
Open Scope list_scope.

(** Whatever is added and removed, and whichever allocations fail, nothing is
    undefined.  After the collection is freed no memory is left and no reference to
    a value is held.  An operation fails only for want of memory. *)
Theorem C65_memory : forall (V : Type) (veqb : V -> V -> bool), (forall a b, veqb a b = true <-> a = b) ->
  forall (ok : nat -> bool) (ops : list (coll_op V)),
  exists r s0, coll_new ok cst0 = Some (r, s0) /\
    match r with
    | None => (exists i, ok i = false) /\ (forall x, c_heap s0 x = None) /\ forall v, c_refs s0 v = 0%Z
    | Some c => exists bs c' s, coll_steps veqb ok c ops s0 = Some ((bs, c'), s) /\ length bs = length ops /\
        (In false bs -> exists i, ok i = false) /\
        (forall t, exists l, coll_get c' t s = Some (l, s)) /\
        exists s', coll_free veqb c' s = Some (tt, s') /\ (forall x, c_heap s' x = None) /\ forall v, c_refs s' v = 0%Z
    end.
Proof. exact final_C65_memory. Qed.
Print Assumptions C65_memory.

(** At any time: the number of references held is never negative, it is zero for a
    value that was removed (or never added), and positive for each value that a
    lookup returns. *)
Theorem C65_references : forall (V : Type) (veqb : V -> V -> bool), (forall a b, veqb a b = true <-> a = b) ->
  forall (ok : nat -> bool) (ops : list (coll_op V)) c s0 bs c' s,
  coll_new ok cst0 = Some (Some c, s0) -> coll_steps veqb ok c ops s0 = Some ((bs, c'), s) ->
  (forall v, (0 <= c_refs s v)%Z) /\ (forall v, absent ops v -> c_refs s v = 0%Z) /\
  forall t l s', coll_get c' t s = Some (l, s') -> s' = s /\ forall v, In v l -> (0 < c_refs s v)%Z.
Proof. exact final_C65_references. Qed.
Print Assumptions C65_references.

(** Whichever allocations fail: a lookup returns only values with a matching
    subscription, and all those whose addition returned. *)
Theorem C65_content : forall (V : Type) (veqb : V -> V -> bool), (forall a b, veqb a b = true <-> a = b) ->
  forall (ok : nat -> bool) (ops : list (coll_op V)) c s0 bs c' s, ops_ok ops ->
  coll_new ok cst0 = Some (Some c, s0) -> coll_steps veqb ok c ops s0 = Some ((bs, c'), s) ->
  forall t l s', coll_get c' t s = Some (l, s') ->
    (forall v, In v l -> selected ops v t) /\ (forall v, returned ops bs v t -> In v l).
Proof. exact final_C65_content. Qed.
Print Assumptions C65_content.

(** If no allocation fails: no operation fails and lookups are exact. *)
Theorem C65_exact : forall (V : Type) (veqb : V -> V -> bool), (forall a b, veqb a b = true <-> a = b) ->
  forall (ok : nat -> bool) (ops : list (coll_op V)), (forall i, ok i = true) -> ops_ok ops ->
  exists c s0 c' s, coll_new ok cst0 = Some (Some c, s0) /\
    coll_steps veqb ok c ops s0 = Some ((repeat true (length ops), c'), s) /\
    forall t, exists l, coll_get c' t s = Some (l, s) /\ forall v, In v l <-> selected ops v t.
Proof. exact final_C65_exact. Qed.
Print Assumptions C65_exact.

(** Examples. *)
Definition sub65 (qs : list etype) : node :=
  match node_from_query_types qs with Some n => n | None => Node false [] end.
Definition ops65 : list (coll_op nat) :=
  [OpAdd (sub65 [["a"; "*"]; ["b"]]) 1; OpAdd (sub65 [["?"]; ["a"; "b"]]) 2; OpAdd (sub65 [["a"; "*"]]) 3; OpRemove 1; OpAdd (sub65 [["b"; "?"]]) 1].
Lemma ops65_ok : ops_ok ops65.
Proof.
  intros s v [H|[H|[H|[H|[H|[]]]]]]; try discriminate; injection H as <- _.
  - apply (ps_node [["a"; "*"]; ["b"]]). reflexivity.
  - apply (ps_node [["?"]; ["a"; "b"]]). reflexivity.
  - apply (ps_node [["a"; "*"]]). reflexivity.
  - apply (ps_node [["b"; "?"]]). reflexivity.
Qed.

(** What is seen of a history: which operations returned, the result for "a/b",
    how many references are held, how much memory is in use. *)
Definition seen65 (ok : nat -> bool) (ops : list (coll_op nat)) (t : etype) : option (list bool * list nat * list Z * nat) :=
  match coll_new ok cst0 with
  | Some (Some c, s0) =>
      match coll_steps Nat.eqb ok c ops s0 with
      | Some ((bs, c'), s) =>
          match coll_get c' t s with
          | Some (l, _) => Some (bs, l, map (c_refs s) [1; 2; 3],
              length (filter (fun x => match c_heap s x with Some _ => true | None => false end) (seq 0 (c_next s))))
          | None => None
          end
      | None => None
      end
  | _ => None
  end.

Example C65_example_all : seen65 (fun _ => true) ops65 ["a"; "b"] = Some ([true; true; true; true; true], [3; 2], [1; 2; 1]%Z, 16).
Proof. vm_compute. reflexivity. Qed.

(** One failing allocation: the second addition raises, but its first query type
    stays in the collection. *)
Example C65_example_fail :
  exists n, seen65 (fun i => negb (Nat.eqb i n)) ops65 ["b"] = Some ([true; false; true; true; true], [2], [1; 1; 1]%Z, 14).
Proof. exists 20. vm_compute. reflexivity. Qed.

(** Freeing after it: nothing is left. *)
Example C65_example_free :
  exists c s0 bs c' s s', coll_new (fun i => negb (Nat.eqb i 20)) cst0 = Some (Some c, s0) /\
    coll_steps Nat.eqb (fun i => negb (Nat.eqb i 20)) c ops65 s0 = Some ((bs, c'), s) /\
    coll_free Nat.eqb c' s = Some (tt, s') /\ (forall x, c_heap s' x = None) /\ forall v, c_refs s' v = 0%Z.
Proof.
  destruct (C65_memory nat Nat.eqb Nat.eqb_eq (fun i => negb (Nat.eqb i 20)) ops65) as (r & s0 & E & H). destruct r as [c|].
  - destruct H as (bs & c' & s & E' & _ & _ & _ & s' & F & Q). exists c, s0, bs, c', s, s'. auto.
  - vm_compute in E. discriminate.
Qed.
