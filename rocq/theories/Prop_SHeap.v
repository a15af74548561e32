(** C66: memory and references of the C subscription.  [ok] says for each call that
    may fail whether it succeeds, [okt] says it for the tuple that
    [get_query_types] makes for a query type that ends with "*"; [None] as the result
    of a program is undefined behavior.  [ext x] references to the object [x] are
    held by the program. *)
From Coq Require Import String Bool Arith ZArith Lia List.
From Verif Require Import Base Model_Types Model_Subscription Model_SHeap Spec_Subscription Spec_SHeap Proof_SHeap Proof_SHeap8.
Import ListNotations.
Open Scope string_scope.
Open Scope list_scope.

(** Whatever a program does with subscriptions, and whatever fails but that tuple:
    nothing is undefined, each call answers, and no memory is left when no
    subscription is. *)
Theorem C66_memory_partial : forall (ok okt : nat -> bool) s ext cs, (forall i, okt i = true) ->
  sacc s ext -> (forall x, s_heap s x = None) -> Forall (passes s ext) cs ->
  exists xs subs s', calls ok okt [] cs s = Some ((xs, subs), s') /\ length xs = length cs /\ (subs = [] -> forall x, s_heap s' x = None).
Proof. exact final_C66_memory. Qed.
Print Assumptions C66_memory_partial.

(** The full statement, with [okt] arbitrary, is false: if that tuple cannot be
    made, [NULL] is used. *)
Theorem C66_memory_refuted : exists ok okt s ext cs, (forall i, ok i = true) /\ sacc s ext /\ (forall x, s_heap s x = None) /\ Forall (passes s ext) cs /\
  calls ok okt [] cs s = None.
Proof. exact final_C66_null. Qed.
Print Assumptions C66_memory_refuted.

(** Answers are those of the subscription as a tree ([Model_Subscription]), an
    exception has a reason, and objects are as before but for references that the
    constructor loses. *)
Theorem C66_answers : forall (ok okt : nat -> bool) s ext cs xs subs s', (forall i, okt i = true) ->
  sacc s ext -> (forall x, s_heap s x = None) -> Forall (passes s ext) cs ->
  calls ok okt [] cs s = Some ((xs, subs), s') ->
  exists ns lk, outcomes (exists i, ok i = false) s [] cs xs ns lk /\ length subs = length ns /\ counts_more s s' lk.
Proof. exact final_C66_answers. Qed.
Print Assumptions C66_answers.

(** If nothing fails and what is passed is made of strings, the answers are exact. *)
Theorem C66_exact : forall (ok okt : nat -> bool) s ext cs, (forall i, ok i = true) -> (forall i, okt i = true) ->
  sacc s ext -> (forall x, s_heap s x = None) -> Forall (passes s ext) cs -> Forall (well_typed s) cs ->
  exists subs s', calls ok okt [] cs s = Some ((fst (expecteds s [] cs), subs), s') /\ length subs = length (snd (expecteds s [] cs)).
Proof. exact final_C66_exact. Qed.
Print Assumptions C66_exact.

(** A new subscription matches by the rules of its query types. *)
Theorem C66_matches : forall (ok okt : nat -> bool) s ext q t b subs s', (forall i, okt i = true) ->
  sacc s ext -> (forall x, s_heap s x = None) -> passes s ext (SNew q) -> (1 <= ext t)%Z ->
  Forall no_nuls (map fst (container s q)) ->
  calls ok okt [] [SNew q; SMatches 0 t] s = Some (([RNew; RBool b], subs), s') ->
  (b = true <-> selects (map fst (container s q)) (type_of s t)).
Proof. exact final_C66_matches. Qed.
Print Assumptions C66_matches.

(** Unless a query type ends with "*", all objects and their reference counts are
    as before, whatever fails. *)
Theorem C66_references_partial : forall (ok okt : nat -> bool) s ext cs xs subs s', (forall i, okt i = true) ->
  sacc s ext -> (forall x, s_heap s x = None) -> Forall (passes s ext) cs ->
  (forall q e, In (SNew q) cs -> In e (container s q) -> star_prefix (fst e) = None) ->
  calls ok okt [] cs s = Some ((xs, subs), s') -> forall x, s_objs s' x = s_objs s x.
Proof. exact final_C66_references. Qed.
Print Assumptions C66_references_partial.

(** The full statement is false: a program that makes and drops a subscription [n]
    times leaves [n] references to its "*", though nothing fails. *)
Theorem C66_references_refuted : exists s ext q x p, sacc s ext /\ (forall y, s_heap s y = None) /\ passes s ext (SNew q) /\
  s_objs s x = Some p /\ o_kind p = KStr "*" /\
  forall (ok okt : nat -> bool), (forall i, ok i = true) -> (forall i, okt i = true) -> forall n,
  exists xs s', calls ok okt [] (concat (repeat [SNew q; SDrop 0] n)) s = Some ((xs, []), s') /\
    s_objs s' x = Some (PObj (KStr "*") (o_items p) (o_rc p + Z.of_nat n)).
Proof. exact final_C66_leak. Qed.
Print Assumptions C66_references_refuted.

(** Examples: the query types of object 6 are "b" and "a/*", those of 7 are "b" and
    "a/b", object 5 is the event type "a/b". *)
Definition cs66 : list scall :=
  [SNew 6; SNew 7; SGet 0; SMatches 0 5; SMatches 1 5; SMatches 1 4; SDisjoint 0 1; SDrop 0; SGet 0; SMatches 3 5; SDrop 0].
Example C66_example_meets : sacc s66 ext66 /\ (forall x, s_heap s66 x = None) /\ Forall (passes s66 ext66) cs66 /\ Forall (well_typed s66) cs66.
Proof.
  split; [exact s66_counted|]. split; [reflexivity|]. split.
  - repeat (apply Forall_cons; [first [exact s66_seq6|exact s66_seq7|exact I|cbn; lia]|]). constructor.
  - repeat (apply Forall_cons; [first [exact s66_str6|exact s66_str7|exact I|apply s66_type]|]). constructor.
Qed.
(** What is seen: answers, subscriptions left, counts of objects, cells in use. *)
Definition seen66 (ok okt : nat -> bool) (cs : list scall) : option (list sres * nat * list Z * nat) :=
  match calls ok okt [] cs s66 with
  | Some ((xs, subs), s) => Some (xs, length subs,
      map (fun x => match s_objs s x with Some p => o_rc p | None => 0%Z end) (seq 0 8),
      length (filter (fun x => match s_heap s x with Some _ => true | None => false end) (seq 0 (s_next s))))
  | None => None
  end.
Example C66_example_all : seen66 (fun _ => true) (fun _ => true) cs66 =
  Some ([RNew; RNew; RTypes [["b"]; ["a"; "*"]]; RBool true; RBool true; RBool true; RBool false; RDropped;
         RTypes [["b"]; ["a"; "b"]]; RNothing; RDropped], 0, [2; 2; 2; 1; 3; 2; 1; 1]%Z, 0).
Proof. vm_compute. reflexivity. Qed.
Example C66_example_fail : seen66 (fun i => negb (Nat.eqb i 17)) (fun _ => true) [SNew 6; SGet 0; SNew 7] =
  Some ([RNew; RRaised; RNew], 2, [2; 2; 2; 1; 3; 2; 1; 1]%Z, 10).
Proof. vm_compute. reflexivity. Qed.
Example C66_example_early : seen66 (fun i => negb (Nat.eqb i 6)) (fun _ => true) [SNew 6; SNew 7; SMatches 0 5] =
  Some ([RRaised; RNew; RBool true], 1, [2; 1; 2; 1; 3; 2; 1; 1]%Z, 6).
Proof. vm_compute. reflexivity. Qed.
