(** C01-C06: subscriptions. *)
From Coq Require Import String Ascii Bool List.
From Verif Require Import Base Model_Types Model_Subscription Spec_Subscription Spec_Creation
  Spec_Overlap Proof_Subscription Proof_Subscription2 Proof_Creation Proof_Overlap Proof_Overlap2.
Import ListNotations.
Open Scope string_scope.
Open Scope list_scope.

(** C01.  A subscription created from query types matches an event type
    exactly when one of the query types does; creation succeeds if all query
    types are valid. *)
Theorem C01_matching : forall qs,
    (Forall valid_query qs -> exists n, py_create qs = Some n) /\
    (forall n, py_create qs = Some n -> forall t, node_matches n t = true <-> selects qs t).
Proof. exact final_C01. Qed.
Print Assumptions C01_matching.

(** C01.  The documented rules are those of [matches_query_type]. *)
Theorem C01_query_rules : forall q t, valid_query q ->
    (matches_query_type t q = true <-> qmatch q t).
Proof. exact mqt_qmatch. Qed.
Print Assumptions C01_query_rules.

(** C01.  Creation fails exactly if some query type is invalid and not covered
    by an earlier one ending in '*'. *)
Theorem C01_creation : forall qs, (exists n, py_create qs = Some n) <->
    forall a q b, qs = a ++ q :: b -> valid_query q \/ shadowed a q.
Proof. exact final_C01_creation. Qed.
Print Assumptions C01_creation.

Example C01_creation_example :
  py_create [["a"; "*"; "b"]; ["a"; "*"]] = None /\
  option_map (fun n => (node_matches n ["a"; "x"], node_matches n ["b"])) (py_create [["a"; "*"]; ["a"; "*"; "b"]]) = Some (true, false).
Proof. split; reflexivity. Qed.

Example C01_example :
  option_map (fun n => (node_matches n ["a"; "x"; "c"], node_matches n ["a"; "x"; "d"],
                        node_matches n ["b"], node_matches n ["b"; "y"; "z"], node_matches n []))
    (py_create [["a"; "?"; "c"]; ["b"; "*"]; ["b"; "q"]])
  = Some (true, false, true, true, false).
Proof. reflexivity. Qed.

(** C02.  Listing query types loses nothing. *)
Theorem C02_listing : forall n, py_subscription n ->
    Forall valid_query (node_to_query_types n) /\
    exists n', py_create (node_to_query_types n) = Some n' /\
               forall t, node_matches n' t = node_matches n t.
Proof. exact final_C02. Qed.
Print Assumptions C02_listing.

Example C02_example :
  option_map node_to_query_types (py_create [["a"; "?"]; ["b"; "x"]; []; ["b"; "*"]; ["b"; "z"]])
  = Some [[]; ["a"; "?"]; ["b"; "*"]].
Proof. reflexivity. Qed.

(** C03.  Union is set union, for Python subscriptions however obtained... *)
Theorem C03_union : forall n others, py_subscription n -> Forall py_subscription others ->
    forall t, node_matches (py_union n others) t = true <->
              Exists (fun m => node_matches m t = true) (n :: others).
Proof. exact final_C03. Qed.
Print Assumptions C03_union.

(** ... and for C subscriptions. *)
Theorem C03_union_c : forall qs qss c others,
    Forall (Forall no_nuls) (qs :: qss) ->
    Forall2 (fun qs c => c_create qs = Some c) (qs :: qss) (c :: others) ->
    exists r, c_union c others = Some r /\
      forall t, c_matches r t = true <-> Exists (fun m => c_matches m t = true) (c :: others).
Proof. exact final_C03_c. Qed.
Print Assumptions C03_union_c.

Example C03_example :
  match py_create [["a"; "b"]; ["c"]], py_create [["a"; "?"; "x"]], py_create [["c"; "*"]] with
  | Some a, Some b, Some c =>
      node_to_query_types (py_union a [b; c]) = [["a"; "b"]; ["a"; "?"; "x"]; ["c"; "*"]]
  | _, _, _ => False
  end.
Proof. reflexivity. Qed.

(** C04, full statement: [node_matches (py_intersection n others) t = true <->
    Forall (fun m => node_matches m t = true) (n :: others)].  It is false:
    [('*',)] and [()] have the event type [()] in common, their intersection
    does not match it. *)
Theorem C04_intersection_refuted : exists qs1 qs2 a b t,
    py_create qs1 = Some a /\ py_create qs2 = Some b /\
    node_matches a t = true /\ node_matches b t = true /\
    node_matches (py_intersection a [b]) t = false.
Proof.
  exists [["*"]], [[]], (Node false [("*", Node true [])]), (Node true []), [].
  vm_compute. auto.
Qed.
Print Assumptions C04_intersection_refuted.

(** C04, what holds always: nothing outside the set intersection is matched. *)
Theorem C04_intersection_partial : forall n others, py_subscription n -> Forall py_subscription others ->
    forall t, node_matches (py_intersection n others) t = true ->
              Forall (fun m => node_matches m t = true) (n :: others).
Proof. exact final_C04_sound. Qed.
Print Assumptions C04_intersection_partial.

(** C04, exact when each [p + ('*',)] is preceded by [p] (in particular when
    no '*' is used, [starless_announced]). *)
Theorem C04_intersection_exact_partial : forall qs qss n others,
    Forall stars_announced (qs :: qss) ->
    Forall2 (fun qs n => py_create qs = Some n) (qs :: qss) (n :: others) ->
    forall t, node_matches (py_intersection n others) t = true <->
              Forall (fun m => node_matches m t = true) (n :: others).
Proof. exact final_C04_exact. Qed.
Print Assumptions C04_intersection_exact_partial.

Theorem C04_intersection_c_partial : forall qs qss c others,
    Forall (Forall no_nuls) (qs :: qss) ->
    Forall2 (fun qs c => c_create qs = Some c) (qs :: qss) (c :: others) ->
    exists r, c_intersection c others = Some r /\
      forall t, c_matches r t = true -> Forall (fun m => c_matches m t = true) (c :: others).
Proof. exact final_C04_c_sound. Qed.
Print Assumptions C04_intersection_c_partial.

Theorem C04_intersection_c_exact_partial : forall qs qss c others,
    Forall (Forall no_nuls) (qs :: qss) -> Forall (Forall starless) (qs :: qss) ->
    Forall2 (fun qs c => c_create qs = Some c) (qs :: qss) (c :: others) ->
    exists r, c_intersection c others = Some r /\
      forall t, c_matches r t = true <-> Forall (fun m => c_matches m t = true) (c :: others).
Proof. exact final_C04_c_exact. Qed.
Print Assumptions C04_intersection_c_exact_partial.

Example C04_example :
  match py_create [["a"]; ["a"; "*"]], py_create [["?"; "b"]; ["a"]; ["c"]] with
  | Some a, Some b =>
      stars_announced [["a"]; ["a"; "*"]] /\
      node_matches (py_intersection a [b]) ["a"; "b"] = true /\
      node_matches (py_intersection a [b]) ["a"] = true /\
      node_matches (py_intersection a [b]) ["c"] = false
  | _, _ => False
  end.
Proof.
  vm_compute. repeat split; auto.
  intros l p r H. destruct l as [|x [|y [|z l]]]; cbn in H; inversion H; subst.
  - destruct p as [|? [|]]; discriminate.
  - destruct p as [|s p]; cbn in H2; inversion H2; subst.
    destruct p as [|s p]; cbn in H3; inversion H3; subst; [left; reflexivity|].
    destruct p; discriminate.
Qed.

(** C04.  Which event types are matched, without any restriction on the query
    types: those which all subscriptions match by a '*' and those which all
    match otherwise.  What is missing from set intersection are the event types
    matched by '*' standing for nothing on one side and otherwise on another. *)
Theorem C04_intersection_all_partial : forall qs qss n others,
    Forall2 (fun qs n => py_create qs = Some n) (qs :: qss) (n :: others) ->
    forall t, node_matches (py_intersection n others) t = true <->
              Forall (fun qs => star_match qs t) (qs :: qss) \/
              Forall (fun qs => proper_match qs t) (qs :: qss).
Proof. exact final_C04_all. Qed.
Print Assumptions C04_intersection_all_partial.

(** C04.  The same for subscriptions however obtained: both ways of matching
    are respected by union and intersection. *)
Theorem C04_algebra_partial : exists S P : node -> etype -> Prop,
    (forall qs n t, py_create qs = Some n -> (S n t <-> star_match qs t) /\ (P n t <-> proper_match qs t)) /\
    (forall n others t, py_subscription n -> Forall py_subscription others ->
       (S (py_union n others) t <-> Exists (fun m => S m t) (n :: others)) /\
       (P (py_union n others) t <-> Exists (fun m => P m t) (n :: others))) /\
    (forall n others t, py_subscription n -> Forall py_subscription others ->
       (S (py_intersection n others) t <-> Forall (fun m => S m t) (n :: others)) /\
       (P (py_intersection n others) t <-> Forall (fun m => P m t) (n :: others))) /\
    (forall n t, py_subscription n -> (node_matches n t = true <-> S n t \/ P n t)).
Proof. exact final_C04_algebra. Qed.
Print Assumptions C04_algebra_partial.

(** C04.  In the C implementation [q] does not count if [q + ('*',)] is given
    anywhere in the list. *)
Theorem C04_intersection_c_all_partial : forall qs qss c others,
    Forall (Forall no_nuls) (qs :: qss) ->
    Forall2 (fun qs c => c_create qs = Some c) (qs :: qss) (c :: others) ->
    exists r, c_intersection c others = Some r /\
      forall t, c_matches r t = true <->
                Forall (fun qs => star_match qs t) (qs :: qss) \/
                Forall (fun qs => proper_match_alone qs t) (qs :: qss).
Proof. exact final_C04_c_all. Qed.
Print Assumptions C04_intersection_c_all_partial.

(** The order of query types matters, and the implementations differ:
    [('a',)] is matched by the intersection of the Python subscriptions if it
    is given before [('a', '*')], and never by that of the C subscriptions. *)
Example C04_all_example :
  let first := [["a"]; ["a"; "*"]] in
  let last := [["a"; "*"]; ["a"]] in
  let other := [["a"]; ["a"; "b"]] in
  let py qs := match py_create qs, py_create other with
               | Some a, Some b => Some (node_matches (py_intersection a [b]) ["a"],
                                         node_matches (py_intersection a [b]) ["a"; "b"])
               | _, _ => None
               end in
  let c qs := match c_create qs, c_create other with
              | Some a, Some b => option_map (fun r => (c_matches r ["a"], c_matches r ["a"; "b"])) (c_intersection a [b])
              | _, _ => None
              end in
  py first = Some (true, true) /\ py last = Some (false, true) /\
  c first = Some (false, true) /\ c last = Some (false, true).
Proof. repeat split. Qed.

(** C05.  Python [isdisjoint] is exact for subscriptions created from query
    types. *)
Theorem C05_isdisjoint : forall qs1 qs2 a b, py_create qs1 = Some a -> py_create qs2 = Some b ->
    (node_isdisjoint a b = true <-> forall t, ~ (selects qs1 t /\ selects qs2 t)).
Proof. exact final_C05. Qed.
Print Assumptions C05_isdisjoint.

(** C05.  It is exact for unions of such subscriptions. *)
Theorem C05_isdisjoint_unions : forall qs1 qss1 n1 others1 qs2 qss2 n2 others2,
    Forall2 (fun qs n => py_create qs = Some n) (qs1 :: qss1) (n1 :: others1) ->
    Forall2 (fun qs n => py_create qs = Some n) (qs2 :: qss2) (n2 :: others2) ->
    (node_isdisjoint (py_union n1 others1) (py_union n2 others2) = true <->
     forall t, ~ (Exists (fun qs => selects qs t) (qs1 :: qss1) /\ Exists (fun qs => selects qs t) (qs2 :: qss2))).
Proof. exact final_C05_unions. Qed.
Print Assumptions C05_isdisjoint_unions.

Example C05_unions_example :
  match py_create [["a"; "b"]], py_create [["a"; "?"; "x"]], py_create [["a"; "c"; "y"]], py_create [["?"; "d"; "*"]] with
  | Some a, Some b, Some c, Some d =>
      node_isdisjoint (py_union a [b]) c = true /\ node_isdisjoint (py_union a [b]) (py_union c [d]) = false
  | _, _, _, _ => False
  end.
Proof. split; reflexivity. Qed.

(** C05 (addition).  A positive answer is right for any subscription ... *)
Theorem C05_isdisjoint_sound : forall a b, py_subscription a -> py_subscription b ->
    node_isdisjoint a b = true ->
    forall t, ~ (node_matches a t = true /\ node_matches b t = true).
Proof. exact final_C05_sound. Qed.
Print Assumptions C05_isdisjoint_sound.

(** ... while a negative one may be wrong for results of [intersection]. *)
Theorem C05_isdisjoint_intersection_refuted : exists a b, py_subscription a /\ py_subscription b /\
    node_isdisjoint a b = false /\
    forall t, ~ (node_matches a t = true /\ node_matches b t = true).
Proof.
  exists (py_intersection (Node false [("a", Node false [("b", Node true [])])])
                          [Node false [("a", Node false [("c", Node true [])])]]),
    (Node false [("*", Node true [])]).
  split; [|split; [|split]].
  - apply ps_intersection.
    + apply (ps_new [["a"; "b"]]). reflexivity.
    + repeat constructor. apply (ps_new [["a"; "c"]]). reflexivity.
  - apply (ps_new [["*"]]). reflexivity.
  - reflexivity.
  - intros t [H _]. vm_compute in H. destruct t as [|s t]; [discriminate|].
    destruct s as [|[[] [] [] [] [] [] [] []] [|]]; try discriminate; destruct t; discriminate.
Qed.
Print Assumptions C05_isdisjoint_intersection_refuted.

Example C05_example :
  match py_create [["a"; "?"; "c"]; ["x"; "*"]], py_create [["a"; "b"; "d"]; ["?"; "y"; "?"]],
        py_create [["a"; "b"; "d"]; ["z"; "*"]] with
  | Some a, Some b, Some c => node_isdisjoint a b = false /\ node_isdisjoint a c = true
  | _, _, _ => False
  end.
Proof. vm_compute. auto. Qed.

(** C06.  C and Python subscriptions accept the same query types, match the
    same event types and list the same query types. *)
Theorem C06_interchangeable_partial : forall qs, Forall no_nuls qs ->
    match c_create qs, py_create qs with
    | Some c, Some n => (forall t, c_matches c t = node_matches n t) /\
                        (forall q, In q (c_query_types c) <-> In q (node_to_query_types n))
    | None, None => True
    | _, _ => False
    end.
Proof. exact final_C06. Qed.
Print Assumptions C06_interchangeable_partial.

(** C06, full statement: also [c_isdisjoint] equals [node_isdisjoint].  It is
    false: for [()] and [('a',)] the C code answers false. *)
Theorem C06_isdisjoint_refuted : exists qs1 qs2 a b a' b',
    Forall no_nuls qs1 /\ Forall no_nuls qs2 /\
    c_create qs1 = Some a /\ c_create qs2 = Some b /\
    py_create qs1 = Some a' /\ py_create qs2 = Some b' /\
    node_isdisjoint a' b' = true /\ c_isdisjoint a b = false.
Proof.
  exists [[]], [["a"]], (CNode true false []), (CNode false false [("a", CNode true false [])]),
    (Node true []), (Node false [("a", Node true [])]).
  repeat split; repeat constructor.
  intros x y H. destruct x as [|c x]; [discriminate|]. inversion H. destruct x; discriminate.
Qed.
Print Assumptions C06_isdisjoint_refuted.

(** C06.  The C answer "disjoint" implies the Python answer "disjoint". *)
Theorem C06_isdisjoint_partial : forall qs1 qs2 a b a' b', Forall no_nuls qs1 -> Forall no_nuls qs2 ->
    c_create qs1 = Some a -> c_create qs2 = Some b ->
    py_create qs1 = Some a' -> py_create qs2 = Some b' ->
    c_isdisjoint a b = true -> node_isdisjoint a' b' = true.
Proof. exact final_C06_disjoint. Qed.
Print Assumptions C06_isdisjoint_partial.

(** C06.  When the C code answers "not disjoint": there is a common event type,
    or a query type which nothing extends is compatible with the beginning of
    a longer query type of the other subscription. *)
Theorem C06_isdisjoint_all_partial : forall qs1 qs2 a b, Forall no_nuls qs1 -> Forall no_nuls qs2 ->
    c_create qs1 = Some a -> c_create qs2 = Some b ->
    (c_isdisjoint a b = false <->
     (exists t, selects qs1 t /\ selects qs2 t) \/ clash qs1 qs2 \/ clash qs2 qs1).
Proof. exact final_C06_all. Qed.
Print Assumptions C06_isdisjoint_all_partial.

(** A clash without a common event type; [('a',)] being extended there is none. *)
Example C06_all_example :
  match c_create [["a"]], c_create [["a"]; ["a"; "x"]], c_create [["?"; "b"]] with
  | Some a, Some a', Some b =>
      clash [["a"]] [["?"; "b"]] /\ c_isdisjoint a b = false /\ c_isdisjoint a' b = true
  | _, _, _ => False
  end.
Proof.
  cbn. split; [|split; reflexivity]. exists ["a"], ["?"], "b", [].
  split; [left; reflexivity|]. split; [intros [H|[]]; discriminate|].
  split; [intros y s [H|[]]; discriminate|]. split; [left; reflexivity|].
  split; [|repeat constructor; right; right; reflexivity].
  intros p r H. destruct p as [|x [|y [|z p]]]; discriminate.
Qed.

(** C06.  Both agree when every query type ends with '*'. *)
Theorem C06_isdisjoint_stars_partial : forall qs1 qs2 a b a' b', Forall no_nuls qs1 -> Forall no_nuls qs2 ->
    Forall (fun q => exists p, q = p ++ ["*"]) qs1 -> Forall (fun q => exists p, q = p ++ ["*"]) qs2 ->
    c_create qs1 = Some a -> c_create qs2 = Some b ->
    py_create qs1 = Some a' -> py_create qs2 = Some b' ->
    c_isdisjoint a b = node_isdisjoint a' b'.
Proof. exact final_C06_disjoint_stars. Qed.
Print Assumptions C06_isdisjoint_stars_partial.

(** C06.  The NUL restriction is needed: C takes "*" followed by NUL for '*'. *)
Theorem C06_nul_refuted : exists qs c n t,
    c_create qs = Some c /\ py_create qs = Some n /\ c_matches c t = true /\ node_matches n t = false.
Proof.
  exists [[String "*" (String Ascii.zero "")]], (CNode true true []),
    (Node false [(String "*" (String Ascii.zero ""), Node true [])]), ["a"].
  repeat split.
Qed.
Print Assumptions C06_nul_refuted.

Example C06_example :
  match c_create [["a"; "?"; "c"]; ["x"; "*"]], c_create [["a"; "b"; "*"]; ["y"; "*"]] with
  | Some a, Some b => c_matches a ["a"; "q"; "c"] = true /\ c_isdisjoint a b = false
  | _, _ => False
  end.
Proof. vm_compute. auto. Qed.
