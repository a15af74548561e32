(** Subscriptions.  Models src_py/hat/event/common/matches.py,
    src_py/hat/event/common/subscription/common.py,
    pysubscription.py, csubscription.py and
    src_c/py/subscription/_csubscription.c. *)
From Coq Require Import List String Ascii Bool Arith.
From Verif Require Import Base Model_Types.
Import ListNotations.
Open Scope string_scope.
Open Scope list_scope.

Notation sget := (@dget string _ String.eqb).
Notation smem := (@dmem string _ String.eqb).
Notation sset := (@dset string _ String.eqb).

(** ** matches.py *)

(** Python [zip] loop of matches.py:40-42. *)
Fixpoint zip_matches (t q : etype) : bool :=
  match t, q with
  | i :: t', j :: q' =>
      if negb (j =? "?") && negb (i =? j) then false else zip_matches t' q'
  | _, _ => true
  end.

(** matches.py:4-44 [matches_query_type]. *)
Definition matches_query_type (t q : etype) : bool :=
  let is_variable := match rev q with s :: _ => s =? "*" | [] => false end in
  let q := if is_variable then removelast q else q in
  if Nat.ltb (List.length t) (List.length q) then false
  else if Nat.ltb (List.length q) (List.length t) && negb is_variable then false
  else zip_matches t q.

(** ** subscription/common.py *)

(** subscription/common.py:40-43 [Node]. *)
Inductive node := Node (leaf : bool) (children : list (string * node)).

Definition n_leaf (n : node) : bool := let 'Node l _ := n in l.
Definition n_children (n : node) : list (string * node) := let 'Node _ c := n in c.

(** subscription/common.py:123-145 [_add_query_type]; [None] is the
    [ValueError].  The in-place mutation of [children] is replaced by a
    functional update: the mutated dictionary is reachable only from the
    returned node. *)
Fixpoint add_query_type (n : node) (q : etype) : option node :=
  let 'Node leaf ch := n in
  if smem "*" ch then Some n
  else match q with
       | [] => Some (Node true ch)
       | head :: rest =>
           if head =? "*" then
             match rest with
             | [] => Some (Node leaf [("*", Node true [])])
             | _ => None
             end
           else
             let child := match sget head ch with
                          | Some c => c
                          | None => Node false []
                          end in
             match add_query_type child rest with
             | Some child => Some (Node leaf (sset head child ch))
             | None => None
             end
       end.

(** loop of subscription/common.py:49-50. *)
Fixpoint add_query_types (n : node) (qs : list etype) : option node :=
  match qs with
  | [] => Some n
  | q :: qs' => match add_query_type n q with
                | Some n' => add_query_types n' qs'
                | None => None
                end
  end.

(** subscription/common.py:46-52 [node_from_query_types]. *)
Definition node_from_query_types (qs : list etype) : option node :=
  add_query_types (Node false []) qs.

(** subscription/common.py:55-63 [node_to_query_types]. *)
Fixpoint node_to_query_types (n : node) : list etype :=
  let 'Node leaf ch := n in
  (if leaf && negb (smem "*" ch) then [[]] else [])
  ++ flat_map (fun hc => map (cons (fst hc)) (node_to_query_types (snd hc))) ch.

(** subscription/common.py:66-79 [union].  The first half of the
    [itertools.chain] loop copies [first.children] (its keys are distinct, so
    [prev_child] is [None] there); the inner fixpoint is the second half.  The
    plain tuple [(True, {})] of line 70 is represented as a node. *)
Fixpoint node_union (first second : node) {struct second} : node :=
  let 'Node l1 c1 := first in
  let 'Node l2 c2 := second in
  let leaf := l1 || l2 in
  if smem "*" c1 || smem "*" c2 then Node leaf [("*", Node true [])]
  else
    Node leaf
      ((fix loop (items : list (string * node)) (children : list (string * node)) :=
          match items with
          | [] => children
          | (name, child) :: items' =>
              let value := match sget name children with
                           | Some prev => node_union prev child
                           | None => child
                           end in
              loop items' (sset name value children)
          end) c2 c1).

(** subscription/common.py:100-110: candidates for one child. *)
Definition inter_candidates (name : string) (other : list (string * node))
  : list (string * node) :=
  if name =? "?" then other
  else
    let c := match sget name other with Some x => [(name, x)] | None => [] end in
    match sget "?" other with Some x => sset "?" x c | None => c end.

(** subscription/common.py:112-118: loop over the candidates; [rec] is the
    recursive call of [intersection]. *)
Fixpoint inter_loop (rec : node -> node -> node) (name : string) (child : node)
  (candidates : list (string * node)) (children : list (string * node))
  : list (string * node) :=
  match candidates with
  | [] => children
  | (other_name, other_child) :: rest =>
      let result_name := if negb (name =? "?") then name else other_name in
      let result := rec child other_child in
      let value := match sget result_name children with
                   | Some prev => node_union prev result
                   | None => result
                   end in
      inter_loop rec name child rest (sset result_name value children)
  end.

(** subscription/common.py:94-98: one half of the [itertools.chain]. *)
Fixpoint inter_items (rec : node -> node -> node) (items other : list (string * node))
  (children : list (string * node)) : list (string * node) :=
  match items with
  | [] => children
  | (name, child) :: rest =>
      inter_items rec rest other
        (inter_loop rec name child (inter_candidates name other) children)
  end.

(** subscription/common.py:82-120 [intersection].  The recursion is bounded
    by [fuel]; [node_intersection] passes enough (proved in
    [Proof_Subscription.v]). *)
Fixpoint inter_fuel (fuel : nat) (first second : node) : node :=
  match fuel with
  | O => Node false []
  | S fuel' =>
      let 'Node l1 c1 := first in
      let 'Node l2 c2 := second in
      let leaf := l1 && l2 in
      if smem "*" c1 then Node leaf c2
      else if smem "*" c2 then Node leaf c1
      else
        let rec := inter_fuel fuel' in
        Node leaf (inter_items rec c2 c1 (inter_items rec c1 c2 []))
  end.

(** Height of a tree, used only to bound recursion. *)
Fixpoint height (n : node) : nat :=
  let 'Node _ ch := n in
  S ((fix loop (ch : list (string * node)) :=
        match ch with
        | [] => 0
        | (_, c) :: ch' => Nat.max (height c) (loop ch')
        end) ch).

(** subscription/common.py:82-120 [intersection]. *)
Definition node_intersection (first second : node) : node :=
  inter_fuel (height first + height second) first second.

(** ** pysubscription.py *)

(** pysubscription.py:50-67 [_matches]; the index is replaced by the suffix
    of the event type. *)
Fixpoint node_matches (n : node) (t : etype) : bool :=
  let 'Node leaf ch := n in
  if smem "*" ch then true
  else match t with
       | [] => leaf
       | h :: t' =>
           if match sget h ch with
              | Some c => node_matches c t'
              | None => false
              end
           then true
           else match sget "?" ch with
                | Some c => node_matches c t'
                | None => false
                end
       end.

(** pysubscription.py:70-97 [_isdisjoint], recursion bounded by [fuel]. *)
Fixpoint disjoint_fuel (fuel : nat) (first second : node) : bool :=
  match fuel with
  | O => true
  | S fuel' =>
      let 'Node l1 c1 := first in
      let 'Node l2 c2 := second in
      let nonempty (c : list (string * node)) :=
        match c with [] => false | _ => true end in
      if l1 && l2 then false
      else if (smem "*" c1 && (nonempty c2 || l2))
              || (smem "*" c2 && (nonempty c1 || l1)) then false
      else if match sget "?" c1 with
              | Some q => negb (forallb (fun kc => disjoint_fuel fuel' q (snd kc)) c2)
              | None => false
              end then false
      else if match sget "?" c2 with
              | Some q =>
                  negb (forallb (fun kc => if fst kc =? "?" then true
                                           else disjoint_fuel fuel' q (snd kc)) c1)
              | None => false
              end then false
      else forallb (fun kc => if fst kc =? "?" then true
                              else match sget (fst kc) c2 with
                                   | Some c => disjoint_fuel fuel' (snd kc) c
                                   | None => true
                                   end) c1
  end.

(** pysubscription.py:70-97 [_isdisjoint]. *)
Definition node_isdisjoint (first second : node) : bool :=
  disjoint_fuel (height first + height second) first second.

(** pysubscription.py:7-8 [PySubscription.__init__]; a subscription is its
    root node, [None] is the [ValueError]. *)
Definition py_create (qs : list etype) : option node := node_from_query_types qs.

(** pysubscription.py:16-25 [PySubscription.union]. *)
Definition py_union (n : node) (others : list node) : node :=
  fold_left node_union others n.

(** pysubscription.py:27-36 [PySubscription.intersection]. *)
Definition py_intersection (n : node) (others : list node) : node :=
  fold_left node_intersection others n.

(** ** _csubscription.c *)

(** _csubscription.c:7-11 [node_t].  A [NULL] hash table and an empty one are
    not distinguished: a table is created (line 70) only right before its
    first insertion.  [hat_ht] is modelled as an insertion ordered
    dictionary; its real iteration order is unspecified.  Allocation failures
    are not modelled. *)
Inductive cnode := CNode (leaf star : bool) (children : list (string * cnode)).

Definition cn_children (n : cnode) : list (string * cnode) := let 'CNode _ _ c := n in c.

(** _csubscription.c:54 [strcmp(key, "*") == 0]: comparison stops at the
    first NUL byte. *)
Definition c_is_star (s : string) : bool :=
  match s with
  | String "*" EmptyString => true
  | String "*" (String "000" _) => true
  | _ => false
  end.

(** _csubscription.c:30-100 [add_query_type]; [None] is [ValueError]. *)
Fixpoint c_add (n : cnode) (q : etype) : option cnode :=
  let 'CNode leaf star ch := n in
  if star then Some n
  else match q with
       | [] => Some (CNode true star ch)
       | key :: rest =>
           if c_is_star key then
             match rest with
             | [] => Some (CNode true true [])
             | _ => None
             end
           else
             let child := match sget key ch with
                          | Some c => c
                          | None => CNode false false []
                          end in
             match c_add child rest with
             | Some child => Some (CNode leaf star (sset key child ch))
             | None => None
             end
       end.

(** _csubscription.c:306-327: loop of [Subscription_new]. *)
Fixpoint c_adds (n : cnode) (qs : list etype) : option cnode :=
  match qs with
  | [] => Some n
  | q :: qs' => match c_add n q with Some n' => c_adds n' qs' | None => None end
  end.

(** _csubscription.c:287-331 [Subscription_new]. *)
Definition c_create (qs : list etype) : option cnode :=
  c_adds (CNode false false []) qs.

(** _csubscription.c:103-172 [get_query_types]. *)
Fixpoint c_query_types (n : cnode) : list etype :=
  let 'CNode leaf star ch := n in
  if star then [["*"]]
  else (if leaf then [[]] else [])
       ++ flat_map (fun hc => map (cons (fst hc)) (c_query_types (snd hc))) ch.

(** _csubscription.c:175-204 [matches]. *)
Fixpoint c_matches (n : cnode) (t : etype) : bool :=
  let 'CNode leaf star ch := n in
  if star then true
  else match t with
       | [] => leaf
       | h :: t' =>
           if match sget h ch with Some c => c_matches c t' | None => false end
           then true
           else match sget "?" ch with Some c => c_matches c t' | None => false end
       end.

(** Height of a C tree, used only to bound recursion. *)
Fixpoint cheight (n : cnode) : nat :=
  let 'CNode _ _ ch := n in
  S ((fix loop (ch : list (string * cnode)) :=
        match ch with
        | [] => 0
        | (_, c) :: ch' => Nat.max (cheight c) (loop ch')
        end) ch).

(** _csubscription.c:207-278 [isdisjoint], recursion bounded by [fuel].  Line
    229: [iter] is reused for the consecutive loops, each loop ends with
    [iter == NULL], so each starts from the beginning. *)
Fixpoint c_disjoint_fuel (fuel : nat) (first second : cnode) : bool :=
  match fuel with
  | O => true
  | S fuel' =>
      let 'CNode l1 s1 c1 := first in
      let 'CNode l2 s2 c2 := second in
      let empty (c : list (string * cnode)) :=
        match c with [] => true | _ => false end in
      if l1 && l2 then false
      else if s1 then negb l2 && empty c2
      else if s2 then negb l1 && empty c1
      else if empty c1 then negb l1 || empty c2
      else if empty c2 then negb l2 || empty c1
      else if match sget "?" c1 with
              | Some q => negb (forallb (fun kc => c_disjoint_fuel fuel' q (snd kc)) c2)
              | None => false
              end then false
      else if match sget "?" c2 with
              | Some q => negb (forallb (fun kc => c_disjoint_fuel fuel' (snd kc) q) c1)
              | None => false
              end then false
      else if negb (forallb (fun kc => if fst kc =? "?" then true
                                       else match sget (fst kc) c2 with
                                            | Some c => c_disjoint_fuel fuel' (snd kc) c
                                            | None => true
                                            end) c1) then false
      else forallb (fun kc => if fst kc =? "?" then true
                              else match sget (fst kc) c1 with
                                   | Some c => c_disjoint_fuel fuel' c (snd kc)
                                   | None => true
                                   end) c2
  end.

(** _csubscription.c:207-278 [isdisjoint]. *)
Definition c_isdisjoint (first second : cnode) : bool :=
  c_disjoint_fuel (cheight first + cheight second) first second.

(** csubscription.py:18-26 [CSubscription.union]. *)
Definition c_union (n : cnode) (others : list cnode) : option cnode :=
  match node_from_query_types (c_query_types n) with
  | None => None
  | Some r =>
      match fold_left (fun acc o =>
                         match acc, node_from_query_types (c_query_types o) with
                         | Some a, Some b => Some (node_union a b)
                         | _, _ => None
                         end) others (Some r) with
      | Some r => c_create (node_to_query_types r)
      | None => None
      end
  end.

(** csubscription.py:28-36 [CSubscription.intersection]. *)
Definition c_intersection (n : cnode) (others : list cnode) : option cnode :=
  match node_from_query_types (c_query_types n) with
  | None => None
  | Some r =>
      match fold_left (fun acc o =>
                         match acc, node_from_query_types (c_query_types o) with
                         | Some a, Some b => Some (node_intersection a b)
                         | _, _ => None
                         end) others (Some r) with
      | Some r => c_create (node_to_query_types r)
      | None => None
      end
  end.

(** Python subscriptions that a program can get hold of: pysubscription.py:7-36
    (constructor, [union], [intersection]). *)
Inductive py_subscription : node -> Prop :=
| ps_new : forall qs n, py_create qs = Some n -> py_subscription n
| ps_union : forall n others, py_subscription n -> Forall py_subscription others ->
                              py_subscription (py_union n others)
| ps_intersection : forall n others, py_subscription n -> Forall py_subscription others ->
                                     py_subscription (py_intersection n others).
