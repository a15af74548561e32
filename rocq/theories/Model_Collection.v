(** Event type collections.  Models
    src_py/hat/event/common/collection/{pylist,pytree,ctree}.py and
    src_c/py/collection/_ctree.c.  Values are of any type [V] with decidable
    equality ([Hashable] in the source). *)
From Coq Require Import List String Bool Arith.
From Verif Require Import Base Model_Types Model_Subscription.
Import ListNotations.
Open Scope string_scope.
Open Scope list_scope.

Section Collection.
  Variable V : Type.
  Variable veqb : V -> V -> bool.

  (** collection/common.py:14-29: the operations.  Subscriptions are Python
      subscriptions (a C one lists the same query types, see C06). *)
  Inductive coll_op :=
  | OpAdd (subscription : node) (value : V)
  | OpRemove (value : V).

  (** ** pylist.py *)

  (** pylist.py:7 [_values]. *)
  Definition pylist := list (V * node).

  (** pylist.py:12-17 [add], [remove]. *)
  Definition pylist_op (c : pylist) (op : coll_op) : pylist :=
    match op with
    | OpAdd sub v =>
        dset veqb v (match dget veqb v c with
                     | Some s => py_union s [sub]
                     | None => sub
                     end) c
    | OpRemove v => ddel veqb v c
    end.

  (** pylist.py:6-10 [__init__] followed by operations. *)
  Definition pylist_run (ops : list coll_op) : pylist := fold_left pylist_op ops [].

  (** pylist.py:19-22 [get]. *)
  Definition pylist_get (c : pylist) (t : etype) : list V :=
    map fst (filter (fun vs => node_matches (snd vs) t) c).

  (** ** pytree.py *)

  (** pytree.py:40-46 [_Node]; the set of values is a list without
      repetitions. *)
  Inductive ptree := PT (values : list V) (children : list (string * ptree)).

  Definition vmem (v : V) (l : list V) : bool := existsb (veqb v) l.

  (** pytree.py:12-24: walk along a query type creating missing nodes
      ([defaultdict]); [None] if [value in node.values] at its end, else the
      tree with the value added there.  The [ValueError] of line 19 cannot
      occur as listed query types are valid (C02). *)
  Fixpoint ptree_add (n : ptree) (q : etype) (v : V) : option ptree :=
    let 'PT values children := n in
    match q with
    | [] => if vmem v values then None else Some (PT (values ++ [v]) children)
    | h :: q' =>
        let child := match sget h children with Some c => c | None => PT [] [] end in
        match ptree_add child q' v with
        | Some c => Some (PT values (sset h c children))
        | None => None
        end
    end.

  (** pytree.py:31 [node.values.remove(value)] for the node at path [q];
      [None] is the [KeyError]. *)
  Fixpoint ptree_remove (n : ptree) (q : etype) (v : V) : option ptree :=
    let 'PT values children := n in
    match q with
    | [] => if vmem v values
            then Some (PT (filter (fun u => negb (veqb v u)) values) children)
            else None
    | h :: q' =>
        match sget h children with
        | Some c => match ptree_remove c q' v with
                    | Some c => Some (PT values (sset h c children))
                    | None => None
                    end
        | None => None
        end
    end.

  (** pytree.py:6-9 [_root], [_value_nodes]; nodes are never removed from the
      tree, so a node is identified by its path from the root. *)
  Record pytree := PyTree { pt_root : ptree; pt_nodes : list (V * list etype) }.

  Definition pt_paths (c : pytree) (v : V) : list etype :=
    match dget veqb v (pt_nodes c) with Some l => l | None => [] end.

  (** pytree.py:11-27 [add]: the loop over query types; [return] of line 24
      ends the whole method. *)
  Fixpoint pytree_add (c : pytree) (qs : list etype) (v : V) : pytree :=
    match qs with
    | [] => c
    | q :: qs' =>
        match ptree_add (pt_root c) q v with
        | None => c
        | Some root =>
            pytree_add (PyTree root (dset veqb v (pt_paths c v ++ [q]) (pt_nodes c))) qs' v
        end
    end.

  (** pytree.py:30-31: loop of [remove]. *)
  Fixpoint pytree_removes (root : ptree) (paths : list etype) (v : V) : option ptree :=
    match paths with
    | [] => Some root
    | q :: ps => match ptree_remove root q v with
                 | Some r => pytree_removes r ps v
                 | None => None
                 end
    end.

  (** pytree.py:11-31; [None] is an exception. *)
  Definition pytree_op (c : pytree) (op : coll_op) : option pytree :=
    match op with
    | OpAdd sub v => Some (pytree_add c (node_to_query_types sub) v)
    | OpRemove v =>
        match pytree_removes (pt_root c) (pt_paths c v) v with
        | Some root => Some (PyTree root (ddel veqb v (pt_nodes c)))
        | None => None
        end
    end.

  Fixpoint pytree_ops (c : pytree) (ops : list coll_op) : option pytree :=
    match ops with
    | [] => Some c
    | op :: ops' => match pytree_op c op with
                    | Some c => pytree_ops c ops'
                    | None => None
                    end
    end.

  (** pytree.py:8-13 [__init__] followed by operations. *)
  Definition pytree_run (ops : list coll_op) : option pytree :=
    pytree_ops (PyTree (PT [] []) []) ops.

  (** pytree.py:46-60 [_get]. *)
  Fixpoint ptree_get (n : ptree) (t : etype) : list V :=
    let 'PT values children := n in
    (match sget "*" children with Some (PT vs _) => vs | None => [] end)
    ++ match t with
       | [] => values
       | h :: t' =>
           (match sget h children with Some c => ptree_get c t' | None => [] end)
           ++ (match sget "?" children with Some c => ptree_get c t' | None => [] end)
       end.

  (** pytree.py:33-34 [get] (as a list standing for a set). *)
  Definition pytree_get (c : pytree) (t : etype) : list V := ptree_get (pt_root c) t.

  (** ** ctree.py, _ctree.c *)

  (** _ctree.c:26-31 [tree_node_t]; each list element carries the identity of
      its [obj_node_t]. *)
  Inductive ctree :=
    CT (values asterisk : list (nat * V)) (children : list (string * ctree))
       (question : option ctree).

  Definition ct_new : ctree := CT [] [] [] None.

  (** _ctree.c:123-173 [add_value_to_tree] with _ctree.c:87-120
      [add_value_to_list]; [id] identifies the new list element. *)
  Fixpoint ctree_add (n : ctree) (q : etype) (id : nat) (v : V) : ctree :=
    let 'CT values asterisk children question := n in
    match q with
    | [] => CT ((id, v) :: values) asterisk children question
    | h :: q' =>
        if h =? "*" then CT values ((id, v) :: asterisk) children question
        else if h =? "?" then
          let c := match question with Some c => c | None => ct_new end in
          CT values asterisk children (Some (ctree_add c q' id v))
        else
          let c := match sget h children with Some c => c | None => ct_new end in
          CT values asterisk (sset h (ctree_add c q' id v) children) question
    end.

  (** _ctree.c:268-288 [Collection_remove]: unlink the list element with
      identity [id] from the list reached along [q]. *)
  Fixpoint ctree_remove (n : ctree) (q : etype) (id : nat) : ctree :=
    let 'CT values asterisk children question := n in
    let unlink := filter (fun e : nat * V => negb (Nat.eqb id (fst e))) in
    match q with
    | [] => CT (unlink values) asterisk children question
    | h :: q' =>
        if h =? "*" then CT values (unlink asterisk) children question
        else if h =? "?" then
          CT values asterisk children (option_map (fun c => ctree_remove c q' id) question)
        else
          match sget h children with
          | Some c => CT values asterisk (sset h (ctree_remove c q' id) children) question
          | None => n
          end
    end.

  (** _ctree.c:176-216 [get_values]. *)
  Fixpoint ctree_get (n : ctree) (t : etype) : list V :=
    let 'CT values asterisk children question := n in
    map snd asterisk
    ++ match t with
       | [] => map snd values
       | h :: t' =>
           (match question with Some c => ctree_get c t' | None => [] end)
           ++ (match sget h children with Some c => ctree_get c t' | None => [] end)
       end.

  (** ctree.py:10-12: the C collection, [_refs] and the supply of list element
      identities.  A reference is (path, identity). *)
  Record ctcoll := CtColl {
    ctc_root : ctree; ctc_refs : list (V * list (etype * nat)); ctc_next : nat }.

  Definition ctc_refs_of (c : ctcoll) (v : V) : list (etype * nat) :=
    match dget veqb v (ctc_refs c) with Some l => l | None => [] end.

  (** ctree.py:17-21 [add]. *)
  Fixpoint ctcoll_add (c : ctcoll) (qs : list etype) (v : V) : ctcoll :=
    match qs with
    | [] => c
    | q :: qs' =>
        let id := ctc_next c in
        ctcoll_add (CtColl (ctree_add (ctc_root c) q id v)
                           (dset veqb v (ctc_refs_of c v ++ [(q, id)]) (ctc_refs c))
                           (S id)) qs' v
    end.

  (** ctree.py:17-25 [add], [remove]. *)
  Definition ctcoll_op (c : ctcoll) (op : coll_op) : ctcoll :=
    match op with
    | OpAdd sub v => ctcoll_add c (node_to_query_types sub) v
    | OpRemove v =>
        CtColl (fold_left (fun r ref => ctree_remove r (fst ref) (snd ref)) (ctc_refs_of c v) (ctc_root c))
               (ddel veqb v (ctc_refs c)) (ctc_next c)
    end.

  (** ctree.py:9-15 [__init__] followed by operations. *)
  Definition ctcoll_run (ops : list coll_op) : ctcoll :=
    fold_left ctcoll_op ops (CtColl ct_new [] 0).

  (** ctree.py:27-28 [get] (a list standing for a set). *)
  Definition ctcoll_get (c : ctcoll) (t : etype) : list V := ctree_get (ctc_root c) t.
End Collection.

Arguments OpAdd {V}.
Arguments OpRemove {V}.
Arguments PT {V}.
Arguments PyTree {V}.
Arguments pt_root {V}.
Arguments pt_nodes {V}.
Arguments CT {V}.
Arguments CtColl {V}.
Arguments ctc_root {V}.
Arguments ctc_refs {V}.
Arguments ctc_next {V}.
Arguments pylist_op {V}.
Arguments pylist_run {V}.
Arguments pylist_get {V}.
Arguments pytree_op {V}.
Arguments pytree_ops {V}.
Arguments pytree_run {V}.
Arguments pytree_get {V}.
Arguments ctcoll_op {V}.
Arguments ctcoll_run {V}.
Arguments ctcoll_get {V}.
Arguments ptree_add {V}.
Arguments ptree_remove {V}.
Arguments ptree_get {V}.
Arguments pytree_add {V}.
Arguments pytree_removes {V}.
Arguments pt_paths {V}.
Arguments vmem {V}.
Arguments ctree_add {V}.
Arguments ctree_remove {V}.
Arguments ctree_get {V}.
Arguments ctcoll_add {V}.
Arguments ctc_refs_of {V}.
Arguments ct_new {V}.
