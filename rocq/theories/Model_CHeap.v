(** Memory of the C event type collection.  Models src_c/py/collection/_ctree.c
    statement by statement on an explicit heap, together with its only user
    src_py/hat/event/common/collection/ctree.py.  (Model_Collection.v has the same
    collection as a pure tree.)

    The heap is a map from addresses to cells; each allocation gives an address
    that was never used before, or fails, as the oracle [ok] says for it.  [None]
    as the result of a statement stands for undefined behavior: reading, writing or
    freeing memory that is not allocated (or was freed), reading memory that was not
    written, or reading one kind of memory as another.  Loops and recursion that
    follow pointers get a bound; reaching it is [None] too.

    A hash table of hat-core ([hat_ht]) is one cell with its entries; creating it
    and setting an entry may fail.  [c_refs v] is the number of references to the
    Python object [v] held by the collection.  Not modelled: segments that cannot be
    encoded as UTF-8 (adding raises before anything is changed by that step), code of
    values run by [PySet_Add] and [Py_DECREF] that uses the collection again, failing
    [PySet_Add] and [deque.append]. *)
From Coq Require Import String Bool Arith ZArith List.
From Verif Require Import Base Model_Types Model_Subscription Model_Collection.
Import ListNotations.
Open Scope string_scope.
Open Scope list_scope.

Section CHeap.
  Variable V : Type.
  Variable veqb : V -> V -> bool.
  (** Does the allocation with this number succeed? *)
  Variable ok : nat -> bool.

  Definition addr := nat.
  Definition ptr := option addr.

  (** _ctree.c:11-31.  A pointer to an [obj_list_t] is the address of its tree
      node and which of the two lists it is. *)
  Inductive cell :=
  | CRaw
  | CObj (prev next : ptr) (obj : V)
  | CRef (list : addr) (asterisk : bool) (node : addr)
  | CTree (values asterisk children question : ptr)
  | CHt (entries : list (string * addr)).

  Record cst := Cst { c_heap : addr -> option cell; c_next : addr; c_tries : nat; c_refs : V -> Z }.

  Definition M (A : Type) : Type := cst -> option (A * cst).
  Definition ret {A} (a : A) : M A := fun s => Some (a, s).
  Definition bind {A B} (m : M A) (f : A -> M B) : M B :=
    fun s => match m s with Some (a, s') => f a s' | None => None end.
  Definition ub {A} : M A := fun _ => None.
  Notation "x <- m ; e" := (bind m (fun x => e)) (at level 61, right associativity).
  Notation "m ;; e" := (bind m (fun _ => e)) (at level 61, right associativity).

  Definition set_heap (h : addr -> option cell) (s : cst) : cst := Cst h (c_next s) (c_tries s) (c_refs s).
  Definition upd (h : addr -> option cell) (a : addr) (c : option cell) : addr -> option cell :=
    fun x => if Nat.eqb x a then c else h x.

  (** [PyMem_Malloc] *)
  Definition malloc : M ptr := fun s =>
    if ok (c_tries s)
    then Some (Some (c_next s), Cst (upd (c_heap s) (c_next s) (Some CRaw)) (S (c_next s)) (S (c_tries s)) (c_refs s))
    else Some (None, Cst (c_heap s) (c_next s) (S (c_tries s)) (c_refs s)).

  (** Something else that may fail for want of memory: [PyCapsule_New],
      [hat_ht_set]. *)
  Definition may_fail : M bool := fun s =>
    Some (ok (c_tries s), Cst (c_heap s) (c_next s) (S (c_tries s)) (c_refs s)).

  (** [PyMem_Free] of memory; [free(NULL)] does nothing. *)
  Definition free (a : addr) : M unit := fun s =>
    match c_heap s a with Some _ => Some (tt, set_heap (upd (c_heap s) a None) s) | None => None end.
  Definition freep (p : ptr) : M unit := match p with Some a => free a | None => ret tt end.

  Definition load (a : addr) : M cell := fun s => match c_heap s a with Some c => Some (c, s) | None => None end.
  Definition store (a : addr) (c : cell) : M unit := fun s =>
    match c_heap s a with Some _ => Some (tt, set_heap (upd (c_heap s) a (Some c)) s) | None => None end.

  Definition load_obj (a : addr) : M (ptr * ptr * V) :=
    c <- load a; match c with CObj p n v => ret (p, n, v) | _ => ub end.
  Definition load_ref (a : addr) : M (addr * bool * addr) :=
    c <- load a; match c with CRef l w n => ret (l, w, n) | _ => ub end.
  Definition load_tree (a : addr) : M (ptr * ptr * ptr * ptr) :=
    c <- load a; match c with CTree v x ch q => ret (v, x, ch, q) | _ => ub end.
  Definition load_ht (a : addr) : M (list (string * addr)) :=
    c <- load a; match c with CHt es => ret es | _ => ub end.

  (** [Py_INCREF], [Py_DECREF] *)
  Definition count (v : V) (d : Z) : M unit := fun s =>
    Some (tt, Cst (c_heap s) (c_next s) (c_tries s) (fun u => if veqb u v then (c_refs s u + d)%Z else c_refs s u)).
  Definition incref (v : V) : M unit := count v 1.
  Definition decref (v : V) : M unit := count v (-1).

  (** [list->head], [list->head = p] *)
  Definition head (l : addr) (w : bool) : M ptr :=
    f <- load_tree l; let '(v, x, ch, q) := f in ret (if w then x else v).
  Definition set_head (l : addr) (w : bool) (p : ptr) : M unit :=
    f <- load_tree l; let '(v, x, ch, q) := f in
    store l (if w then CTree v p ch q else CTree p x ch q).

  (** ** Freeing *)

  (** _ctree.c:34-43 [free_obj_list] *)
  Fixpoint free_obj_list (fuel : nat) (p : ptr) : M unit :=
    match p with
    | None => ret tt
    | Some a =>
        match fuel with
        | O => ub
        | S fuel => f <- load_obj a; let '(_, next, v) := f in
                    decref v;; free a;; free_obj_list fuel next
        end
    end.

  Definition each {A} (f : A -> M unit) : list A -> M unit :=
    fix each (l : list A) : M unit :=
      match l with [] => ret tt | x :: l' => f x;; each l' end.

  (** _ctree.c:46-64 [free_tree_node] *)
  Fixpoint free_tree_node (fuel : nat) (a : addr) : M unit :=
    match fuel with
    | O => ub
    | S fuel => fun s0 =>
        (f <- load_tree a; let '(v, x, ch, q) := f in
         free_obj_list (c_next s0) v;;
         free_obj_list (c_next s0) x;;
         (match ch with
          | Some b => es <- load_ht b; each (fun e => free_tree_node fuel (snd e)) es;; free b
          | None => ret tt
          end);;
         (match q with Some c => free_tree_node fuel c | None => ret tt end);;
         free a) s0
    end.

  (** ** Adding *)

  (** _ctree.c:67-78 [create_tree_node] *)
  Definition create_tree_node : M ptr :=
    p <- malloc;
    match p with
    | Some a => store a (CTree None None None None);; ret (Some a)
    | None => ret None
    end.

  (** [hat_ht_create] *)
  Definition ht_create : M ptr :=
    p <- malloc; match p with Some a => store a (CHt []);; ret (Some a) | None => ret None end.
  (** [hat_ht_get] *)
  Definition ht_get (b : addr) (k : string) : M ptr := es <- load_ht b; ret (sget k es).
  (** [hat_ht_set]: tells whether it succeeded. *)
  Definition ht_set (b : addr) (k : string) (c : addr) : M bool :=
    es <- load_ht b; fine <- may_fail;
    if fine then store b (CHt (sset k c es));; ret true else ret false.

  (** _ctree.c:87-120 [add_value_to_list]; the result is the [ref_t] of the
      capsule. *)
  Definition add_value_to_list (l : addr) (w : bool) (v : V) : M ptr :=
    pn <- malloc;
    match pn with
    | None => ret None
    | Some n =>
        pr <- malloc;
        match pr with
        | None => free n;; ret None
        | Some r =>
            capsule <- may_fail;
            if capsule then
              incref v;;
              h <- head l w;
              store n (CObj None h v);;
              (match h with
               | Some x => f <- load_obj x; let '(_, next, u) := f in store x (CObj (Some n) next u)
               | None => ret tt
               end);;
              set_head l w (Some n);;
              store r (CRef l w n);;
              ret (Some r)
            else free n;; free r;; ret None
        end
    end.

  (** _ctree.c:123-173 [add_value_to_tree] *)
  Fixpoint add_value_to_tree (a : addr) (q : etype) (v : V) : M ptr :=
    match q with
    | [] => add_value_to_list a false v
    | k :: q' =>
        if k =? "*" then add_value_to_list a true v
        else if k =? "?" then
          f <- load_tree a; let '(vs, xs, ch, qu) := f in
          match qu with
          | Some c => add_value_to_tree c q' v
          | None =>
              pc <- create_tree_node;
              store a (CTree vs xs ch pc);;
              match pc with
              | Some c => add_value_to_tree c q' v
              | None => ret None
              end
          end
        else
          f <- load_tree a; let '(vs, xs, ch, qu) := f in
          pb <- match ch with
                | Some b => ret (Some b)
                | None => pb <- ht_create; store a (CTree vs xs pb qu);; ret pb
                end;
          match pb with
          | None => ret None
          | Some b =>
              pc <- ht_get b k;
              match pc with
              | Some c => add_value_to_tree c q' v
              | None =>
                  pc <- create_tree_node;
                  match pc with
                  | None => ret None
                  | Some c =>
                      fine <- ht_set b k c;
                      if fine then add_value_to_tree c q' v
                      else (fun s => free_tree_node (c_next s) c s);; ret None
                  end
              end
          end
    end.

  (** ** Removing *)

  (** _ctree.c:269-288 [Collection_remove] *)
  Definition collection_remove (r : addr) : M unit :=
    f <- load_ref r; let '(l, w, n) := f in
    o <- load_obj n; let '(prev, next, v) := o in
    (match prev with
     | Some p => f <- load_obj p; let '(pp, _, u) := f in store p (CObj pp next u)
     | None => set_head l w next
     end);;
    (match next with
     | Some x => f <- load_obj x; let '(_, xn, u) := f in store x (CObj prev xn u)
     | None => ret tt
     end);;
    decref v;; free n.

  (** ** Looking up *)

  (** The values of a list. *)
  Fixpoint list_values (fuel : nat) (p : ptr) : M (list V) :=
    match p with
    | None => ret []
    | Some a =>
        match fuel with
        | O => ub
        | S fuel => f <- load_obj a; let '(_, next, v) := f in
                    l <- list_values fuel next; ret (v :: l)
        end
    end.

  (** _ctree.c:176-216 [get_values], as the list of what is added to the set. *)
  Fixpoint get_values (a : addr) (t : etype) : M (list V) := fun s0 =>
    (f <- load_tree a; let '(vs, xs, ch, qu) := f in
     star <- list_values (c_next s0) xs;
     match t with
     | [] => l <- list_values (c_next s0) vs; ret (star ++ l)
     | k :: t' =>
         l <- match qu with Some c => get_values c t' | None => ret [] end;
         l' <- match ch with
               | None => ret []
               | Some b => pc <- ht_get b k; match pc with Some c => get_values c t' | None => ret [] end
               end;
         ret (star ++ l ++ l')
     end) s0.

  (** ** The Python class (ctree.py) *)

  (** ctree.py:10-12: [_collection] (its root) and [_refs] (as the addresses of
      the [ref_t] of the capsules). *)
  Record hcoll := Hc { hc_root : addr; hc_refs : list (V * list addr) }.
  Definition refs_of (c : hcoll) (v : V) : list addr := match dget veqb v (hc_refs c) with Some l => l | None => [] end.

  (** _ctree.c:225-240 [Collection_new]: the Python object, then the root. *)
  Definition coll_new : M (option hcoll) :=
    self <- may_fail;
    if self then
      p <- create_tree_node; match p with Some a => ret (Some (Hc a [])) | None => ret None end
    else ret None.

  (** ctree.py:17-21 [add]: tells whether it returned (otherwise it raised). *)
  Fixpoint coll_add (c : hcoll) (qs : list etype) (v : V) : M (bool * hcoll) :=
    match qs with
    | [] => ret (true, c)
    | q :: qs' =>
        r <- add_value_to_tree (hc_root c) q v;
        match r with
        | Some r => coll_add (Hc (hc_root c) (dset veqb v (refs_of c v ++ [r]) (hc_refs c))) qs' v
        | None => ret (false, c)
        end
    end.

  (** ctree.py:23-25 [remove]; the capsules are destroyed at the end
      (_ctree.c:81-84 [ref_obj_destructor]). *)
  Definition coll_remove (c : hcoll) (v : V) : M hcoll :=
    each collection_remove (refs_of c v);;
    each free (refs_of c v);;
    ret (Hc (hc_root c) (ddel veqb v (hc_refs c))).

  (** Operations; the results tell which of them returned. *)
  Definition coll_step (c : hcoll) (op : coll_op V) : M (bool * hcoll) :=
    match op with
    | OpAdd sub v => coll_add c (node_to_query_types sub) v
    | OpRemove v => c' <- coll_remove c v; ret (true, c')
    end.
  Fixpoint coll_steps (c : hcoll) (ops : list (coll_op V)) : M (list bool * hcoll) :=
    match ops with
    | [] => ret ([], c)
    | op :: ops' =>
        r <- coll_step c op; let '(b, c') := r in
        r' <- coll_steps c' ops'; let '(bs, c'') := r' in
        ret (b :: bs, c'')
    end.

  (** ctree.py:27-28 [get] *)
  Definition coll_get (c : hcoll) (t : etype) : M (list V) := get_values (hc_root c) t.

  (** The end of the object: _ctree.c:243-250 [Collection_dealloc], then the
      capsules. *)
  Definition coll_free (c : hcoll) : M unit :=
    (fun s => free_tree_node (c_next s) (hc_root c) s);;
    each free (flat_map snd (hc_refs c)).

  Definition cst0 : cst := Cst (fun _ => None) 0 0 (fun _ => 0%Z).
End CHeap.

Arguments CRaw {V}. Arguments CObj {V}. Arguments CRef {V}. Arguments CTree {V}. Arguments CHt {V}.
Arguments Cst {V}. Arguments c_heap {V}. Arguments c_next {V}. Arguments c_tries {V}. Arguments c_refs {V}.
Arguments ret {V A}. Arguments bind {V A B}. Arguments ub {V A}. Arguments set_heap {V}. Arguments upd {V}.
Arguments free {V}. Arguments load {V}. Arguments store {V}. Arguments each {V A}.
Arguments load_obj {V}. Arguments load_ref {V}. Arguments load_tree {V}. Arguments load_ht {V}.
Arguments malloc {V}. Arguments may_fail {V}. Arguments head {V}. Arguments set_head {V}.
Arguments ht_create {V}. Arguments ht_get {V}. Arguments ht_set {V}. Arguments create_tree_node {V}.
Arguments count {V}. Arguments incref {V}. Arguments decref {V}.
Arguments free_obj_list {V}. Arguments free_tree_node {V}. Arguments add_value_to_list {V}. Arguments add_value_to_tree {V}.
Arguments collection_remove {V}. Arguments list_values {V}. Arguments get_values {V}.
Arguments Hc {V}. Arguments hc_root {V}. Arguments hc_refs {V}. Arguments refs_of {V}.
Arguments coll_new {V}. Arguments coll_add {V}. Arguments coll_remove {V}. Arguments coll_step {V}. Arguments coll_steps {V}.
Arguments coll_get {V}. Arguments coll_free {V}. Arguments cst0 {V}.
