(** Memory of the C subscription.  Models src_c/py/subscription/_csubscription.c
    statement by statement on an explicit heap, with the reference counts of the
    Python objects it uses.  (Model_Subscription.v has the same code on pure trees.)

    The memory of nodes and hash tables is a map from addresses to cells.  The
    Python objects are a map from addresses to objects with a kind, the objects they
    refer to and a reference count; an object whose count reaches zero is destroyed
    and gives back its references.  Each allocation gives an address that was never
    used before, or fails, as an oracle says for it; [ok] is the oracle of every call
    that may fail but one: [okt] is that of the tuple made for a query type that ends
    with "*".  [None] as the result of a statement stands for undefined behavior:
    using memory, or an object, that does not exist (any more), or using [NULL].
    Recursion that follows pointers gets a bound; reaching it is [None] too.

    Simplified: the hash table of hat-core ([hat_ht]) is one cell with its entries;
    it copies its keys.  A tuple that is being filled has the items set so far.  The
    Subscription object is the cell of its root and is destroyed when its constructor
    fails or the caller drops it.  Query types are tuples whose items are strings or
    other objects without items; iterators over them do not raise.  Not modelled:
    the references to the types, to [None], to the module and class of the deque, and
    code of other threads and of destructors. *)
From Coq Require Import String Bool Arith ZArith List.
From Verif Require Import Base Model_Types Model_Subscription.
Import ListNotations.
Open Scope string_scope.
Open Scope list_scope.

Section SHeap.
  Variable ok okt : nat -> bool.

  Definition addr := nat.
  Definition ptr := option addr.

  (** _csubscription.c:7-11 [node_t]; a hash table. *)
  Inductive cell :=
  | SNode (leaf star : bool) (children : ptr)
  | SHt (entries : list (string * addr)).

  (** Python objects: strings, objects that are not strings, tuples, other
      sequences (the deque, the caller's collection of query types), iterators. *)
  Inductive okind := KStr (text : string) | KOther | KTup | KSeq | KIter.
  Record pobj := PObj { o_kind : okind; o_items : list addr; o_rc : Z }.

  Record sst := Sst { s_heap : addr -> option cell; s_objs : addr -> option pobj; s_next : addr; s_tries : nat; s_stars : nat }.

  Definition M (A : Type) : Type := sst -> option (A * sst).
  Definition ret {A} (a : A) : M A := fun s => Some (a, s).
  Definition bind {A B} (m : M A) (f : A -> M B) : M B :=
    fun s => match m s with Some (a, s') => f a s' | None => None end.
  Definition ub {A} : M A := fun _ => None.
  Notation "x <- m ; e" := (bind m (fun x => e)) (at level 61, right associativity).
  Notation "m ;; e" := (bind m (fun _ => e)) (at level 61, right associativity).

  Definition upd {A} (h : addr -> option A) (a : addr) (c : option A) : addr -> option A :=
    fun x => if Nat.eqb x a then c else h x.
  Definition set_heap (h : addr -> option cell) (s : sst) : sst := Sst h (s_objs s) (s_next s) (s_tries s) (s_stars s).
  Definition set_objs (o : addr -> option pobj) (s : sst) : sst := Sst (s_heap s) o (s_next s) (s_tries s) (s_stars s).

  Definition each {A} (f : A -> M unit) : list A -> M unit :=
    fix each (l : list A) : M unit :=
      match l with [] => ret tt | x :: l' => f x;; each l' end.

  (** ** Memory *)

  (** A call that may fail for want of memory or for another reason that is not
      modelled. *)
  Definition may_fail : M bool := fun s =>
    Some (ok (s_tries s), Sst (s_heap s) (s_objs s) (s_next s) (S (s_tries s)) (s_stars s)).

  (** Allocation, and writing of all fields. *)
  Definition alloc (c : cell) : M ptr :=
    fine <- may_fail;
    if fine then fun s => Some (Some (s_next s),
                            Sst (upd (s_heap s) (s_next s) (Some c)) (s_objs s) (S (s_next s)) (s_tries s) (s_stars s))
    else ret None.
  Definition free (a : addr) : M unit := fun s =>
    match s_heap s a with Some _ => Some (tt, set_heap (upd (s_heap s) a None) s) | None => None end.
  Definition store (a : addr) (c : cell) : M unit := fun s =>
    match s_heap s a with Some _ => Some (tt, set_heap (upd (s_heap s) a (Some c)) s) | None => None end.
  Definition load_node (a : addr) : M (bool * bool * ptr) := fun s =>
    match s_heap s a with Some (SNode l x ch) => Some ((l, x, ch), s) | _ => None end.
  Definition load_ht (b : addr) : M (list (string * addr)) := fun s =>
    match s_heap s b with Some (SHt es) => Some (es, s) | _ => None end.

  (** [hat_ht_create], [hat_ht_get], [hat_ht_set] (tells whether it succeeded) *)
  Definition ht_create : M ptr := alloc (SHt []).
  Definition ht_get (b : addr) (k : string) : M ptr := es <- load_ht b; ret (sget k es).
  Definition ht_set (b : addr) (k : string) (c : addr) : M bool :=
    es <- load_ht b; fine <- may_fail;
    if fine then store b (SHt (sset k c es));; ret true else ret false.

  (** ** Python objects *)

  Definition load_obj (o : addr) : M pobj := fun s => match s_objs s o with Some x => Some (x, s) | None => None end.
  Definition kind_of (o : addr) : M okind := x <- load_obj o; ret (o_kind x).
  Definition items_of (o : addr) : M (list addr) := x <- load_obj o; ret (o_items x).
  Definition store_obj (o : addr) (x : option pobj) : M unit := fun s => Some (tt, set_objs (upd (s_objs s) o x) s).

  (** [Py_INCREF] *)
  Definition incref (o : addr) : M unit :=
    x <- load_obj o; store_obj o (Some (PObj (o_kind x) (o_items x) (o_rc x + 1))).
  (** [Py_DECREF]; objects refer to each other to the depth of [fuel] at most. *)
  Fixpoint decref_to (fuel : nat) (o : addr) : M unit :=
    match fuel with
    | O => ub
    | S fuel =>
        x <- load_obj o;
        if (o_rc x =? 1)%Z then store_obj o None;; each (decref_to fuel) (o_items x)
        else store_obj o (Some (PObj (o_kind x) (o_items x) (o_rc x - 1)))
    end.
  Definition decref : addr -> M unit := decref_to 4.

  (** A new object with one reference. *)
  Definition new_obj_raw (k : okind) : M ptr := fun s =>
    Some (Some (s_next s), Sst (s_heap s) (upd (s_objs s) (s_next s) (Some (PObj k [] 1))) (S (s_next s)) (s_tries s) (s_stars s)).
  Definition new_obj (k : okind) : M ptr := fine <- may_fail; if fine then new_obj_raw k else ret None.
  (** The tuple of line 106. *)
  Definition new_star_tuple : M ptr := fun s =>
    let s' := Sst (s_heap s) (s_objs s) (s_next s) (s_tries s) (S (s_stars s)) in
    if okt (s_stars s) then new_obj_raw KTup s' else Some (None, s').

  (** The container takes over the reference to the item ([PyTuple_SetItem]). *)
  Definition set_item (o item : addr) : M unit :=
    x <- load_obj o; store_obj o (Some (PObj (o_kind x) (o_items x ++ [item]) (o_rc x))).
  (** [deque.append]; tells whether it succeeded. *)
  Definition append (d item : addr) : M bool :=
    fine <- may_fail; if fine then incref item;; set_item d item;; ret true else ret false.
  (** [PyObject_GetIter] *)
  Definition get_iter (o : addr) : M ptr :=
    i <- new_obj KIter;
    match i with Some i => incref o;; set_item i o;; ret (Some i) | None => ret None end.

  (** ** Nodes *)

  (** _csubscription.c:14-27 [free_children] *)
  Fixpoint free_children (fuel : nat) (a : addr) : M unit :=
    match fuel with
    | O => ub
    | S fuel =>
        f <- load_node a; let '(l, x, ch) := f in
        match ch with
        | None => ret tt
        | Some b =>
            es <- load_ht b;
            each (fun e => free_children fuel (snd e);; free (snd e)) es;;
            free b;;
            f <- load_node a; let '(l, x, _) := f in store a (SNode l x None)
        end
    end.
  Definition free_all (a : addr) : M unit := fun s => free_children (s_next s) a s.

  (** _csubscription.c:30-100 [add_query_type]: the remaining items of the
      iterator; tells whether it failed. *)
  Fixpoint add_query_type (a : addr) (segs : list addr) : M bool :=
    f <- load_node a; let '(leaf, star, ch) := f in
    if star then ret false
    else match segs with
    | [] => store a (SNode true star ch);; ret false
    | sub :: rest =>
        incref sub;;
        k <- kind_of sub;
        match k with
        | KStr key =>
            fine <- may_fail; (* lines 46-52: the conversion *)
            if fine then
              if c_is_star key then
                match rest with
                | next :: _ => incref next;; decref next;; decref sub;; ret true
                | [] => store a (SNode true true ch);; free_all a;; ret false
                end
              else
                pb <- match ch with
                      | Some b => ret (Some b)
                      | None => pb <- ht_create; store a (SNode leaf star pb);; ret pb
                      end;
                match pb with
                | None => decref sub;; ret true
                | Some b =>
                    pc <- ht_get b key;
                    pc <- match pc with
                          | Some c => ret (Some c)
                          | None =>
                              pc <- alloc (SNode false false None);
                              match pc with
                              | None => ret None
                              | Some c => fine <- ht_set b key c; if fine then ret (Some c) else free c;; ret None
                              end
                          end;
                    match pc with
                    | None => decref sub;; ret true
                    | Some c => decref sub;; add_query_type c rest
                    end
                end
            else decref sub;; ret true
        | _ => decref sub;; ret true
        end
    end.

  (** _csubscription.c:334-340 [Subscription_dealloc] *)
  Definition dealloc (self : addr) : M unit := free_all self;; free self.

  (** _csubscription.c:306-327: the loop of [Subscription_new]; tells whether it
      failed. *)
  Fixpoint new_loop (self : addr) (qts : list addr) : M bool :=
    match qts with
    | [] => ret false
    | q :: qts' =>
        incref q;;
        pi <- get_iter q;
        match pi with
        | None => decref q;; ret true
        | Some i =>
            segs <- items_of q;
            err <- add_query_type self segs;
            decref i;;
            decref q;;
            if (err : bool) then ret true else new_loop self qts'
        end
    end.

  (** _csubscription.c:287-331 [Subscription_new] *)
  Definition subscription_new (query_types : addr) : M ptr :=
    pi <- get_iter query_types;
    match pi with
    | None => ret None
    | Some i =>
        ps <- alloc (SNode false false None);
        match ps with
        | None => decref i;; ret None
        | Some self =>
            qts <- items_of query_types;
            err <- new_loop self qts;
            if (err : bool) then dealloc self;; decref i;; ret None
            else decref i;; ret (Some self)
        end
    end.

  (** ** [get_query_types] *)

  (** Lines 108-112, 153-157: copy of the items. *)
  Definition copy_items (from to : addr) : M unit :=
    its <- items_of from; each (fun seg => incref seg;; set_item to seg) its.

  (** _csubscription.c:103-172 [get_query_types]; tells whether it failed. *)
  Fixpoint get_query_types (fuel : nat) (a prefix deque : addr) : M bool :=
    match fuel with
    | O => ub
    | S fuel =>
        f <- load_node a; let '(leaf, star, ch) := f in
        if star then
          pq <- new_star_tuple;
          match pq with
          | None => ub (* [PyTuple_SetItem] or [Py_DECREF] of NULL *)
          | Some q =>
              copy_items prefix q;;
              pt <- new_obj (KStr "*");
              match pt with
              | None => decref q;; ret true
              | Some t => set_item q t;; fine <- append deque q; decref q;; ret (negb fine)
              end
          end
        else
          fine <- (if leaf then append deque prefix else ret true);
          if (fine : bool) then
            match ch with
            | None => ret false
            | Some b =>
                es <- load_ht b;
                (fix loop (es : list (string * addr)) : M bool :=
                   match es with
                   | [] => ret false
                   | (key, child) :: es' =>
                       pq <- new_obj KTup;
                       match pq with
                       | None => ret true
                       | Some q =>
                           copy_items prefix q;;
                           pt <- new_obj (KStr key);
                           match pt with
                           | None => decref q;; ret true
                           | Some t =>
                               set_item q t;;
                               err <- get_query_types fuel child q deque;
                               decref q;;
                               if (err : bool) then ret true else loop es'
                           end
                       end
                   end) es
            end
          else ret true
    end.

  (** _csubscription.c:343-373 [Subscription_get_query_types] *)
  Definition subscription_get_query_types (self : addr) : M ptr :=
    found <- may_fail; (* lines 345-352: the module and its attribute *)
    if (found : bool) then
      pd <- new_obj KSeq;
      match pd with
      | None => ret None
      | Some d =>
          pe <- new_obj KTup;
          match pe with
          | None => decref d;; ret None
          | Some e =>
              err <- (fun s => get_query_types (s_next s) self e d s);
              decref e;;
              if (err : bool) then decref d;; ret None else ret (Some d)
          end
      end
    else ret None.

  (** ** [matches] *)

  (** _csubscription.c:175-204 [matches]: the result, and whether an error was
      set. *)
  Fixpoint matches (a : addr) (segs : list addr) : M (bool * bool) :=
    f <- load_node a; let '(leaf, star, ch) := f in
    if star then ret (true, false)
    else match segs with
    | [] => ret (leaf, false)
    | seg :: rest =>
        match ch with
        | None => ret (false, false)
        | Some b =>
            k <- kind_of seg;
            match k with
            | KStr key =>
                fine <- may_fail;
                if (fine : bool) then
                  pc <- ht_get b key;
                  r <- match pc with Some c => matches c rest | None => ret (false, false) end;
                  if fst r then ret r
                  else
                    pc <- ht_get b "?";
                    r' <- match pc with Some c => matches c rest | None => ret (false, false) end;
                    ret (fst r', snd r || snd r')
                else ret (false, true)
            | _ => ret (false, true)
            end
        end
    end.

  (** _csubscription.c:376-391 [Subscription_matches]; [None] is an exception (if
      an error is set besides the result [True] it is Python that raises). *)
  Definition subscription_matches (self event_type : addr) : M (option bool) :=
    k <- kind_of event_type;
    match k with
    | KTup => segs <- items_of event_type; r <- matches self segs; ret (if snd r then None else Some (fst r))
    | _ => ret None
    end.

  (** ** [isdisjoint] *)

  Definition forallm {A} (f : A -> M bool) : list A -> M bool :=
    fix forallm (l : list A) : M bool :=
      match l with [] => ret true | x :: l' => b <- f x; if (b : bool) then forallm l' else ret false end.

  (** _csubscription.c:207-278 [isdisjoint] *)
  Fixpoint isdisjoint (fuel : nat) (first second : addr) : M bool :=
    match fuel with
    | O => ub
    | S fuel =>
        f1 <- load_node first; let '(l1, s1, c1) := f1 in
        f2 <- load_node second; let '(l2, s2, c2) := f2 in
        if l1 && l2 then ret false
        else if s1 then ret (negb l2 && match c2 with None => true | _ => false end)
        else if s2 then ret (negb l1 && match c1 with None => true | _ => false end)
        else match c1, c2 with
        | None, _ => ret (negb l1 || match c2 with None => true | _ => false end)
        | Some _, None => ret (negb l2 || false)
        | Some b1, Some b2 =>
            p1 <- ht_get b1 "?";
            r1 <- match p1 with
                  | Some q => es <- load_ht b2; forallm (fun e => isdisjoint fuel q (snd e)) es
                  | None => ret true
                  end;
            if (r1 : bool) then
              p2 <- ht_get b2 "?";
              r2 <- match p2 with
                    | Some q => es <- load_ht b1; forallm (fun e => isdisjoint fuel (snd e) q) es
                    | None => ret true
                    end;
              if (r2 : bool) then
                es1 <- load_ht b1;
                r3 <- forallm (fun e => if fst e =? "?" then ret true
                                        else pc <- ht_get b2 (fst e);
                                             match pc with Some c => isdisjoint fuel (snd e) c | None => ret true end) es1;
                if (r3 : bool) then
                  es2 <- load_ht b2;
                  forallm (fun e => if fst e =? "?" then ret true
                                    else pc <- ht_get b1 (fst e);
                                         match pc with Some c => isdisjoint fuel c (snd e) | None => ret true end) es2
                else ret false
              else ret false
            else ret false
        end
    end.

  (** _csubscription.c:394-405 [Subscription_isdisjoint] of a Subscription *)
  Definition subscription_isdisjoint (self other : addr) : M bool := fun s => isdisjoint (s_next s) self other s.

  (** ** A program using subscriptions *)

  (** Calls of a program that keeps a list of subscriptions: a new one for the
      query types of an object, the end of one, and calls of methods.  The program
      drops the deques it gets. *)
  Inductive scall :=
  | SNew (query_types : addr)
  | SDrop (i : nat)
  | SGet (i : nat)
  | SMatches (i : nat) (event_type : addr)
  | SDisjoint (i j : nat).
  (** Results; [RRaised] stands for an exception. *)
  Inductive sres := RRaised | RNew | RDropped | RTypes (qs : list etype) | RBool (b : bool) | RNothing.

  (** What the program sees in a deque. *)
  Definition text_of (s : sst) (o : addr) : string :=
    match s_objs s o with Some (PObj (KStr t) _ _) => t | _ => "" end.
  Definition type_of (s : sst) (o : addr) : etype :=
    match s_objs s o with Some x => map (text_of s) (o_items x) | None => [] end.
  Definition types_of (s : sst) (o : addr) : list etype :=
    match s_objs s o with Some x => map (type_of s) (o_items x) | None => [] end.

  Definition call (subs : list addr) (c : scall) : M (sres * list addr) :=
    match c with
    | SNew q => r <- subscription_new q;
                match r with Some a => ret (RNew, subs ++ [a]) | None => ret (RRaised, subs) end
    | SDrop i => match nth_error subs i with
                 | Some a => dealloc a;; ret (RDropped, firstn i subs ++ skipn (S i) subs)
                 | None => ret (RNothing, subs)
                 end
    | SGet i => match nth_error subs i with
                | Some a => r <- subscription_get_query_types a;
                            match r with
                            | Some d => fun s => (decref d;; ret (RTypes (types_of s d), subs)) s
                            | None => ret (RRaised, subs)
                            end
                | None => ret (RNothing, subs)
                end
    | SMatches i t => match nth_error subs i with
                      | Some a => r <- subscription_matches a t;
                                  ret (match r with Some b => RBool b | None => RRaised end, subs)
                      | None => ret (RNothing, subs)
                      end
    | SDisjoint i j => match nth_error subs i, nth_error subs j with
                       | Some a, Some b => r <- subscription_isdisjoint a b; ret (RBool r, subs)
                       | _, _ => ret (RNothing, subs)
                       end
    end.
  Fixpoint calls (subs : list addr) (cs : list scall) : M (list sres * list addr) :=
    match cs with
    | [] => ret ([], subs)
    | c :: cs' =>
        r <- call subs c; let '(x, subs') := r in
        r' <- calls subs' cs'; let '(xs, subs'') := r' in
        ret (x :: xs, subs'')
    end.
End SHeap.
