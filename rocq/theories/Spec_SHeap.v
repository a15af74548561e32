(** Specification of the C subscription as a program sees it that keeps several:
    what calls answer, which references are lost, when reference counts are right. *)
From Coq Require Import String Bool Arith ZArith List.
From Verif Require Import Model_Types Model_Subscription Model_SHeap.
Import ListNotations.
Open Scope list_scope.

(** ** Lost references *)

(** The constructor loses references: a query type that ends with "*" costs one to
    its last segment unless a query type before it, that also ends with "*", already
    covers it. *)

(** The segments before a final "*". *)
Fixpoint star_prefix (q : etype) : option etype :=
  match q with
  | [] => None
  | [k] => if c_is_star k then Some [] else None
  | k :: q' => option_map (cons k) (star_prefix q')
  end.

Fixpoint is_prefix (p t : etype) : bool :=
  match p, t with
  | [], _ => true
  | k :: p', h :: t' => String.eqb k h && is_prefix p' t'
  | _ :: _, [] => false
  end.

(** Query types with the objects of their segments, in order; [seen] are the
    prefixes of those before. *)
Fixpoint lost {A} (seen : list etype) (qs : list (etype * list A)) (d : A) : list A :=
  match qs with
  | [] => []
  | (q, segs) :: qs' =>
      match star_prefix q with
      | Some p => (if existsb (fun p' => is_prefix p' p) seen then [] else [last segs d]) ++ lost (p :: seen) qs' d
      | None => lost seen qs' d
      end
  end.

(** ** Reference counts *)

Notation objs := (addr -> option pobj).

(** Occurrences of an address in a list. *)
Fixpoint cntl (o : addr) (l : list addr) : Z :=
  (match l with [] => 0 | x :: l' => (if Nat.eqb x o then 1 else 0) + cntl o l' end)%Z.

(** References from an object, from the objects below [n]. *)
Definition held (p : option pobj) (o : addr) : Z := match p with Some p => cntl o (o_items p) | None => 0%Z end.
Fixpoint occ (ob : objs) (n : nat) (o : addr) : Z :=
  (match n with O => 0 | S m => occ ob m o + held (ob m) o end)%Z.

(** Strings and such have no items, tuples have those, collections have tuples,
    iterators have any of them. *)
Definition level (k : okind) : nat := match k with KStr _ | KOther => 0 | KTup => 1 | KSeq => 2 | KIter => 3 end.

(** Counts are right: [ext x] references to [x] are held by those who run, the
    others by objects. *)
Record acc (ob : objs) (n : addr) (ext : addr -> Z) : Prop := {
  a_lt : forall x, ob x <> None -> (x < n)%nat;
  a_rc : forall x p, ob x = Some p -> o_rc p = (ext x + occ ob n x)%Z;
  a_pos : forall x p, ob x = Some p -> (0 < o_rc p)%Z;
  a_item : forall x p y, ob x = Some p -> In y (o_items p) ->
    exists q, ob y = Some q /\ (level (o_kind q) < level (o_kind p))%nat;
  a_none : forall x, ob x = None -> ext x = 0%Z;
  a_ext : forall x, (0 <= ext x)%Z }.
Definition sacc (s : sst) (ext : addr -> Z) : Prop := acc (s_objs s) (s_next s) ext.

(** Objects are as before but for lost references. *)
Definition counts_more (s s' : sst) (lk : list addr) : Prop :=
  forall x, s_objs s' x = match s_objs s x with Some p => Some (PObj (o_kind p) (o_items p) (o_rc p + cntl x lk)) | None => None end.

(** ** Answers *)

(** The items of an object; a query type; the query types of a collection. *)
Definition segs_of (s : sst) (o : addr) : list addr := match s_objs s o with Some p => o_items p | None => [] end.
Definition given (s : sst) (q : addr) : etype * list addr := (type_of s q, segs_of s q).
Definition container (s : sst) (q : addr) : list (etype * list addr) := map (given s) (segs_of s q).
Definition all_str (s : sst) (xs : list addr) : Prop :=
  forall x, In x xs -> exists p t, s_objs s x = Some p /\ o_kind p = KStr t.
Definition is_tuple (s : sst) (o : addr) : Prop := exists p, s_objs s o = Some p /\ o_kind p = KTup.

(** The program holds what it passes: collections of tuples, event types. *)
Definition passes (s : sst) (ext : addr -> Z) (c : scall) : Prop :=
  match c with
  | SNew q => (1 <= ext q)%Z /\ (exists p, s_objs s q = Some p /\ o_kind p = KSeq) /\ forall x, In x (segs_of s q) -> is_tuple s x
  | SMatches _ t => (1 <= ext t)%Z
  | _ => True
  end.

(** [outcome fails s ns c x ns' lk]: with subscriptions [ns] the call [c] answers
    [x], then there are [ns'], and [lk] are references lost.  [fails] says that
    something failed; [s] has what the program passes. *)
Inductive outcome (fails : Prop) (s : sst) (ns : list cnode) : scall -> sres -> list cnode -> list addr -> Prop :=
| o_new : forall q n, c_create (map fst (container s q)) = Some n ->
    outcome fails s ns (SNew q) RNew (ns ++ [n]) (lost [] (container s q) 0)
| o_new_raised : forall q qs1 qs2, container s q = qs1 ++ qs2 -> c_create (map fst qs1) <> None ->
    fails \/ ~ all_str s (flat_map snd (container s q)) \/ c_create (map fst (container s q)) = None ->
    outcome fails s ns (SNew q) RRaised ns (lost [] qs1 0)
| o_drop : forall i, (i < length ns)%nat -> outcome fails s ns (SDrop i) RDropped (firstn i ns ++ skipn (S i) ns) []
| o_get : forall i n, nth_error ns i = Some n -> outcome fails s ns (SGet i) (RTypes (c_query_types n)) ns []
| o_get_raised : forall i, (i < length ns)%nat -> fails -> outcome fails s ns (SGet i) RRaised ns []
| o_matches : forall i n t, nth_error ns i = Some n -> is_tuple s t ->
    outcome fails s ns (SMatches i t) (RBool (c_matches n (type_of s t))) ns []
| o_matches_raised : forall i t, (i < length ns)%nat -> fails \/ ~ is_tuple s t \/ ~ all_str s (segs_of s t) ->
    outcome fails s ns (SMatches i t) RRaised ns []
| o_disjoint : forall i j a b, nth_error ns i = Some a -> nth_error ns j = Some b ->
    outcome fails s ns (SDisjoint i j) (RBool (c_isdisjoint a b)) ns []
| o_nothing : forall c, match c with
                        | SNew _ => False
                        | SDrop i | SGet i | SMatches i _ => (length ns <= i)%nat
                        | SDisjoint i j => (length ns <= i)%nat \/ (length ns <= j)%nat
                        end -> outcome fails s ns c RNothing ns [].
Inductive outcomes (fails : Prop) (s : sst) : list cnode -> list scall -> list sres -> list cnode -> list addr -> Prop :=
| os_nil : forall ns, outcomes fails s ns [] [] ns []
| os_cons : forall ns c x ns1 l1 cs xs ns2 l2, outcome fails s ns c x ns1 l1 -> outcomes fails s ns1 cs xs ns2 l2 ->
    outcomes fails s ns (c :: cs) (x :: xs) ns2 (l1 ++ l2).

(** The same if nothing fails, as a function. *)
Definition expected (s : sst) (ns : list cnode) (c : scall) : sres * list cnode :=
  match c with
  | SNew q => match c_create (map fst (container s q)) with Some n => (RNew, ns ++ [n]) | None => (RRaised, ns) end
  | SDrop i => if Nat.ltb i (length ns) then (RDropped, firstn i ns ++ skipn (S i) ns) else (RNothing, ns)
  | SGet i => (match nth_error ns i with Some n => RTypes (c_query_types n) | None => RNothing end, ns)
  | SMatches i t => (match nth_error ns i with Some n => RBool (c_matches n (type_of s t)) | None => RNothing end, ns)
  | SDisjoint i j => (match nth_error ns i, nth_error ns j with Some a, Some b => RBool (c_isdisjoint a b) | _, _ => RNothing end, ns)
  end.
Fixpoint expecteds (s : sst) (ns : list cnode) (cs : list scall) : list sres * list cnode :=
  match cs with
  | [] => ([], ns)
  | c :: cs' => let '(x, ns1) := expected s ns c in let '(xs, ns2) := expecteds s ns1 cs' in (x :: xs, ns2)
  end.
(** All that is passed is made of strings. *)
Definition well_typed (s : sst) (c : scall) : Prop :=
  match c with
  | SNew q => all_str s (flat_map snd (container s q))
  | SMatches _ t => is_tuple s t /\ all_str s (segs_of s t)
  | _ => True
  end.
