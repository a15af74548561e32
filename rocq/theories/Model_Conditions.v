(** Storage conditions.  Models
    src_py/hat/event/backends/lmdb/conditions.py. *)
From Coq Require Import ZArith String Bool List.
From Verif Require Import Base Model_Types Model_Subscription Model_Collection.
Import ListNotations.
Open Scope string_scope.
Open Scope list_scope.

(** ** Python values *)

(** A number as [m * 2^e]; [bool] is a subclass of [int] in Python. *)
Definition num_of (j : json) : option (Z * Z) :=
  match j with
  | JBool b => Some ((if b then 1 else 0)%Z, 0%Z)
  | JInt z => Some (z, 0%Z)
  | JFloat m e => Some (m, e)
  | _ => None
  end.

Definition num_eqb (x y : Z * Z) : bool :=
  let e := Z.min (snd x) (snd y) in
  (fst x * 2 ^ (snd x - e) =? fst y * 2 ^ (snd y - e))%Z.

(** Python's [==] on JSON data (conditions.py:90 uses [!=]).  Comparison of
    numbers is exact and covers [bool]; dictionaries are compared regardless of
    the order of their keys. *)
Fixpoint py_eqb (a b : json) {struct a} : bool :=
  match a, b with
  | JNull, JNull => true
  | JStr s, JStr t => String.eqb s t
  | JArr l, JArr m =>
      (fix go (l m : list json) {struct l} : bool :=
         match l, m with
         | [], [] => true
         | x :: l', y :: m' => py_eqb x y && go l' m'
         | _, _ => false
         end) l m
  | JObj l, JObj m =>
      Nat.eqb (List.length l) (List.length m) &&
      (fix go (l : list (string * json)) : bool :=
         match l with
         | [] => true
         | (k, x) :: l' =>
             match sget k m with
             | Some y => py_eqb x y && go l'
             | None => false
             end
         end) l
  | _, _ =>
      match num_of a, num_of b with
      | Some x, Some y => num_eqb x y
      | _, _ => false
      end
  end.

(** ** Conditions *)

(** conditions.py:24-34 [_create_condition] and 37-57: a condition.  The
    optional members of a json condition are 'data_path', 'data_type' and
    'data_value'.  Other types of conditions are refused by the schema. *)
Inductive condition :=
| CAll (conditions : list condition)
| CAny (conditions : list condition)
| CJson (data_path : option json) (data_type : option string) (data_value : option json).

(** conditions.py:70-87: test of 'data_type'; a type with another name is
    not tested. *)
Definition type_test (ty : string) (d : json) : bool :=
  if ty =? "null" then match d with JNull => true | _ => false end
  else if ty =? "boolean" then match d with JBool _ => true | _ => false end
  else if ty =? "string" then match d with JStr _ => true | _ => false end
  else if ty =? "number" then match d with JFloat _ _ | JInt _ => true | _ => false end
  else if ty =? "array" then match d with JArr _ => true | _ => false end
  else if ty =? "object" then match d with JObj _ => true | _ => false end
  else true.

Section Conditions.
  (** [hat.json.get(data, path)] (another package). *)
  Variable jget : json -> json -> json.

  (** conditions.py:37-93 [matches] of the three classes. *)
  Fixpoint cond_matches (c : condition) (e : event) : bool :=
    match c with
    | CAll l => forallb (fun c => cond_matches c e) l
    | CAny l => existsb (fun c => cond_matches c e) l
    | CJson path ty value =>
        match ev_payload e with
        | Some (PJson data) =>
            let d := jget data (match path with Some p => p | None => JArr [] end) in
            match ty with Some t => type_test t d | None => true end &&
            match value with Some v => py_eqb v d | None => true end
        | _ => false
        end
    end.

  (** conditions.py:8-13 [__init__]: the items added to the collection.  Each
      condition is an object of its own, known by its position.  [None]: a
      query type is refused. *)
  Fixpoint cond_ops (i : nat) (conf : list (list etype * condition)) : option (list (coll_op nat)) :=
    match conf with
    | [] => Some []
    | (qs, _) :: conf' =>
        match py_create qs, cond_ops (S i) conf' with
        | Some sub, Some ops => Some (OpAdd sub i :: ops)
        | _, _ => None
        end
    end.

  (** conditions.py:16-19: the loop of [matches] over the values found. *)
  Definition conds_hold (conf : list (list etype * condition)) (found : list nat) (e : event) : bool :=
    forallb (fun i => match nth_error conf i with
                      | Some (_, c) => cond_matches c e
                      | None => true
                      end) found.

  (** conditions.py:5-21 [Conditions] with the C collection... *)
  Definition conditions_c (conf : list (list etype * condition)) : option (event -> bool) :=
    match cond_ops 0 conf with
    | None => None
    | Some ops => Some (fun e => conds_hold conf (ctcoll_get (ctcoll_run Nat.eqb ops) (ev_type e)) e)
    end.

  (** ... and with the Python collection; [None]: an exception. *)
  Definition conditions_py (conf : list (list etype * condition)) : option (event -> bool) :=
    match cond_ops 0 conf with
    | None => None
    | Some ops =>
        match pytree_run Nat.eqb ops with
        | None => None
        | Some c => Some (fun e => conds_hold conf (pytree_get c (ev_type e)) e)
        end
    end.
End Conditions.
