(** Meaning of storage conditions, independent of the model's evaluation. *)
From Coq Require Import ZArith QArith String List.
From Verif Require Import Base Model_Types Spec_Subscription Model_Conditions.
Import ListNotations.
Open Scope string_scope.
Open Scope list_scope.

(** The rational number a JSON value stands for; [true] and [false] count as 1
    and 0. *)
Inductive number : json -> Q -> Prop :=
| number_true : number (JBool true) 1%Q
| number_false : number (JBool false) 0%Q
| number_int : forall z, number (JInt z) (inject_Z z)
| number_float : forall m e, number (JFloat m e) (inject_Z m * (2 # 1) ^ e)%Q.

(** Equality of Python: no order of keys, no difference between 1, 1.0 and
    [true]. *)
Inductive same_value : json -> json -> Prop :=
| same_null : same_value JNull JNull
| same_str : forall s, same_value (JStr s) (JStr s)
| same_num : forall a b p q, number a p -> number b q -> (p == q)%Q -> same_value a b
| same_arr : forall l m, Forall2 same_value l m -> same_value (JArr l) (JArr m)
| same_obj : forall l m,
    (forall k, In k (map fst l) <-> In k (map fst m)) ->
    (forall k x y, In (k, x) l -> In (k, y) m -> same_value x y) ->
    same_value (JObj l) (JObj m).

(** The type of a JSON value, by its name in the configuration. *)
Definition type_name (j : json) : string :=
  match j with
  | JNull => "null"
  | JBool _ => "boolean"
  | JInt _ | JFloat _ _ => "number"
  | JStr _ => "string"
  | JArr _ => "array"
  | JObj _ => "object"
  end.
Definition type_names : list string := ["null"; "boolean"; "string"; "number"; "array"; "object"].

(** Equality of JSON: a boolean is no number. *)
Inductive same_json : json -> json -> Prop :=
| js_null : same_json JNull JNull
| js_bool : forall b, same_json (JBool b) (JBool b)
| js_str : forall s, same_json (JStr s) (JStr s)
| js_num : forall a b p q, type_name a = "number" -> type_name b = "number" ->
    number a p -> number b q -> (p == q)%Q -> same_json a b
| js_arr : forall l m, Forall2 same_json l m -> same_json (JArr l) (JArr m)
| js_obj : forall l m,
    (forall k, In k (map fst l) <-> In k (map fst m)) ->
    (forall k x y, In (k, x) l -> In (k, y) m -> same_json x y) ->
    same_json (JObj l) (JObj m).

(** Dictionaries have no repeated key. *)
Inductive jwf : json -> Prop :=
| jwf_null : jwf JNull
| jwf_bool : forall b, jwf (JBool b)
| jwf_int : forall z, jwf (JInt z)
| jwf_float : forall m e, jwf (JFloat m e)
| jwf_str : forall s, jwf (JStr s)
| jwf_arr : forall l, Forall jwf l -> jwf (JArr l)
| jwf_obj : forall l, NoDup (map fst l) -> Forall (fun kv => jwf (snd kv)) l -> jwf (JObj l).

(** [holds eqv sel e c]: condition [c] holds for event [e], where [sel] selects
    the value at a path and [eqv] compares values. *)
Inductive holds (eqv : json -> json -> Prop) (sel : json -> json -> json) (e : event) : condition -> Prop :=
| holds_all : forall l, (forall c, In c l -> holds eqv sel e c) -> holds eqv sel e (CAll l)
| holds_any : forall l c, In c l -> holds eqv sel e c -> holds eqv sel e (CAny l)
| holds_json : forall path ty value data v,
    ev_payload e = Some (PJson data) ->
    v = sel data (match path with Some p => p | None => JArr [] end) ->
    (forall t, ty = Some t -> type_name v = t) ->
    (forall w, value = Some w -> eqv w v) ->
    holds eqv sel e (CJson path ty value).

(** All conditions applying to the type of [e] hold. *)
Definition all_hold (eqv : json -> json -> Prop) (sel : json -> json -> json)
    (conf : list (list etype * condition)) (e : event) : Prop :=
  forall qs c, In (qs, c) conf -> selects qs (ev_type e) -> holds eqv sel e c.

(** A condition allowed by the schema: type names are known, values are JSON. *)
Inductive cond_ok : condition -> Prop :=
| cok_all : forall l, Forall cond_ok l -> cond_ok (CAll l)
| cok_any : forall l, Forall cond_ok l -> cond_ok (CAny l)
| cok_json : forall path ty value,
    (forall t, ty = Some t -> In t type_names) ->
    (forall w, value = Some w -> jwf w) ->
    cond_ok (CJson path ty value).

Definition conds_ok (conf : list (list etype * condition)) : Prop :=
  Forall (fun qc => Forall valid_query (fst qc) /\ cond_ok (snd qc)) conf.

Definition payload_ok (e : event) : Prop := forall d, ev_payload e = Some (PJson d) -> jwf d.

(** No boolean and no number that equals one occurs in a value. *)
Inductive unlike_bool : json -> Prop :=
| ub_null : unlike_bool JNull
| ub_str : forall s, unlike_bool (JStr s)
| ub_num : forall j q, type_name j = "number" -> number j q -> ~ (q == 0)%Q -> ~ (q == 1)%Q -> unlike_bool j
| ub_arr : forall l, Forall unlike_bool l -> unlike_bool (JArr l)
| ub_obj : forall l, Forall (fun kv => unlike_bool (snd kv)) l -> unlike_bool (JObj l).

(** Values of json conditions are not [unlike_bool] only if they are plain
    booleans or numbers, with the type being given as well. *)
Inductive cond_strict : condition -> Prop :=
| cst_all : forall l, Forall cond_strict l -> cond_strict (CAll l)
| cst_any : forall l, Forall cond_strict l -> cond_strict (CAny l)
| cst_json : forall path ty value,
    (forall w, value = Some w -> unlike_bool w \/
       ((type_name w = "boolean" \/ type_name w = "number") /\ ty = Some (type_name w))) ->
    cond_strict (CJson path ty value).

Definition conds_strict (conf : list (list etype * condition)) : Prop := Forall (fun qc => cond_strict (snd qc)) conf.

(** [f] is the test made for a configuration, with one or the other
    implementation of event type collections. *)
Definition made_for (sel : json -> json -> json) (conf : list (list etype * condition)) (f : event -> bool) : Prop :=
  conditions_c sel conf = Some f \/ conditions_py sel conf = Some f.
