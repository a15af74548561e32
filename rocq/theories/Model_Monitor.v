(** The monitor's view of components, as given to the event server and to
    components using it (package [hat.monitor], whose records are modelled as
    far as they are used), and access to the JSON data components publish. *)
From Coq Require Import String Bool ZArith List.
From Verif Require Import Base Model_Types Model_Conditions.
Import ListNotations.
Open Scope string_scope.
Open Scope list_scope.
Open Scope Z_scope.

(** [hat.monitor.common.ComponentInfo]: numbers of the component and of its
    monitor server, name, group, published data, rank and the tokens of the
    blessing request and response.  The time of the request and the flag
    [ready] of the response are not modelled. *)
Record minfo := Minfo {
  mi_cid : Z;
  mi_mid : Z;
  mi_name : option string;
  mi_group : option string;
  mi_data : json;
  mi_rank : Z;
  mi_req : option Z;
  mi_res : option Z
}.

(** [hat.monitor.component.State]: the component's own entry, if it is
    known, and those of all components in order of the monitor's list. *)
Record mstate := Mstate { ms_info : option minfo; ms_components : list minfo }.

Definition opt_eqb {A} (eqb : A -> A -> bool) (a b : option A) : bool :=
  match a, b with
  | None, None => true
  | Some x, Some y => eqb x y
  | _, _ => false
  end.

(** Equality of the records, which are named tuples. *)
Definition minfo_eqb (a b : minfo) : bool :=
  (mi_cid a =? mi_cid b) && (mi_mid a =? mi_mid b) && opt_eqb String.eqb (mi_name a) (mi_name b) && opt_eqb String.eqb (mi_group a) (mi_group b) &&
  py_eqb (mi_data a) (mi_data b) && (mi_rank a =? mi_rank b) && opt_eqb Z.eqb (mi_req a) (mi_req b) && opt_eqb Z.eqb (mi_res a) (mi_res b).

(** [hat.json.get(data, key)] and, applied twice, [hat.json.get(data, [k1, k2])]
    (another package): the member of an object, [None] if there is none. *)
Definition jfield (k : string) (j : json) : json :=
  match j with
  | JObj l => match dget String.eqb k l with Some v => v | None => JNull end
  | _ => JNull
  end.

(** [isinstance(x, int)]: Python's booleans are integers; the result is the
    number the value equals. *)
Definition as_int (j : json) : option Z :=
  match j with
  | JInt z => Some z
  | JBool b => Some (if b then 1 else 0)
  | _ => None
  end.

(** [isinstance(x, str)]. *)
Definition as_str (j : json) : option string := match j with JStr s => Some s | _ => None end.

(** [isinstance(x, (str, NoneType))]. *)
Definition as_token (j : json) : option (option string) :=
  match j with
  | JStr s => Some (Some s)
  | JNull => Some None
  | _ => None
  end.
