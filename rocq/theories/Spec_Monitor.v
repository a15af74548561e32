(** What a component publishes, read off its JSON data. *)
From Coq Require Import String Bool ZArith List.
From Verif Require Import Base Model_Types Model_Monitor Spec_Conditions.
Import ListNotations.
Open Scope string_scope.
Open Scope list_scope.
Open Scope Z_scope.

(** [v] is the member [k] of the object [j]. *)
Definition member (k : string) (j v : json) : Prop := exists l, j = JObj l /\ In (k, v) l.

(** A number, as Python sees it: [true] is 1, [false] is 0. *)
Inductive int_value : json -> Z -> Prop :=
| iv_int : forall z, int_value (JInt z) z
| iv_true : int_value (JBool true) 1
| iv_false : int_value (JBool false) 0.

(** The token published under [k], which is optional. *)
Inductive token_value (k : string) (j : json) : option string -> Prop :=
| tv_some : forall s, member k j (JStr s) -> token_value k j (Some s)
| tv_null : member k j JNull -> token_value k j None
| tv_none : (forall v, ~ member k j v) -> token_value k j None.

(** The address published: host and port of the member [eventer_server]. *)
Definition address (j : json) (host : string) (port : Z) : Prop :=
  exists es v, member "eventer_server" j es /\ member "host" es (JStr host) /\ member "port" es v /\ int_value v port.

(** Entries are the same if all their fields are. *)
Definition same_entry (a b : minfo) : Prop :=
  mi_cid a = mi_cid b /\ mi_mid a = mi_mid b /\ mi_name a = mi_name b /\ mi_group a = mi_group b /\ same_value (mi_data a) (mi_data b) /\
  mi_rank a = mi_rank b /\ mi_req a = mi_req b /\ mi_res a = mi_res b.

(** JSON data of the monitor are values: members of objects have different
    names. *)
Definition monitor_ok (st : mstate) : Prop :=
  (forall i, In i (ms_components st) -> jwf (mi_data i)) /\ (forall i, ms_info st = Some i -> jwf (mi_data i)).
