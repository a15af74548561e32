(** What is expected of events by which the server reports about itself, and of
    data published by the monitor. *)
From Coq Require Import String Bool ZArith List.
From Verif Require Import Base Model_Types Model_Engine Spec_Engine Model_Schema Model_Monitor Model_Remote Model_Conf Spec_Conf.
Import ListNotations.
Open Scope string_scope.
Open Scope list_scope.

(** An event was asked for: by a caller of [register], or by a module. *)
Definition asked (tr : list eitem) (r : reg_event) : Prop :=
  (exists rq, In (ERegister rq) (ops_of tr) /\ In r (rq_events rq)) \/ (exists rs, In (EProcessed rs) (ops_of tr) /\ In r rs).

(** An event with a JSON payload that is accepted by the schema. *)
Definition reports (s : schema) (ty : etype) (r : reg_event) : Prop :=
  re_type r = ty /\ re_src r = None /\ exists p, re_payload r = Some (PJson p) /\ forall log_ok, validates log_ok s p = true.

(** Another component that publishes the data of a server with this
    configuration, as seen by a server of the group. *)
Definition publishes (c : server_conf) (es : json) (group : string) (own : option minfo) (i : minfo) : Prop :=
  mi_data i = monitor_data c es /\ mi_group i = Some group /\ opt_eqb minfo_eqb (Some i) own = false.

(** Tokens by which servers of a group know each other. *)
Definition same_token (mine : option string) (c : server_conf) : Prop := forall t, mine = Some t -> sv_token c = Some t.
