(** What is expected of a server that follows another one. *)
From Coq Require Import String Bool ZArith Arith Sorted List.
From Verif Require Import Base Model_Types Model_Codec Model_Lmdb Model_LmdbSys Spec_Lmdb Model_Sync Spec_Sync Model_Replica.
Import ListNotations.
Open Scope list_scope.
Open Scope nat_scope.

(** What happened to the remote and the clients, and to the local backend. *)
Definition sync_part (tr : list rstep) : list yitem := flat_map (fun x => match x with RSync i _ => [i] | _ => [] end) tr.
Definition local_part (tr : list rstep) : list (op * out) :=
  flat_map (fun x => match x with RSync _ xs => xs | RLocal x => [x] | RAgain | RRestart => [] end) tr.

(** The steps since the last connection was lost. *)
Definition again (x : rstep) : bool := match x with RAgain | RRestart => true | _ => false end.
Fixpoint current (tr : list rstep) : list rstep :=
  match tr with
  | [] => []
  | x :: tr' => if existsb again tr then current tr' else tr
  end.

(** Configurations and events are as they can be (see [execution]). *)
Definition replicated (O : oracle) (cf : conf) (sv : Z) (tr : list rstep) (y : ystate) (s : sys) : Prop :=
  replica O cf sv tr y s /\ Forall conf_ok (cf :: confs_of (local_part tr)) /\ Forall event_ok (events_of (local_part tr)).

(** Events the local server accepted, restarts considered. *)
Definition have (cf : conf) (tr : list rstep) (e : event) : Prop :=
  exists en, In en (w_all (watch_run cf (local_part tr))) /\ en_ev en = e.

(** All configurations of the local server so far take the event. *)
Definition taken (cf : conf) (tr : list rstep) (e : event) : Prop :=
  Forall (fun c => cf_cond c e = true /\ has_place c e = true) (cf :: confs_of (local_part tr)).

(** When the remote is restarted, it has stored the last event it has
    registered. *)
Definition ends_stored (tr : list rstep) : Prop :=
  forall l e ok, concat (commits (sync_part tr)) = l ++ [(e, ok)] -> ok = true.
Definition restarts_safe (tr : list rstep) : Prop := forall a b, tr = a ++ RRestart :: b -> ends_stored a.

(** The clock of the remote does not go back. *)
Definition timely (es : list event) : Prop := StronglySorted (fun a b => ts_leb (ev_ts a) (ev_ts b) = true) es.
Definition remote_events (tr : list rstep) : list event := concat (map batch (commits (sync_part tr))).

(** The event is in a batch that waits for being notified or is on its way to
    the client. *)
Definition waiting (y : ystate) (e : event) : Prop := exists b, In e b /\ (In b (r_lag y) \/ In (YNote b) (r_chan y)).

(** The server's events the local server accepted, in the order it did. *)
Definition copy (cf : conf) (sv : Z) (tr : list rstep) : list event :=
  filter (fun e => Z.eqb (eid_server (ev_id e)) sv) (map en_ev (w_all (watch_run cf (local_part tr)))).
