(** Specification of remote activity, in terms of what happened. *)
From Coq Require Import String Bool ZArith List.
From Verif Require Import Base Model_Types Model_Monitor Model_Remote Spec_Conditions Spec_Monitor.
Import ListNotations.
Open Scope string_scope.
Open Scope list_scope.

(** The server [d] is published by the component [i], which is in the same
    group, is not the server itself, and has the token if one is required. *)
Definition published (group : string) (token : option string) (st : mstate) (i : minfo) (d : sdata) : Prop :=
  (forall o, ms_info st = Some o -> ~ same_entry i o) /\ mi_group i = Some group /\
  (exists v, member "server_id" (mi_data i) v /\ int_value v (sd_id d)) /\
  address (mi_data i) (sd_host d) (sd_port d) /\
  (exists t, token_value "server_token" (mi_data i) t /\ (token = None \/ token = t)).

(** The latest state told by the monitor. *)
Definition last_monitor (tr : list xitem) : option mstate :=
  fold_left (fun acc x => match fst x with XMonitor st => Some st | _ => acc end) tr None.

(** The servers published by it. *)
Definition known (group : string) (token : option string) (tr : list xitem) (d : sdata) : Prop :=
  exists st i, last_monitor tr = Some st /\ In i (ms_components st) /\ published group token st i d.

(** The status of the remote [d] as last told by the connection to it, as long
    as there is one: a lost connection counts until the loop has disposed of
    it. *)
Definition link_step (d : sdata) (acc : option status) (o : xop) : option status :=
  match o with
  | XMade d' st | XStatus d' st => if sdata_eqb d d' then Some st else acc
  | XStep d' => if sdata_eqb d d' then None else acc
  | _ => acc
  end.
Definition link (d : sdata) (tr : list xitem) : option status := fold_left (fun acc x => link_step d acc (fst x)) tr None.

(** What listeners were told. *)
Definition told (tr : list xitem) : list bool :=
  flat_map (fun x => flat_map (fun o => match o with Tell b => [b] | Try _ => [] end) (snd x)) tr.

(** Each value differs from the one before. *)
Fixpoint changes (b : bool) (l : list bool) : Prop :=
  match l with
  | [] => True
  | x :: l' => x <> b /\ changes x l'
  end.

(** An attempt to connect to [d] was made which neither failed nor led to a
    connection lost since. *)
Definition busy_step (d : sdata) (acc : bool) (x : xitem) : bool :=
  let acc1 := match fst x with XFail d' | XDrop d' | XCancel d' => if sdata_eqb d d' then false else acc | _ => acc end in
  acc1 || existsb (fun o => match o with Try d' => sdata_eqb d d' | Tell _ => false end) (snd x).
Definition busy (d : sdata) (tr : list xitem) : bool := fold_left (busy_step d) tr false.

(** The runner is not closed. *)
Definition running (tr : list xitem) : Prop := forall l, ~ In (XClose, l) tr.

(** A remote is active: some connection's last status is not STANDBY. *)
Definition remote_is_active (tr : list xitem) : Prop := exists d st, link d tr = Some st /\ st <> STANDBY.

(** All states told by the monitor are well formed. *)
Definition monitors_ok (tr : list xitem) : Prop := forall st l, In (XMonitor st, l) tr -> monitor_ok st.
