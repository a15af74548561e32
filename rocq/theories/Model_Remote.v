(** Model of server/eventer_client_runner.py: the connections to other servers
    of the group, one loop per server published by the monitor, and the flag
    telling whether any of them is active. *)
From Coq Require Import String Bool ZArith List.
From Verif Require Import Base Model_Types Model_Conditions Model_Monitor.
Import ListNotations.
Open Scope string_scope.
Open Scope list_scope.
Open Scope Z_scope.

(** eventer_client_runner.py:28-30 [EventerServerData]: server id and address. *)
Record sdata := Sdata { sd_id : Z; sd_host : string; sd_port : Z }.

Definition sdata_eqb (a b : sdata) : bool := (sd_id a =? sd_id b) && String.eqb (sd_host a) (sd_host b) && (sd_port a =? sd_port b).

(** eventer_client_runner.py:136-155 [_get_eventer_server_data], for one
    component: [own] is [state.info]. *)
Definition server_of (group : string) (token : option string) (own : option minfo) (i : minfo) : option sdata :=
  if opt_eqb minfo_eqb (Some i) own || negb (opt_eqb String.eqb (mi_group i) (Some group)) then None
  else
    match as_int (jfield "server_id" (mi_data i)), as_str (jfield "host" (jfield "eventer_server" (mi_data i))),
          as_int (jfield "port" (jfield "eventer_server" (mi_data i))), as_token (jfield "server_token" (mi_data i)) with
    | Some n, Some h, Some p, Some t =>
        match token with
        | Some _ => if opt_eqb String.eqb t token then Some (Sdata n h p) else None
        | None => Some (Sdata n h p)
        end
    | _, _, _, _ => None
    end.

(** eventer_client_runner.py:136-155 [_get_eventer_server_data]. *)
Definition servers_of (group : string) (token : option string) (st : mstate) : list sdata :=
  flat_map (fun i => match server_of group token (ms_info st) i with Some d => [d] | None => [] end) (ms_components st).

(** Where a connection loop (lines 77-119 [_client_loop]) is: spawned and not
    yet started; in [create_eventer_client]; sleeping after a failure; waiting
    for the client to close; the client is closing (its connection lost, or the
    loop cancelled) and [eventer_client.async_close()] not yet finished. *)
Inductive xphase := XNew | XConnect | XSleep | XOpen | XLost.

(** The runner: lines 40-49.  Sets are lists without order. *)
Record xstate := Xstate {
  x_valid : list sdata;
  x_connecting : list sdata;
  x_active : list sdata;
  x_remote : bool;
  x_tasks : list (sdata * xphase);
  x_open : bool
}.

Definition xstart : xstate := Xstate [] [] [] false [] true.

Inductive xop :=
| XMonitor (st : mstate)            (* [set_monitor_state] *)
| XStep (d : sdata)                 (* the loop gets to its head, or ends after its client is closed *)
| XMade (d : sdata) (st : status)   (* a client is created; its status *)
| XFail (d : sdata)                 (* creating fails *)
| XStatus (d : sdata) (st : status) (* the client's status callback *)
| XDrop (d : sdata)                 (* the client's connection is closed *)
| XClose                            (* the runner is closed *)
| XCancel (d : sdata).              (* the loop's cancellation takes effect *)

(** What others see: attempts to connect and calls of the callbacks. *)
Inductive xout := Try (d : sdata) | Tell (b : bool).

Definition smem (d : sdata) (l : list sdata) : bool := existsb (sdata_eqb d) l.
Definition sremove (d : sdata) (l : list sdata) : list sdata := filter (fun x => negb (sdata_eqb d x)) l.
Definition sadd (d : sdata) (l : list sdata) : list sdata := if smem d l then l else l ++ [d].

(** eventer_client_runner.py:121-133 [_set_client_status]. *)
Definition set_client_status (s : xstate) (d : sdata) (st : option status) : xstate * list xout :=
  let active :=
    match st with
    | None | Some STANDBY => sremove d (x_active s)
    | Some _ => sadd d (x_active s)
    end in
  let remote := match active with [] => false | _ => true end in
  if Bool.eqb remote (x_remote s)
  then (Xstate (x_valid s) (x_connecting s) active (x_remote s) (x_tasks s) (x_open s), [])
  else (Xstate (x_valid s) (x_connecting s) active remote (x_tasks s) (x_open s), [Tell remote]).

Definition with_tasks (s : xstate) (ts : list (sdata * xphase)) : xstate :=
  Xstate (x_valid s) (x_connecting s) (x_active s) (x_remote s) ts (x_open s).

Definition phase (s : xstate) (d : sdata) : option xphase := dget sdata_eqb d (x_tasks s).
Definition goto (s : xstate) (d : sdata) (p : xphase) : xstate := with_tasks s (dset sdata_eqb d p (x_tasks s)).

(** eventer_client_runner.py:70-75, the loop of [set_monitor_state]; on a
    closed group [spawn] raises at the first server without loop. *)
Fixpoint spawn_all (s : xstate) (ds : list sdata) : xstate :=
  match ds with
  | [] => s
  | d :: ds' =>
      if smem d (x_connecting s) then spawn_all s ds'
      else if x_open s
      then spawn_all (Xstate (x_valid s) (x_connecting s ++ [d]) (x_active s) (x_remote s) (x_tasks s ++ [(d, XNew)]) (x_open s)) ds'
      else s
  end.

(** eventer_client_runner.py:116-119, the end of [_client_loop]. *)
Definition finish (s : xstate) (d : sdata) : xstate * list xout :=
  let '(s1, l) := set_client_status s d None in
  (Xstate (x_valid s1) (sremove d (x_connecting s1)) (x_active s1) (x_remote s1) (ddel sdata_eqb d (x_tasks s1)) (x_open s1), l).

(** eventer_client_runner.py:80-85, the head of the loop up to the creation of
    a client. *)
Definition head (s : xstate) (d : sdata) : xstate * list xout :=
  if smem d (x_valid s)
  then let '(s1, l) := set_client_status s d None in (goto s1 d XConnect, l ++ [Try d])
  else finish s d.

(** One step of the runner; [None] if the step is not possible.  Cancelling is
    requested for all loops when the runner is closed (line 114 or from
    outside), so a loop does not return to its head then: its client closed it
    ends.  A loop cancelled before its first step does nothing at all.  The
    callbacks are assumed not to raise. *)
Definition xexec (group : string) (token : option string) (s : xstate) (o : xop) : option (xstate * list xout) :=
  match o with
  | XMonitor st =>
      let v := servers_of group token st in
      Some (spawn_all (Xstate v (x_connecting s) (x_active s) (x_remote s) (x_tasks s) (x_open s)) v, [])
  | XStep d =>
      match phase s d, x_open s with
      | Some (XNew | XSleep | XLost), true => Some (head s d)
      | Some XLost, false => Some (finish s d)
      | _, _ => None
      end
  | XMade d st =>
      match phase s d, x_open s with
      | Some XConnect, true => let '(s1, l) := set_client_status s d (Some st) in Some (goto s1 d XOpen, l)
      | _, _ => None
      end
  | XFail d =>
      match phase s d, x_open s with
      | Some XConnect, true => Some (goto s d XSleep, [])
      | _, _ => None
      end
  | XStatus d st =>
      match phase s d with
      | Some XOpen => Some (set_client_status s d (Some st))
      | _ => None
      end
  | XDrop d =>
      match phase s d with
      | Some XOpen => Some (goto s d XLost, [])
      | _ => None
      end
  | XClose =>
      Some (Xstate (x_valid s) (x_connecting s) (x_active s) (x_remote s) (x_tasks s) false, [])
  | XCancel d =>
      match phase s d, x_open s with
      | Some XNew, false => Some (with_tasks s (ddel sdata_eqb d (x_tasks s)), [])
      | Some (XConnect | XSleep), false => Some (finish s d)
      | Some XOpen, false => Some (goto s d XLost, [])
      | _, _ => None
      end
  end.

Definition xitem := (xop * list xout)%type.

Inductive xruns (group : string) (token : option string) : list xitem -> xstate -> Prop :=
| xruns_nil : xruns group token [] xstart
| xruns_snoc : forall tr s o s' l, xruns group token tr s -> xexec group token s o = Some (s', l) -> xruns group token (tr ++ [(o, l)]) s'.
