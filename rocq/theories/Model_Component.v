(** Model of component.py: a component that follows the active event server of
    a group, as published by the monitor, and keeps a runner while connected. *)
From Coq Require Import String Bool ZArith List.
From Verif Require Import Base Model_Types Model_Conditions Model_Monitor.
Import ListNotations.
Open Scope string_scope.
Open Scope list_scope.
Open Scope Z_scope.

(** component.py:51-55 [ServerData]. *)
Record cdata := Cdata { cd_id : Z; cd_host : string; cd_port : Z; cd_token : option string }.

(** Equality of the named tuples, line 145. *)
Definition cdata_eqb (a b : cdata) : bool :=
  (cd_id a =? cd_id b) && String.eqb (cd_host a) (cd_host b) && (cd_port a =? cd_port b) && opt_eqb String.eqb (cd_token a) (cd_token b).

(** Parameters of [connect], lines 58-73: the group of the servers and, of
    [eventer_kwargs], the client's token and the server id if there is one. *)
Record cconf := Cconf { cf_group : string; cf_token : option string; cf_id : option (option Z) }.

(** component.py:202-205 [_active_server_filter]. *)
Definition active_filter (cf : cconf) (i : minfo) : bool :=
  opt_eqb String.eqb (mi_group i) (Some (cf_group cf)) &&
  (match mi_req i with Some _ => true | None => false end) &&
  opt_eqb Z.eqb (mi_req i) (mi_res i).

(** component.py:184-200, for the component found. *)
Definition data_of (cf : cconf) (i : minfo) : option cdata :=
  match as_int (jfield "server_id" (mi_data i)), as_str (jfield "host" (jfield "eventer_server" (mi_data i))),
        as_int (jfield "port" (jfield "eventer_server" (mi_data i))), as_token (jfield "server_token" (mi_data i)) with
  | Some n, Some h, Some p, Some t =>
      match cf_token cf with
      | Some _ => if opt_eqb String.eqb (cf_token cf) t then Some (Cdata n h p t) else None
      | None => Some (Cdata n h p t)
      end
  | _, _, _, _ => None
  end.

(** component.py:179-200 [_get_active_server_data]; [util.first] is the first
    element with the property. *)
Definition active_of (cf : cconf) (st : mstate) : option cdata :=
  match find (active_filter cf) (ms_components st) with
  | Some i => data_of cf i
  | None => None
  end.

(** component.py:230-235: the server id given to [eventer.client.connect]. *)
Definition id_for (cf : cconf) (d : cdata) : option Z := match cf_id cf with Some i => i | None => Some (cd_id d) end.

(** [_server_data_queue]: none yet, open, or closed. *)
Inductive cqueue := QNone | QOpen | QClosed.

(** Where [_server_data_loop] (lines 207-224) is: there is none; spawned and
    not yet started; waiting for a server at line 212; waiting at line 216 with
    a client loop for [d]; waiting at the end of line 214's block for that
    client loop to end, [t] being the data taken at line 216. *)
Inductive cloop := LOff | LNew | LWait | LRun (d : cdata) | LClosing (t : option cdata).

(** What a client loop does when its client is closed: go on at line 277, end,
    or end and close the component (line 281). *)
Inductive kend := KAgain | KOver | KFailed.

(** Where [_client_loop] (lines 226-284) is: spawned and not yet started;
    in [eventer.client.connect]; sleeping (lines 246 and 277); in [_runner_cb]
    (line 251), [lost] telling whether the connection is lost; the callback
    has returned a runner but the loop is not yet resumed; waiting at line 261,
    with flags for the client and the runner closing; closing the runner (line
    271); closing the client (line 274); ended. *)
Inductive kphase :=
| KNew | KConnect | KSleep
| KCall (lost : bool) | KGot (lost : bool)
| KUp (lost ended : bool)
| KDownR (e : kend) | KDownC (e : kend)
| KEnded.

Record cstate := Cstate {
  c_open : bool;
  c_state : mstate;
  c_data : option cdata;
  c_queue : list (option cdata);
  c_q : cqueue;
  c_loop : cloop;
  c_k : kphase
}.

(** component.py:94-106. *)
Definition cstart : cstate := Cstate true (Mstate None []) None [] QNone LOff KEnded.

Inductive cop :=
| CState (st : mstate)   (* the monitor's state changes and [_on_state] is called *)
| CRunner                (* the monitor component calls [_create_monitor_runner] *)
| CDrop                  (* the runner is closed by the monitor component *)
| CClose                 (* the component is closed by its user *)
| LStart                 (* first step of [_server_data_loop] *)
| LTake                  (* [get_until_empty] returns *)
| LNext                  (* the subgroup of the client loop is closed *)
| KStart                 (* first step of [_client_loop] *)
| KMade                  (* a client is connected *)
| KFail                  (* connecting fails *)
| KWake                  (* the delay is over *)
| KReturn                (* [_runner_cb] returns a runner *)
| KRaise                 (* [_runner_cb] raises *)
| KAbort                 (* [_runner_cb], cancelled as its connection is lost, ends *)
| KResume                (* the loop gets the runner *)
| KLost                  (* the client starts closing *)
| KEnds                  (* the runner starts closing by itself *)
| KNotice (cl rn : bool) (* line 261 returns, seeing the client and the runner closing *)
| KRunnerClosed          (* [runner.async_close] returns *)
| KClientClosed.         (* [client.async_close] returns *)

(** What others see: calls of [eventer.client.connect] for [d] with a server id,
    calls of [_runner_cb] with [d] once connected, its result; the runner and
    the client closed; the component closing itself. *)
Inductive cout := Dial (d : cdata) (id : option Z) | Call (d : cdata) | Made | RClosed | CClosed | CloseSelf.

Definition with_k (s : cstate) (k : kphase) : cstate := Cstate (c_open s) (c_state s) (c_data s) (c_queue s) (c_q s) (c_loop s) k.
Definition with_loop (s : cstate) (q : list (option cdata)) (l : cloop) (k : kphase) : cstate :=
  Cstate (c_open s) (c_state s) (c_data s) q (c_q s) l k.
Definition close_self (s : cstate) : cstate := Cstate false (c_state s) (c_data s) (c_queue s) (c_q s) (c_loop s) (c_k s).

(** component.py:141-149 [_on_state].  The queue is taken as unbounded; the
    monitor component sets its state and calls this in one go. *)
Definition on_state (cf : cconf) (s : cstate) (st : mstate) : cstate :=
  match c_q s with
  | QNone => Cstate (c_open s) st (c_data s) (c_queue s) (c_q s) (c_loop s) (c_k s)
  | q =>
      let data := active_of cf st in
      if opt_eqb cdata_eqb data (c_data s)
      then Cstate (c_open s) st (c_data s) (c_queue s) (c_q s) (c_loop s) (c_k s)
      else Cstate (c_open s) st data (match q with QOpen => c_queue s ++ [data] | _ => c_queue s end) (c_q s) (c_loop s) (c_k s)
  end.

(** component.py:166-177 [_create_monitor_runner]. *)
Definition create_runner (cf : cconf) (s : cstate) : cstate :=
  let data := active_of cf (c_state s) in
  Cstate (c_open s) (c_state s) data (match data with Some _ => [data] | None => [] end) QOpen LNew (c_k s).

(** component.py:211-215 with an empty queue: a client loop for the server data,
    or waiting for some. *)
Definition serve (s : cstate) (t : option cdata) : cstate :=
  match t with
  | Some d => with_loop s [] (LRun d) KNew
  | None => with_loop s [] LWait (c_k s)
  end.

(** [get_until_empty]: the newest item. *)
Definition newest_of (t : option cdata) (q : list (option cdata)) : option cdata := last q t.

(** Cancellation of [_client_loop]: a loop not started does nothing; one in
    [connect] or sleeping ends; one waiting for [_runner_cb] closes its client
    (also if the callback has returned: the result is lost then); closing goes
    on, [aio.uncancellable] raising [CancelledError] at its end, which takes the
    place of another exception.  Cancelled loops take no other step, so this
    happens at the time of the request. *)
Definition cancel_k (k : kphase) : kphase :=
  match k with
  | KNew | KConnect | KSleep | KEnded => KEnded
  | KCall _ | KGot _ => KDownC KOver
  | KUp _ _ => KDownR KOver
  | KDownR _ => KDownR KOver
  | KDownC _ => KDownC KOver
  end.

(** One step; [None] if it is not possible.  The monitor component has one
    runner at a time, and none after it is closed. *)
Definition cexec (cf : cconf) (s : cstate) (o : cop) : option (cstate * list cout) :=
  match o with
  | CState st => Some (on_state cf s st, [])
  | CRunner =>
      match c_loop s, c_k s, c_open s with
      | LOff, KEnded, true => Some (create_runner cf s, [])
      | _, _, _ => None
      end
  | CDrop =>
      match c_loop s with
      | LOff => None
      | LNew => Some (with_loop s (c_queue s) LOff (c_k s), [])
      | _ => Some (Cstate (c_open s) (c_state s) (c_data s) (c_queue s) QClosed LOff (cancel_k (c_k s)), [])
      end
  | CClose => Some (close_self s, [])
  | LStart =>
      match c_loop s with
      | LNew => Some (with_loop s (c_queue s) LWait (c_k s), [])
      | _ => None
      end
  | LTake =>
      match c_queue s, c_loop s with
      | _ :: _, LWait => Some (serve s (newest_of None (c_queue s)), [])
      | _ :: _, LRun d => Some (with_loop s [] (LClosing (newest_of None (c_queue s))) (cancel_k (c_k s)), [])
      | _, _ => None
      end
  | LNext =>
      match c_loop s, c_k s with
      | LClosing t, KEnded => Some (serve s (newest_of t (c_queue s)), [])
      | _, _ => None
      end
  | KStart | KWake =>
      match c_loop s, c_k s, o with
      | LRun d, KNew, KStart | LRun d, KSleep, KWake => Some (with_k s KConnect, [Dial d (id_for cf d)])
      | _, _, _ => None
      end
  | KMade =>
      match c_loop s, c_k s with
      | LRun d, KConnect => Some (with_k s (KCall false), [Call d])
      | _, _ => None
      end
  | KFail =>
      match c_k s with
      | KConnect => Some (with_k s KSleep, [])
      | _ => None
      end
  | KReturn =>
      match c_k s with
      | KCall b => Some (with_k s (KGot b), [Made])
      | _ => None
      end
  | KRaise =>
      match c_k s with
      | KCall _ => Some (with_k s (KDownC KFailed), [])
      | _ => None
      end
  | KAbort =>
      match c_k s with
      | KCall true => Some (with_k s (KDownC KOver), [])
      | _ => None
      end
  | KResume =>
      match c_k s with
      | KGot b => Some (with_k s (KUp b false), [])
      | _ => None
      end
  | KLost =>
      match c_k s with
      | KCall _ => Some (with_k s (KCall true), [])
      | KGot _ => Some (with_k s (KGot true), [])
      | KUp _ e => Some (with_k s (KUp true e), [])
      | _ => None
      end
  | KEnds =>
      match c_k s with
      | KUp b _ => Some (with_k s (KUp b true), [])
      | _ => None
      end
  | KNotice cl rn =>
      match c_k s with
      | KUp b e =>
          if (cl || rn) && (implb cl b) && (implb rn e)
          then if rn && negb cl
               then Some (close_self (with_k s (KDownR KOver)), [CloseSelf])
               else Some (with_k s (KDownR KAgain), [])
          else None
      | _ => None
      end
  | KRunnerClosed =>
      match c_k s with
      | KDownR e => Some (with_k s (KDownC e), [RClosed])
      | _ => None
      end
  | KClientClosed =>
      match c_k s with
      | KDownC KAgain => Some (with_k s KSleep, [CClosed])
      | KDownC KOver => Some (with_k s KEnded, [CClosed])
      | KDownC KFailed => Some (close_self (with_k s KEnded), [CClosed; CloseSelf])
      | _ => None
      end
  end.

Definition citem := (cop * list cout)%type.

Inductive cruns (cf : cconf) : list citem -> cstate -> Prop :=
| cruns_nil : cruns cf [] cstart
| cruns_snoc : forall tr s o s' l, cruns cf tr s -> cexec cf s o = Some (s', l) -> cruns cf (tr ++ [(o, l)]) s'.
