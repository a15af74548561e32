(** Specification of components, in terms of what the monitor told and what
    others see of connections and runners. *)
From Coq Require Import String Bool ZArith List.
From Verif Require Import Base Model_Types Model_Monitor Model_Component Spec_Conditions Spec_Monitor.
Import ListNotations.
Open Scope string_scope.
Open Scope list_scope.

(** An active server: in the group, its request for being blessed answered. *)
Definition blessed (cf : cconf) (i : minfo) : Prop :=
  mi_group i = Some (cf_group cf) /\ exists t, mi_req i = Some t /\ mi_res i = Some t.

(** The server to connect to: what the first active one publishes, if that is
    complete and has the token, if one is required. *)
Definition chosen (cf : cconf) (st : mstate) (d : cdata) : Prop :=
  exists a i b, ms_components st = a ++ i :: b /\ blessed cf i /\ (forall j, In j a -> ~ blessed cf j) /\
    (exists v, member "server_id" (mi_data i) v /\ int_value v (cd_id d)) /\
    address (mi_data i) (cd_host d) (cd_port d) /\
    token_value "server_token" (mi_data i) (cd_token d) /\
    (cf_token cf = None \/ cf_token cf = cd_token d).

(** The monitor's latest state. *)
Definition latest (tr : list citem) : mstate :=
  fold_left (fun acc x => match fst x with CState st => st | _ => acc end) tr (Mstate None []).

(** What is to be connected to according to it. *)
Definition choice (cf : cconf) (tr : list citem) (o : option cdata) : Prop :=
  match o with
  | Some d => chosen cf (latest tr) d
  | None => forall d, ~ chosen cf (latest tr) d
  end.

Definition states_ok (tr : list citem) : Prop := forall st l, In (CState st, l) tr -> monitor_ok st.

(** The monitor component has a runner. *)
Definition alive (tr : list citem) : bool :=
  fold_left (fun acc x => match fst x with CRunner => true | CDrop => false | _ => acc end) tr false.

(** Connections as others see them: none; being made to [d]; made, and the
    callback called; the runner exists; the runner is closed, the client not
    yet. *)
Inductive lk := Off | Dialing (d : cdata) | Calling (d : cdata) | Running (d : cdata) | Closing (d : cdata).

(** The transitions that are fine: one thing at a time, callback with the server
    connected to, one runner per connection, the client closed last. *)
Definition lk_out (k : option lk) (o : cout) : option lk :=
  match k, o with
  | Some Off, Dial d _ => Some (Dialing d)
  | Some (Dialing d), Call d' => if cdata_eqb d d' then Some (Calling d) else None
  | Some (Calling d), Made => Some (Running d)
  | Some (Running d), RClosed => Some (Closing d)
  | Some (Calling _ | Running _ | Closing _), CClosed => Some Off
  | Some k', CloseSelf => Some k'
  | _, _ => None
  end.

(** Attempts that fail or are given up end silently. *)
Definition lk_op (k : option lk) (o : cop) : option lk :=
  match k, o with
  | Some (Dialing _), (KFail | LTake | CDrop) => Some Off
  | _, _ => k
  end.

(** [None] if anything was not fine. *)
Definition link (tr : list citem) : option lk := fold_left (fun k x => fold_left lk_out (snd x) (lk_op k (fst x))) tr (Some Off).

(** The server concerned. *)
Definition peer (k : lk) : option cdata :=
  match k with Off => None | Dialing d | Calling d | Running d | Closing d => Some d end.

(** Nothing is left to be done about changes of the monitor's state, or about
    connections that ended. *)
Definition settled (cf : cconf) (s : cstate) : Prop :=
  cexec cf s LStart = None /\ cexec cf s LTake = None /\ cexec cf s LNext = None /\ cexec cf s KRunnerClosed = None /\ cexec cf s KClientClosed = None.

(** Steps of the component itself, and of what it waits for. *)
Definition own_step (o : cop) : Prop := o = LStart \/ o = LTake \/ o = LNext \/ o = KStart \/ o = KRunnerClosed \/ o = KClientClosed.

Definition dialed (tr : list citem) (d : cdata) : Prop := exists o l i, In (o, l) tr /\ In (Dial d i) l.

(** A runner was returned that the component did not get hold of yet. *)
Definition pending (tr : list citem) : bool :=
  fold_left (fun acc x => match fst x with KReturn => true | KResume | KClientClosed => false | _ => acc end) tr false.

(** The callback was cancelled as its connection was lost, and no server was
    chosen anew. *)
Definition gave_up (tr : list citem) : bool :=
  fold_left (fun acc x => match fst x with KAbort => true | LTake | LNext | CRunner => false | _ => acc end) tr false.

Definition closed_itself (tr : list citem) : Prop := exists o l, In (o, l) tr /\ In CloseSelf l.

(** What happened since the callback was called last. *)
Definition since_call (tr : list citem) : list cop :=
  fold_left (fun acc x => match fst x with KMade => [] | o => acc ++ [o] end) tr [].
