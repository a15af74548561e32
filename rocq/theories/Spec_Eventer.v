(** What is expected of the eventer server. *)
From Coq Require Import String Bool ZArith Arith DecimalString List.
From Verif Require Import Base Model_Types Model_Subscription Spec_Subscription Spec_Creation Model_Eventer.
Import ListNotations.
Open Scope string_scope.
Open Scope list_scope.
Open Scope nat_scope.

(** Life of a server with its id and token. *)
Definition server_run (server : Z) (token : option string) (tr : list vitem) (s : vstate) : Prop :=
  vruns server token vstart tr s.

Definition vouts (tr : list vitem) : list vout := flat_map snd tr.

(** Connections made so far. *)
Definition ids_in (l : list vout) : list nat := flat_map (fun x => match x with Accepted c => [c] | _ => [] end) l.
Definition ids (tr : list vitem) : list nat := ids_in (vouts tr).

(** Messages sent to a client, in order. *)
Definition sent_in (c : nat) (l : list vout) : list smsg :=
  flat_map (fun x => match x with Sent k m => if Nat.eqb k c then [m] else [] | _ => [] end) l.
Definition sent_to (c : nat) (tr : list vitem) : list smsg := sent_in c (vouts tr).

(** The init request of a client: the first one counts. *)
Definition init_op (c : nat) (o : vop) : option (nat * init_req) :=
  match o with VInit k conv req _ => if Nat.eqb k c then Some (conv, req) else None | _ => None end.
Fixpoint init_of (c : nat) (tr : list vitem) : option (nat * init_req) :=
  match tr with
  | [] => None
  | (o, _) :: tr' => match init_op c o with Some x => Some x | None => init_of c tr' end
  end.

(** The connection was closed by either side. *)
Definition closes (c : nat) (o : vop) : bool :=
  match o with VLost k | VEnd k | VBad k | VRaised k => Nat.eqb k c | _ => false end.
Definition gone (c : nat) (tr : list vitem) : bool := existsb (fun i => closes c (fst i)) tr.

(** The client got a positive answer to its init request. *)
Definition is_welcome (m : smsg) : bool := match m with MInitRes _ (Some _) => true | _ => false end.
Definition is_initres (m : smsg) : bool := match m with MInitRes _ _ => true | _ => false end.
Definition welcomed (c : nat) (tr : list vitem) : bool := existsb is_welcome (sent_to c tr).

(** The token is acceptable, the subscriptions are valid. *)
Definition token_ok (token : option string) (req : init_req) : Prop := ir_token req = None \/ (ir_token req = token).
Definition subs_ok (req : init_req) : Prop := Forall valid_query (ir_subs req).

(** As [subs_ok], but invalid ones may be covered by earlier ones (see C01). *)
Definition creatable (req : init_req) : Prop := forall a q b, ir_subs req = a ++ q :: b -> valid_query q \/ shadowed a q.

(** The event registered about a client. *)
Definition about_client (sv : Z) (name : string) (r : reg_event) : Prop :=
  exists st, (st = "CONNECTED" \/ st = "DISCONNECTED") /\
    r = RegEv ["event"; NilZero.string_of_int (Z.to_int sv); "eventer"; name] None (Some (PJson (JStr st))).

(** Events a client asked for. *)
Definition interested (req : init_req) (e : event) : Prop :=
  selects (ir_subs req) (ev_type e) /\ match ir_server req with None => True | Some x => x = eid_server (ev_id e) end.

(** Those elements of a list which meet a condition, in order. *)
Inductive picked {A} (P : A -> Prop) : list A -> list A -> Prop :=
| picked_nil : picked P [] []
| picked_take : forall x l l', P x -> picked P l l' -> picked P (x :: l) (x :: l')
| picked_skip : forall x l l', ~ P x -> picked P l l' -> picked P (x :: l) l'.

(** Messages sent in steps of a call of [notify_events]. *)
Definition step_of (n : nat) (o : vop) : bool :=
  match o with VNotifyStep k | VTask k _ => Nat.eqb k n | _ => false end.
Definition notes (n : nat) (tr : list vitem) : list (nat * list event * bool) :=
  flat_map (fun i => if step_of n (fst i)
                     then flat_map (fun x => match x with Sent c (MEvents _ es last) => [(c, es, last)] | _ => [] end) (snd i)
                     else []) tr.

(** The client of a message. *)
Definition conn_of (x : nat * list event * bool) : nat := fst (fst x).

(** A call has returned; it was given up by its caller; its part for one client
    was cancelled because the server is closing. *)
Definition returned (n : nat) (tr : list vitem) : Prop := In (Returned n) (vouts tr).
Definition given_up (n : nat) (tr : list vitem) : Prop := exists l, In (VGiveUp n, l) tr.
Definition dropped (n c : nat) (tr : list vitem) : Prop := exists l, In (VTaskCancel n c, l) tr.

(** The status of the server, and the last call that changed it. *)
Definition status_step (st : status * option nat) (i : vitem) : status * option nat :=
  match i with
  | (VSetStatus n x _, []) => (x, Some n)
  | _ => st
  end.
Definition status_at (tr : list vitem) : status * option nat := fold_left status_step tr (STANDBY, None).

(** The last status a client was told. *)
Definition told (m : smsg) : option status :=
  match m with MInitRes _ (Some st) => Some st | MStatus st => Some st | _ => None end.
Definition last_told (l : list smsg) : option status :=
  fold_left (fun x m => match told m with Some st => Some st | None => x end) l None.

(** Steps of the server's handling of a connection (noticing that it is closed
    is one of them). *)
Definition handles (o : vop) : option nat :=
  match o with
  | VInit c _ _ _ | VHello c _ | VBad c | VAck c _ | VRegister c _ _ _ | VRegistered c _ | VQuery c _ _ | VQueried c _ | VRaised c | VEnd c => Some c
  | _ => None
  end.

(** A client acknowledged a message with those events. *)
Definition answered (c : nat) (es : list event) (b : list vitem) : Prop :=
  exists b1 l b2 conv, b = b1 ++ (VAck c conv, l) :: b2 /\ In (Sent c (MEvents conv es false)) (vouts b1).

(** The server noticed that some connection is closed (after [pre]). *)
Definition noticed (pre b : list vitem) : Prop :=
  exists b1 o l b2 c', b = b1 ++ (o, l) :: b2 /\ handles o = Some c' /\ gone c' (pre ++ b1 ++ [(o, l)]) = true.

(** The server does nothing for that client. *)
Definition quiet (c : nat) (tr : list vitem) : Prop := Forall (fun i => handles (fst i) <> Some c) tr.

(** Requests of a client that want an answer (register requests sent as last
    message of their conversation don't), and answers sent to it; [true] is for
    register. *)
Definition ask (c : nat) (o : vop) : list (bool * nat) :=
  match o with
  | VRegister k conv false _ => if Nat.eqb k c then [(true, conv)] else []
  | VQuery k conv _ => if Nat.eqb k c then [(false, conv)] else []
  | _ => []
  end.
Definition asks (c : nat) (tr : list vitem) : list (bool * nat) := flat_map (fun i => ask c (fst i)) tr.
Definition answer (m : smsg) : list (bool * nat) :=
  match m with MRegisterRes conv _ => [(true, conv)] | MQueryRes conv _ => [(false, conv)] | _ => [] end.
Definition answers (c : nat) (tr : list vitem) : list (bool * nat) := flat_map answer (sent_to c tr).
