(** What is expected of the delivery of events, from calls of [notify_events] of
    the server to callbacks of a client. *)
From Coq Require Import String Bool ZArith Arith List.
From Verif Require Import Base Model_Types Model_Eventer Spec_Eventer Model_Client Spec_Client.
Import ListNotations.
Open Scope list_scope.
Open Scope nat_scope.

(** Calls of [notify_events], among those that [N] chooses, for clients that asked
    for this kind of notification; with their events. *)
Definition announced (N : nat -> bool) (p : bool) (tr : list vitem) : list (nat * list event) :=
  flat_map (fun i => match fst i with VNotify n es q _ => if N n && Bool.eqb q p then [(n, es)] else [] | _ => [] end) tr.

(** The chosen calls are made one after another. *)
Definition in_turn (N : nat -> bool) (tr : list vitem) : Prop :=
  forall a n es p ack l b m es' p' ack' l' d, tr = a ++ (VNotify n es p ack, l) :: b ++ (VNotify m es' p' ack', l') :: d ->
    N n = true -> N m = true -> returned n ((VNotify n es p ack, l) :: b).

(** Their parts for the client are not cancelled by closing the server. *)
Definition undropped (N : nat -> bool) (c : nat) (tr : list vitem) : Prop := forall n, N n = true -> ~ dropped n c tr.

(** Events which a client watches for, and events of a server. *)
Definition from (X : event -> bool) (es : list event) : list event := filter X es.
Definition of_server (x : Z) (e : event) : bool := Z.eqb (eid_server (ev_id e)) x.

(** Among the calls of that kind, only the chosen ones have such events. *)
Definition only_by (N : nat -> bool) (X : event -> bool) (p : bool) (tr : list vitem) : Prop :=
  forall n es ack l, In (VNotify n es p ack, l) tr -> N n = false -> from X es = [].

(** What happens after the client is accepted. *)
Fixpoint since (c : nat) (tr : list vitem) : list vitem :=
  match tr with
  | [] => []
  | i :: tr' => if existsb is_welcome (sent_in c (snd i)) then tr' else since c tr'
  end.

(** Events of messages; events given to the callback of a client. *)
Definition events_in (l : list smsg) : list event := flat_map (fun m => match m with MEvents _ es _ => es | _ => [] end) l.
Definition got_events (tr : list citem) : list event :=
  flat_map (fun x => match x with EventsCb es => es | _ => [] end) (couts tr).

(** Watched events that a client asked for. *)
Definition asked_from (req : init_req) (X : event -> bool) (e : event) : Prop := interested req e /\ X e = true.

(** All chosen calls of that kind since the client was accepted have returned. *)
Definition all_returned (N : nat -> bool) (p : bool) (c : nat) (tr : list vitem) : Prop :=
  forall n es, In (n, es) (announced N p (since c tr)) -> returned n tr.
