(** What is expected of the synchronization with a remote server. *)
From Coq Require Import String Bool ZArith Arith Sorted List.
From Verif Require Import Base Model_Types Model_Sync.
Import ListNotations.
Open Scope string_scope.
Open Scope list_scope.
Open Scope nat_scope.

(** Life of the remote [sv] and of a client whose backend's last id for that
    server is [last0]. *)
Definition sync_run (sv : Z) (last0 : event_id) (tr : list yitem) (s : ystate) : Prop := yruns sv last0 (ystart sv) tr s.

Definition youts (tr : list yitem) : list yout := flat_map snd tr.

(** Batches the remote has committed; events it has stored, or removed. *)
Definition commits (tr : list yitem) : list (list (event * bool)) :=
  flat_map (fun i => match fst i with RCommit b => [b] | _ => [] end) tr.
Definition persisted_in (b : list (event * bool)) (e : event) : Prop := In (e, true) b.
Definition persisted (tr : list yitem) (e : event) : Prop := exists b, In b (commits tr) /\ persisted_in b e.
Definition removed (tr : list yitem) (e : event) : Prop := exists l, In (RClean (ev_id e), l) tr.
Definition batch (b : list (event * bool)) : list event := map fst b.

(** Batches given to the local backend, by query, from the queue, upon
    notification, at all; the latter in one list of events. *)
Definition origin_eqb (v w : origin) : bool :=
  match v, w with FromQuery, FromQuery | FromQueue, FromQueue | FromNotify, FromNotify => true | _, _ => false end.
Definition gives (w : origin) (tr : list yitem) : list (list event) :=
  flat_map (fun x => match x with Give v es => if origin_eqb v w then [es] else [] | _ => [] end) (youts tr).
Definition given (tr : list yitem) : list event :=
  flat_map (fun x => match x with Give _ es => es | _ => [] end) (youts tr).

(** Pages the remote has answered. *)
Definition pages (tr : list yitem) : list query_result :=
  flat_map (fun x => match x with Answered q => [q] | _ => [] end) (youts tr).

(** Batches notified to the client, not notified to it, received by it. *)
Definition sent (tr : list yitem) : list (list event) := flat_map (fun x => match x with Sent b => [b] | _ => [] end) (youts tr).
Definition unsent (tr : list yitem) : list (list event) := flat_map (fun x => match x with Unsent b => [b] | _ => [] end) (youts tr).
Definition recvd (tr : list yitem) : list (list event) := flat_map (fun x => match x with Recvd b => [b] | _ => [] end) (youts tr).

(** Synced states told. *)
Definition told (tr : list yitem) : list (synced * option nat) :=
  flat_map (fun x => match x with Told st n => [(st, n)] | _ => [] end) (youts tr).
Definition finished (tr : list yitem) : Prop := exists n, In (SYNCED, n) (told tr).

(** The order of ids. *)
Definition id_lt (a b : event) : Prop := eid_ltb (ev_id a) (ev_id b) = true.
Definition increasing (l : list event) : Prop := StronglySorted id_lt l.
Definition above (i : event_id) (l : list event) : Prop := Forall (fun e => eid_ltb i (ev_id e) = true) l.

(** What a backend accepts that refuses ids not above the last one accepted
    (and whatever else it wants to). *)
Fixpoint accepted (ok : event -> bool) (last : event_id) (l : list event) : list event :=
  match l with
  | [] => []
  | e :: l' => if eid_ltb last (ev_id e) && ok e then e :: accepted ok (ev_id e) l' else accepted ok last l'
  end.

(** The events of a batch are of one session; no two batches share a
    session. *)
Definition one_session (es : list event) : Prop :=
  forall e e', In e es -> In e' es -> eid_session (ev_id e) = eid_session (ev_id e').
Definition sessions_of (es : list event) : list Z := map (fun e => eid_session (ev_id e)) es.
Definition apart (l : list (list event)) : Prop :=
  forall a b c es es', l = a ++ es :: b ++ es' :: c -> forall e e', In e es -> In e' es' -> eid_session (ev_id e) <> eid_session (ev_id e').

(** When a query was answered with the last page, all batches committed so far
    had been notified. *)
Definition in_step (tr : list yitem) : Prop :=
  forall a k es l b, tr = a ++ (RQuery k, Answered (QRes es false) :: l) :: b -> length (commits a) = length (sent a) + length (unsent a).

(** An id above [i]. *)
Definition fresh (i : event_id) (e : event) : Prop := eid_ltb i (ev_id e) = true.

(** The synced states of a whole synchronization by which [n] events came. *)
Definition synced_seq (n : nat) : list (synced * option nat) :=
  (CONNECTED, None) :: (if Nat.eqb n 0 then [] else [(SYNCING, None)]) ++ [(SYNCED, Some n)].

(** Steps other than the remote's commits and removals and the closing of the
    client. *)
Definition quiet (tr : list yitem) : Prop :=
  Forall (fun i => match fst i with RCommit _ | RClean _ | YClose => False | _ => True end) tr.
