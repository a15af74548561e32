(** What is expected of the delivery of events from the engine to a client: the
    engine and the eventer server of one process, together. *)
From Coq Require Import String Bool ZArith Arith List.
From Verif Require Import Base Model_Types Model_Engine Spec_Engine Model_Eventer Spec_Eventer Model_Client Spec_Client Spec_Delivery.
Import ListNotations.
Open Scope list_scope.
Open Scope nat_scope.

(** Steps of the engine and of the server, in the order in which they happen. *)
Inductive jitem := JE (i : eitem) | JS (i : vitem).
Definition engine_of (tr : list jitem) : list eitem := flat_map (fun j => match j with JE i => [i] | JS _ => [] end) tr.
Definition server_of (tr : list jitem) : list vitem := flat_map (fun j => match j with JS i => [i] | JE _ => [] end) tr.

(** A batch that was given to the backend: none; one of which clients are not
    told yet; one of which a call of [notify_events] tells; the loop is over. *)
Inductive place := Idle | Due (es : list event) | Told (n : nat) | Over.

(** How the engine and the server are joined by the backend (its [register] is
    src_py/hat/event/backends/lmdb/backend.py:143-194, or that of
    src_py/hat/event/backends/dummy.py:32-39) and by [_on_backend_events]
    (src_py/hat/event/server/main_runner.py:84-86,187-191): [register] awaits a
    call of [notify_events] with the batch, without acknowledgement.  [N]
    chooses these calls among all calls of [notify_events].  When the loop of
    the engine is interrupted, [register] may have got anywhere. *)
Inductive joined (N : nat -> bool) : list jitem -> place -> Prop :=
| joined_start : joined N [] Idle
| joined_engine : forall tr w o l, joined N tr w -> handed_in l = [] -> (forall ok, o <> ERegistered ok) -> o <> ELast -> joined N (tr ++ [JE (o, l)]) w
| joined_hand : forall tr es, joined N tr Idle -> joined N (tr ++ [JE (EStep, [Hand es])]) (Due es)
| joined_tell : forall tr n es l, joined N tr (Due es) -> N n = true -> joined N (tr ++ [JS (VNotify n es false false, l)]) (Told n)
| joined_server : forall tr w o l, joined N tr w -> (forall n es p ack, o = VNotify n es p ack -> N n = false) -> joined N (tr ++ [JS (o, l)]) w
| joined_done : forall tr n ok l, joined N tr (Told n) -> returned n (server_of tr) -> handed_in l = [] -> joined N (tr ++ [JE (ERegistered ok, l)]) Idle
| joined_stop : forall tr w o l es, joined N tr w -> is_shut o = true -> handed_in l = [es] -> joined N (tr ++ [JE (o, l)]) (Due es)
| joined_last : forall tr w l, joined N tr w -> handed_in l = [] -> joined N (tr ++ [JE (ELast, l)]) Over.

(** Clients were told of every batch given to the backend. *)
Definition settled (N : nat -> bool) (tr : list jitem) : Prop :=
  handed (engine_of tr) = map snd (announced N false (server_of tr)) /\
  forall n es, In (n, es) (announced N false (server_of tr)) -> returned n (server_of tr).

(** The loop of the engine is not interrupted while clients are to be told. *)
Definition calm (N : nat -> bool) (tr : list jitem) : Prop :=
  forall a o l b, tr = a ++ JE (o, l) :: b -> is_shut o = true -> settled N a.

(** One list is the other, or has one element more. *)
Definition upto1 {A} (a b : list A) : Prop := b = a \/ exists x, b = a ++ [x].
