(** What is expected of the delivery of persisted events: the flush loop of the
    backend and the eventer server of one process, together. *)
From Coq Require Import String Bool ZArith Arith List.
From Verif Require Import Base Model_Types Model_Lmdb Model_LmdbSys Spec_Lmdb Model_LmdbFlush Spec_LmdbFlush Model_Eventer Spec_Eventer Model_Client Spec_Client Spec_Delivery.
Import ListNotations.
Open Scope list_scope.
Open Scope nat_scope.

(** Steps of the backend with its flush loop and of the server, in the order in
    which they happen. *)
Inductive kitem := KF (i : fitem) | KS (i : vitem).
Definition flush_of (tr : list kitem) : list fitem := flat_map (fun j => match j with KF i => [i] | KS _ => [] end) tr.
Definition kserver_of (tr : list kitem) : list vitem := flat_map (fun j => match j with KS i => [i] | KF _ => [] end) tr.

(** The flush loop is about to call back with these events. *)
Definition calls_back (O : oracle) (cf : conf) (tr0 : list (op * out)) (ftr : list fitem) (es : list event) : Prop :=
  forall s, lifetime O cf tr0 ftr s -> exists s', fexec O s (FNotify true) = Some (s', [], [Flushed es]).

(** How they are joined by [flushed_events_cb]
    (src_py/hat/event/backends/lmdb/backend.py:313-315) and by
    [_on_backend_events] (src_py/hat/event/server/main_runner.py:84-86,187-191):
    the callback awaits a call of [notify_events] with the batch, without
    acknowledgement.  [N] chooses these calls among all calls of
    [notify_events]; [Some (n, es)]: this call is made for that batch. *)
Inductive kjoined (O : oracle) (cf : conf) (tr0 : list (op * out)) (N : nat -> bool) : list kitem -> option (nat * list event) -> Prop :=
| kjoined_start : kjoined O cf tr0 N [] None
| kjoined_flush : forall tr w o xs l, kjoined O cf tr0 N tr w -> (forall ok, o <> FNotify ok) -> kjoined O cf tr0 N (tr ++ [KF (o, xs, l)]) w
| kjoined_tell : forall tr n es l, kjoined O cf tr0 N tr None -> calls_back O cf tr0 (flush_of tr) es -> N n = true ->
    kjoined O cf tr0 N (tr ++ [KS (VNotify n es true false, l)]) (Some (n, es))
| kjoined_server : forall tr w o l, kjoined O cf tr0 N tr w -> (forall n es p ack, o = VNotify n es p ack -> N n = false) ->
    kjoined O cf tr0 N (tr ++ [KS (o, l)]) w
| kjoined_done : forall tr n es xs l, kjoined O cf tr0 N tr (Some (n, es)) -> returned n (kserver_of tr) ->
    kjoined O cf tr0 N (tr ++ [KF (FNotify true, xs, l)]) None
| kjoined_raised : forall tr w xs l, kjoined O cf tr0 N tr w -> kjoined O cf tr0 N (tr ++ [KF (FNotify false, xs, l)]) None.

(** Every call for a flushed batch has returned. *)
Definition ksettled (N : nat -> bool) (tr : list kitem) : Prop :=
  forall n es, In (n, es) (announced N true (kserver_of tr)) -> returned n (kserver_of tr).

Definition any (e : event) : bool := true.

(** One list is the other, or has one element more. *)
Definition kupto1 {A} (a b : list A) : Prop := b = a \/ exists x, b = a ++ [x].
