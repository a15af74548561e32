(** What is expected of adminer clients and server: the configuration is an
    atomic register. *)
From Coq Require Import String Bool Arith List.
From Verif Require Import Model_Types Model_Adminer.
Import ListNotations.
Open Scope list_scope.
Open Scope nat_scope.

Definition history (tr : list (aevent * list ahist)) : list ahist := flat_map snd tr.

(** Calls done one after another, with their results.  [refuses] tells which
    configurations are refused and why. *)
Inductive one_by_one (refuses : json -> option string) : json -> list (nat * areq * ares) -> json -> Prop :=
| obo_nil : forall c, one_by_one refuses c [] c
| obo_get : forall c n l c', one_by_one refuses c l c' -> one_by_one refuses c ((n, AGet, RConf c) :: l) c'
| obo_set : forall c n d l c', refuses d = None -> one_by_one refuses d l c' -> one_by_one refuses c ((n, ASet d, RDone) :: l) c'
| obo_refused : forall c n d t l c', refuses d = Some t -> one_by_one refuses c l c' ->
    one_by_one refuses c ((n, ASet d, RError t) :: l) c'.

(** Call [a] ended, not by a lost connection, before call [b] began. *)
Definition ended_before (h : list ahist) (a b : nat) : Prop :=
  exists h1 r h2 q h3, h = h1 ++ HRet a r :: h2 ++ HCall b q :: h3 /\ r <> RLost.

(** There is an order of calls in which they could have been done one after
    another: it has all calls which ended (other than by a lost connection) with
    the results they had, only calls which were made, each at most once, and keeps
    the order of calls that followed each other. *)
Definition linearizable (refuses : json -> option string) (c : json) (h : list ahist) : Prop :=
  exists lin c', one_by_one refuses c lin c' /\ NoDup (map (fun x => fst (fst x)) lin) /\
    (forall n q r, In (n, q, r) lin -> In (HCall n q) h) /\
    (forall n r, In (HRet n r) h -> r <> RLost -> exists q, In (n, q, r) lin) /\
    (forall l1 x l2 y l3, lin = l1 ++ x :: l2 ++ y :: l3 -> ~ ended_before h (fst (fst y)) (fst (fst x))).

(** Numbers of calls that ended. *)
Definition ended (h : list ahist) : list nat := flat_map (fun x => match x with HRet n _ => [n] | _ => [] end) h.

(** Executions in which nothing disturbs connection [c]: nothing is lost, no
    caller is cancelled, and no response comes before its call waits for it. *)
Definition disturbs (c : nat) (e : aevent) : Prop :=
  match e with
  | AServe c' false | ASrvEnd c' | ALost c' | ACancel c' _ => c' = c
  | ACall c' _ _ | AWait c' _ => c' = c
  | _ => False
  end.
Inductive gentle (c : nat) : list (aevent * list ahist) -> Prop :=
| ge_nil : gentle c []
| ge_call : forall n q tr o o', gentle c tr -> gentle c ((ACall c n q, o) :: (AWait c n, o') :: tr)
| ge_step : forall e o tr, ~ disturbs c e -> gentle c tr -> gentle c ((e, o) :: tr).

(** Calls made over [c]. *)
Definition over (c : nat) (tr : list (aevent * list ahist)) (n : nat) : Prop := exists q o, In (ACall c n q, o) tr.

(** The connection of a step. *)
Definition place (e : aevent) : nat :=
  match e with
  | ACall c _ _ | AWait c _ | AServe c _ | ASrvEnd c | ADeliver c | ALost c | AStop c | AResume c _ | ACancel c _ => c
  end.

(** Steps with which a call is answered. *)
Definition answering (c n : nat) (e : aevent) : Prop := e = AServe c true \/ e = ADeliver c \/ e = AResume c n.
