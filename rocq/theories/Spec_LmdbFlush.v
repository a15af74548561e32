(** What is expected of flushes and of flushed notifications. *)
From Coq Require Import String Bool ZArith Arith List.
From Verif Require Import Base Model_Types Model_Lmdb Model_LmdbSys Spec_Lmdb Spec_LmdbContent Model_LmdbFlush.
Import ListNotations.
Open Scope list_scope.
Open Scope nat_scope.

(** Parts of a trace: what was done, database operations, batches registered,
    batches notified as flushed, answers. *)
Definition done_of (tr : list fitem) : list fop := map (fun i => fst (fst i)) tr.
Definition inner (tr : list fitem) : list (op * out) := flat_map (fun i => snd (fst i)) tr.
Definition seen_of (tr : list fitem) : list fout := flat_map snd tr.
Definition registered (tr : list fitem) : list (list event) :=
  flat_map (fun o => match o with FRegister es => [es] | _ => [] end) (done_of tr).
Definition flushed (tr : list fitem) : list (list event) :=
  flat_map (fun x => match x with Flushed es => [es] | _ => [] end) (seen_of tr).
Definition answered (tr : list fitem) : list nat :=
  flat_map (fun x => match x with Answered n _ => [n] | _ => [] end) (seen_of tr).

(** [lifetime O cf tr0 tr s]: after [tr0], which ends with a start of the
    backend, [tr] happened up to state [s]. *)
Definition lifetime (O : oracle) (cf : conf) (tr0 : list (op * out)) (tr : list fitem) (s : fstate) : Prop :=
  exists s0, execution O cf tr0 s0 /\ (tr0 = [] \/ exists tr1 c x, tr0 = tr1 ++ [(OReopen c, x)]) /\
             fruns O (fstart s0) tr s /\ Forall (Forall event_ok) (registered tr).

(** No write transaction raised; no callback raised. *)
Definition writes_ok (tr : list fitem) : Prop := ~ In FFailed (done_of tr).
Definition callbacks_ok (tr : list fitem) : Prop := ~ In (FNotify false) (done_of tr).

Definition prefix {A} (a b : list A) : Prop := exists r, b = a ++ r.

(** [a] is left of [b] after dropping some elements. *)
Inductive subseq {A} : list A -> list A -> Prop :=
| subseq_nil : subseq [] []
| subseq_keep : forall x a b, subseq a b -> subseq (x :: a) (x :: b)
| subseq_drop : forall x a b, subseq a b -> subseq a (x :: b).

(** What is known from watching after the start and [tr]. *)
Definition watched (cf : conf) (tr0 : list (op * out)) (tr : list fitem) : watch := watch_run cf (tr0 ++ inner tr).

(** The flush loop comes round: it answers futures or is cancelled. *)
Definition turns (tr : list fitem) : nat :=
  List.length (filter (fun o => match o with FAnswer | FCancel => true | _ => false end) (done_of tr)).

(** Steps of the flush loop, of the worker thread and of waiting [put]s. *)
Definition loop_step (o : fop) : bool :=
  match o with
  | FPut _ | FWake | FStart | FWrote | FNotify true | FAnswer | FCancel | FOther OWork => true
  | _ => false
  end.

(** Batches in the order of registration, with the history of accepted events
    right after each registration. *)
Fixpoint regs_from (cf : conf) (tr0 : list (op * out)) (before tr : list fitem) : list (list event * history) :=
  match tr with
  | [] => []
  | i :: tr' =>
      match fst (fst i) with
      | FRegister es => [(es, w_all (watched cf tr0 (before ++ [i])))]
      | _ => []
      end ++ regs_from cf tr0 (before ++ [i]) tr'
  end.
Definition regs (cf : conf) (tr0 : list (op * out)) (tr : list fitem) := regs_from cf tr0 [] tr.

(** Rounds of the loop that ended normally. *)
Definition rounds (tr : list fitem) : nat :=
  List.length (filter (fun o => match o with FAnswer => true | _ => false end) (done_of tr)).
