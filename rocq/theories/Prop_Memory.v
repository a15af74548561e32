(** C48: the memory backend. *)
From Coq Require Import String Bool ZArith Lia List.
From Verif Require Import Base Model_Types Model_Memory Spec_Subscription Spec_Order Spec_Memory Proof_Memory.
Import ListNotations.
Open Scope string_scope.
Open Scope list_scope.
Open Scope Z_scope.

Definition me (s i : Z) (t : etype) (sec : Z) : event := Ev (Eid s 1 i) t (Ts sec 0) None None.
Definition m_given : list event :=
  [me 1 1 ["a"; "x"] 10; me 2 7 ["a"; "x"] 12; me 1 2 ["b"] 12; me 1 3 ["a"; "x"] 12; me 2 8 ["a"; "y"] 14].
Definition m_calls : list bcall :=
  [BRegister (firstn 2 m_given); BQuery (QPLatest (QLatest None)); BRegister (skipn 2 m_given);
   BQuery (QPLatest (QLatest (Some [["a"; "*"]]))); BLastId 1].

(** The calls up to the last latest query, and what that query gives. *)
Example memory_example : exists tr tr', given tr = m_given /\
  mb_run [] m_calls = tr ++ (BQuery (QPLatest (QLatest (Some [["a"; "*"]]))),
    BResult (Ret (QRes [me 1 3 ["a"; "x"] 12; me 2 8 ["a"; "y"] 14] false))) :: tr'.
Proof.
  exists (firstn 3 (mb_run [] m_calls)), (skipn 4 (mb_run [] m_calls)). split; vm_compute; reflexivity.
Qed.

(** C48.  A latest query gives events that were registered and asked for, exactly
    one of each type that was registered and asked for. *)
Theorem C48_latest : forall cs tr p o tr', mb_run [] cs = tr ++ (BQuery (QPLatest p), o) :: tr' -> valid_types p ->
  exists res, o = BResult (Ret (QRes res false)) /\ NoDup (map ev_type res) /\
    (forall e, In e res -> In e (given tr) /\ asks p (ev_type e)) /\
    (forall x, In x (given tr) -> asks p (ev_type x) -> exists e, In e res /\ ev_type e = ev_type x).
Proof. exact final_C48_latest. Qed.
Print Assumptions C48_latest.

(** C48.  If events of each server are registered in order, a latest query gives
    the newest events: of those with the greatest timestamp the last one. *)
Theorem C48_newest : forall cs tr p o tr', mb_run [] cs = tr ++ (BQuery (QPLatest p), o) :: tr' -> valid_types p ->
  in_order (given tr) ->
  exists res, o = BResult (Ret (QRes res false)) /\
    forall e, In e res <-> asks p (ev_type e) /\ newest_given (given tr) (ev_type e) e.
Proof. exact final_C48_newest. Qed.
Print Assumptions C48_newest.

Example C48_newest_example : valid_types (QLatest (Some [["a"; "*"]])) /\ in_order m_given.
Proof.
  split.
  - constructor; [|constructor]. intros [|a [|b [|c p]]] r H; cbn in H; inversion H; subst; auto.
  - intros l1 a l2 b l3 H S.
    destruct l1 as [|? [|? [|? [|? l1]]]]; cbn in H; inversion H; subst; clear H.
    all: repeat match goal with
         | H : _ = [] ++ _ |- _ => cbn in H
         | H : _ :: _ = ?l ++ _ :: _ |- _ => destruct l; cbn in H; inversion H; subst; clear H
         | H : [] = ?l ++ _ :: _ |- _ => destruct l; discriminate H
         end.
    all: try (cbn in S; discriminate S).
    all: unfold eid_lt, ts_le, ts_lt; cbn; split; try lia; auto; left; lia.
Qed.

(** C48.  Registered events are given back and both callbacks are called with
    them. *)
Theorem C48_register : forall cs tr es o tr', mb_run [] cs = tr ++ (BRegister es, o) :: tr' ->
  o = BRegistered es [es] [es].
Proof. exact final_C48_register. Qed.
Print Assumptions C48_register.

(** C48, exactly what happens to the rest.  As soon as some event is registered,
    asking for the last event id raises; *)
Theorem C48_id_raises : forall cs tr s o tr', mb_run [] cs = tr ++ (BLastId s, o) :: tr' ->
  o = BId (match given tr with [] => Ret (Eid s 0 0) | _ => Raise AttributeError end).
Proof. exact final_C48_id. Qed.
Print Assumptions C48_id_raises.

(** timeseries queries always raise; *)
Theorem C48_timeseries_raises : forall cs tr p o tr', mb_run [] cs = tr ++ (BQuery (QPTimeseries p), o) :: tr' ->
  o = BResult (Raise UnboundLocalError).
Proof. exact final_C48_timeseries. Qed.
Print Assumptions C48_timeseries_raises.

(** and server queries raise as soon as some event is registered. *)
Theorem C48_server_raises : forall cs tr p o tr', mb_run [] cs = tr ++ (BQuery (QPServer p), o) :: tr' ->
  o = BResult (match given tr with
               | [] => Ret (QRes [] (match qs_max p with Some n => n <? 0 | None => false end))
               | _ => Raise AttributeError
               end).
Proof. exact final_C48_server. Qed.
Print Assumptions C48_server_raises.

(** C48 does not hold for the last event id and for timeseries and server
    queries. *)
Theorem C48_refuted :
  exists cs tr tr', mb_run [] cs = tr ++ (BLastId 1, BId (Raise AttributeError)) ::
    (BQuery (QPTimeseries (QTimeseries None None None None None ASCENDING TIMESTAMP None None)), BResult (Raise UnboundLocalError)) ::
    (BQuery (QPServer (QServer 1 false None None)), BResult (Raise AttributeError)) :: tr' /\
    last_given (given tr) 1 (Eid 1 1 3).
Proof.
  exists (m_calls ++ [BQuery (QPTimeseries (QTimeseries None None None None None ASCENDING TIMESTAMP None None));
                      BQuery (QPServer (QServer 1 false None None))]).
  eexists (firstn 4 (mb_run [] m_calls)), []. split; [vm_compute; reflexivity|].
  left. exists (firstn 3 m_given), (me 1 3 ["a"; "x"] 12), [me 2 8 ["a"; "y"] 14].
  repeat split. intros x [ <-|[]]. cbn. discriminate.
Qed.
Print Assumptions C48_refuted.
