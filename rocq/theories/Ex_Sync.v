(** Concrete synchronizations, used by examples. *)
From Coq Require Import String Bool ZArith Arith Lia List.
From Verif Require Import Base Model_Types Model_Sync Spec_Sync.
Import ListNotations.
Open Scope string_scope.
Open Scope list_scope.
Open Scope nat_scope.

Fixpoint yplay (sv : Z) (last0 : event_id) (s : ystate) (ops : list yop) : option (list yitem * ystate) :=
  match ops with
  | [] => Some ([], s)
  | o :: ops' =>
      match yexec sv last0 s o with
      | None => None
      | Some (s1, l) =>
          match yplay sv last0 s1 ops' with
          | None => None
          | Some (tr, s2) => Some ((o, l) :: tr, s2)
          end
      end
  end.
Lemma yplay_runs : forall sv last0 ops s tr s', yplay sv last0 s ops = Some (tr, s') -> forall s0 tr0, yruns sv last0 s0 tr0 s -> yruns sv last0 s0 (tr0 ++ tr) s'.
Proof.
  intros sv last0. induction ops as [|o ops IH]; intros s tr s' H s0 tr0 H0; cbn [yplay] in H.
  - injection H as <- <-. now rewrite app_nil_r.
  - destruct (yexec sv last0 s o) as [[s1 l]|] eqn:E; [|discriminate].
    destruct (yplay sv last0 s1 ops) as [[tr1 s2]|] eqn:E2; [|discriminate]. injection H as <- <-.
    replace (tr0 ++ (o, l) :: tr1) with ((tr0 ++ [(o, l)]) ++ tr1) by now rewrite <- app_assoc.
    eapply IH; eauto. econstructor; eauto.
Qed.

(** Server 7, synchronized by a client without events of it. *)
Definition y_none : event_id := Eid 7 0 0.
Definition ytrace (ops : list yop) : list yitem := match yplay 7 y_none (ystart 7) ops with Some (tr, _) => tr | None => [] end.
Definition yend_of (ops : list yop) : ystate := match yplay 7 y_none (ystart 7) ops with Some (_, s) => s | None => ystart 7 end.
Lemma yplayed : forall ops, (if yplay 7 y_none (ystart 7) ops then true else false) = true -> sync_run 7 y_none (ytrace ops) (yend_of ops).
Proof.
  intros ops H. unfold ytrace, yend_of. destruct (yplay 7 y_none (ystart 7) ops) as [[tr s]|] eqn:E; [|discriminate].
  apply (yplay_runs _ _ _ _ _ _ E (ystart 7) []). constructor.
Qed.

Definition yevent (session instance : Z) : event := Ev (Eid 7 session instance) ["a"] (Ts 1 0) None None.
Definition y11 := yevent 1 1.
Definition y12 := yevent 1 2.
Definition y21 := yevent 2 1.
Definition y31 := yevent 3 1.
Definition y41 := yevent 4 1.

(** Two pages.  The first event batch is committed before the client connects,
    the second one before the first page, the third one, which is not stored,
    before the second page, the fourth one when all is synchronized. *)
Definition x_pages : list yop :=
  [RCommit [(y11, true); (y12, true)]; RNotify; RConnect; YBegin; RCommit [(y21, true)]; YGo; RQuery 2; RNotify; RRespond; YRecv; YRecv; YWake; YGo;
   RCommit [(y31, false)]; RNotify; RQuery 5; RRespond; YRecv; YRecv; YWake; YGo; YGo; YGo].
Definition x_sync : list yop := x_pages ++ [RCommit [(y41, true)]; RNotify; YRecv; YDone].

(** The second batch is found by the query and notified afterwards. *)
Definition x_late : list yop :=
  [RCommit [(y11, true); (y12, true)]; RNotify; RConnect; YBegin; RCommit [(y21, true)]; YGo; RQuery 5; RRespond; RNotify; YRecv; YWake; YGo; YGo; YGo; YRecv].

(** Checks [in_step]. *)
Fixpoint in_stepb (c d : nat) (tr : list yitem) : bool :=
  match tr with
  | [] => true
  | i :: tr' =>
      (if existsb (fun x => match x with Answered (QRes _ false) => true | _ => false end) (snd i) then Nat.eqb c d else true) &&
      in_stepb (c + length (commits [i])) (d + (length (sent [i]) + length (unsent [i]))) tr'
  end.
Lemma in_stepb_spec : forall tr c d, in_stepb c d tr = true ->
    forall a k es l b, tr = a ++ (RQuery k, Answered (QRes es false) :: l) :: b -> c + length (commits a) = d + (length (sent a) + length (unsent a)).
Proof.
  induction tr as [|i tr IH]; intros c d H a k es l b E; [now destruct a|]. cbn [in_stepb] in H. apply andb_true_iff in H as [H1 H2]. destruct a as [|x a].
  - injection E as -> ->. cbn in H1. apply Nat.eqb_eq in H1. cbn. now rewrite H1.
  - injection E as -> E. specialize (IH _ _ H2 _ _ _ _ _ E).
    assert (K1 : length (commits (x :: a)) = length (commits [x]) + length (commits a)) by (unfold commits; cbn [flat_map]; rewrite !app_length; cbn; lia).
    assert (K2 : length (sent (x :: a)) = length (sent [x]) + length (sent a)) by (unfold sent, youts; cbn [flat_map]; rewrite !flat_map_app, !app_length; cbn; lia).
    assert (K3 : length (unsent (x :: a)) = length (unsent [x]) + length (unsent a)) by (unfold unsent, youts; cbn [flat_map]; rewrite !flat_map_app, !app_length; cbn; lia).
    unfold yitem in *. lia.
Qed.
Lemma in_step_check : forall tr, in_stepb 0 0 tr = true -> in_step tr.
Proof. intros tr H a k es l b E. exact (in_stepb_spec tr 0 0 H a k es l b E). Qed.
Lemma never_removed : forall tr : list yitem, existsb (fun i : yitem => match fst i with RClean _ => true | _ => false end) tr = false -> forall e, ~ removed tr e.
Proof.
  intros tr H e [l Hx]. assert (existsb (fun i : yitem => match fst i with RClean _ => true | _ => false end) tr = true) by (apply existsb_exists; eexists; split; [exact Hx|reflexivity]). congruence.
Qed.
Lemma not_closed : forall tr : list yitem, existsb (fun i : yitem => match fst i with YClose => true | _ => false end) tr = false -> ~ In YClose (map fst tr).
Proof.
  intros tr H Hx. apply in_map_iff in Hx as ([o l] & E & Hx). cbn in E. subst.
  assert (existsb (fun i : yitem => match fst i with YClose => true | _ => false end) tr = true) by (apply existsb_exists; eexists; split; [exact Hx|reflexivity]). congruence.
Qed.
