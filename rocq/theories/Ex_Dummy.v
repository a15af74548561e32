(** Concrete executions of the dummy backend, used by examples. *)
From Coq Require Import String Bool ZArith Arith List.
From Verif Require Import Base Model_Types Model_Subscription Ex_Lmdb Model_Eventer Model_Engine Spec_Engine Ex_Engine Model_Dummy Spec_Dummy.
Import ListNotations.
Open Scope string_scope.
Open Scope list_scope.
Open Scope nat_scope.

Fixpoint mplay (rb fb : bool) (s : mstate) (ops : list mop) : option (list mitem * mstate) :=
  match ops with
  | [] => Some ([], s)
  | o :: ops' =>
      match mexec rb fb s o with
      | None => None
      | Some (s1, l) => match mplay rb fb s1 ops' with None => None | Some (tr, s2) => Some ((o, l) :: tr, s2) end
      end
  end.
Lemma mruns_cons : forall rb fb s o l s1 tr s2, mexec rb fb s o = Some (s1, l) -> mruns rb fb s1 tr s2 -> mruns rb fb s ((o, l) :: tr) s2.
Proof.
  intros rb fb s o l s1 tr s2 E H. induction H as [s1|s1 tr s3 o' l' s4 H IH E'].
  - apply (mruns_snoc rb fb s [] s o l s1); [constructor|exact E].
  - rewrite app_comm_cons. econstructor; eauto.
Qed.
Lemma mplay_runs : forall rb fb ops s tr s', mplay rb fb s ops = Some (tr, s') -> mruns rb fb s tr s'.
Proof.
  intros rb fb. induction ops as [|o ops IH]; intros s tr s' H; cbn [mplay] in H.
  - injection H as <- <-. constructor.
  - destruct (mexec rb fb s o) as [[s1 l]|] eqn:E; [|discriminate]. destruct (mplay rb fb s1 ops) as [[tr1 s2]|] eqn:E2; [|discriminate]. injection H as <- <-.
    eapply mruns_cons; eauto.
Qed.
Definition mtrace (rb fb : bool) (ops : list mop) : list mitem := match mplay rb fb mstart ops with Some (tr, _) => tr | None => [] end.
Lemma mplayed : forall rb fb ops, (if mplay rb fb mstart ops then true else false) = true -> dummy_run rb fb (mtrace rb fb ops).
Proof. intros rb fb ops H. unfold mtrace. destruct (mplay rb fb mstart ops) as [[tr s]|] eqn:E; [|discriminate]. exists s. eapply mplay_runs; eauto. Qed.

Definition k1 : event := ev 1 1 1 ["a"] 5 None.
Definition k2 : event := ev 1 2 1 ["a"] 6 None.
Definition k3 : event := ev 2 1 1 ["b"] 4 None.
(** Two calls overlap; the first one's registered callback takes longer; the
    third one is broken off. *)
Definition k_ops : list mop :=
  [MLast 1; MRegister 0 [k1]; MRegister 1 [k2; k3]; MReturns 1 true; MFlush; MRegister 2 [k3]; MReturns 0 true; MReturns 2 false; MReturns 1 true; MQuery (QPLatest (QLatest None)); MReturns 0 true; MLast 1].
(** One after another; the second one is cancelled. *)
Definition k_turns : list mop :=
  [MRegister 0 [k1]; MReturns 0 true; MReturns 0 true; MRegister 1 [k2]; MCancel 1; MRegister 2 [k3]; MReturns 2 true].

(** [one_by_one] *)
Definition endedb (n : nat) (tr : list mitem) : bool := existsb (fun x => match x with Returned m _ | Broken m => Nat.eqb n m | _ => false end) (seen tr).
Fixpoint turnsb (done tr : list mitem) : bool :=
  match tr with
  | [] => true
  | x :: tr' => match fst x with MRegister _ _ => forallb (fun y => endedb (fst y) done) (requested done) | _ => true end && turnsb (done ++ [x]) tr'
  end.
Lemma endedb_ok : forall n tr, endedb n tr = true -> ended n tr.
Proof.
  intros n tr H. apply existsb_exists in H as (x & H & E). destruct x; try discriminate; apply Nat.eqb_eq in E; subst; [left; eauto|right; exact H].
Qed.
Lemma turnsb_from : forall tr done, turnsb done tr = true -> forall a n es l b m es', tr = a ++ (MRegister n es, l) :: b -> In (m, es') (requested (done ++ a)) -> ended m (done ++ a).
Proof.
  induction tr as [|x tr IH]; intros done H a n es l b m es' E Hi; [destruct a; discriminate|]. cbn [turnsb] in H. apply andb_prop in H as [H1 H2]. destruct a as [|y a].
  - injection E as -> _. cbn [fst] in H1. rewrite app_nil_r in *. rewrite forallb_forall in H1. apply endedb_ok. exact (H1 _ Hi).
  - injection E as E1 E. rewrite E1 in *. clear x E1. assert (D : done ++ y :: a = (done ++ [y]) ++ a) by (rewrite <- app_assoc; reflexivity). rewrite D in Hi |- *. exact (IH _ H2 _ _ _ _ _ _ _ E Hi).
Qed.
Lemma turnsb_ok : forall tr, turnsb [] tr = true -> one_by_one tr.
Proof. intros tr H a n es l b m es' E Hi. exact (turnsb_from tr [] H a n es l b m es' E Hi). Qed.
