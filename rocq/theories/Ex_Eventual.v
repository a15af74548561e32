(** A server that has acknowledged events and one that follows it, left alone;
    used by examples. *)
From Coq Require Import String Bool ZArith Arith Lia Sorted List.
From Verif Require Import Base Model_Types Model_Subscription Model_Codec Model_Lmdb Model_LmdbSys Spec_Lmdb Spec_LmdbContent Spec_LmdbQuery Spec_LmdbTs Proof_Lmdb8 Ex_Lmdb Ex_LmdbTs
  Model_Engine Spec_Engine Model_Eventer Spec_Eventer Model_Service Spec_Service Ex_Service
  Model_LmdbFlush Model_Sync Spec_Sync Model_Replica Spec_Replica Ex_Replica Model_Pair Spec_Pair Proof_Pair Ex_Pair Spec_Reach Ex_Reach
  Spec_Converge Proof_Converge3 Proof_Converge5 Proof_Converge6 Ex_Converge Spec_Eventual.
Import ListNotations.
Open Scope string_scope.
Open Scope list_scope.
Open Scope nat_scope.

Lemma r_left_alone : forall ops more, (if rrun ops then true else false) = true -> (if rrun (ops ++ more) then true else false) = true ->
    selfs ex_oracle sv_conf x_conf 1 (rtrace ops, rend ops) more = true -> Ex_Converge.quietb (rend (ops ++ more)) = true ->
    exists D, rtrace (ops ++ more) = rtrace ops ++ D /\ undisturbed ex_oracle ex_oracle sv_conf x_conf 1 (rtrace ops) D /\
      paired ex_oracle ex_oracle sv_conf x_conf 1 (rtrace ops ++ D) (rend (ops ++ more)) /\
      at_rest ex_oracle ex_oracle sv_conf x_conf 1 (rtrace ops ++ D) (rend (ops ++ more)).
Proof.
  intros ops more H1 H2 HS HQ. pose proof (rran _ H2) as P2.
  assert (X : exists D, rtrace (ops ++ more) = rtrace ops ++ D /\ undisturbed ex_oracle ex_oracle sv_conf x_conf 1 (rtrace ops) D).
  { unfold rtrace, rend in *. unfold rrun in *. destruct (start sv_conf) as [a|] eqn:Ea; [|discriminate]. destruct (start x_conf) as [b|] eqn:Eb; [|discriminate].
    set (g0 := ([], PState (fstart a) (Eid 1 0 0) None [] (ystart 1) b)) in *.
    assert (EP : forall l1 l2 g, eplay ex_oracle sv_conf x_conf 1 g (l1 ++ l2) = match eplay ex_oracle sv_conf x_conf 1 g l1 with Some g' => eplay ex_oracle sv_conf x_conf 1 g' l2 | None => None end).
    { induction l1 as [|x l1 IH]; intros l2 g; cbn [app eplay]; [reflexivity|]. destruct (estep _ _ _ _ g x); [apply IH|reflexivity]. }
    rewrite EP in H2 |- *. destruct (eplay ex_oracle sv_conf x_conf 1 g0 ops) as [[tr st]|] eqn:E; [|discriminate].
    assert (F0 : fit ex_oracle sv_conf x_conf 1 tr st) by (eapply eplay_ok; [exact E|]; constructor; try constructor; auto).
    destruct (eplay ex_oracle sv_conf x_conf 1 (tr, st) more) as [[tr' st']|] eqn:E2; [|discriminate]. destruct (eplay_self _ _ _ _ _ _ _ _ _ E2 HS F0) as (D & D1 & D2). exists D. auto. }
  destruct X as (D & D1 & D2). exists D. rewrite D1 in P2. split; [exact D1|]. split; [exact D2|]. split; [exact P2|]. apply restful_rest; [exact P2|]. now apply quietb_rest.
Qed.

(** The client has its answer, nothing is flushed, and the second server is not
    connected; it has an event of its own. *)
Definition u_ops : list dop := r_before ++ r_acked ++ [EL (ORegister [ev 3 1 1 ["a"] 10 None])].
(** The second server asks before the first one writes, and gets a
    notification. *)
Definition u_more : list dop :=
  e_sync 0 ++ map ER [FWake; FStart; FOther OWork; FWrote; FNotify true; FNotify true; FNotify true; FAnswer] ++ map EC [YGo; YGo; YRecv; YDone; YRecv; YDone].
Lemma u_alone : exists D, rtrace (u_ops ++ u_more) = rtrace u_ops ++ D /\ undisturbed ex_oracle ex_oracle sv_conf x_conf 1 (rtrace u_ops) D /\
  paired ex_oracle ex_oracle sv_conf x_conf 1 (rtrace u_ops ++ D) (rend (u_ops ++ u_more)) /\
  at_rest ex_oracle ex_oracle sv_conf x_conf 1 (rtrace u_ops ++ D) (rend (u_ops ++ u_more)).
Proof. apply r_left_alone; vm_compute; reflexivity. Qed.

Lemma u_answered : answered ex_oracle sv_conf sv_tr0 1 sv_rs (Some (sv_es 11)) sv_acked [].
Proof.
  split; [exists sv_vtr0, (Some "secret"), [], 5; rewrite app_nil_r; exact r_served|].
  split; [exists sv_A, 1, 20, false, [Model_Eventer.EngineCall 1 sv_rs], (ERegister (Model_Engine.Request 1 (Source EVENTER 1) sv_rs), []), (sv_B 11), [Model_Eventer.Sent 1 (MRegisterRes 20 (Some (sv_es 11)))]; split; [reflexivity|apply Ex_Service.quietb_ok; vm_compute; reflexivity]|].
  apply clockb_ok; vm_compute; reflexivity.
Qed.
Lemma u_runs : runs_on ex_oracle ex_oracle sv_conf x_conf 1 (sv_tr0 ++ backend_part (sv_acked ++ [])) (rtrace u_ops) (rend u_ops).
Proof.
  split; [apply rran; vm_compute; reflexivity|]. split; [exists []; split; [vm_compute; reflexivity|intros c x []]|].
  split; [apply calm; match goal with |- Forall _ ?l => replace l with (@nil (list event * list event)) by (vm_compute; reflexivity) end; constructor|].
  apply timelyb_ok; vm_compute; reflexivity.
Qed.

Definition lastb (tr : list dstep) (e : event) : bool := cf_cond sv_conf e && has_place sv_conf e && takesb x_conf tr e.
Lemma lastb_ok : forall tr D e, lastb tr e = true -> w_gone (watch_run sv_conf (remote_part (tr ++ D))) = [] -> lasting sv_conf sv_conf x_conf tr D e.
Proof.
  intros tr D e H G. unfold lastb in H. apply andb_prop in H as [H H3]. apply andb_prop in H as [H1 H2]. split; [exact H1|]. split; [exact H2|].
  split; [rewrite G; intros n t X; exact X|now apply takesb_ok].
Qed.

(** A later event of the second server and a query. *)
Definition u_L : list dstep := [DLocal (ORegister [r_own], Quiet)].
Definition u_asks : list dop := (u_ops ++ u_more) ++ [EL (ORegister [r_own]); EL (OLatest (QLatest None))].

(** The first server is killed instead, before it flushes. *)
Definition u_lost : list dop := r_before ++ r_acked ++ EB :: EL (ORegister [ev 3 1 1 ["a"] 10 None]) :: e_sync 0 ++ map EC [YGo; YGo].
Lemma u_killed : paired ex_oracle ex_oracle sv_conf x_conf 1 (rtrace u_lost) (rend u_lost) /\ restarts_ok sv_conf 1 (rtrace u_lost) /\ clock_ok 1 (rtrace u_lost) /\
  at_rest ex_oracle ex_oracle sv_conf x_conf 1 (rtrace u_lost) (rend u_lost).
Proof.
  assert (R : paired ex_oracle ex_oracle sv_conf x_conf 1 (rtrace u_lost) (rend u_lost)) by (apply rran; vm_compute; reflexivity).
  split; [exact R|]. destruct r_unflushed as (_ & _ & R1 & R2 & _). split; [exact R1|]. split; [exact R2|].
  apply restful_rest; [exact R|]. apply quietb_rest. vm_compute. reflexivity.
Qed.
