(** A server that has acknowledged events, and one that follows it, used by
    examples. *)
From Coq Require Import String Bool ZArith Arith Lia Sorted List.
From Verif Require Import Base Model_Types Model_Subscription Model_Codec Model_Lmdb Model_LmdbSys Spec_Lmdb Spec_LmdbContent Spec_LmdbQuery Spec_LmdbTs Proof_Lmdb8 Ex_Lmdb Ex_LmdbTs
  Model_Engine Spec_Engine Model_Eventer Spec_Eventer Model_Service Spec_Service Ex_Service
  Model_LmdbFlush Model_Sync Spec_Sync Model_Replica Spec_Replica Ex_Replica Model_Pair Spec_Pair Proof_Pair Ex_Pair Spec_Reach.
Import ListNotations.
Open Scope string_scope.
Open Scope list_scope.
Open Scope nat_scope.

(** As in Ex_Pair, the first server is number 1. *)
Definition rrun (ops : list dop) : option (list dstep * pstate) :=
  match start sv_conf, start x_conf with
  | Some a, Some b => eplay ex_oracle sv_conf x_conf 1 ([], PState (fstart a) (Eid 1 0 0) None [] (ystart 1) b) ops
  | _, _ => None
  end.
Definition rtrace (ops : list dop) : list dstep := match rrun ops with Some (tr, _) => tr | None => [] end.
Definition rend (ops : list dop) : pstate :=
  match rrun ops with Some (_, st) => st | None => PState (fstart (end_of sv_conf None)) (Eid 1 0 0) None [] (ystart 1) (end_of x_conf None) end.
Lemma rran : forall ops, (if rrun ops then true else false) = true -> paired ex_oracle ex_oracle sv_conf x_conf 1 (rtrace ops) (rend ops).
Proof.
  intros ops H. unfold rtrace, rend. destruct (rrun ops) as [[tr st]|] eqn:E; [|discriminate]. unfold rrun in E.
  destruct (start sv_conf) as [a|] eqn:Ea; [|discriminate]. destruct (start x_conf) as [b|] eqn:Eb; [|discriminate].
  assert (X : fit ex_oracle sv_conf x_conf 1 tr st) by (eapply eplay_ok; [exact E|]; constructor; try constructor; auto).
  destruct X as [X1 X2 X3 X4 X5]. destruct (all_same _ _ sv_conf_ok X2) as [A1 A2]. destruct (all_same _ _ x_conf_ok X4) as [B1 _].
  split; [exact X1|]. split; [exact ex_pick|]. auto.
Qed.

(** What the process of Ex_Service does to the backend: an event was stored
    before; the engine starts; an event of another server comes; the events of
    the client are registered, and written. *)
Definition r_before : list dop := e_put [ev 1 3 1 ["a"] 5 None].
Definition r_acked : list dop := map ER [FRegister [sv_started]; FRegister [ev 2 1 1 ["a"] 9 None]; FRegister (sv_es 11)].
Definition r_flush : list dop := map ER [FWake; FStart; FOther OWork].
(** It is killed before it notifies anybody; the second server, with an event
    of its own, connects to the next process and synchronizes. *)
Definition r_follow : list dop := EB :: EL (ORegister [ev 3 1 1 ["a"] 10 None]) :: e_sync 0 ++ map EC [YGo; YGo; YGo; YGo].
Definition r_ops : list dop := r_before ++ r_acked ++ r_flush ++ r_follow.
Definition r_lost : list dop := r_before ++ r_acked ++ EB :: EL (ORegister [ev 3 1 1 ["a"] 10 None]) :: e_sync 0 ++ map EC [YGo; YGo].

Definition sv_acked : list pstep := sv_A ++ sv_asked false :: sv_B 11 ++ [sv_answer 11].
Lemma r_acknowledged : acknowledged ex_oracle sv_conf sv_tr0 1 sv_rs (Some (sv_es 11)) sv_acked sv_flush.
Proof.
  split; [exists sv_vtr0, (Some "secret"), [], 5; exact sv_run_flush|].
  split; [exists sv_A, 1, 20, false, [Model_Eventer.EngineCall 1 sv_rs], (ERegister (Model_Engine.Request 1 (Source EVENTER 1) sv_rs), []), (sv_B 11), [Model_Eventer.Sent 1 (MRegisterRes 20 (Some (sv_es 11)))]; split; [reflexivity|apply quietb_ok; vm_compute; reflexivity]|].
  split; [apply clockb_ok; vm_compute; reflexivity|]. split; [exists Quiet; now left|vm_compute; reflexivity].
Qed.
Lemma r_synchronized : synchronized ex_oracle ex_oracle sv_conf x_conf 1 (sv_tr0 ++ backend_part (sv_acked ++ sv_flush)) (rtrace r_ops) (rend r_ops).
Proof.
  split; [apply rran; vm_compute; reflexivity|].
  split; [exists [(OReopen sv_conf, Quiet); (OServer 0 (QServer 1 true None (Some (Eid 1 0 0))), Quiet); (OWork, Quiet); (ODeliver 0, Answer (Some (QRes [ev 1 3 1 ["a"] 5 None; sv_started; sv_e1 11; sv_e2 11] false)))]; vm_compute; reflexivity|].
  split; [apply (calm_one _ _ _ [ev 1 3 1 ["a"] 5 None; sv_started; sv_e1 11; sv_e2 11] [ev 1 3 1 ["a"] 5 None; sv_started; ev 2 1 1 ["a"] 9 None; sv_e1 11; sv_e2 11] [ev 1 3 1 ["a"] 5 None; sv_started; sv_e1 11] (sv_e2 11));
    [vm_compute; reflexivity|reflexivity|do 4 right; now left]|].
  split; [apply timelyb_ok; vm_compute; reflexivity|]. exists (Some 4). vm_compute. auto.
Qed.

(** Nothing is gone, nothing is coming, and the second server takes both
    events. *)
Definition dueb (tr : list dstep) (st : pstate) (e : event) : bool :=
  cf_cond sv_conf e && has_place sv_conf e && match w_gone (watch_run sv_conf (remote_part tr)) with [] => true | _ => false end &&
  match to_notify (d_remote st) with [] => true | _ => false end && match r_chan (d_client st) with [] => true | _ => false end && takesb x_conf tr e.
Lemma dueb_ok : forall tr st e, dueb tr st e = true -> due sv_conf sv_conf x_conf tr st e.
Proof.
  intros tr st e H. unfold dueb in H. apply andb_prop in H as [H H6]. apply andb_prop in H as [H H5]. apply andb_prop in H as [H H4]. apply andb_prop in H as [H H3]. apply andb_prop in H as [H1 H2].
  split; [exact H1|]. split; [exact H2|]. split.
  - intros n t Hi. destruct (w_gone _) in H3, Hi; [destruct Hi|discriminate].
  - split; [|now apply takesb_ok]. intros [(b & B & _)|(b & B & _)]; [destruct (to_notify _) in H4, B|destruct (r_chan _) in H5, B]; try discriminate; destruct B.
Qed.

(** Queries at the second server, which has registered a later event of its own
    with the type of the first one. *)
Definition r_own : event := ev 3 1 2 ["a"] 12 None.
Definition r_D : list dstep := [DLocal (ORegister [r_own], Quiet)].
Definition r_asks (o : op) : list dop := r_ops ++ [EL (ORegister [r_own]); EL o].
Definition r_server : query_server := QServer 1 false (Some 3%Z) (Some (Eid 1 3 1)).
Definition r_found : list event := [sv_started; sv_e1 11; sv_e2 11].
Definition r_serve : list dop := r_ops ++ map EL [ORegister [r_own]; OServer 5 r_server; OFlush; OWork; OWork; ODeliver 5].
Definition r_E : list dstep := [DLocal (OFlush, Quiet); DLocal (OWork, Quiet); DLocal (OWork, Wrote)].

(** Killed before a flush. *)
Lemma r_unflushed : synchronized ex_oracle ex_oracle sv_conf x_conf 1 (sv_tr0 ++ backend_part sv_acked) (rtrace r_lost) (rend r_lost).
Proof.
  split; [apply rran; vm_compute; reflexivity|].
  split; [exists [(OReopen sv_conf, Quiet); (OServer 0 (QServer 1 true None (Some (Eid 1 0 0))), Quiet); (OWork, Quiet); (ODeliver 0, Answer (Some (QRes [ev 1 3 1 ["a"] 5 None] false)))]; vm_compute; reflexivity|].
  split; [apply (calm_one _ _ _ [ev 1 3 1 ["a"] 5 None] [ev 1 3 1 ["a"] 5 None] [] (ev 1 3 1 ["a"] 5 None));
    [vm_compute; reflexivity|reflexivity|now left]|].
  split; [apply timelyb_ok; vm_compute; reflexivity|]. exists (Some 1). vm_compute. auto.
Qed.
Lemma r_served : service ex_oracle sv_conf sv_tr0 sv_vtr0 1 (Some "secret") [] 5 sv_acked.
Proof.
  replace sv_acked with (sv_trace (sv_begin ++ sv_register false ++ sv_serve 11 ++ [GA 1])) by (vm_compute; reflexivity).
  apply sv_played. vm_compute. reflexivity.
Qed.
