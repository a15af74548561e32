(** Concrete processes that end, used by examples. *)
From Coq Require Import String Bool ZArith Arith Lia Sorted List.
From Verif Require Import Base Model_Types Model_Subscription Model_Codec Model_Lmdb Model_LmdbSys Spec_Lmdb Spec_LmdbContent Spec_LmdbQuery Spec_LmdbTs Proof_Lmdb8 Ex_Lmdb Ex_LmdbTs
  Model_Engine Spec_Engine Model_Eventer Spec_Eventer Model_Service Spec_Service Ex_Service Ex_Reach
  Model_LmdbFlush Spec_LmdbFlush Spec_Eventual Model_Exit Spec_Exit.
From Verif Require Model_Main Spec_Main.
Import ListNotations.
Open Scope string_scope.
Open Scope list_scope.
Open Scope nat_scope.

Fixpoint xplay (O : oracle) (mc : Model_Main.mconf) (d : sys) (tr : list xitem) (s : xstate) (ops : list xop) : option (list xitem * xstate) :=
  match ops with
  | [] => Some (tr, s)
  | o :: ops' => match xexec O mc d s o with
                 | None => None
                 | Some (s1, ms, fs) => xplay O mc d (tr ++ [(o, ms, fs)]) s1 ops'
                 end
  end.
Definition xplays (O : oracle) (cf : conf) (mc : Model_Main.mconf) (ops : list xop) : option (list xitem * xstate) :=
  match start cf with None => None | Some d => xplay O mc d [] xinit ops end.
Definition xtrace (r : option (list xitem * xstate)) : list xitem := match r with Some (tr, _) => tr | None => [] end.
Definition xend (r : option (list xitem * xstate)) : xstate := match r with Some (_, s) => s | None => xinit end.

Lemma xplay_runs : forall O mc d ops tr s tr' s', xplay O mc d tr s ops = Some (tr', s') -> xruns O mc d tr s -> xruns O mc d tr' s'.
Proof.
  intros O mc d. induction ops as [|o ops IH]; intros tr s tr' s' H R; cbn [xplay] in H; [now injection H as <- <-|].
  destruct (xexec O mc d s o) as [[[s1 ms] fs]|] eqn:E; [|discriminate]. eapply IH; [exact H|]. econstructor; eauto.
Qed.
Lemma xplayed : forall O cf mc ops, (if xplays O cf mc ops then true else false) = true -> conf_ok cf ->
    forallb (forallb event_okb) (registered (back_of (xtrace (xplays O cf mc ops)))) = true ->
    server_process O cf mc [] (xtrace (xplays O cf mc ops)) (xend (xplays O cf mc ops)).
Proof.
  intros O cf mc ops H Hc He. unfold xplays in *. destruct (start cf) as [d|] eqn:E; [|discriminate].
  destruct (xplay O mc d [] xinit ops) as [[tr s]|] eqn:Ep; [|discriminate]. cbn [xtrace xend] in *. exists d.
  split; [exists d; split; [exact E|]; split; [constructor|]; split; [apply Forall_cons; [exact Hc|apply Forall_nil]|apply Forall_nil]|].
  split; [now left|]. split; [eapply xplay_runs; [exact Ep|constructor]|].
  apply Forall_forall. intros es Hi. apply Forall_forall. intros e Hj. rewrite forallb_forall in He. specialize (He es Hi). rewrite forallb_forall in He. apply event_okb_ok. auto.
Qed.

(** A server without an adminer server and without a monitor component. *)
Definition q_mc : Model_Main.mconf := Model_Main.Mconf false false.
Definition q_start : list xop := map XMain [Model_Main.EStart; Model_Main.ECreated].
Definition q_write (n : nat) : list xop := map XBack ([FStart; FOther OWork; FWrote] ++ repeat (FNotify true) n).
(** An event is registered and written, then the process of Ex_Service. *)
Definition q_serve : list xop :=
  q_start ++ XBack (FRegister [ev 1 3 1 ["a"] 5 None]) :: XBack FWake :: q_write 1 ++ [XBack FAnswer] ++
  map XMain [Model_Main.ECreated; Model_Main.ECreated] ++
  map (fun es => XBack (FRegister es)) [[sv_started]; [ev 2 1 1 ["a"] 9 None]; sv_es 11].
(** The process is asked to end, twice; its steps until the backend is closed. *)
Definition q_close : list xop :=
  XSignal :: map XMain [Model_Main.ECancel; Model_Main.EDone; Model_Main.EDone] ++ XSignal :: [XMain Model_Main.EDone].
Definition q_last : list xop := [XMain Model_Main.EDone; XClosed; XExit].
Definition q_ops : list xop := q_serve ++ q_close ++ XBack FCancel :: q_write 3 ++ XBack FEnd :: q_last.
Definition q_tr := xtrace (xplays ex_oracle sv_conf q_mc q_ops).
Definition q_s := xend (xplays ex_oracle sv_conf q_mc q_ops).
Lemma q_run : server_process ex_oracle sv_conf q_mc [] q_tr q_s.
Proof. apply xplayed; [vm_compute; reflexivity|apply sv_conf_ok|vm_compute; reflexivity]. Qed.
Lemma q_exited : exited q_tr.
Proof. unfold exited. replace (ops_of_process q_tr) with q_ops by (vm_compute; reflexivity). unfold q_ops, q_last. rewrite !in_app_iff. right. right. right. rewrite in_app_iff. right. cbn [In]. tauto. Qed.

(** The same up to the signal. *)
Definition q_open := xtrace (xplays ex_oracle sv_conf q_mc (q_serve ++ [XSignal])).
Definition q_open_s := xend (xplays ex_oracle sv_conf q_mc (q_serve ++ [XSignal])).
Lemma q_open_run : server_process ex_oracle sv_conf q_mc [] q_open q_open_s.
Proof. apply xplayed; [vm_compute; reflexivity|apply sv_conf_ok|vm_compute; reflexivity]. Qed.

Definition is_failed (o : fop) : bool := match o with FFailed => true | _ => false end.
Lemma wok : forall tr, existsb is_failed (done_of tr) = false -> writes_ok tr.
Proof. intros tr H Hi. assert (existsb is_failed (done_of tr) = true) by (apply existsb_exists; exists FFailed; auto). congruence. Qed.

Lemma q_answered : answered ex_oracle sv_conf sv_tr0 1 sv_rs (Some (sv_es 11)) sv_acked sv_flush.
Proof.
  split; [exists sv_vtr0, (Some "secret"), [], 5; exact sv_run_flush|].
  split; [exists sv_A, 1, 20, false, [Model_Eventer.EngineCall 1 sv_rs], (ERegister (Model_Engine.Request 1 (Source EVENTER 1) sv_rs), []), (sv_B 11), [Model_Eventer.Sent 1 (MRegisterRes 20 (Some (sv_es 11)))]; split; [reflexivity|apply Ex_Service.quietb_ok; vm_compute; reflexivity]|].
  apply clockb_ok; vm_compute; reflexivity.
Qed.
Lemma q_same : sv_tr0 ++ backend_part (sv_acked ++ sv_flush) = [] ++ inner (back_of q_tr).
Proof. vm_compute. reflexivity. Qed.

(** The next process starts, and is asked for the latest events. *)
Definition q_next : list op := map fst (inner (back_of q_tr)) ++ [OReopen sv_conf; ORegister [ev 2 1 2 ["a"] 20 None]; OLatest sv_all].
Lemma q_next_run : execution ex_oracle sv_conf ((([] ++ inner (back_of q_tr)) ++ (OReopen (conf_at sv_conf sv_tr0), Quiet) :: [(ORegister [ev 2 1 2 ["a"] 20 None], Quiet)]) ++ [(OLatest sv_all, Answer (Some sv_latest))])
    (end_of sv_conf (plays ex_oracle sv_conf q_next)).
Proof.
  replace (_ ++ [(OLatest _, _)]) with (trace_of (plays ex_oracle sv_conf q_next)) by (vm_compute; reflexivity).
  apply played'; [vm_compute; reflexivity| |vm_compute; reflexivity].
  apply Forall_cons; [apply sv_conf_ok|]. replace (op_confs q_next) with [sv_conf] by (vm_compute; reflexivity). apply Forall_cons; [apply sv_conf_ok|apply Forall_nil].
Qed.

(** The next process is killed before it writes anything. *)
Definition q_later : list op := map fst (inner (back_of q_tr)) ++ [OReopen sv_conf; ORegister [ev 1 8 1 ["a"] 30 None]; OReopen sv_conf].
Lemma q_later_run : execution ex_oracle sv_conf (([] ++ inner (back_of q_tr)) ++ [(OReopen sv_conf, Quiet); (ORegister [ev 1 8 1 ["a"] 30 None], Quiet); (OReopen sv_conf, Quiet)])
    (end_of sv_conf (plays ex_oracle sv_conf q_later)).
Proof.
  replace (([] ++ _) ++ _) with (trace_of (plays ex_oracle sv_conf q_later)) by (vm_compute; reflexivity).
  apply played'; [vm_compute; reflexivity| |vm_compute; reflexivity].
  apply Forall_cons; [apply sv_conf_ok|]. replace (op_confs q_later) with [sv_conf; sv_conf] by (vm_compute; reflexivity). repeat (apply Forall_cons; [apply sv_conf_ok|]). apply Forall_nil.
Qed.

(** The last write fails instead. *)
Definition q_fail_ops : list xop := q_serve ++ q_close ++ map XBack [FCancel; FStart; FFailed; FEnd] ++ q_last.
Definition q_fail := xtrace (xplays ex_oracle sv_conf q_mc q_fail_ops).
Definition q_fail_s := xend (xplays ex_oracle sv_conf q_mc q_fail_ops).
Lemma q_fail_run : server_process ex_oracle sv_conf q_mc [] q_fail q_fail_s.
Proof. apply xplayed; [vm_compute; reflexivity|apply sv_conf_ok|vm_compute; reflexivity]. Qed.
(** What its backend is left with. *)
Definition back_sys (s : xstate) : sys := match x_back s with Some f => f_sys f | None => sv_s0 end.
Lemma q_fail_answered : answered ex_oracle sv_conf sv_tr0 1 sv_rs (Some (sv_es 11)) sv_acked (firstn 1 sv_flush).
Proof.
  split; [exists sv_vtr0, (Some "secret"), [], 5|].
  { replace (sv_acked ++ _) with (sv_trace (sv_begin ++ sv_register false ++ sv_serve 11 ++ [GA 1; GB OFlush])) by (vm_compute; reflexivity). apply sv_played. vm_compute. reflexivity. }
  split; [exists sv_A, 1, 20, false, [Model_Eventer.EngineCall 1 sv_rs], (ERegister (Model_Engine.Request 1 (Source EVENTER 1) sv_rs), []), (sv_B 11), [Model_Eventer.Sent 1 (MRegisterRes 20 (Some (sv_es 11)))]; split; [reflexivity|apply Ex_Service.quietb_ok; vm_compute; reflexivity]|].
  apply clockb_ok; vm_compute; reflexivity.
Qed.
