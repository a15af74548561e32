(** Concrete histories of a component, used by examples. *)
From Coq Require Import String Bool ZArith Lia List.
From Verif Require Import Base Model_Types Model_Monitor Model_Component Spec_Conditions Spec_Monitor Spec_Component Proof_Monitor Proof_Component.
Import ListNotations.
Open Scope string_scope.
Open Scope list_scope.
Open Scope Z_scope.

Fixpoint cplay (cf : cconf) (s : cstate) (ops : list cop) : option (list citem * cstate) :=
  match ops with
  | [] => Some ([], s)
  | o :: ops' =>
      match cexec cf s o with
      | None => None
      | Some (s1, l) =>
          match cplay cf s1 ops' with
          | None => None
          | Some (tr, s2) => Some ((o, l) :: tr, s2)
          end
      end
  end.
Lemma cplay_runs : forall cf ops s tr s', cplay cf s ops = Some (tr, s') -> forall tr0, cruns cf tr0 s -> cruns cf (tr0 ++ tr) s'.
Proof.
  intros cf. induction ops as [|o ops IH]; intros s tr s' H tr0 H0; cbn [cplay] in H.
  - injection H as <- <-. now rewrite app_nil_r.
  - destruct (cexec cf s o) as [[s1 l]|] eqn:E; [|discriminate].
    destruct (cplay cf s1 ops) as [[tr1 s2]|] eqn:E2; [|discriminate]. injection H as <- <-.
    replace (tr0 ++ (o, l) :: tr1) with ((tr0 ++ [(o, l)]) ++ tr1) by now rewrite <- app_assoc.
    eapply IH; eauto. econstructor; eauto.
Qed.

Definition c_conf := Cconf "event" (Some "secret") None.
Definition ctrace (ops : list cop) : list citem := match cplay c_conf cstart ops with Some (tr, _) => tr | None => [] end.
Definition cend_of (ops : list cop) : cstate := match cplay c_conf cstart ops with Some (_, s) => s | None => cstart end.
Lemma cplayed : forall ops, (if cplay c_conf cstart ops then true else false) = true -> cruns c_conf (ctrace ops) (cend_of ops).
Proof.
  intros ops H. unfold ctrace, cend_of. destruct (cplay c_conf cstart ops) as [[tr s]|] eqn:E; [|discriminate].
  apply (cplay_runs _ _ _ _ _ E []). constructor.
Qed.

Definition c_pub (n : Z) : json :=
  JObj [("server_id", JInt n); ("eventer_server", JObj [("host", JStr "h"); ("port", JInt 23012)]); ("server_token", JStr "secret")].
Definition c_info (n : Z) (group : string) (res : option Z) : minfo := Minfo n 0 (Some "c") (Some group) (c_pub n) 1 (Some 5) res.
Definition e2 := Cdata 2 "h" 23012 (Some "secret").
Definition e3 := Cdata 3 "h" 23012 (Some "secret").
(** The first server is not yet blessed, the first component is of another
    group. *)
Definition c_ms2 := Mstate None [c_info 7 "gui" (Some 5); c_info 1 "event" (Some 4); c_info 2 "event" (Some 5); c_info 3 "event" (Some 5)].
Definition c_ms3 := Mstate None [c_info 1 "event" None; c_info 3 "event" (Some 5)].
Definition c_ms0 := Mstate None [c_info 1 "event" None].

Ltac monitor_wf := split; [intros i H; cbn in H; repeat destruct H as [<-|H]; try easy; repeat (constructor; cbn; try (intuition discriminate))|discriminate].
Lemma c_ms2_ok : monitor_ok c_ms2. Proof. monitor_wf. Qed.
Lemma c_ms3_ok : monitor_ok c_ms3. Proof. monitor_wf. Qed.
Lemma c_ms0_ok : monitor_ok c_ms0. Proof. monitor_wf. Qed.

(** Connecting to one server, whose connection is lost; connecting again; the
    choice changes to none and then to another one while connected. *)
Definition c_ops : list cop :=
  [CState c_ms2; CRunner; LStart; LTake; KStart; KFail; KWake; KMade; KReturn; KResume; KLost; KNotice true false; KRunnerClosed; KClientClosed; KWake; KMade;
   KReturn; KResume; CState c_ms0; LTake; CState c_ms3].
(** And on to that server. *)
Definition c_moved : list cop := c_ops ++ [KRunnerClosed; KClientClosed; LNext; KStart; KMade; KReturn; KResume].
(** The runner there ends. *)
Definition c_ended : list cop := c_moved ++ [KEnds; KNotice false true; KRunnerClosed; KClientClosed; CDrop].
(** The choice changes when the callback has just returned. *)
Definition c_leak : list cop := [CState c_ms2; CRunner; LStart; LTake; KStart; KMade; KReturn; CState c_ms3; LTake; KClientClosed; LNext; KStart].
(** The connection is lost while the callback is running. *)
Definition c_stuck : list cop := [CState c_ms2; CRunner; LStart; LTake; KStart; KMade; KLost; KAbort; KClientClosed].

Lemma c_states_ok : forall ops, (if cplay c_conf cstart ops then true else false) = true -> (forall st, In (CState st) ops -> st = c_ms2 \/ st = c_ms3 \/ st = c_ms0) -> states_ok (ctrace ops).
Proof.
  intros ops P H st l I. unfold ctrace in I. destruct (cplay c_conf cstart ops) as [[tr s]|] eqn:E; [|discriminate]. clear P.
  assert (X : In (CState st) ops).
  { revert tr s E I. generalize cstart. induction ops as [|o ops IH]; intros s0 tr s E I; cbn [cplay] in E.
    - injection E as <- <-. contradiction.
    - destruct (cexec c_conf s0 o) as [[s1 l1]|]; [|discriminate]. destruct (cplay c_conf s1 ops) as [[tr1 s2]|] eqn:E1; [|discriminate]. injection E as <- <-.
      destruct I as [[= <- <-]|I]; [cbn; auto|]. right. eapply IH; eauto. intros st0 H0. apply H. cbn. auto. }
  destruct (H st X) as [->|[->| ->]]; [exact c_ms2_ok|exact c_ms3_ok|exact c_ms0_ok].
Qed.

(** After that, nothing happens as long as the choice stays. *)
Lemma stuck_stays : forall cf d b tr s, cruns cf (tr ++ b) s ->
  (forall s0, cruns cf tr s0 -> c_loop s0 = LRun d /\ c_k s0 = KEnded /\ c_queue s0 = [] /\ c_q s0 = QOpen /\ c_data s0 = Some d) ->
  (forall st l, In (CState st, l) b -> active_of cf st = Some d) -> (forall l, ~ In (CDrop, l) b) ->
  (c_loop s = LRun d /\ c_k s = KEnded /\ c_queue s = [] /\ c_q s = QOpen /\ c_data s = Some d) /\ forall o l, In (o, l) b -> l = [].
Proof.
  intros cf d b. induction b as [|[o l] b IH] using rev_ind; intros tr s H H0 Hs Hd.
  - rewrite app_nil_r in H. split; auto. contradiction.
  - rewrite app_assoc in H. inversion H as [X|tr1 s1 o1 s2 l1 R E X]; [destruct (tr ++ b); discriminate|]. apply app_inj_tail in X. destruct X as [-> [= -> ->]]. subst s2.
    destruct (IH tr s1 R H0) as [(L & K & Q & Qo & D) Nb].
    { intros st l' I. apply (Hs st l'). rewrite in_app_iff. auto. }
    { intros l' I. apply (Hd l'). rewrite in_app_iff. auto. }
    assert (G : (c_loop s = LRun d /\ c_k s = KEnded /\ c_queue s = [] /\ c_q s = QOpen /\ c_data s = Some d) /\ l = []).
    { destruct o; cbn [cexec] in E; rewrite ?L, ?K, ?Q in E; try discriminate.
      - injection E as <- <-. assert (A : active_of cf st = Some d) by (apply (Hs st []); rewrite in_app_iff; cbn; auto).
        unfold on_state. rewrite Qo, A, D. cbn [opt_eqb]. rewrite cdata_eqb_refl. cbn. auto 10.
      - exfalso. apply (Hd l). rewrite in_app_iff. cbn. auto.
      - injection E as <- <-. cbn. auto 10. }
    destruct G as [G ->]. split; auto. intros o' l' I. apply in_app_iff in I. cbn in I. destruct I as [I|[[= <- <-]|[]]]; eauto.
Qed.

Lemma cruns_det : forall cf tr s, cruns cf tr s -> forall s', cruns cf tr s' -> s = s'.
Proof.
  intros cf tr s H. induction H as [|tr s o s1 l H IH E]; intros s' H'.
  - inversion H' as [|tr0 s0 o0 s2 l0 R0 E0 X]; auto. destruct tr0; discriminate.
  - inversion H' as [X|tr0 s0 o0 s2 l0 R0 E0 X]; [destruct tr; discriminate|]. apply app_inj_tail in X. destruct X as [-> [= -> ->]]. subst.
    rewrite (IH _ R0) in E. congruence.
Qed.

Lemma c_refuted : exists tr s d, cruns c_conf tr s /\ states_ok tr /\ alive tr = true /\ c_open s = true /\ settled c_conf s /\ choice c_conf tr (Some d) /\ link tr = Some Off /\
  forall b s', cruns c_conf (tr ++ b) s' -> states_ok b -> (forall st l, In (CState st, l) b -> chosen c_conf st d) -> (forall l, ~ In (CDrop, l) b) ->
    forall e, ~ dialed b e.
Proof.
  exists (ctrace c_stuck), (cend_of c_stuck), e2.
  assert (R : cruns c_conf (ctrace c_stuck) (cend_of c_stuck)) by (apply cplayed; vm_compute; reflexivity).
  assert (W : states_ok (ctrace c_stuck)) by (apply c_states_ok; [vm_compute; reflexivity|intros st I; cbn in I; repeat destruct I as [[= <-]|I]; try discriminate; try contradiction; auto]).
  split; auto. split; auto. split; [vm_compute; reflexivity|]. split; [vm_compute; reflexivity|].
  split; [unfold settled; vm_compute; auto|]. split; [apply choice_spec; auto|]. split; [vm_compute; reflexivity|].
  intros b s' H Ok Hs Hd e (o & l & i & I & J).
  assert (Z := fun A => stuck_stays c_conf e2 b (ctrace c_stuck) s' H A). destruct Z as [_ Z].
  - intros s0 R0. rewrite <- (cruns_det _ _ _ R _ R0). vm_compute. auto.
  - intros st l0 I0. apply active_of_spec; eauto.
  - exact Hd.
  - rewrite (Z _ _ I) in J. contradiction.
Qed.
