(** Theorems about the runner of connections to remote servers. *)
From Coq Require Import String Bool ZArith Lia List.
From Verif Require Import Base Model_Types Model_Conditions Model_Monitor Model_Remote Spec_Conditions Spec_Monitor Spec_Remote Proof_Monitor Proof_Remote.
Import ListNotations.
Open Scope string_scope.
Open Scope list_scope.

Lemma xruns_split : forall g t tr s, xruns g t tr s -> forall a (o : xop) (l : list xout) b, tr = a ++ (o, l) :: b ->
  exists s0 s1, xruns g t a s0 /\ xexec g t s0 o = Some (s1, l) /\ xruns g t (a ++ [(o, l)]) s1.
Proof.
  intros g t tr s H. induction H as [|tr s o s' l R IH E]; intros a o0 l0 b Hs.
  - destruct a; discriminate.
  - destruct b as [|x b] using rev_ind.
    + apply app_inj_tail in Hs. destruct Hs as [-> [= -> ->]]. exists s, s'. repeat split; auto. econstructor; eauto.
    + clear IHb. rewrite app_comm_cons, app_assoc in Hs. apply app_inj_tail in Hs. destruct Hs as [Hs _]. eapply IH; eauto.
Qed.

Lemma active_iff : forall g t tr s, xruns g t tr s -> (x_remote s = true <-> remote_is_active tr).
Proof.
  intros g t tr s H. apply xinv_runs in H. rewrite (xi_remote _ _ _ _ H). unfold remote_is_active. split.
  - destruct (x_active s) as [|d l] eqn:E; [discriminate|]. intros _. exists d. apply (xi_active _ _ _ _ H). rewrite E. cbn; auto.
  - intros (d & st & X). assert (Hd : In d (x_active s)) by (apply (xi_active _ _ _ _ H); eauto). destruct (x_active s); [easy|reflexivity].
Qed.
Lemma final_C43_active : forall g t tr s, xruns g t tr s -> (x_remote s = true <-> remote_is_active tr).
Proof. exact active_iff. Qed.

Lemma final_C43_told : forall g t tr s, xruns g t tr s -> changes false (told tr) /\ last (told tr) false = x_remote s.
Proof. intros g t tr s H. apply xinv_runs in H. exact (xi_told _ _ _ _ H). Qed.

Lemma scs_tell : forall s d st s1 l b, set_client_status s d st = (s1, l) -> (In (Tell b) l <-> x_remote s1 = b /\ x_remote s <> b).
Proof.
  intros s d st s1 l b H. destruct (scs_frame _ _ _ _ _ H) as (_ & _ & _ & _ & _ & _ & [[E ->]|[E ->]]).
  - cbn. rewrite E. tauto.
  - cbn. split.
    + intros [[= <-]|[]]. split; auto. rewrite E. destruct (x_remote s); discriminate.
    + intros [<- _]. auto.
Qed.
Lemma finish_remote : forall s d s1 l, set_client_status s d None = (s1, l) -> exists s2, finish s d = (s2, l) /\ x_remote s2 = x_remote s1.
Proof. intros s d s1 l H. unfold finish. rewrite H. eauto. Qed.
Lemma head_tell : forall s d s1 l b, head s d = (s1, l) -> (In (Tell b) l <-> x_remote s1 = b /\ x_remote s <> b).
Proof.
  intros s d s1 l b H. unfold head in H. destruct (set_client_status s d None) as [s2 l2] eqn:E. destruct (smem d (x_valid s)).
  - injection H as <- <-. cbn [goto with_tasks x_remote]. rewrite <- (scs_tell _ _ _ _ _ b E), in_app_iff. cbn. split; auto.
    intros [X|[X|[]]]; [auto|discriminate].
  - destruct (finish_remote _ _ _ _ E) as (s3 & F & R). rewrite F in H. injection H as <- <-. rewrite (scs_tell _ _ _ _ _ b E), R. tauto.
Qed.
Lemma finish_tell : forall s d s1 l b, finish s d = (s1, l) -> (In (Tell b) l <-> x_remote s1 = b /\ x_remote s <> b).
Proof.
  intros s d s1 l b H. destruct (set_client_status s d None) as [s2 l2] eqn:E. destruct (finish_remote _ _ _ _ E) as (s3 & F & R).
  rewrite F in H. injection H as <- <-. rewrite (scs_tell _ _ _ _ _ b E), R. tauto.
Qed.

Lemma exec_tell : forall g t s o s' l b, xexec g t s o = Some (s', l) -> NoDup (keys (x_tasks s)) ->
  (x_open s = true -> forall d, In d (x_connecting s) <-> In d (keys (x_tasks s))) -> (In (Tell b) l <-> x_remote s' = b /\ x_remote s <> b).
Proof.
  intros g t s o s' l b E ND C.
  assert (None_ : forall r : bool, In (Tell b) [] <-> r = b /\ r <> b) by (intros; cbn; tauto).
  destruct o as [st|d|d st|d|d st|d| |d]; cbn [xexec] in E.
  - injection E as <- <-. match goal with |- context [spawn_all ?x ?y] => destruct (spawn_all_inv y x ND C) as (_ & _ & R & _) end. rewrite R. apply None_.
  - destruct (phase s d) as [p|] eqn:P; [|discriminate]. destruct p, (x_open s) eqn:O; try discriminate; (assert (E' : head s d = (s', l) \/ finish s d = (s', l)) by (injection E; auto));
      destruct E' as [E'|E']; [eapply head_tell|eapply finish_tell|eapply head_tell|eapply finish_tell|eapply head_tell|eapply finish_tell|eapply head_tell|eapply finish_tell]; eauto.
  - destruct (phase s d) as [p|] eqn:P; [|discriminate]. destruct p, (x_open s) eqn:O; try discriminate.
    destruct (set_client_status s d (Some st)) as [s1 l1] eqn:E1. injection E as <- <-. exact (scs_tell _ _ _ _ _ b E1).
  - destruct (phase s d) as [p|] eqn:P; [|discriminate]. destruct p, (x_open s) eqn:O; try discriminate. injection E as <- <-. apply None_.
  - destruct (phase s d) as [p|] eqn:P; [|discriminate]. destruct p; try discriminate.
    destruct (set_client_status s d (Some st)) as [s1 l1] eqn:E1. injection E as <- <-. exact (scs_tell _ _ _ _ _ b E1).
  - destruct (phase s d) as [p|] eqn:P; [|discriminate]. destruct p; try discriminate. injection E as <- <-. apply None_.
  - injection E as <- <-. apply None_.
  - destruct (phase s d) as [p|] eqn:P; [|discriminate]. destruct p, (x_open s) eqn:O; try discriminate.
    + injection E as <- <-. apply None_.
    + assert (E' : finish s d = (s', l)) by (injection E; auto). eapply finish_tell; eauto.
    + assert (E' : finish s d = (s', l)) by (injection E; auto). eapply finish_tell; eauto.
    + injection E as <- <-. apply None_.
Qed.

Lemma final_C43_when : forall g t a o l b s, xruns g t (a ++ (o, l) :: b) s ->
  (In (Tell true) l <-> ~ remote_is_active a /\ remote_is_active (a ++ [(o, l)])) /\
  (In (Tell false) l <-> remote_is_active a /\ ~ remote_is_active (a ++ [(o, l)])).
Proof.
  intros g t a o l b s H. destruct (xruns_split _ _ _ _ H _ _ _ _ eq_refl) as (s0 & s1 & R0 & E & R1).
  pose proof (xinv_runs _ _ _ _ R0) as I0. rewrite <- (active_iff _ _ _ _ R0), <- (active_iff _ _ _ _ R1).
  split; rewrite (exec_tell _ _ _ _ _ _ _ E (xi_nodup _ _ _ _ I0) (xi_conn _ _ _ _ I0)); destruct (x_remote s0), (x_remote s1); intuition congruence.
Qed.

Lemma last_monitor_in : forall tr st, last_monitor tr = Some st -> exists l, In (XMonitor st, l) tr.
Proof.
  induction tr as [|[o l] tr IH] using rev_ind; intros st H; [discriminate|]. rewrite last_monitor_snoc in H.
  destruct o; try (destruct (IH _ H) as (l' & Hl); exists l'; rewrite in_app_iff; auto).
  injection H as ->. exists l. rewrite in_app_iff. cbn. auto.
Qed.

Lemma valid_known : forall g t tr s d, xruns g t tr s -> monitors_ok tr -> (In d (x_valid s) <-> known g t tr d).
Proof.
  intros g t tr s d H M. apply xinv_runs in H. rewrite (xi_known _ _ _ _ H). unfold known. destruct (last_monitor tr) as [st|] eqn:E.
  - destruct (last_monitor_in _ _ E) as (l & Hl). rewrite servers_of_spec by exact (M _ _ Hl). split.
    + intros (i & Hi). eauto.
    + intros (st' & i & [= <-] & Hi). eauto.
  - split; [easy|]. intros (st & i & X & _). discriminate.
Qed.

Lemma final_C43_loops : forall g t tr s, xruns g t tr s -> monitors_ok tr -> running tr ->
  NoDup (map fst (x_tasks s)) /\ (forall d, known g t tr d -> In d (map fst (x_tasks s))).
Proof.
  intros g t tr s H M O. pose proof (xinv_runs _ _ _ _ H) as I. split; [apply (xi_nodup _ _ _ _ I)|]. intros d K.
  apply (valid_known _ _ _ _ _ H M) in K. apply (xi_open _ _ _ _ I) in O. apply (xi_conn _ _ _ _ I O). now apply (xi_valid _ _ _ _ I O).
Qed.

Lemma finish_try : forall s d s1 l y, finish s d = (s1, l) -> ~ In (Try y) l.
Proof.
  intros s d s1 l y H. destruct (set_client_status s d None) as [s2 l2] eqn:E. destruct (finish_remote _ _ _ _ E) as (s3 & F & R).
  rewrite F in H. injection H as <- <-. eapply scs_try; eauto.
Qed.
Lemma head_try : forall s d s1 l y, head s d = (s1, l) -> (In (Try y) l <-> y = d /\ In d (x_valid s)).
Proof.
  intros s d s1 l y H. unfold head in H. destruct (smem d (x_valid s)) eqn:V.
  - destruct (set_client_status s d None) as [s2 l2] eqn:E. injection H as <- <-. apply smem_In in V. rewrite in_app_iff. cbn. split.
    + intros [Hy|[[= <-]|[]]]; auto. exfalso. exact (scs_try _ _ _ _ _ E _ Hy).
    + intros [-> _]. auto.
  - split; [intros Hy; exfalso; exact (finish_try _ _ _ _ _ H Hy)|]. intros [_ Hv]. apply smem_In in Hv. congruence.
Qed.

Lemma final_C43_tries : forall g t a o l b s d, xruns g t (a ++ (o, l) :: b) s -> monitors_ok a ->
  (In (Try d) l <-> o = XStep d /\ known g t a d /\ running a) /\ (In (Try d) l -> busy d a = false).
Proof.
  intros g t a o l b s d H M. destruct (xruns_split _ _ _ _ H _ _ _ _ eq_refl) as (s0 & s1 & R0 & E & R1).
  pose proof (xinv_runs _ _ _ _ R0) as I0. rewrite <- (xi_open _ _ _ _ I0). rewrite <- (valid_known _ _ _ _ _ R0 M).
  assert (Z : forall X : Prop, (In (Try d) (@nil xout) <-> False) /\ (In (Try d) (@nil xout) -> X)) by (cbn; tauto).
  assert (Y : forall y st s2 l2, set_client_status s0 y st = (s2, l2) -> ~ In (Try d) l2) by (intros; eapply scs_try; eauto).
  destruct o as [st|y|y st|y|y st|y| |y]; cbn [xexec] in E.
  - injection E as _ <-. cbn. intuition discriminate.
  - destruct (phase s0 y) as [p|] eqn:P; [|discriminate].
    assert (E' : (x_open s0 = true /\ p <> XConnect /\ p <> XOpen /\ head s0 y = (s1, l)) \/ (x_open s0 = false /\ finish s0 y = (s1, l))).
    { destruct p, (x_open s0) eqn:O; try discriminate; [left|left|left|right]; repeat split; try discriminate; injection E; auto. }
    destruct E' as [(O & N1 & N2 & E')|(O & E')].
    + rewrite (head_try _ _ _ _ d E'), O. split.
      * split; [intros [-> V]; auto|]. intros (X & V & _). injection X as ->. auto.
      * intros [-> _]. eapply no_busy; eauto.
    + assert (N := finish_try _ _ _ _ d E'). split; [|tauto]. split; [tauto|]. intros (_ & _ & X). congruence.
  - destruct (phase s0 y) as [p|] eqn:P; [|discriminate]. destruct p, (x_open s0) eqn:O; try discriminate.
    destruct (set_client_status s0 y (Some st)) as [s2 l2] eqn:E1. injection E as _ <-. specialize (Y _ _ _ _ E1). intuition discriminate.
  - destruct (phase s0 y) as [p|] eqn:P; [|discriminate]. destruct p, (x_open s0) eqn:O; try discriminate. injection E as _ <-. cbn. intuition discriminate.
  - destruct (phase s0 y) as [p|] eqn:P; [|discriminate]. destruct p; try discriminate.
    destruct (set_client_status s0 y (Some st)) as [s2 l2] eqn:E1. injection E as _ <-. specialize (Y _ _ _ _ E1). intuition discriminate.
  - destruct (phase s0 y) as [p|] eqn:P; [|discriminate]. destruct p; try discriminate. injection E as _ <-. cbn. intuition discriminate.
  - injection E as _ <-. cbn. intuition discriminate.
  - destruct (phase s0 y) as [p|] eqn:P; [|discriminate]. 
    assert (E' : l = [] \/ finish s0 y = (s1, l)). { destruct p, (x_open s0) eqn:O; try discriminate; [left|right|right|left]; injection E; auto. }
    destruct E' as [->|E']; [cbn; intuition discriminate|]. assert (N := finish_try _ _ _ _ d E'). intuition discriminate.
Qed.

Lemma final_C43_ended : forall g t tr s, xruns g t tr s -> x_tasks s = [] -> x_remote s = false /\ forall d, link d tr = None.
Proof.
  intros g t tr s H E. pose proof (xinv_runs _ _ _ _ H) as I.
  assert (L : forall d, link d tr = None). { intros d. destruct (link d tr) eqn:X; auto. exfalso. assert (N : link d tr <> None) by congruence.
    apply (xi_link _ _ _ _ I) in N. unfold phase in N. rewrite E in N. cbn in N. destruct N; discriminate. }
  split; auto. destruct (x_remote s) eqn:R; auto. apply (active_iff _ _ _ _ H) in R. destruct R as (d & st & X & _). rewrite L in X. discriminate.
Qed.

(** Once closed, every loop can come to its end without help from outside. *)
Lemma final_C43_can_end : forall g t tr s, xruns g t tr s -> ~ running tr ->
  exists b s', (forall o l, In (o, l) b -> exists d, o = XCancel d \/ o = XStep d) /\ xruns g t (tr ++ b) s' /\ x_tasks s' = [] /\ x_remote s' = false.
Proof.
  intros g t tr s H NR. remember (length (x_tasks s)) as n eqn:Hn. revert tr s H NR Hn. induction n as [|n IH]; intros tr s H NR Hn.
  - exists [], s. rewrite app_nil_r. destruct (x_tasks s) as [|] eqn:E; [|discriminate]. split; [intros o l []|]. split; auto. split; auto. now destruct (final_C43_ended _ _ _ _ H E).
  - assert (O : x_open s = false). { destruct (x_open s) eqn:O; auto. apply (xi_open _ _ _ _ (xinv_runs _ _ _ _ H)) in O. contradiction. }
    destruct (x_tasks s) as [|[d p] ts] eqn:E; [discriminate|]. injection Hn as Hn.
    assert (P : phase s d = Some p) by (unfold phase; rewrite E; cbn; now rewrite sdata_eqb_refl).
    assert (Hfin : forall s0, x_tasks s0 = (d, XLost) :: ts \/ x_tasks s0 = (d, p) :: ts -> x_tasks (fst (finish s0 d)) = ts).
    { intros s0 E0. unfold finish. destruct (set_client_status s0 d None) as [s1 l1] eqn:E1. cbn. destruct (scs_frame _ _ _ _ _ E1) as (_ & _ & F & _).
      rewrite F. destruct E0 as [-> | ->]; cbn; now rewrite sdata_eqb_refl. }
    assert (One : forall o s' l, (exists d, o = XCancel d \/ o = XStep d) -> xexec g t s o = Some (s', l) -> x_tasks s' = ts ->
      exists b s', (forall o l, In (o, l) b -> exists d, o = XCancel d \/ o = XStep d) /\ xruns g t (tr ++ b) s' /\ x_tasks s' = [] /\ x_remote s' = false).
    { intros o s' l Ho X T. assert (R' : xruns g t (tr ++ [(o, l)]) s') by (econstructor; eauto).
      destruct (IH _ _ R') as (b & s2 & B1 & B2 & B3 & B4).
      - intros Q. apply running_snoc in Q. tauto.
      - now rewrite T.
      - exists ((o, l) :: b), s2. rewrite <- app_assoc in B2. repeat split; auto. intros o' l' [[= <- <-]|Hi]; eauto. }
    destruct p.
    + eapply (One (XCancel d)); [eauto|cbn; rewrite P, O; reflexivity|]. unfold with_tasks; cbn. rewrite E. cbn. now rewrite sdata_eqb_refl.
    + eapply (One (XCancel d) (fst (finish s d)) (snd (finish s d))); [eauto|cbn; rewrite P, O; now destruct (finish s d)|]. apply Hfin. auto.
    + eapply (One (XCancel d) (fst (finish s d)) (snd (finish s d))); [eauto|cbn; rewrite P, O; now destruct (finish s d)|]. apply Hfin. auto.
    + assert (R1 : xruns g t (tr ++ [(XCancel d, [])]) (goto s d XLost)) by (econstructor; eauto; cbn; rewrite P, O; reflexivity).
      assert (T1 : x_tasks (goto s d XLost) = (d, XLost) :: ts) by (unfold goto, with_tasks; cbn; rewrite E; cbn; now rewrite sdata_eqb_refl).
      assert (R2 : xruns g t ((tr ++ [(XCancel d, [])]) ++ [(XStep d, snd (finish (goto s d XLost) d))]) (fst (finish (goto s d XLost) d))).
      { econstructor; eauto. cbn [xexec]. rewrite phase_goto_same. cbn [goto with_tasks x_open]. rewrite O. now destruct (finish _ d). }
      destruct (IH _ _ R2) as (b & s2 & B1 & B2 & B3 & B4).
      * intros Q. apply running_snoc in Q. destruct Q as [Q _]. apply running_snoc in Q. tauto.
      * rewrite Hfin; auto.
      * exists ((XCancel d, []) :: (XStep d, snd (finish (goto s d XLost) d)) :: b), s2. rewrite <- !app_assoc in B2. repeat split; auto.
        intros o l [X|[X|Hi]]; [injection X as <- <-; eauto|injection X as <- <-; eauto|eauto].
    + eapply (One (XStep d) (fst (finish s d)) (snd (finish s d))); [eauto|cbn; rewrite P, O; now destruct (finish s d)|]. apply Hfin. auto.
Qed.
