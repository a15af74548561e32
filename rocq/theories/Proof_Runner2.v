(** Theorems about the engine runner. *)
From Coq Require Import Bool Arith Lia List.
From Verif Require Import Base Model_Types Model_Runner Spec_Runner Proof_Runner.
Import ListNotations.
Open Scope list_scope.
Open Scope nat_scope.

Lemma nruns_split : forall tr s, nruns tr s -> forall a (o : nop) (l : list nout) b, tr = a ++ (o, l) :: b ->
  exists s0 s1, nruns a s0 /\ nexec s0 o = Some (s1, l) /\ nruns (a ++ [(o, l)]) s1.
Proof.
  intros tr s H. induction H as [|tr s o s' l R IH E]; intros a o0 l0 b Hs.
  - destruct a; discriminate.
  - destruct b as [|x b] using rev_ind.
    + apply app_inj_tail in Hs. destruct Hs as [-> [= -> ->]]. exists s, s'. repeat split; auto. econstructor; eauto.
    + clear IHb. rewrite app_comm_cons, app_assoc in Hs. apply app_inj_tail in Hs. destruct Hs as [Hs _]. eapply IH; eauto.
Qed.

Lemma final_C44_operational : forall tr s, nruns tr s ->
  (forall st e, In (SetStatus st e) (done_ tr) -> (st = OPERATIONAL <-> e <> None)) /\ ~ In Refused (done_ tr) /\
  last (sets (done_ tr)) (STANDBY, None) = (n_srv s, n_seng s).
Proof. intros tr s H. apply ninv_runs in H. split; [|split]; apply H. Qed.

Lemma final_C44_cycle : forall tr s, nruns tr s ->
  exists c t, statuses (done_ tr) = c ++ t /\ cycle STANDBY c /\ (t = [] \/ n_open s = false /\ (t = [STOPPING] \/ t = [STOPPING; STANDBY])).
Proof.
  intros tr s H. apply ninv_runs in H. destruct (ni_cycle _ _ H) as (c & t & E & C & T). exists c, t. split; auto. split; auto.
  pose proof (ni_final _ _ H) as F. destruct (n_pc s) as [| | | | | | |[]|[]|[]|[]|]; cbn in *; intuition.
Qed.

(** ** Remote activity *)

Lemma remote_snoc : forall tr o l, remote_now (tr ++ [(o, l)]) = match o with NRemote b => b | _ => remote_now tr end.
Proof. intros. unfold remote_now. rewrite fold_left_app. now destruct o. Qed.

Lemma stopping_frame : forall s, n_remote (fst (final s)) = n_remote s /\ n_remote (fst (stop s)) = n_remote s /\ n_remote (fst (nhead s)) = n_remote s /\
  n_remote (fst (created s)) = n_remote s /\ (forall f, n_remote (fst (engine_close s f)) = n_remote s) /\ (forall f, n_remote (fst (standby s f)) = n_remote s) /\
  (forall f, n_remote (fst (fail s f)) = n_remote s).
Proof.
  intros s. repeat split; try reflexivity.
  - unfold nhead. destruct (n_remote s) eqn:E; cbn; auto.
  - intros f. unfold engine_close. now destruct (n_eng s).
  - intros f. unfold fail. destruct f; reflexivity.
Qed.

Ltac nsteps H :=
  repeat match type of H with
  | (match n_pc ?s with _ => _ end) = Some _ => destruct (n_pc s) as [| | | | | | |?f|?f|?f|?f|] eqn:?E; try discriminate
  | (match n_eng ?s with _ => _ end) = Some _ => destruct (n_eng s) eqn:?En; try discriminate
  | (if ?b then _ else _) = Some _ => destruct b eqn:?B; try discriminate
  | (match ?f with true => _ | false => _ end) = Some _ => destruct f eqn:?B; try discriminate
  end.

Lemma remote_exec : forall s o s' l, nexec s o = Some (s', l) -> n_remote s' = match o with NRemote b => b | _ => n_remote s end.
Proof.
  intros s o s' l H. destruct (stopping_frame s) as (F1 & F2 & F3 & F4 & F5 & F6 & F7).
  assert (G : forall p : nstate * list nout, Some p = Some (s', l) -> s' = fst p) by (intros p [= ->]; reflexivity).
  destruct o; cbn [nexec] in H; nsteps H; apply G in H; rewrite H; cbn [fst]; try reflexivity; auto; try (destruct (n_eopen s); auto).
Qed.
Lemma remote_state : forall tr s, nruns tr s -> n_remote s = remote_now tr.
Proof.
  intros tr s H. induction H as [|tr s o s' l R IH E]; auto. rewrite remote_snoc, (remote_exec _ _ _ _ E), IH. reflexivity.
Qed.

Lemma final_starting : forall s e, ~ In (SetStatus STARTING e) (snd (final s)).
Proof. intros s e H. unfold final, stop_fin in H. cbn in H. destruct (n_eng s); cbn in H; intuition discriminate. Qed.
Lemma exec_starting : forall s o s' l e, nexec s o = Some (s', l) -> In (SetStatus STARTING e) l -> n_remote s = false /\ s' = fst (nhead s) /\ l = snd (nhead s) /\ o <> NRestart.
Proof.
  intros s o s' l e H X.
  assert (G : forall p : nstate * list nout, Some p = Some (s', l) -> s' = fst p /\ l = snd p) by (intros p [= ->]; auto).
  assert (Hd : Some (nhead s) = Some (s', l) -> n_remote s = false).
  { intros Y. apply G in Y. destruct Y as [_ Y]. rewrite Y in X. unfold nhead in X. destruct (n_remote s); auto. easy. }
  destruct o; cbn [nexec] in H; nsteps H;
    try (split; [exact (Hd H)|]; apply G in H; destruct H as [-> ->]; repeat split; auto; discriminate);
    exfalso; apply G in H; destruct H as [_ H]; rewrite H in X; cbn [snd] in X;
    try (now apply final_starting in X); try (cbn in X; intuition discriminate).
  - destruct (n_eopen s); [|now apply final_starting in X]. unfold stop in X; cbn in X. destruct (n_eng s); cbn in X; intuition discriminate.
  - unfold engine_close in X. destruct (n_eng s); cbn in X; intuition discriminate.
  - unfold fail in X. destruct f; [easy|now apply final_starting in X].
  - unfold fail in X. destruct f; [easy|now apply final_starting in X].
  - unfold fail in X. destruct f; [easy|now apply final_starting in X].
  - unfold fail in X. destruct f; [easy|now apply final_starting in X].
  - destruct (n_seng s); cbn in X; intuition discriminate.
  - destruct (n_seng s); [|easy]. destruct (n_eopen s); cbn in X; intuition discriminate.
  - destruct (n_eng s); [|easy]. destruct (n_eopen s); cbn in X; intuition discriminate.
Qed.

Lemma final_C44_allowed : forall a o l b s, nruns (a ++ (o, l) :: b) s -> In (SetStatus STARTING None) l -> remote_now a = false.
Proof.
  intros a o l b s H X. destruct (nruns_split _ _ H _ _ _ _ eq_refl) as (s0 & s1 & R0 & E & R1). rewrite <- (remote_state _ _ R0).
  now destruct (exec_starting _ _ _ _ _ E X).
Qed.

(** ** Creation of engines *)

Lemma exec_create : forall s o s' l, nexec s o = Some (s', l) -> In CreateEngine l -> n_pc s = NStart /\ o = NOk.
Proof.
  intros s o s' l H X.
  assert (G : forall p : nstate * list nout, Some p = Some (s', l) -> l = snd p) by (intros p [= ->]; auto).
  assert (Ff : ~ In CreateEngine (snd (final s))) by (unfold final, stop_fin; cbn; destruct (n_eng s); cbn; intuition discriminate).
  assert (Fs : ~ In CreateEngine (snd (stop s))) by (unfold stop; cbn; destruct (n_eng s); cbn; intuition discriminate).
  assert (Fh : ~ In CreateEngine (snd (nhead s))) by (unfold nhead; destruct (n_remote s); cbn; intuition discriminate).
  assert (Fe : forall f, ~ In CreateEngine (snd (engine_close s f))) by (intros f; unfold engine_close; destruct (n_eng s); cbn; intuition discriminate).
  assert (Fl : forall f, ~ In CreateEngine (snd (fail s f))) by (intros f; unfold fail; destruct f; cbn [snd]; auto).
  destruct o; cbn [nexec] in H; nsteps H; auto; exfalso; apply G in H; rewrite H in X; cbn [snd] in X;
    try (now apply Ff in X); try (now apply Fs in X); try (now apply Fh in X); try (now apply Fe in X); try (now apply Fl in X); try (cbn in X; intuition discriminate).
  - destruct (n_eopen s); [now apply Fs in X|now apply Ff in X].
  - destruct (n_seng s); cbn in X; intuition discriminate.
  - destruct (n_seng s); [|easy]. destruct (n_eopen s); cbn in X; intuition discriminate.
  - destruct (n_eng s); [|easy]. destruct (n_eopen s); cbn in X; intuition discriminate.
Qed.

Lemma final_C44_after : forall a o l b s, nruns (a ++ (o, l) :: b) s -> In CreateEngine l -> forall n, In (Created n) (done_ a) -> settled n (done_ a).
Proof.
  intros a o l b s H X n Hn. destruct (nruns_split _ _ H _ _ _ _ eq_refl) as (s0 & s1 & R0 & E & R1). apply ninv_runs in R0.
  destruct (exec_create _ _ _ _ E X) as [P _]. apply (ni_rest _ _ R0); [now rewrite P|]. now apply (ni_num _ _ R0).
Qed.

Lemma final_C44_single : forall tr s, nruns tr s -> forall n m, In (Created n) (done_ tr) -> In (Created m) (done_ tr) ->
  ~ In (EngineClosed n) (done_ tr) -> ~ In (EngineClosed m) (done_ tr) -> n = m.
Proof.
  intros tr s H n m Hn Hm Cn Cm. apply ninv_runs in H. apply (ni_num _ _ H) in Hn. apply (ni_num _ _ H) in Hm.
  destruct (Nat.lt_trichotomy n m) as [L|[->|L]]; auto; exfalso.
  - apply Cn, settled_closed, (ni_old _ _ H). lia.
  - apply Cm, settled_closed, (ni_old _ _ H). lia.
Qed.

(** ** Requests *)

Lemma final_C44_served : forall a o l b s n, nruns (a ++ (o, l) :: b) s -> In (ToEngine n) l ->
  In (Created n) (done_ a) /\ ~ In (Closing n) (done_ a) /\ (o <> NSynced -> last (sets (done_ a)) (STANDBY, None) = (OPERATIONAL, Some n)).
Proof.
  intros a o l b s n H X. destruct (nruns_split _ _ H _ _ _ _ eq_refl) as (s0 & s1 & R0 & E & R1). apply ninv_runs in R0.
  assert (Ff : forall s0, ~ In (ToEngine n) (snd (final s0))) by (intros y; unfold final, stop_fin; cbn; destruct (n_eng y); cbn; intuition discriminate).
  assert (Fs : ~ In (ToEngine n) (snd (stop s0))) by (unfold stop; cbn; destruct (n_eng s0); cbn; intuition discriminate).
  assert (Fh : ~ In (ToEngine n) (snd (nhead s0))) by (unfold nhead; destruct (n_remote s0); cbn; intuition discriminate).
  assert (Fe : forall f, ~ In (ToEngine n) (snd (engine_close s0 f))) by (intros f; unfold engine_close; destruct (n_eng s0); cbn; intuition discriminate).
  assert (Fl : forall f, ~ In (ToEngine n) (snd (fail s0 f))) by (intros f; unfold fail; destruct f; cbn [snd]; auto).
  assert (G : forall p : nstate * list nout, Some p = Some (s1, l) -> l = snd p) by (intros p [= ->]; auto).
  assert (C : n_eng s0 = Some n -> In (Created n) (done_ a)).
  { intros En. apply (ni_num _ _ R0). pose proof (ni_eng _ _ R0) as Q. rewrite En in Q. destruct (n_next s0); [discriminate|]. injection Q as ->. lia. }
  assert (Sg : n_seng s0 = Some n -> n_srv s0 = OPERATIONAL /\ n_eng s0 = Some n).
  { intros Es. pose proof (ni_seng _ _ R0) as Q. rewrite Es in Q. destruct (n_srv s0); try discriminate. auto. }
  assert (D : n_seng s0 = Some n -> In (Created n) (done_ a) /\ ~ In (Closing n) (done_ a) /\ last (sets (done_ a)) (STANDBY, None) = (OPERATIONAL, Some n)).
  { intros Es. destruct (Sg Es) as [Q1 Q2]. split; auto. split; [now apply (ni_oper _ _ R0)|]. rewrite (ni_last _ _ R0), Es, Q1. reflexivity. }
  destruct o; cbn [nexec] in E; nsteps E; apply G in E; rewrite E in X; cbn [snd] in X;
    try (now apply Ff in X); try (now apply Fs in X); try (now apply Fh in X); try (now apply Fe in X); try (now apply Fl in X); try (cbn in X; exfalso; intuition discriminate).
  - exfalso. destruct (n_eopen s0); [now apply Fs in X|now apply Ff in X].
  - destruct (n_seng s0) as [k|]; [|easy]. destruct X as [[= ->]|[]]. destruct (D eq_refl) as (? & ? & ?). auto.
  - destruct (n_seng s0) as [k|]; [|easy]. destruct (n_eopen s0); [|easy]. destruct X as [[= ->]|[]]. destruct (D eq_refl) as (? & ? & ?). auto.
  - destruct (n_eng s0) as [k|] eqn:En; [|easy]. destruct (n_eopen s0) eqn:Eo; [|easy]. destruct X as [[= ->]|[]]. split; auto. split; [|congruence].
    intros Y. apply (ni_closing _ _ R0) in Y. destruct Y as [_ Y]. rewrite (Y En) in Eo. discriminate.
Qed.

Lemma final_C44_passed : forall a l b s n, nruns (a ++ (NRegister, l) :: b) s -> last (sets (done_ a)) (STANDBY, None) = (OPERATIONAL, Some n) -> l = [ToEngine n].
Proof.
  intros a l b s n H X. destruct (nruns_split _ _ H _ _ _ _ eq_refl) as (s0 & s1 & R0 & E & R1). apply ninv_runs in R0.
  rewrite (ni_last _ _ R0) in X. injection X as _ X. cbn in E. rewrite X in E. now injection E as _ <-.
Qed.

(** ** The end *)

Lemma final_C44_finished : forall tr s, nruns tr s -> n_pc s = NDone ->
  done_ tr = [] \/ broke_off tr \/ (last (statuses (done_ tr)) STANDBY = STANDBY /\ forall n, In (Created n) (done_ tr) -> settled n (done_ tr)).
Proof.
  intros tr s H. assert (G : n_pc s = NDone -> done_ tr = [] \/ broke_off tr \/ n_srv s = STANDBY /\ forall n, n < n_next s -> settled n (done_ tr)).
  { induction H as [|tr s o s' l R IH E]; [discriminate|]. intros D. pose proof (ninv_runs _ _ R) as I. pose proof (ni_place _ _ I) as P. unfold place in P.
    assert (Z : forall p : nstate * list nout, Some p = Some (s', l) -> s' = fst p /\ l = snd p) by (intros p [= ->]; auto).
    assert (Stay : n_pc s = NDone -> n_srv s' = n_srv s -> n_next s' = n_next s -> (l = [] \/ forall x, In x l -> n_next s <> 0) ->
       done_ (tr ++ [(o, l)]) = [] \/ broke_off (tr ++ [(o, l)]) \/ n_srv s' = STANDBY /\ forall n, n < n_next s' -> settled n (done_ (tr ++ [(o, l)]))).
    { intros Pd E1 E2 El. rewrite done_snoc. destruct (IH Pd) as [Y|[Y|[Y1 Y2]]].
      - left. rewrite Y. cbn. destruct El as [El|El]; auto. destruct l as [|x l]; auto. exfalso. apply (El x); [cbn; auto|].
        destruct (n_next s) as [|m] eqn:Em; auto. exfalso. assert (Q : In (Created m) (done_ tr)) by (apply (ni_num _ _ I); lia). rewrite Y in Q. easy.
      - right. left. unfold broke_off. rewrite in_app_iff. auto.
      - right. right. split; [congruence|]. intros n Hn. apply settled_app. apply Y2. congruence. }
    assert (Sg : n_seng s <> None -> n_pc s <> NDone).
    { intros X Y. rewrite Y in P. apply X. rewrite (ni_seng _ _ I). now destruct (n_srv s). }
    assert (Eg : n_eng s <> None -> n_next s <> 0) by (rewrite (ni_eng _ _ I); destruct (n_next s); [congruence|discriminate]).
    destruct o; cbn [nexec] in E.
    - nsteps E. apply Z in E. destruct E as [-> _]. exfalso. unfold nhead in D. destruct (n_remote s); discriminate.
    - injection E as <- <-. apply Stay; auto.
    - nsteps E. apply Z in E. destruct E as [-> _]. exfalso. unfold nhead in D. destruct (n_remote s); discriminate.
    - nsteps E; apply Z in E; destruct E as [Es El]; rewrite Es in D; cbn in D; try discriminate.
      + exfalso. destruct (n_eopen s); discriminate.
      + exfalso. unfold engine_close in D. destruct (n_eng s); discriminate.
      + right. right. subst. cbn. rewrite done_snoc. split; auto. intros n Hn. apply settled_app. apply (ni_rest _ _ I); auto. now rewrite E0.
      + exfalso. unfold nhead in D. destruct (n_remote s); discriminate.
    - nsteps E; apply Z in E; destruct E as [Es El]; rewrite Es in D; cbn in D; try discriminate;
        (unfold fail in D, El; destruct f; [|discriminate]; right; left; unfold broke_off; rewrite in_app_iff, El; cbn; auto).
    - nsteps E. injection E as <- <-. apply Stay; auto.
    - injection E as <- <-. apply Stay; auto.
    - injection E as <- <-. apply Stay; auto.
    - nsteps E; try (apply Z in E; destruct E as [Es El]; rewrite Es in D; cbn in D; discriminate).
      left. apply Z in E. destruct E as [_ ->]. rewrite done_snoc. destruct P as [-> _]. reflexivity.
    - apply Z in E. destruct E as [Es El]. cbn in Es, El. subst s'. apply Stay; auto. left. destruct (n_seng s); auto. exfalso. apply Sg; auto. discriminate.
    - apply Z in E. destruct E as [Es El]. cbn in Es, El. subst s'. apply Stay; auto. left. destruct (n_seng s); auto. exfalso. apply Sg; auto. discriminate.
    - apply Z in E. destruct E as [Es El]. cbn in Es, El. subst s'. apply Stay; auto. right. intros x Hx. apply Eg. intros Y. rewrite Y in El. subst l. easy. }
  intros D. destruct (G D) as [Y|[Y|[Y1 Y2]]]; auto. right. right. apply ninv_runs in H. rewrite (last_status _ _ H). split; auto.
  intros n Hn. apply Y2. now apply (ni_num _ _ H).
Qed.

(** ** An engine that closed by itself is the last one *)

Definition over (s : nstate) : Prop :=
  match n_pc s with
  | NOper | NRun | NSub => n_eopen s = false
  | NStop true | NEngine true | NFlush true | NStandby true | NDone => True
  | _ => False
  end.

Lemma over_exec : forall s o s' l, nexec s o = Some (s', l) -> over s -> over s' /\ ~ In CreateEngine l.
Proof.
  intros s o s' l H V.
  assert (NC : ~ In CreateEngine l). { intros X. destruct (exec_create _ _ _ _ H X) as [P _]. unfold over in V. now rewrite P in V. }
  split; auto.
  assert (G : forall p : nstate * list nout, Some p = Some (s', l) -> s' = fst p) by (intros p [= ->]; auto).
  assert (Ff : over (fst (final s))) by exact Logic.I.
  unfold over in V.
  destruct o; cbn [nexec] in H; nsteps H; apply G in H; rewrite H; cbn [fst]; auto; try (unfold over; cbn; rewrite ?E in *; now auto);
    try (unfold over; cbn; destruct (n_pc s); now auto).
  - rewrite V. exact Ff.
  - destruct f; [|easy]. unfold engine_close. destruct (n_eng s); exact Logic.I.
  - destruct f; [|easy]. exact Logic.I.
  - destruct f; [|easy]. exact Logic.I.
  - destruct f; [|easy]. exact Logic.I.
  - destruct f; [|easy]. exact Logic.I.
Qed.

Lemma nruns_from : forall a b s, nruns (a ++ b) s -> forall s0, nruns a s0 -> over s0 -> over s /\ ~ In CreateEngine (done_ b).
Proof.
  intros a b. induction b as [|[o l] b IH] using rev_ind; intros s H s0 H0 V.
  - rewrite app_nil_r in H. assert (s = s0). { clear -H H0. revert s0 H0. induction H as [|tr s o s' l R IH E]; intros s0 H0.
      - inversion H0; auto. destruct tr; discriminate.
      - inversion H0 as [X|tr2 s2 o2 s2' l2 R2 E2 X Y]; [destruct tr; discriminate|]. apply app_inj_tail in X. destruct X as [-> [= -> ->]].
        rewrite (IH _ R2) in E. congruence. }
    subst. split; auto.
  - rewrite app_assoc in H. inversion H as [X|tr2 s2 o2 s2' l2 R2 E2 X Y]; [destruct (a ++ b); discriminate|].
    apply app_inj_tail in X. destruct X as [-> [= -> ->]]. destruct (IH _ R2 _ H0 V) as [V2 N2]. destruct (over_exec _ _ _ _ E2 V2) as [V3 N3].
    subst. split; auto. rewrite done_snoc, in_app_iff. tauto.
Qed.

Lemma final_C44_gone : forall a l b s, nruns (a ++ (NEngineClosed, l) :: b) s -> last (statuses (done_ a)) STANDBY = OPERATIONAL -> ~ In CreateEngine (done_ b).
Proof.
  intros a l b s H X. destruct (nruns_split _ _ H _ _ _ _ eq_refl) as (s0 & s1 & R0 & E & R1). pose proof (ninv_runs _ _ R0) as I.
  rewrite (last_status _ _ I) in X. pose proof (ni_place _ _ I) as P. unfold place in P.
  assert (V : over s1).
  { cbn in E. destruct (n_eng s0); [|discriminate]. injection E as <- _. unfold over; cbn. destruct (n_pc s0) as [| | | | | | |[]|[]|[]|[]|]; try congruence; auto; destruct P; congruence. }
  replace (a ++ (NEngineClosed, l) :: b) with ((a ++ [(NEngineClosed, l)]) ++ b) in H by now rewrite <- app_assoc.
  now destruct (nruns_from _ _ _ H _ R1 V).
Qed.

(** ** Restart *)

Lemma restart_snoc : forall tr o l, restart_asked (tr ++ [(o, l)]) =
  match o with NRestart => true | _ => if existsb (fun o => match o with SetStatus STARTING _ => true | _ => false end) l then false else restart_asked tr end.
Proof. intros. unfold restart_asked. rewrite fold_left_app. now destruct o. Qed.

Lemma restart_frame : forall s, n_restart (fst (final s)) = n_restart s /\ n_restart (fst (stop s)) = n_restart s /\
  n_restart (fst (created s)) = n_restart s /\ (forall f, n_restart (fst (engine_close s f)) = n_restart s) /\ (forall f, n_restart (fst (standby s f)) = n_restart s) /\
  (forall f, n_restart (fst (fail s f)) = n_restart s).
Proof.
  intros s. repeat split; try reflexivity.
  - intros f. unfold engine_close. now destruct (n_eng s).
  - intros f. unfold fail. destruct f; reflexivity.
Qed.

Lemma restart_exec : forall s o s' l, nexec s o = Some (s', l) ->
  n_restart s' = match o with NRestart => true | _ => if existsb (fun o => match o with SetStatus STARTING _ => true | _ => false end) l then false else n_restart s end.
Proof.
  intros s o s' l H. destruct (restart_frame s) as (F1 & F2 & F3 & F4 & F5 & F6).
  destruct (existsb _ l) eqn:X.
  - apply existsb_exists in X. destruct X as (x & Hx & Ex). destruct x as [[] e| | | | | | | |]; try discriminate.
    destruct (exec_starting _ _ _ _ _ H Hx) as (R & -> & _ & N). assert (Q : n_restart (fst (nhead s)) = false) by (unfold nhead; rewrite R; reflexivity).
    rewrite Q. destruct o; auto.
  - assert (Hd : Some (nhead s) = Some (s', l) -> n_restart s' = n_restart s).
    { intros Y. unfold nhead in Y. destruct (n_remote s); injection Y as <- <-; [reflexivity|]. cbn in X. discriminate. }
    assert (G : forall p : nstate * list nout, Some p = Some (s', l) -> s' = fst p) by (intros p [= ->]; reflexivity).
    destruct o; cbn [nexec] in H; nsteps H; try (exact (Hd H)); apply G in H; rewrite H; cbn [fst]; try reflexivity; auto; try (destruct (n_eopen s); auto).
Qed.
Lemma restart_state : forall tr s, nruns tr s -> n_restart s = restart_asked tr.
Proof.
  intros tr s H. induction H as [|tr s o s' l R IH E]; auto. rewrite restart_snoc, (restart_exec _ _ _ _ E), IH. reflexivity.
Qed.

Lemma final_C44_restart : forall tr s, nruns tr s -> n_pc s = NRun -> n_open s = true -> restart_asked tr = true ->
  exists s' l, nruns (tr ++ [(NOk, []); (NOk, l)]) s' /\ In (SetStatus STOPPING None) l.
Proof.
  intros tr s H P O R. rewrite <- (restart_state _ _ H) in R.
  assert (H1 : nruns (tr ++ [(NOk, [])]) (at_pc s NSub)). { econstructor; eauto. cbn [nexec]. rewrite P, O, R. reflexivity. }
  pose (p := if n_eopen (at_pc s NSub) then stop (at_pc s NSub) else final (at_pc s NSub)).
  exists (fst p), (snd p). split.
  - replace (tr ++ [(NOk, []); (NOk, snd p)]) with ((tr ++ [(NOk, [])]) ++ [(NOk, snd p)]) by now rewrite <- app_assoc.
    econstructor; eauto. cbn [nexec]. cbn [at_pc n_pc n_open]. rewrite O. fold (at_pc s NSub). change (n_eopen s) with (n_eopen (at_pc s NSub)).
    fold p. now destruct p.
  - unfold p. destruct (n_eopen (at_pc s NSub)); cbn; rewrite in_app_iff; cbn; auto.
Qed.

(** ** A closed runner can end *)

Lemma final_C44_can_stop : forall tr s, nruns tr s -> n_open s = false ->
  exists b s', (forall o l, In (o, l) b -> o = NCancel \/ o = NOk) /\ nruns (tr ++ b) s' /\ n_pc s' = NDone.
Proof.
  assert (Step : forall tr s o s' l, nruns tr s -> nexec s o = Some (s', l) -> (o = NCancel \/ o = NOk) ->
    (exists b s2, (forall o l, In (o, l) b -> o = NCancel \/ o = NOk) /\ nruns ((tr ++ [(o, l)]) ++ b) s2 /\ n_pc s2 = NDone) ->
    exists b s2, (forall o l, In (o, l) b -> o = NCancel \/ o = NOk) /\ nruns (tr ++ b) s2 /\ n_pc s2 = NDone).
  { intros tr s o s' l H E Ho (b & s2 & B1 & B2 & B3). exists ((o, l) :: b), s2. rewrite <- app_assoc in B2. split; [|auto].
    intros o' l' [X|X]; [injection X as <- <-; auto|eauto]. }
  assert (D4 : forall tr s, nruns tr s -> n_pc s = NStandby true -> exists b s2, (forall o l, In (o, l) b -> o = NCancel \/ o = NOk) /\ nruns (tr ++ b) s2 /\ n_pc s2 = NDone).
  { intros tr s H P. assert (E : nexec s NOk = Some (at_pc s NDone, [])) by (cbn [nexec]; now rewrite P).
    eapply Step; eauto. exists [], (at_pc s NDone). rewrite app_nil_r. split; [intros o l []|]. split; auto. econstructor; eauto. }
  assert (D3 : forall tr s, nruns tr s -> n_pc s = NFlush true -> exists b s2, (forall o l, In (o, l) b -> o = NCancel \/ o = NOk) /\ nruns (tr ++ b) s2 /\ n_pc s2 = NDone).
  { intros tr s H P. assert (E : nexec s NOk = Some (fst (standby s true), snd (standby s true))) by (cbn [nexec]; rewrite P, orb_true_r; now destruct (standby s true)).
    eapply Step; eauto. eapply D4; [econstructor; eauto|reflexivity]. }
  assert (D2 : forall tr s, nruns tr s -> n_pc s = NEngine true -> exists b s2, (forall o l, In (o, l) b -> o = NCancel \/ o = NOk) /\ nruns (tr ++ b) s2 /\ n_pc s2 = NDone).
  { intros tr s H P. pose proof (ni_place _ _ (ninv_runs _ _ H)) as Q. unfold place in Q. rewrite P in Q. destruct Q as [_ Q]. destruct (n_eng s) as [n|] eqn:En; [|congruence].
    assert (E : nexec s NOk = Some (at_pc s (NFlush true), [EngineClosed n; FlushBegin])) by (cbn [nexec]; rewrite P, En, orb_true_r; reflexivity).
    eapply Step; eauto. eapply D3; [econstructor; eauto|reflexivity]. }
  assert (D1 : forall tr s, nruns tr s -> n_pc s = NStop true -> exists b s2, (forall o l, In (o, l) b -> o = NCancel \/ o = NOk) /\ nruns (tr ++ b) s2 /\ n_pc s2 = NDone).
  { intros tr s H P. assert (E : nexec s NOk = Some (fst (engine_close s true), snd (engine_close s true))) by (cbn [nexec]; rewrite P, orb_true_r; now destruct (engine_close s true)).
    eapply Step; eauto. assert (R : nruns (tr ++ [(NOk, snd (engine_close s true))]) (fst (engine_close s true))) by (econstructor; eauto).
    unfold engine_close in *. destruct (n_eng s); [eapply D2; [exact R|reflexivity]|eapply D3; [exact R|reflexivity]]. }
  intros tr s H O.
  assert (Hfin : nexec s NCancel = Some (final s) -> exists b s2, (forall o l, In (o, l) b -> o = NCancel \/ o = NOk) /\ nruns (tr ++ b) s2 /\ n_pc s2 = NDone).
  { intros E. assert (E' : nexec s NCancel = Some (fst (final s), snd (final s))) by (rewrite E; now destruct (final s)).
    eapply Step; eauto. eapply D1; [econstructor; eauto|reflexivity]. }
  destruct (n_pc s) as [| | | | | | |[]|[]|[]|[]|] eqn:P; try (apply Hfin; cbn [nexec]; rewrite O, P; reflexivity); eauto.
  - assert (E : nexec s NCancel = Some (at_pc s NDone, [])) by (cbn [nexec]; now rewrite O, P).
    eapply Step; eauto. exists [], (at_pc s NDone). rewrite app_nil_r. split; [intros o l []|]. split; auto. econstructor; eauto.
  - exists [], s. rewrite app_nil_r. split; [intros o l []|auto].
Qed.

(** An exception while the runner is open makes it close. *)
Lemma final_C44_raise : forall tr s s' l, nruns tr s -> n_open s = true -> nexec s NRaise = Some (s', l) -> In (SetStatus STOPPING None) l /\ n_open s' = false.
Proof.
  intros tr s s' l H O E. apply ninv_runs in H.
  assert (G : forall p : nstate * list nout, Some p = Some (s', l) -> s' = fst p /\ l = snd p) by (intros p [= ->]; auto).
  assert (F : In (SetStatus STOPPING None) (snd (final s)) /\ n_open (fst (final s)) = false).
  { unfold final, stop_fin, srv_set; cbn. rewrite in_app_iff. cbn. auto. }
  pose proof (ni_final _ _ H) as Nf. cbn [nexec] in E.
  destruct (n_pc s) as [| | | | | | |[]|[]|[]|[]|] eqn:P; try discriminate; rewrite ?O in E; cbn [orb fail] in E;
    try solve [exfalso; rewrite Nf in O by auto; discriminate]; apply G in E; destruct E as [-> ->]; exact F.
Qed.
