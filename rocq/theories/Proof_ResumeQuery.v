(** Lemmas for C81: answers of queries of a server that goes on from a database.
    The proofs are those for servers that start with an empty database
    (Proof_Lmdb13 to Proof_Lmdb21), from another start. *)
From Coq Require Import String Bool ZArith Lia Sorted Permutation List.
From Verif Require Import Base Kv Model_Types Model_Subscription Model_Order Model_Codec Keys
  Spec_Order Spec_Codec Spec_Subscription Proof_Subscription Proof_Subscription2 Proof_Order Model_Lmdb Model_LmdbSys Spec_Lmdb Spec_LmdbContent
  Spec_Copy Model_Convert Spec_Convert Spec_Resume Proof_Resume Proof_Resume2 Proof_Resume3 Spec_LmdbQuery Spec_LmdbTs
  Proof_Lmdb1 Proof_Lmdb2 Proof_Lmdb3 Proof_Lmdb4 Proof_Lmdb5 Proof_Lmdb6 Proof_Lmdb7 Proof_Lmdb8 Proof_Lmdb9 Proof_Lmdb10 Proof_Lmdb11 Proof_Lmdb12
  Proof_Lmdb13 Proof_Lmdb14 Proof_Lmdb15 Proof_Lmdb16 Proof_Lmdb18 Proof_Lmdb19 Proof_Lmdb20 Proof_Lmdb21
  Spec_ResumeQuery.
Import ListNotations.
Open Scope list_scope.
Open Scope Z_scope.

Section From.
Variable db0 : ldb.
Variable hist0 : history.
Hypothesis HR : repr db0 hist0 [].
Hypothesis HT : forall en x, In en hist0 -> cf_cond (en_conf en) x = true.

Lemma res_inv : forall O cf tr s, resumed O cf db0 tr s -> sys_inv s (watch_from hist0 cf tr).
Proof. intros O cf tr s H. now apply (resumed_inv _ _ _ _ _ _ HR H). Qed.

Lemma res_snoc : forall O cf tr o x s', resumed O cf db0 (tr ++ [(o, x)]) s' <->
    exists s, resumed O cf db0 tr s /\ exec O s o = Some (s', x) /\ Forall conf_ok (confs_of [(o, x)]) /\ Forall event_ok (events_of [(o, x)]).
Proof.
  intros O cf tr o x s'. split; [apply resumed_snoc|]. intros (s & (d & m & H1 & H2 & H3 & H4) & He & Hc & Hv).
  exists d, m. split; auto. split; [|rewrite confs_of_app, app_comm_cons, events_of_app; split; now apply Forall_app].
  eapply runs_app; eauto. now apply runs_one.
Qed.

Lemma res_split : forall O cf tr1 tr2 s, resumed O cf db0 (tr1 ++ tr2) s ->
    exists s1, resumed O cf db0 tr1 s1 /\ runs O s1 tr2 s /\ Forall conf_ok (confs_of tr2) /\ Forall event_ok (events_of tr2).
Proof.
  intros O cf tr1 tr2 s (d & m & H1 & H2 & H3 & H4). rewrite confs_of_app, app_comm_cons, Forall_app in H3.
  rewrite events_of_app, Forall_app in H4. apply runs_split in H2 as (s1 & H2 & H2').
  exists s1. split; [exists d, m; tauto|tauto].
Qed.

(** Conditions in force accept what they accepted before. *)
Definition kept_from (cf : conf) (tr : list (op * out)) : Prop :=
  conditions_kept (cf :: confs_of tr) /\ forall t e, latest_of hist0 t = Some e -> cf_cond cf e = true.

(** Later entries come after events that their conditions accept. *)
Definition all_met (h : history) : Prop := forall A en B, h = A ++ en :: B ->
  (forall x, In x A -> cf_cond (en_conf en) (en_ev x) = true) /\ (forall t e, latest_of hist0 t = Some e -> cf_cond (en_conf en) e = true).

Lemma all_met_app : forall H h c, all_met H -> (forall x, In x (H ++ h) -> cf_cond c (en_ev x) = true) -> (forall t e, latest_of hist0 t = Some e -> cf_cond c e = true) ->
    Forall (fun en => en_conf en = c) h -> all_met (H ++ h).
Proof.
  intros H h c. induction h as [|y h IH] using rev_ind; intros H1 H2 Hl H3; [now rewrite app_nil_r|].
  apply Forall_app in H3 as [H3 H4]. inversion H4; subst. assert (IH' : all_met (H ++ h)).
  { apply IH; auto. intros x Hx. apply H2. rewrite app_assoc. apply in_or_app. auto. }
  intros A en B E. destruct B as [|b B] using rev_ind.
  - rewrite app_assoc in E. apply app_inj_tail in E as [E <-]. split; [|exact Hl]. intros x Hx. apply H2. rewrite app_assoc, E. apply in_or_app. auto.
  - clear IHB. rewrite app_assoc in E. change (A ++ en :: B ++ [b]) with (A ++ (en :: B) ++ [b]) in E. rewrite app_assoc in E. apply app_inj_tail in E as [E _]. now apply (IH' A en B E).
Qed.

Lemma met_inv : forall O cf tr s, resumed O cf db0 tr s -> kept_from cf tr ->
    exists hd h, w_disk (watch_from hist0 cf tr) = hist0 ++ hd /\ w_all (watch_from hist0 cf tr) = hist0 ++ h /\ all_met h /\ In (w_conf (watch_from hist0 cf tr)) (cf :: confs_of tr) /\
    (forall en, In en h -> cf_cond (w_conf (watch_from hist0 cf tr)) (en_ev en) = true) /\
    (forall t e, latest_of hist0 t = Some e -> cf_cond (w_conf (watch_from hist0 cf tr)) e = true).
Proof.
  intros O cf tr. induction tr as [|[o x] tr IH] using rev_ind; intros s H [Hc Hm].
  - exists [], []. unfold w_all, watch_from. cbn [fold_left w_disk w_queue w_cur w_conf concat app]. rewrite !app_nil_r. do 2 (split; [reflexivity|]).
    split; [intros [|] en B E; discriminate E|]. split; [now left|]. split; [intros en []|exact Hm].
  - pose proof (all_ok _ _ (res_inv _ _ _ _ H)) as Ok. destruct (watch_disk_from hist0 cf (tr ++ [(o, x)])) as [hd' Ed']. apply res_snoc in H as (s1 & H1 & H2 & _). pose proof (res_inv _ _ _ _ H1) as Hi.
    rewrite confs_snoc, app_comm_cons in *. rewrite watch_from_snoc in *.
    assert (Hc' : conditions_kept (cf :: confs_of tr)).
    { destruct o; try (now rewrite app_nil_r in Hc). unfold conditions_kept in *. now apply FOP_app in Hc. }
    destruct (IH _ H1 (conj Hc' Hm)) as (hd & h0 & D0 & I0 & I1 & I2 & I3 & I4). exists hd'.
    destruct (step_all _ _ _ _ _ _ Hi H2) as [(h & E & Hf & Ec & _ & Hno)|(c & -> & E)].
    + exists (h0 ++ h). rewrite E, Ec, I0 in *. split; [exact Ed'|]. split; [now rewrite app_assoc|].
      assert (Hall : forall y, In y (h0 ++ h) -> cf_cond (w_conf (watch_from hist0 cf tr)) (en_ev y) = true).
      { intros y Hy. destruct (in_app_or _ _ _ Hy) as [Hy'|Hy']; [now apply I3|].
        rewrite Forall_forall in Hf. rewrite <- (Hf _ Hy'). apply (hist_cond _ _ Ok). apply in_or_app. auto. }
      split; [now apply (all_met_app _ _ (w_conf (watch_from hist0 cf tr)))|]. split; [apply in_or_app; now left|auto].
    + exists hd. unfold conditions_kept in Hc. apply FOP_app in Hc as [_ Hc]. rewrite E, step_conf, D0. split; [exact Ed'|]. split; [reflexivity|].
      assert (Eh : h0 = hd ++ concat (w_queue (watch_from hist0 cf tr)) ++ w_cur (watch_from hist0 cf tr)).
      { apply (app_inv_head hist0). rewrite <- I0. unfold w_all. now rewrite D0, <- app_assoc. }
      split; [|split; [|split]].
      * intros A en B Ed. apply (I1 A en (B ++ concat (w_queue (watch_from hist0 cf tr)) ++ w_cur (watch_from hist0 cf tr))).
        rewrite Eh, Ed, <- app_assoc. reflexivity.
      * apply in_or_app. right. now left.
      * intros en Hen. apply (Hc (w_conf (watch_from hist0 cf tr)) I2). apply I3. rewrite Eh. apply in_or_app. auto.
      * intros t e L. apply (Hc (w_conf (watch_from hist0 cf tr)) I2). now apply (I4 t).
Qed.

Lemma kept_hidden : forall O cf tr s, resumed O cf db0 tr s -> kept_from cf tr -> no_hidden (w_all (watch_from hist0 cf tr)).
Proof.
  intros O cf tr s H Hc. destruct (met_inv _ _ _ _ H Hc) as (hd & h & _ & E & Hm & _). rewrite E. intros A en B Ea p Hp _.
  destruct (app_eq_app _ _ _ _ Ea) as [l [[E1 E2]|[E1 E2]]].
  - destruct l as [|y l]; cbn [app] in E2.
    + destruct (Hm [] en B (eq_sym E2)) as [_ X]. apply (X (ev_type (en_ev en))). now rewrite E1, app_nil_r.
    + injection E2 as <- _. apply HT. rewrite E1. apply in_or_app. right. now left.
  - destruct (Hm l en B E2) as [X Y]. rewrite E1 in Hp. destruct (latest_app _ _ _ _ Hp) as [L|(z & Z1 & <-)]; [now apply (Y _ _ L)|now apply X].
Qed.

Definition job_from (O : oracle) (cf : conf) (tr : list (op * out)) (js1 : list job) (j : job) : Prop :=
  forall q, job_query j = Some q ->
  exists trA o trB sA, tr = trA ++ (o, Quiet) :: trB /\ resumed O cf db0 trA sA /\ query_op o q /\
    exec O sA o = Some (push sA j, Quiet) /\ no_reopen trB /\
    w_disk (watch_from hist0 cf tr) ++ concat (firstn (List.length (flushes js1)) (w_queue (watch_from hist0 cf tr))) = w_before (watch_from hist0 cf trA).

Definition ready_from (O : oracle) (cf : conf) (tr : list (op * out)) (r : ready) : Prop :=
  exists trA o trB trC sA sB j, tr = trA ++ (o, Quiet) :: trB ++ (OWork, Quiet) :: trC /\
    resumed O cf db0 trA sA /\ resumed O cf db0 (trA ++ (o, Quiet) :: trB) sB /\
    query_op o (ready_id r) /\ exec O sA o = Some (push sA j, Quiet) /\ no_reopen (trB ++ trC) /\
    w_disk (watch_from hist0 cf (trA ++ (o, Quiet) :: trB)) = w_before (watch_from hist0 cf trA) /\
    job_result O sB j = Some r.

Definition query_inv (O : oracle) (cf : conf) (tr : list (op * out)) (s : sys) : Prop :=
  (forall js1 j js2, s_jobs s = js1 ++ j :: js2 -> job_from O cf tr js1 j) /\
  (forall r, In r (s_ready s) -> ready_from O cf tr r).

Lemma ready_from_snoc : forall O cf tr r o x, ready_from O cf tr r -> (forall c, o <> OReopen c) -> ready_from O cf (tr ++ [(o, x)]) r.
Proof.
  intros O cf tr r o x (trA & o' & trB & trC & sA & sB & j & E & H1 & H2 & H3 & H4 & H5 & H6) Hn.
  exists trA, o', trB, (trC ++ [(o, x)]), sA, sB, j. split; [rewrite E, <- app_assoc; cbn [app]; now rewrite <- app_assoc|].
  split; auto. split; auto. split; auto. split; auto. split; auto. rewrite app_assoc. now apply no_reopen_snoc.
Qed.

Lemma job_from_snoc : forall O cf tr js1 js1' j o x, job_from O cf tr js1 j -> (forall c, o <> OReopen c) ->
    (let w := watch_from hist0 cf tr in let w' := watch_step w (o, x) in
     w_disk w' ++ concat (firstn (List.length (flushes js1')) (w_queue w')) =
     w_disk w ++ concat (firstn (List.length (flushes js1)) (w_queue w))) ->
    job_from O cf (tr ++ [(o, x)]) js1' j.
Proof.
  intros O cf tr js1 js1' j o x H Hn Hw q Hq. destruct (H q Hq) as (trA & o' & trB & sA & E & H1 & H2 & H3 & H4 & H5).
  exists trA, o', (trB ++ [(o, x)]), sA. split; [rewrite E, <- app_assoc; reflexivity|]. split; auto. split; auto. split; auto.
  split; [now apply no_reopen_snoc|]. rewrite watch_from_snoc. cbn zeta in Hw. now rewrite Hw.
Qed.

Lemma query_inv_step : forall O cf tr s o x s', resumed O cf db0 tr s -> query_inv O cf tr s -> exec O s o = Some (s', x) ->
    resumed O cf db0 (tr ++ [(o, x)]) s' -> query_inv O cf (tr ++ [(o, x)]) s'.
Proof.
  intros O cf tr s o x s' Hx [IJ IR] He Hx'. pose proof (res_inv _ _ _ _ Hx) as Hi.
  pose proof (chain_length _ _ _ _ (si_chain _ _ Hi)) as Hlen.
  assert (Hfl : forall js1 j js2, s_jobs s = js1 ++ j :: js2 -> (List.length (flushes js1) <= List.length (w_queue (watch_from hist0 cf tr)))%nat).
  { intros js1 j js2 E. rewrite <- Hlen, E, flushes_app, app_length. lia. }
  destruct o as [es|  |now|p|q p|q p| |q|c].
  - (* register *)
    cbn [exec] in He. destruct (register_events _ _ _ _) as [[m ch]|]; [|discriminate]. injection He as <- <-. split; cbn [s_jobs s_ready].
    + intros js1 j js2 E. eapply job_from_snoc; [eapply IJ; eauto|discriminate|reflexivity].
    + intros r Hr. apply ready_from_snoc; auto. discriminate.
  - (* flush *)
    cbn [exec] in He. injection He as <- <-. split; cbn [s_jobs s_ready].
    + intros js1 j js2 E. apply app_snoc_split in E as [(-> & -> & ->)|(js2' & -> & E)]; [intros q Hq; discriminate|].
      eapply job_from_snoc; [eapply IJ; eauto|discriminate|]. cbn zeta. cbn [watch_step w_disk w_queue].
      rewrite firstn_app. replace (_ - _)%nat with 0%nat by (specialize (Hfl _ _ _ E); lia). cbn [firstn]. now rewrite app_nil_r.
    + intros r Hr. apply ready_from_snoc; auto. discriminate.
  - (* cleanup *)
    cbn [exec] in He. injection He as <- <-. split; cbn [s_jobs s_ready push].
    + intros js1 j js2 E. apply app_snoc_split in E as [(-> & -> & ->)|(js2' & -> & E)]; [intros q Hq; discriminate|].
      eapply job_from_snoc; [eapply IJ; eauto|discriminate|reflexivity].
    + intros r Hr. apply ready_from_snoc; auto. discriminate.
  - (* latest *)
    cbn [exec] in He. injection He as <- <-. split.
    + intros js1 j js2 E. eapply job_from_snoc; [eapply IJ; eauto|discriminate|reflexivity].
    + intros r Hr. apply ready_from_snoc; auto. discriminate.
  - (* server query *)
    destruct (exec_query O s (OServer q p) q s' x eq_refl He) as [[-> Hq]|(j & -> & -> & Hj)].
    + split.
      * intros js1 j js2 E. eapply job_from_snoc; [eapply IJ; eauto|discriminate|reflexivity].
      * intros r Hr. apply ready_from_snoc; auto. discriminate.
    + split; cbn [s_jobs s_ready push].
      * intros js1 j' js2 E. apply app_snoc_split in E as [(-> & -> & ->)|(js2' & -> & E)].
        -- intros q' Hq'. rewrite Hj in Hq'. injection Hq' as <-. exists tr, (OServer q p), [], s. split; auto. split; auto. split; [reflexivity|].
           split; auto. split; [intros ? ? []|]. rewrite watch_from_snoc. cbn [watch_step]. rewrite Hlen, firstn_all. reflexivity.
        -- eapply job_from_snoc; [eapply IJ; eauto|discriminate|reflexivity].
      * intros r Hr. apply ready_from_snoc; auto. discriminate.
  - (* timeseries query *)
    destruct (exec_query O s (OTs q p) q s' x eq_refl He) as [[-> Hq]|(j & -> & -> & Hj)].
    + split.
      * intros js1 j js2 E. eapply job_from_snoc; [eapply IJ; eauto|discriminate|reflexivity].
      * intros r Hr. apply ready_from_snoc; auto. discriminate.
    + split; cbn [s_jobs s_ready push].
      * intros js1 j' js2 E. apply app_snoc_split in E as [(-> & -> & ->)|(js2' & -> & E)].
        -- intros q' Hq'. rewrite Hj in Hq'. injection Hq' as <-. exists tr, (OTs q p), [], s. split; auto. split; auto. split; [reflexivity|].
           split; auto. split; [intros ? ? []|]. rewrite watch_from_snoc. cbn [watch_step]. rewrite Hlen, firstn_all. reflexivity.
        -- eapply job_from_snoc; [eapply IJ; eauto|discriminate|reflexivity].
      * intros r Hr. apply ready_from_snoc; auto. discriminate.
  - (* worker *)
    cbn [exec] in He. unfold work in He. destruct (s_jobs s) as [|j0 js] eqn:Ej.
    { injection He as <- <-. split.
      - intros js1 j js2 E. rewrite Ej in E. destruct js1; discriminate.
      - intros r Hr. apply ready_from_snoc; auto. discriminate. }
    assert (Hq : forall j q, j = j0 -> job_query j = Some q -> forall r, job_result O s j = Some r -> ready_id r = q ->
                   ready_from O cf (tr ++ [(OWork, Quiet)]) r).
    { intros j q -> Hjq r Hjr Hrq. destruct (IJ [] j0 js eq_refl q Hjq) as (trA & o' & trB & sA & E & H1 & H2 & H3 & H4 & H5).
      exists trA, o', trB, [], sA, s, j0. split; [rewrite E, <- app_assoc; reflexivity|]. split; auto. rewrite E in Hx. split; auto.
      rewrite Hrq. split; auto. split; auto. rewrite app_nil_r. split; auto. cbn [flushes flat_map List.length firstn concat] in H5.
      rewrite app_nil_r in H5. rewrite <- E. auto. }
    destruct j0 as [c|now|q p max g|q p part sub max g pre f].
    + injection He as <- <-. split; cbn [s_jobs s_ready done_].
      * intros js1 j js2 E. eapply job_from_snoc; [apply (IJ (JFlush c :: js1) j js2); cbn; now rewrite E|discriminate|].
        cbn zeta. cbn [watch_step w_disk w_queue]. change (flushes (JFlush c :: js1)) with (c :: flushes js1). cbn [List.length].
        destruct (w_queue (watch_from hist0 cf tr)) as [|h hs].
        -- cbn in Hlen. discriminate.
        -- cbn [hd tl firstn concat]. now rewrite <- app_assoc.
      * intros r Hr. apply ready_from_snoc; auto. discriminate.
    + destruct (cleanup _ _ _ _) as [db ks]. injection He as <- <-. split; cbn [s_jobs s_ready done_].
      * intros js1 j js2 E. eapply job_from_snoc; [apply (IJ (JCleanup now :: js1) j js2); cbn; now rewrite E|discriminate|reflexivity].
      * intros r Hr. apply ready_from_snoc; auto. discriminate.
    + destruct (query_refs _ _ _ _ _) as [es|] eqn:Eq; [|discriminate]. injection He as <- <-. split; cbn [s_jobs s_ready done_].
      * intros js1 j js2 E. eapply job_from_snoc; [apply (IJ (JServer q p max g :: js1) j js2); cbn; now rewrite E|discriminate|reflexivity].
      * intros r Hr. apply in_app_or in Hr as [Hr|[<-|[]]]; [apply ready_from_snoc; auto; discriminate|].
        apply (Hq (JServer q p max g) q); auto. cbn [job_result]. now rewrite Eq.
    + destruct (query_stored _ _ _ _ _ _) as [es f'] eqn:Eq. injection He as <- <-. split; cbn [s_jobs s_ready done_].
      * intros js1 j js2 E. eapply job_from_snoc; [apply (IJ (JTs q p part sub max g pre f :: js1) j js2); cbn; now rewrite E|discriminate|reflexivity].
      * intros r Hr. apply in_app_or in Hr as [Hr|[<-|[]]]; [apply ready_from_snoc; auto; discriminate|].
        apply (Hq (JTs q p part sub max g pre f) q); auto. cbn [job_result]. now rewrite Eq.
  - (* delivery *)
    cbn [exec] in He. destruct (take_ready q (s_ready s)) as [[r rs]|] eqn:Et; [|discriminate]. injection He as <- <-.
    apply take_ready_In in Et as (_ & _ & Hin). split; cbn [s_jobs s_ready done_].
    + intros js1 j js2 E. eapply job_from_snoc; [eapply IJ; eauto|discriminate|reflexivity].
    + intros r' Hr. apply ready_from_snoc; auto. discriminate.
  - (* restart *)
    cbn [exec] in He. destruct (open_db c (s_disk s)) as [[d m]|]; [|discriminate]. injection He as <- <-. split; cbn [s_jobs s_ready].
    + intros js1 j js2 E; destruct js1; discriminate.
    + intros r [].
Qed.

Lemma query_inv_all : forall O cf tr s, resumed O cf db0 tr s -> query_inv O cf tr s.
Proof.
  intros O cf. induction tr as [|[o x] tr IH] using rev_ind; intros s H.
  - destruct H as (d & m & _ & H & _). inversion H; subst.
    split; cbn [s_jobs s_ready]; [intros js1 j js2 E; destruct js1; discriminate|intros r []].
  - pose proof H as H'. apply res_snoc in H as (s1 & H1 & H2 & _). eapply query_inv_step; eauto.
Qed.

Lemma res_fun : forall O cf tr s s', resumed O cf db0 tr s -> resumed O cf db0 tr s' -> s = s'.
Proof.
  intros O cf tr s s' (d & m & E0 & R0 & _) (d' & m' & E1 & R1 & _). rewrite E0 in E1. injection E1 as <- <-. eapply runs_fun; eauto.
Qed.

Lemma gen_spec : forall O cf trA sA trB s, resumed O cf db0 trA sA -> resumed O cf db0 (trA ++ trB) s -> no_reopen trB ->
    let wA := watch_from hist0 cf trA in
    let w := pending_at wA trB in
    (exists d K pls, repr d (w_before wA) K /\ pendH d (w_before wA) (gen s (cur_gen sA)) (w_cur w) pls /\
                     db_parts d = db_parts (s_disk s)) /\
    db_parts (s_disk s) = db_parts (s_disk sA) /\
    w_conf w = w_conf wA /\ w_before w = w_before wA /\ (cur_gen sA <= cur_gen s)%nat /\
    (no_flush trB -> cur_gen s = cur_gen sA) /\ (~ no_flush trB -> (cur_gen sA < cur_gen s)%nat).
Proof.
  intros O cf trA sA trB s HA. revert s. induction trB as [|[o x] trB IH] using rev_ind; intros s HB Hn.
  - cbn zeta. rewrite app_nil_r in HB. cbn [pending_at].
    pose proof (res_fun _ _ _ _ _ HB HA).
    subst s. pose proof (res_inv _ _ _ _ HA) as Hi. split; [|split; [auto|split; [auto|split; [auto|split; [auto|split; [auto|]]]]]].
    + destruct (si_pend _ _ Hi) as (pls & Hp).
      exists (written (s_disk sA) (flushes (s_jobs sA))), (w_gone (watch_from hist0 cf trA)), pls.
      split; [apply (chain_repr _ _ _ _ _ (si_repr _ _ Hi) (si_chain _ _ Hi))|]. split; [|apply written_parts].
      replace (gen sA (cur_gen sA)) with (s_cur sA); auto. unfold gen, cur_gen. rewrite app_nth2, Nat.sub_diag by lia. reflexivity.
    + intros Hf. exfalso. apply Hf. intros ? [].
  - rewrite app_assoc in HB. pose proof HB as HB'. apply res_snoc in HB as (s1 & H1 & H2 & _).
    assert (Hn1 : no_reopen trB). { intros c y Hy. apply (Hn c y). apply in_or_app. auto. }
    assert (Hno : forall c, o <> OReopen c). { intros c ->. apply (Hn c x). apply in_or_app. right. now left. }
    destruct (IH _ H1 Hn1) as ((d & K & pls & I1 & I2 & I3) & I4 & I5 & I6 & I7 & I8 & I9). cbn zeta in *. clear IH.
    pose proof (step_parts_eq _ _ _ _ _ _ (res_inv _ _ _ _ H1) H2 Hno) as Ep.
    pose proof (res_inv _ _ _ _ HB') as Hi.
    destruct (step_old _ _ _ _ _ H2 Hno) as [_ Hold].
    destruct (flush_split trB) as [Hf|(tr1 & y & tr2 & E & Hf)].
    + specialize (I8 Hf). rewrite (pending_at_none _ _ Hf) in *. destruct Hold as [[Eo Hof]|[-> Eo]].
      * assert (Hf' : no_flush (trB ++ [(o, x)])).
        { intros z Hz. apply in_app_or in Hz as [Hz|[Hz|[]]]; [now apply Hf in Hz|]. congruence. }
        rewrite (pending_at_none _ _ Hf'), fold_left_app. cbn [fold_left].
        replace (fold_left watch_step trB (watch_from hist0 cf trA)) with (watch_from hist0 cf (trA ++ trB)) in * by (unfold watch_from; now rewrite fold_left_app).
        assert (Ecg : cur_gen s = cur_gen sA) by (unfold cur_gen in *; rewrite Eo; exact I8).
        assert (Ebef : w_before (watch_step (watch_from hist0 cf (trA ++ trB)) (o, x)) = w_before (watch_from hist0 cf trA)) by (rewrite before_step; auto).
        split; [|split; [congruence|split; [rewrite step_conf; destruct o; auto; exfalso; eapply Hno; eauto|split; [auto|split; [lia|split; [auto|]]]]]].
        -- destruct (si_pend _ _ Hi) as (pls' & Hp). rewrite watch_from_snoc in Hp.
           exists (written (s_disk s) (flushes (s_jobs s))), (w_gone (watch_from hist0 cf ((trA ++ trB) ++ [(o, x)]))), pls'.
           split; [|split; [|apply written_parts]].
           ++ rewrite <- Ebef. rewrite <- watch_from_snoc. apply (chain_repr _ _ _ _ _ (si_repr _ _ Hi) (si_chain _ _ Hi)).
           ++ rewrite <- Ebef. replace (gen s (cur_gen sA)) with (s_cur s); auto. unfold gen. rewrite <- Ecg. unfold cur_gen.
              rewrite app_nth2, Nat.sub_diag by lia. reflexivity.
        -- intros Hc. contradiction.
      * rewrite (pending_at_flush trB x [] _ Hf).
        assert (Ecg : cur_gen s = S (cur_gen sA)) by (unfold cur_gen in *; rewrite Eo, app_length; cbn [List.length]; lia).
        split; [|split; [congruence|split; [auto|split; [auto|split; [lia|split]]]]].
        -- exists d, K, pls. split; auto. split; [|congruence].
           replace (gen s (cur_gen sA)) with (gen s1 (cur_gen sA)); auto. unfold gen. rewrite Eo. symmetry. apply app_nth1.
           rewrite app_length. cbn [List.length]. unfold cur_gen in *. lia.
        -- intros Hc. exfalso. apply (Hc x). apply in_or_app. right. now left.
        -- intros _. lia.
    + assert (Hnf : ~ no_flush trB). { intros Hc. apply (Hc y). rewrite E. apply in_or_app. right. now left. }
      specialize (I9 Hnf). rewrite E in *. rewrite <- app_assoc. cbn [app]. rewrite !(pending_at_flush _ _ _ _ Hf) in *.
      assert (Hlt : (cur_gen sA < List.length (s_old s))%nat).
      { destruct Hold as [[Eo _]|[_ Eo]]; unfold cur_gen in *; rewrite Eo, ?app_length; cbn [List.length]; lia. }
      assert (Eg : gen s (cur_gen sA) = gen s1 (cur_gen sA)).
      { unfold gen. rewrite (app_nth1 (s_old s)) by auto. rewrite (app_nth1 (s_old s1)) by auto.
        destruct Hold as [[Eo _]|[_ Eo]]; rewrite Eo; auto. apply app_nth1. exact I9. }
      split; [|split; [congruence|split; [auto|split; [auto|split; [unfold cur_gen in *; lia|split]]]]].
      * exists d, K, pls. split; auto. split; [now rewrite Eg|congruence].
      * intros Hc. exfalso. apply (Hc y). apply in_or_app. right. now left.
      * intros _. exact Hlt.
Qed.

Lemma answered : forall O cf trA o trB q a s sA,
    resumed O cf db0 (trA ++ (o, Quiet) :: trB ++ [(ODeliver q, a)]) s -> resumed O cf db0 trA sA ->
    query_op o q -> ~ In q (queries_of trA) -> ~ In q (queries_of trB) ->
    exists trB1 trB2 sB s1 j r, trB = trB1 ++ (OWork, Quiet) :: trB2 /\
      resumed O cf db0 (trA ++ (o, Quiet) :: trB1) sB /\ resumed O cf db0 (trA ++ (o, Quiet) :: trB) s1 /\
      exec O sA o = Some (push sA j, Quiet) /\ no_reopen trB /\
      w_disk (watch_from hist0 cf (trA ++ (o, Quiet) :: trB1)) = w_before (watch_from hist0 cf trA) /\
      job_result O sB j = Some r /\ a = Answer (finish s1 r) /\ s_disk s = s_disk s1.
Proof.
  intros O cf trA o trB q a s sA Hx HA Hq Hn1 Hn2.
  replace (trA ++ (o, Quiet) :: trB ++ [(ODeliver q, a)]) with ((trA ++ (o, Quiet) :: trB) ++ [(ODeliver q, a)]) in Hx
    by (now rewrite <- app_assoc).
  apply res_snoc in Hx as (s1 & Hx & He & _). cbn [exec] in He.
  destruct (take_ready q (s_ready s1)) as [[r rs]|] eqn:Et; [|discriminate]. injection He as <- <-.
  apply take_ready_In in Et as (Hr & Hid & _).
  destruct (query_inv_all _ _ _ _ Hx) as [_ IR]. destruct (IR _ Hr) as (trA' & o' & trB' & trC' & sA' & sB & j & E & H1 & H2 & H3 & H4 & H5 & H6 & H7).
  rewrite Hid in H3.
  destruct (unique_split _ (fun y => query_op (fst y) q) _ _ _ _ _ _ E) as (<- & Eo & EB); auto.
  { intros [oy y] Hy Hqy. apply Hn1. eapply query_op_In; eauto. }
  { intros [oy y] Hy Hqy. apply Hn2. eapply query_op_In; eauto. }
  injection Eo as <-. rewrite (res_fun _ _ _ _ _ H1 HA) in *.
  exists trB', trC', sB, s1, j, r. split; auto. split; auto. split; auto. split; auto. split.
  { rewrite EB. intros c x Hin. apply in_app_or in Hin as [Hin|[Hin|Hin]]; [|discriminate|]; apply (H5 c x), in_or_app; auto. }
  split; auto.
Qed.

Lemma watch_from_app : forall cf a b, watch_from hist0 cf (a ++ b) = fold_left watch_step b (watch_from hist0 cf a).
Proof. intros. unfold watch_from. apply fold_left_app. Qed.

Lemma C19_core : forall O cf trA q p trB a s,
    pick_ok O -> resumed O cf db0 (trA ++ (OServer q p, Quiet) :: trB ++ [(ODeliver q, a)]) s ->
    kept_from cf trA -> ~ In q (queries_of trA) -> ~ In q (queries_of trB) -> 0 <= server_max p ->
    exists trB1 trB2 s2 s1 L, trB = trB1 ++ (OWork, Quiet) :: trB2 /\
      (resumed O cf db0 (trA ++ (OServer q p, Quiet) :: trB) s1 /\ s_disk s = s_disk s1 /\ no_reopen trB /\
       w_disk (watch_from hist0 cf (trA ++ (OServer q p, Quiet) :: trB1)) = w_before (watch_from hist0 cf trA)) /\
      resumed O cf db0 (trA ++ (OServer q p, Quiet) :: trB1) s2 /\
      a = Answer (Some (page (server_max p) L)) /\ by_id L /\
      (let w := pending_at (watch_from hist0 cf trA) trB in
       forall e, In e L <-> eid_server (ev_id e) = qs_server p /\ after (qs_last p) e /\
         (stored_event (s_disk s2) e \/
          (qs_persisted p = false /\ exists en, In en (w_cur w) /\ en_ev en = e /\ live (w_all w) en))).
Proof.
  intros O cf trA q p trB a s Hpick Hx Hck Hn1 Hn2 Hm.
  destruct (res_split _ _ _ _ _ Hx) as (sA & HA & _).
  destruct (answered _ _ _ (OServer q p) _ _ _ _ _ Hx HA eq_refl Hn1 Hn2)
    as (trB1 & trB2 & sB & s1 & j & r & EB & HB & H1 & He & Hnr & Hd & Hj & Ha & Esd).
  cbn [exec] in He. destruct (server_query_start p) as [max|] eqn:Es; [|discriminate].
  apply server_start_max in Es as [-> Hsrv]. injection He as Ej. apply app_inv_head in Ej. injection Ej as <-.
  cbn [job_result] in Hj. pose proof (res_inv _ _ _ _ HB) as HiB. pose proof (si_repr _ _ HiB) as HrB. rewrite Hd in HrB.
  pose proof (kept_hidden _ _ _ _ HA Hck) as HhA. rewrite w_all_before in HhA.
  destruct (query_refs_spec O _ _ _ (qs_server p) (qs_last p) Hpick HrB (no_hidden_app _ _ HhA) Hsrv) as (Ld & L1 & L2 & L3).
  rewrite L3 in Hj. injection Hj as <-.
  assert (Hnr' : no_reopen ((OServer q p, Quiet) :: trB)).
  { intros c x [Hin|Hin]; [discriminate|]. eapply Hnr; eauto. }
  destruct (gen_spec _ _ _ _ _ _ HA H1 Hnr') as ((d & K & pls & G1 & G2 & _) & _ & _ & G6 & _). cbn [pending_at watch_step] in *.
  set (w := pending_at (watch_from hist0 cf trA) trB) in *.
  assert (Hw : exists trX sX, resumed O cf db0 trX sX /\ w = watch_from hist0 cf trX /\ confs_of trX = confs_of trA).
  { destruct (pending_prefix trB (watch_from hist0 cf trA)) as (b1 & b2 & E1 & E2).
    exists (trA ++ (OServer q p, Quiet) :: b1).
    assert (Hx1 : resumed O cf db0 ((trA ++ (OServer q p, Quiet) :: b1) ++ b2) s1) by (rewrite <- app_assoc; cbn [app]; now rewrite <- E1).
    destruct (res_split _ _ _ _ _ Hx1) as (sX & HX & _). exists sX. split; auto. split.
    - unfold w. rewrite E2, watch_from_app. reflexivity.
    - rewrite confs_of_app. change (confs_of ((OServer q p, Quiet) :: b1)) with (confs_of b1). rewrite (confs_none b1), app_nil_r; auto.
      intros c x Hin. apply (Hnr c x). rewrite E1. apply in_or_app. auto. }
  destruct Hw as (trX & sX & HX & Ew & Ec).
  assert (Hhw : no_hidden (w_all w)). { rewrite Ew. eapply kept_hidden; [exact HX|]. unfold kept_from in *. now rewrite Ec. }
  assert (How : hist_ok (w_all w)). { rewrite Ew. eapply all_ok, res_inv; eauto. }
  rewrite w_all_before, G6 in Hhw, How.
  pose proof (pendH_ref _ _ _ _ _ _ G1 G2) as Hpr. pose proof (pend_added _ _ _ _ _ _ G1 G2 Hhw (qs_server p)) as Had.
  set (c := gen s1 (cur_gen sA)) in *. set (Lp := map (fun x => fst (snd x)) (added_of (ch_ref c) (qs_server p))).
  assert (HLp : forall e, In e Lp <-> eid_server (ev_id e) = qs_server p /\ exists en, In en (w_cur w) /\ en_ev en = e /\ live (w_all w) en).
  { intros e. rewrite (w_all_before w), G6. rewrite <- Had. unfold Lp. rewrite in_map_iff. split.
    - intros ([i [e' rs]] & <- & Hin). eauto.
    - intros (i & rs & Hin). exists (i, (e, rs)). auto. }
  assert (HsLp : by_id Lp). { apply SS_map_keys; [apply Hpr|]. intros i e v Hin. now apply (pr_ev _ _ Hpr) in Hin. }
  assert (Hlt : forall x y, In x Ld -> In y Lp -> eid_ltb (ev_id x) (ev_id y) = true).
  { intros x y Hin Hiny. apply L2 in Hin as (A & _ & B). apply HLp in Hiny as (C & en & D & <- & _).
    destruct (stored_hist _ _ _ _ HrB B) as (en0 & E1 & <-). eapply before_after; eauto. congruence. }
  set (after_b := fun e => match qs_last p with Some i => negb (eid_leb (ev_id e) i) | None => true end).
  assert (Hafb : forall e, after_b e = true <-> after (qs_last p) e).
  { intros e. unfold after_b, after. destruct (qs_last p); [now rewrite leb_ltb|tauto]. }
  exists trB1, trB2, sB, s1, (if qs_persisted p then Ld else Ld ++ filter after_b Lp). split; auto. split; auto. split; auto. split; [|split].
  - rewrite Ha. cbn [finish]. f_equal. apply finish_page; auto. intros e Hin. apply L2, Hin.
  - destruct (qs_persisted p); auto. apply SS_app; auto; [now apply SS_filter|]. intros x y Hin Hiny. apply filter_In in Hiny as [Hiny _]. auto.
  - cbn zeta. intros e. destruct (qs_persisted p).
    + rewrite L2. split; [tauto|]. intros (A & B & [C|[C _]]); [auto|discriminate].
    + rewrite in_app_iff, L2, filter_In, Hafb, HLp. tauto.
Qed.

Lemma res_server : forall O cf trA q p trB a s,
    pick_ok O -> resumed O cf db0 (trA ++ (OServer q p, Quiet) :: trB ++ [(ODeliver q, a)]) s ->
    kept_from cf trA -> ~ In q (queries_of trA) -> ~ In q (queries_of trB) -> 0 <= server_max p ->
    exists trB1 trB2 s2 L, trB = trB1 ++ (OWork, Quiet) :: trB2 /\
      resumed O cf db0 (trA ++ (OServer q p, Quiet) :: trB1) s2 /\
      a = Answer (Some (page (server_max p) L)) /\ by_id L /\
      (let w := pending_at (watch_from hist0 cf trA) trB in
       forall e, In e L <-> eid_server (ev_id e) = qs_server p /\ after (qs_last p) e /\
         (stored_event (s_disk s2) e \/
          (qs_persisted p = false /\ exists en, In en (w_cur w) /\ en_ev en = e /\ live (w_all w) en))).
Proof.
  intros O cf trA q p trB a s Hpick Hx Hck Hn1 Hn2 Hm.
  destruct (C19_core _ _ _ _ _ _ _ _ Hpick Hx Hck Hn1 Hn2 Hm) as (trB1 & trB2 & s2 & s1 & L & H1 & _ & H2). exists trB1, trB2, s2, L. auto.
Qed.

Lemma res_server_negative : forall O cf trA q p trB a s,
    resumed O cf db0 (trA ++ (OServer q p, Quiet) :: trB ++ [(ODeliver q, a)]) s ->
    ~ In q (queries_of trA) -> ~ In q (queries_of trB) -> server_max p < 0 -> a = Answer None.
Proof.
  intros O cf trA q p trB a s Hx Hn1 Hn2 Hm.
  destruct (res_split _ _ _ _ _ Hx) as (sA & HA & _).
  destruct (answered _ _ _ (OServer q p) _ _ _ _ _ Hx HA eq_refl Hn1 Hn2)
    as (trB1 & trB2 & sB & s1 & j & r & EB & HB & H1 & He & Hnr & Hd & Hj & Ha & _).
  cbn [exec] in He. destruct (server_query_start p) as [max|] eqn:Es; [|discriminate].
  apply server_start_max in Es as [-> Hsrv]. injection He as Ej. apply app_inv_head in Ej. injection Ej as <-.
  cbn [job_result] in Hj. destruct (query_refs _ _ _ _ _) as [es|]; [|discriminate]. injection Hj as <-. rewrite Ha. cbn [finish]. f_equal.
  unfold server_query_finish.
  assert (Hlt : forall l : list event, (server_max p <? zlen l) = true) by (intros l; apply Z.ltb_lt; unfold zlen; lia).
  rewrite Hlt. apply Z.ltb_lt in Hm. now rewrite Hm.
Qed.

Lemma held_back : forall pers O cf tr tr' s s' e, resumed O cf db0 tr s -> resumed O cf db0 (tr ++ tr') s' -> no_reopen tr' ->
    known_event pers (watch_from hist0 cf tr) e ->
    known_event pers (watch_from hist0 cf (tr ++ tr')) e /\
    (held pers (s_disk s') (watch_from hist0 cf (tr ++ tr')) e -> held pers (s_disk s) (watch_from hist0 cf tr) e).
Proof.
  intros pers O cf tr tr' s s' e Hx. revert s'. induction tr' as [|[o x] tr' IH] using rev_ind; intros s' Hx' Hn Ha.
  - rewrite app_nil_r in *. rewrite (res_fun _ _ _ _ _ Hx Hx'). auto.
  - rewrite app_assoc in *. pose proof Hx' as Hx''. apply res_snoc in Hx' as (s1 & H1 & H2 & _).
    assert (Hn' : no_reopen tr') by (intros c y Hy; apply (Hn c y), in_or_app; now left).
    assert (Hno : forall c, o <> OReopen c) by (intros c ->; apply (Hn c x), in_or_app; right; now left).
    destruct (IH _ H1 Hn' Ha) as [A B]. pose proof (res_inv _ _ _ _ H1) as Hi1. pose proof (res_inv _ _ _ _ Hx'') as Hi2.
    rewrite watch_from_snoc in *. split; [eapply acc_step; eauto|]. intros Hh. apply B. eapply held_back_step; eauto.
Qed.

Lemma pending_point : forall O cf trA sA o trB s, resumed O cf db0 trA sA -> resumed O cf db0 (trA ++ (o, Quiet) :: trB) s ->
    (forall c, o <> OReopen c) -> o <> OFlush -> watch_step (watch_from hist0 cf trA) (o, Quiet) = watch_from hist0 cf trA -> no_reopen trB ->
    exists b1 b2 sX, trB = b1 ++ b2 /\ resumed O cf db0 (trA ++ (o, Quiet) :: b1) sX /\
      pending_at (watch_from hist0 cf trA) trB = watch_from hist0 cf (trA ++ (o, Quiet) :: b1) /\
      w_before (watch_from hist0 cf (trA ++ (o, Quiet) :: b1)) = w_before (watch_from hist0 cf trA).
Proof.
  intros O cf trA sA o trB s HA Hx Hno Hof Hst Hn.
  destruct (pending_prefix trB (watch_from hist0 cf trA)) as (b1 & b2 & E1 & E2).
  assert (Hx1 : resumed O cf db0 ((trA ++ (o, Quiet) :: b1) ++ b2) s) by (rewrite <- app_assoc; cbn [app]; now rewrite <- E1).
  destruct (res_split _ _ _ _ _ Hx1) as (sX & HX & _). exists b1, b2, sX. split; auto. split; auto.
  assert (E3 : pending_at (watch_from hist0 cf trA) trB = watch_from hist0 cf (trA ++ (o, Quiet) :: b1)).
  { rewrite E2, watch_from_app. cbn [fold_left]. now rewrite Hst. }
  split; auto. rewrite <- E3.
  assert (Hn' : no_reopen ((o, Quiet) :: trB)) by now apply no_reopen_cons.
  destruct (gen_spec _ _ _ _ _ _ HA Hx Hn') as (_ & _ & _ & G & _). cbn [pending_at] in G. destruct o; try rewrite Hst in G; auto.
  congruence.
Qed.

Lemma stays_found : forall pers O cf trA sA o trB1 sB trB s e, resumed O cf db0 trA sA ->
    resumed O cf db0 (trA ++ (o, Quiet) :: trB) s -> resumed O cf db0 (trA ++ (o, Quiet) :: trB1) sB ->
    (exists trB2, trB = trB1 ++ trB2) ->
    (forall c, o <> OReopen c) -> o <> OFlush -> watch_step (watch_from hist0 cf trA) (o, Quiet) = watch_from hist0 cf trA -> no_reopen trB ->
    w_disk (watch_from hist0 cf (trA ++ (o, Quiet) :: trB1)) = w_before (watch_from hist0 cf trA) ->
    held pers (s_disk sA) (watch_from hist0 cf trA) e -> held pers (s_disk s) (watch_from hist0 cf (trA ++ (o, Quiet) :: trB)) e ->
    let w := pending_at (watch_from hist0 cf trA) trB in
    stored_event (s_disk sB) e \/ (pers = false /\ exists en, In en (w_cur w) /\ en_ev en = e /\ live (w_all w) en).
Proof.
  intros pers O cf trA sA o trB1 sB trB s e HA Hx HB (trB2 & EB) Hno Hof Hst Hn Hd H1 H2 w.
  pose proof (res_inv _ _ _ _ HA) as HiA. pose proof (held_acc _ _ _ _ HiA H1) as Hacc.
  assert (HaccT : forall tr' s', resumed O cf db0 (trA ++ tr') s' -> no_reopen tr' -> known_event pers (watch_from hist0 cf (trA ++ tr')) e).
  { intros tr' s' Hx' Hn'. eapply (held_back pers O cf trA tr'); eauto. }
  assert (HnB : no_reopen ((o, Quiet) :: trB)) by now apply no_reopen_cons.
  assert (HnB1 : no_reopen ((o, Quiet) :: trB1)) by (apply no_reopen_cons; auto; rewrite EB in Hn; eapply no_reopen_l; eauto).
  assert (HB2 : held pers (s_disk sB) (watch_from hist0 cf (trA ++ (o, Quiet) :: trB1)) e).
  { assert (Ex : trA ++ (o, Quiet) :: trB = (trA ++ (o, Quiet) :: trB1) ++ trB2) by (rewrite <- app_assoc; cbn [app]; now rewrite EB).
    rewrite Ex in *. eapply (held_back pers O cf _ trB2 sB s e HB Hx); eauto. rewrite EB in Hn. eapply no_reopen_r; eauto. }
  destruct HB2 as [HB2|[-> HB2]]; [now left|]. right. split; auto.
  apply waits_acc in HB2 as (en & A & Ee).
  pose proof (res_inv _ _ _ _ HB) as HiB. pose proof (all_ok _ _ HiB) as HoB. pose proof (all_ok _ _ HiA) as HoA.
  destruct Hacc as (en0 & B & Ee0). unfold known_event in HaccT.
  assert (Hbef : forall en1, In en1 (w_before (watch_from hist0 cf trA)) -> en_ev en1 = e -> False).
  { intros en1 C D. unfold w_all in HoB. rewrite Hd in HoB. eapply (twice _ _ en1 en HoB); eauto. congruence. }
  destruct (pending_point _ _ _ _ _ _ _ HA Hx Hno Hof Hst Hn) as (b1 & b2 & sX & E1 & HX & E2 & E3). unfold w. rewrite E2.
  assert (HX2 : held false (s_disk sX) (watch_from hist0 cf (trA ++ (o, Quiet) :: b1)) e).
  { assert (Ex : trA ++ (o, Quiet) :: trB = (trA ++ (o, Quiet) :: b1) ++ b2) by (rewrite <- app_assoc; cbn [app]; now rewrite E1).
    rewrite Ex in *. eapply (held_back false O cf _ b2 sX s e HX Hx); eauto; [rewrite E1 in Hn; eapply no_reopen_r; eauto|].
    eapply HaccT; eauto. apply no_reopen_cons; auto. rewrite E1 in Hn; eapply no_reopen_l; eauto. }
  destruct HX2 as [HX2|[_ (Q1 & g & Q2 & en2 & C & D & F & G)]].
  - exfalso. destruct (stored_acc _ _ _ (res_inv _ _ _ _ HX) HX2) as (en1 & C & D). apply (Hbef en1); auto.
    rewrite <- E3. unfold w_before. apply in_or_app. now left.
  - apply app_snoc_split in C as [(-> & -> & ->)|(Q2' & -> & C)].
    + exists en2. auto.
    + exfalso. apply (Hbef en2); auto. rewrite <- E3. unfold w_before. rewrite C, concat_app. cbn [concat].
      apply in_or_app. right. apply in_or_app. right. apply in_or_app. now left.
Qed.

Lemma res_pages : forall O cf trA q p trB es more sA s,
    pick_ok O -> resumed O cf db0 trA sA ->
    resumed O cf db0 (trA ++ (OServer q p, Quiet) :: trB ++ [(ODeliver q, Answer (Some (QRes es more)))]) s ->
    kept_from cf trA -> ~ In q (queries_of trA) -> ~ In q (queries_of trB) ->
    by_id es /\
    forall e, eid_server (ev_id e) = qs_server p -> after (qs_last p) e ->
      held (qs_persisted p) (s_disk sA) (watch_from hist0 cf trA) e ->
      held (qs_persisted p) (s_disk s) (watch_from hist0 cf (trA ++ (OServer q p, Quiet) :: trB)) e ->
      In e es \/ (more = true /\ Z.of_nat (List.length es) = server_max p /\
                  forall x, In x es -> eid_ltb (ev_id x) (ev_id e) = true).
Proof.
  intros O cf trA q p trB es more sA s Hpick HA Hx Hck Hn1 Hn2.
  assert (Hm : 0 <= server_max p).
  { destruct (Z.le_gt_cases 0 (server_max p)) as [H|H]; auto. pose proof (res_server_negative _ _ _ _ _ _ _ _ Hx Hn1 Hn2 H). discriminate. }
  destruct (C19_core _ _ _ _ _ _ _ _ Hpick Hx Hck Hn1 Hn2 Hm) as (trB1 & trB2 & sB & s1 & L & EB & (Hs1 & Esd & Hnr & Hd) & HB & Ea & HL & Hin).
  injection Ea as -> ->. split; [now apply by_id_firstn|]. intros e E1 E2 E3 E4. cbn zeta in Hin. rewrite Esd in E4.
  pose proof (stays_found _ _ _ _ _ _ _ _ _ _ _ HA Hs1 HB (ex_intro _ _ EB) ltac:(discriminate) ltac:(discriminate) eq_refl Hnr Hd E3 E4) as Hf.
  cbn zeta in Hf. assert (HeL : In e L) by (apply Hin; auto).
  destruct (by_id_split (Z.to_nat (server_max p)) L e HL HeL) as [H|[H1 H2]]; [now left|]. right. split; [apply Z.ltb_lt; lia|].
  split; auto. rewrite firstn_length. lia.
Qed.

Lemma res_table : forall O cf tr s, resumed O cf db0 tr s -> table s.
Proof.
  intros O cf tr. induction tr as [|[o x] tr IH] using rev_ind; intros s H.
  - destruct H as (d & m & H1 & H2 & _). inversion H2; subst. unfold table. cbn [s_disk s_conf s_mem]. eapply open_table; eauto.
  - apply res_snoc in H as (s1 & H1 & H2 & _). eapply exec_table; eauto. eapply res_inv; eauto.
Qed.

Lemma start_spec : forall O cf tr s p, disj_ok O -> resumed O cf db0 tr s -> made (s_conf s) ->
    match ts_query_start O (s_conf s) (m_parts (s_mem s)) p with
    | None => exists qs, qt_types p = Some qs /\ py_create qs = None
    | Some (sub, max, c) => sub_of p sub /\ max = ts_max (s_conf s) p /\ chosen_part (s_conf s) (s_disk s) p c
    end.
Proof.
  intros O cf tr s p Hd Hx Hm. pose proof (res_inv _ _ _ _ Hx) as Hi. pose proof (res_table _ _ _ _ Hx) as Ht.
  unfold ts_query_start.
  assert (Hs : match match qt_types p with None => Some None | Some ts => match py_create ts with Some n => Some (Some n) | None => None end end with
               | None => exists qs, qt_types p = Some qs /\ py_create qs = None
               | Some sub => sub_of p sub
               end).
  { unfold sub_of. destruct (qt_types p) as [qs|]; auto. destruct (py_create qs) as [n|] eqn:E; eauto. }
  destruct (match qt_types p with None => Some None | Some ts => match py_create ts with Some n => Some (Some n) | None => None end end) as [sub|]; auto.
  split; [exact Hs|]. split.
  { unfold eff_max, ts_max. destruct (qt_max p) as [m|]; auto. destruct (Z.ltb_spec m (cf_ts_max (s_conf s))); lia. }
  rewrite choose_find.
  assert (Hone : one_id (db_parts (s_disk s))) by (exact (rp_pinj _ _ _ (si_repr _ _ Hi))).
  assert (Hfs : forall pt, In pt (cf_parts (s_conf s)) -> (fits O p sub pt = true <-> suits p pt)).
  { intros pt Hpt. apply fits_suits; auto. }
  assert (Hwf : forall pt, In pt (cf_parts (s_conf s)) -> wf (pt_sub pt)).
  { intros pt Hpt. eapply nth_wf; eauto. rewrite (si_conf _ _ Hi). apply (si_ok _ _ Hi). }
  pose proof (find_numbered (fits O p sub) _ _ _ Hone Ht) as Hf.
  assert (Hr : forall a b, In a (cf_parts (s_conf s)) -> In b (cf_parts (s_conf s)) -> part_data_of a = part_data_of b ->
                           fits O p sub a = fits O p sub b).
  { intros a b Ha Hb E. apply eq_true_iff_eq. rewrite !Hfs by auto. split; apply suits_data; auto. }
  specialize (Hf Hr). unfold chosen_part.
  destruct (option_map fst (find (fun x => fits O p sub (snd x)) (m_parts (s_mem s)))) as [n|].
  - destruct Hf as (a & pt & b & E & A & B & C). exists pt, a, b. split; auto.
    assert (Hin : forall x, In x a -> In x (cf_parts (s_conf s))) by (intros x Hxa; rewrite E; apply in_or_app; auto).
    split; [apply Hfs; auto; rewrite E; apply in_or_app; right; now left|]. split.
    + intros x Hxa Hsx. apply Hfs in Hsx; auto. rewrite B in Hsx; auto. discriminate.
    + apply (kget_Some_In zord). exact C.
  - intros pt Hpt Hsx. apply Hfs in Hsx; auto. rewrite Hf in Hsx; auto. discriminate.
Qed.

Lemma pending_resumed : forall O cf trA o trB s, resumed O cf db0 (trA ++ (o, Quiet) :: trB) s -> (forall c, o <> OReopen c) -> o <> OFlush ->
    (forall w, watch_step w (o, Quiet) = w) ->
    exists trX sX, resumed O cf db0 trX sX /\ pending_at (watch_from hist0 cf trA) trB = watch_from hist0 cf trX.
Proof.
  intros O cf trA o trB s H1 Hr Hf Hw. destruct (pending_prefix trB (watch_from hist0 cf trA)) as (b1 & b2 & E1 & E2).
  exists (trA ++ (o, Quiet) :: b1).
  assert (Hx1 : resumed O cf db0 ((trA ++ (o, Quiet) :: b1) ++ b2) s) by (rewrite <- app_assoc; cbn [app]; now rewrite <- E1).
  destruct (res_split _ _ _ _ _ Hx1) as (sX & HX & _). exists sX. split; auto.
  rewrite E2, watch_from_app. cbn [fold_left]. now rewrite Hw.
Qed.

Lemma ts_core : forall O cf trA q p trB a s sA, disj_ok O ->
    resumed O cf db0 (trA ++ (OTs q p, Quiet) :: trB ++ [(ODeliver q, a)]) s -> resumed O cf db0 trA sA ->
    made (w_conf (watch_from hist0 cf trA)) -> ~ In q (queries_of trA) -> ~ In q (queries_of trB) ->
    let cfA := w_conf (watch_from hist0 cf trA) in
    exists n pt trB1 trB2 s2 s1, chosen cfA (s_disk sA) p n pt /\ trB = trB1 ++ (OWork, Quiet) :: trB2 /\
      resumed O cf db0 (trA ++ (OTs q p, Quiet) :: trB1) s2 /\
      resumed O cf db0 (trA ++ (OTs q p, Quiet) :: trB) s1 /\ s_disk s = s_disk s1 /\
      db_parts (s_disk s2) = db_parts (s_disk sA) /\
      no_reopen trB /\ w_disk (watch_from hist0 cf (trA ++ (OTs q p, Quiet) :: trB1)) = w_before (watch_from hist0 cf trA) /\
      (let D := seen (cf_cond cfA) (stored_in (s_disk s2) n) in let P := pending_in pt (pending_from hist0 p cf trA trB) in
       placed pt (D ++ P) /\ NoDup (map (fun x => ev_id (snd x)) (D ++ P)) /\ (0 <= ts_max cfA p -> ts_exact cfA p (looked_at p D P) a)) /\
      (ts_max cfA p < 0 -> a = Answer None).
Proof.
  intros O cf trA q p trB a s sA Hdj Hx HA Hm Hn1 Hn2. cbn zeta.
  destruct (answered _ _ _ (OTs q p) _ _ _ _ _ Hx HA eq_refl Hn1 Hn2)
    as (trB1 & trB2 & sB & s1 & j & r & EB & HB & H1 & He & Hnr & Hd & Hj & Ha & Esd).
  pose proof (res_inv _ _ _ _ HA) as HiA. pose proof (si_conf _ _ HiA) as EcA. rewrite <- EcA in *.
  cbn [exec] in He. unfold ts_query_step in He.
  pose proof (start_spec _ _ _ _ p Hdj HA Hm) as Hst.
  destruct (ts_query_start O (s_conf sA) (m_parts (s_mem sA)) p) as [[[sub max] [n|]]|]; [|discriminate|discriminate].
  destruct Hst as (Hs & -> & pt & Hch). set (M := ts_max (s_conf sA) p) in *.
  pose proof Hch as (pa & pb & Ep & Hsu & _ & Hnp). pose proof (proj1 Hsu) as Hord.
  assert (Hpt : In pt (cf_parts (s_conf sA))) by (rewrite Ep; apply in_or_app; right; now left).
  assert (HokA : conf_ok (s_conf sA)) by (rewrite EcA; apply (si_ok _ _ HiA)).
  assert (Hwf : wf (pt_sub pt)) by (eapply nth_wf; eauto).
  apply (kget_In zord) in Hnp; [|apply (rp_psorted _ _ _ (si_repr _ _ HiA))].
  pose proof (res_inv _ _ _ _ HB) as HiB. pose proof (si_repr _ _ HiB) as HrB. rewrite Hd in HrB.
  assert (HnrB : no_reopen ((OTs q p, Quiet) :: trB1)).
  { intros c x [Hi|Hi]; [discriminate|]. apply (Hnr c x). rewrite EB. apply in_or_app. auto. }
  assert (Hnr' : no_reopen ((OTs q p, Quiet) :: trB)).
  { intros c x [Hi|Hi]; [discriminate|]. eapply Hnr; eauto. }
  assert (EcB : s_conf sB = s_conf sA).
  { rewrite (si_conf _ _ HiB), watch_from_app, conf_stays by auto. now rewrite EcA. }
  destruct (gen_spec _ _ _ _ _ _ HA HB HnrB) as (_ & EpB & _).
  assert (HnB : kget zord n (db_parts (s_disk sB)) = Some (part_data_of pt)) by (now rewrite EpB).
  destruct (gen_spec _ _ _ _ _ _ HA H1 Hnr') as ((d & K & pls & G1 & G2 & G3) & G4 & G5 & G6 & _). cbn [pending_at watch_step] in *.
  destruct (pending_resumed _ _ _ _ _ _ H1) as (trX & sX & HX & Ew); [discriminate|discriminate|reflexivity|].
  set (w := pending_at (watch_from hist0 cf trA) trB) in *.
  pose proof (res_inv _ _ _ _ HX) as HiX. rewrite <- Ew in HiX.
  assert (HoX : hist_ok (w_before (watch_from hist0 cf trA) ++ w_cur w)).
  { pose proof (all_ok _ _ HiX) as Ho. rewrite w_all_before in Ho. now rewrite <- G6. }
  assert (HoA : hist_ok (w_before (watch_from hist0 cf trA) ++ w_cur (watch_from hist0 cf trA))).
  { rewrite <- w_all_before. eapply all_ok; eauto. }
  assert (Hses : Forall (fun en => en_conf en = s_conf sA) (w_cur w)).
  { pose proof (si_sess _ _ HiX) as Hf. apply Forall_app in Hf as [_ Hf]. now rewrite G5, <- EcA in Hf. }
  assert (HsesA : Forall (fun en => en_conf en = s_conf sA) (w_cur (watch_from hist0 cf trA))).
  { pose proof (si_sess _ _ HiA) as Hf. apply Forall_app in Hf as [_ Hf]. now rewrite EcA. }
  exists n, pt, trB1, trB2, sB, s1. split; auto. split; auto. split; auto. split; auto. split; auto. split; auto. split; auto. split; auto.
  set (D := seen (cf_cond (s_conf sA)) (stored_in (s_disk sB) n)).
  unfold pending_from. fold w. set (f0 := Flt (qt_last p) (M + 1)) in *.
  destruct (qt_order p) eqn:Eo.
  - (* descending *)
    destruct (query_pending (part_changes (ch_ts (s_cur sA)) n) p sub f0) as [es f] eqn:Eq.
    destruct (filter_done f) eqn:Ef; [discriminate|]. injection He as Ej. apply app_inv_head in Ej. injection Ej as <-.
    cbn [job_result] in Hj. rewrite (query_stored_spec _ _ _ _ _ _ _ _ HrB), EcB in Hj. fold D in Hj. rewrite <- in_sequence_eq in Hj.
    destruct (filter_process p sub f (in_sequence p D)) as [es2 f2] eqn:E2. injection Hj as <-.
    cbn [finish] in Ha. rewrite Eo in Ha.
    assert (Epc : part_changes (ch_ts (s_cur sA)) n = pending_in pt (w_cur (watch_from hist0 cf trA))).
    { destruct (si_pend _ _ HiA) as [pls' Hp']. eapply part_changes_pending; [exact Hp'|exact HsesA|auto|auto|]. now rewrite written_parts. }
    rewrite Epc in Eq. split.
    + destruct (entries_ok _ _ _ _ pt (w_cur (watch_from hist0 cf trA)) (cf_cond (s_conf sA)) HrB HoA HnB Hwf) as [E5 E6]. fold D in E5, E6.
      split; auto. split; auto. intros HM.
      pose proof (exact_result (s_conf sA) p sub _ Hs HM (looked_nodup p _ _ E6)) as Hres. fold M f0 in Hres.
      rewrite query_pending_spec in Eq.
      2: { intros [t e] Hi. apply (pending_placed pt) in Hi. eapply place_order_ts; eauto. }
      unfold looked_at in Hres |- *. rewrite Eo in Hres |- *. rewrite fst_fp_app, Eq in Hres. cbn [fst snd] in Hres. rewrite E2 in Hres. cbn [fst] in Hres.
      now rewrite <- Ha in Hres.
    + intros HM. exfalso.
      assert (Hl : f_left f <= f_left f0).
      { unfold query_pending in Eq. cbn zeta in Eq. 
        match type of Eq with filter_process _ _ _ ?l = _ => pose proof (fp_left p sub l f0) as Hl end.
        rewrite Eq in Hl. cbn [fst snd] in Hl. rewrite Hl. unfold zlen. lia. }
      unfold f0 in Hl. cbn [f_left] in Hl. unfold filter_done in Ef. apply Z.ltb_ge in Ef. lia.
  - (* ascending *)
    injection He as Ej. apply app_inv_head in Ej. injection Ej as <-.
    cbn [job_result] in Hj. rewrite (query_stored_spec _ _ _ _ _ _ _ _ HrB), EcB in Hj. fold D in Hj. rewrite <- in_sequence_eq in Hj.
    destruct (filter_process p sub f0 (in_sequence p D)) as [es f] eqn:E2. injection Hj as <-.
    cbn [finish] in Ha. rewrite Eo in Ha. cbn [app] in Ha.
    assert (Epc : part_changes (ch_ts (gen s1 (cur_gen sA))) n = pending_in pt (w_cur w)).
    { eapply part_changes_pending; [exact G2|exact Hses|auto|auto|]. now rewrite G3, G4. }
    rewrite Epc in Ha. split.
    + destruct (entries_ok _ _ _ _ pt (w_cur w) (cf_cond (s_conf sA)) HrB HoX HnB Hwf) as [E5 E6]. fold D in E5, E6.
      split; auto. split; auto. intros HM.
      pose proof (exact_result (s_conf sA) p sub _ Hs HM (looked_nodup p _ _ E6)) as Hres. fold M f0 in Hres.
      rewrite query_pending_spec in Ha.
      2: { intros [t e] Hi. apply (pending_placed pt) in Hi. eapply place_order_ts; eauto. }
      unfold looked_at in Hres |- *. rewrite Eo in Hres |- *. rewrite fst_fp_app, E2 in Hres. cbn [fst snd] in Hres.
      destruct (filter_done f) eqn:Ef.
      * rewrite (fp_done _ _ _ _ Ef), app_nil_r in Hres. now rewrite <- Ha in Hres.
      * now rewrite <- Ha in Hres.
    + intros HM.
      assert (Hdn : filter_done f0 = true) by (unfold filter_done, f0; cbn [f_left]; apply Z.ltb_lt; lia).
      rewrite (fp_done _ _ _ _ Hdn) in E2. injection E2 as <- <-. rewrite Hdn in Ha. rewrite Ha. unfold ts_result, zlen. cbn [List.length].
      change (Z.of_nat 0) with 0. destruct (Z.ltb_spec M 0); [reflexivity|lia].
Qed.

Lemma ts_immediate : forall O cf trA q p x s sA, disj_ok O ->
    resumed O cf db0 (trA ++ [(OTs q p, x)]) s -> resumed O cf db0 trA sA -> made (w_conf (watch_from hist0 cf trA)) ->
    let cfA := w_conf (watch_from hist0 cf trA) in
    (exists qs, qt_types p = Some qs /\ py_create qs = None /\ x = Answer None) \/
    ((forall pt, In pt (cf_parts cfA) -> ~ suits p pt) /\ x = Answer (Some (QRes [] false))) \/
    (exists n pt, chosen cfA (s_disk sA) p n pt /\
      (x = Quiet \/
       qt_order p = DESCENDING /\
       (0 <= ts_max cfA p -> forall D,
        NoDup (map (fun x => ev_id (snd x)) (D ++ pending_in pt (w_cur (watch_from hist0 cf trA)))) ->
        ts_exact cfA p (looked_at p D (pending_in pt (w_cur (watch_from hist0 cf trA)))) x) /\
       (ts_max cfA p < 0 -> x = Answer None))).
Proof.
  intros O cf trA q p x s sA Hdj Hx HA Hm. cbn zeta.
  pose proof (res_inv _ _ _ _ HA) as HiA. pose proof (si_conf _ _ HiA) as EcA. rewrite <- EcA in *.
  destruct (res_split _ _ _ _ _ Hx) as (sA' & HA' & Hr & _). rewrite (res_fun _ _ _ _ _ HA' HA) in Hr.
  inversion Hr as [|? ? ? s1 ? ? He Hr']; subst. cbn [exec] in He. injection He as He. unfold ts_query_step in He.
  pose proof (start_spec _ _ _ _ p Hdj HA Hm) as Hst.
  destruct (ts_query_start O (s_conf sA) (m_parts (s_mem sA)) p) as [[[sub max] [n|]]|].
  2: { injection He as _ <-. right. left. destruct Hst as (_ & _ & H). auto. }
  2: { injection He as _ <-. left. destruct Hst as (qs & A & B). eauto. }
  destruct Hst as (Hs & -> & pt & Hch). set (M := ts_max (s_conf sA) p) in *.
  pose proof Hch as (pa & pb & Ep & Hsu & _ & Hnp). pose proof (proj1 Hsu) as Hord.
  assert (Hpt : In pt (cf_parts (s_conf sA))) by (rewrite Ep; apply in_or_app; right; now left).
  assert (HokA : conf_ok (s_conf sA)) by (rewrite EcA; apply (si_ok _ _ HiA)).
  apply (kget_In zord) in Hnp; [|apply (rp_psorted _ _ _ (si_repr _ _ HiA))].
  right. right. exists n, pt. split; auto.
  destruct (qt_order p) eqn:Eo; [|injection He as _ <-; auto].
  set (f0 := Flt (qt_last p) (M + 1)) in *.
  destruct (query_pending (part_changes (ch_ts (s_cur sA)) n) p sub f0) as [es f] eqn:Eq.
  destruct (filter_done f) eqn:Ef; injection He as _ <-; auto. right. split; auto.
  assert (HsesA : Forall (fun en => en_conf en = s_conf sA) (w_cur (watch_from hist0 cf trA))).
  { pose proof (si_sess _ _ HiA) as Hf. apply Forall_app in Hf as [_ Hf]. now rewrite EcA. }
  assert (Epc : part_changes (ch_ts (s_cur sA)) n = pending_in pt (w_cur (watch_from hist0 cf trA))).
  { destruct (si_pend _ _ HiA) as [pls' Hp']. eapply part_changes_pending; [exact Hp'|exact HsesA|auto|auto|]. now rewrite written_parts. }
  rewrite Epc in Eq.
  split.
  - intros HM D HD. rewrite query_pending_spec in Eq.
    2: { intros [t e] Hi. apply (pending_placed pt) in Hi. eapply place_order_ts; eauto. }
    pose proof (exact_result (s_conf sA) p sub _ Hs HM (looked_nodup p _ _ HD)) as Hres. fold M f0 in Hres.
    unfold looked_at in Hres |- *. rewrite Eo in Hres |- *. rewrite fst_fp_app, Eq in Hres. cbn [fst snd] in Hres.
    now rewrite (fp_done _ _ _ _ Ef), app_nil_r in Hres.
  - intros HM.
    assert (Hdn : filter_done f0 = true) by (unfold filter_done, f0; cbn [f_left]; apply Z.ltb_lt; lia).
    unfold query_pending in Eq. cbn zeta in Eq. rewrite (fp_done _ _ _ _ Hdn) in Eq. injection Eq as <- <-.
    unfold ts_result, zlen. cbn [List.length].
    change (Z.of_nat 0) with 0. destruct (Z.ltb_spec M 0); [reflexivity|lia].
Qed.

Lemma res_ts : forall O cf trA q p trB a s sA, disj_ok O ->
    resumed O cf db0 (trA ++ (OTs q p, Quiet) :: trB ++ [(ODeliver q, a)]) s -> resumed O cf db0 trA sA ->
    made (w_conf (watch_from hist0 cf trA)) -> ~ In q (queries_of trA) -> ~ In q (queries_of trB) ->
    let cfA := w_conf (watch_from hist0 cf trA) in
    0 <= ts_max cfA p ->
    exists n pt trB1 trB2 s2, chosen cfA (s_disk sA) p n pt /\ trB = trB1 ++ (OWork, Quiet) :: trB2 /\
      resumed O cf db0 (trA ++ (OTs q p, Quiet) :: trB1) s2 /\
      let D := seen (cf_cond cfA) (stored_in (s_disk s2) n) in
      let P := pending_in pt (pending_from hist0 p cf trA trB) in
      ts_exact cfA p (looked_at p D P) a /\ (cuttable p P -> ts_answer cfA p (D ++ P) a).
Proof.
  intros O cf trA q p trB a s sA Hdj Hx HA Hm Hn1 Hn2 cfA HM.
  destruct (ts_core _ _ _ _ _ _ _ _ _ Hdj Hx HA Hm Hn1 Hn2) as (n & pt & trB1 & trB2 & s2 & s1 & A1 & A2 & A3 & _ & _ & _ & _ & _ & A4 & _).
  cbn zeta in A4. destruct A4 as (A4 & A5 & A6). specialize (A6 HM).
  exists n, pt, trB1, trB2, s2. split; auto. split; auto. split; auto. cbn zeta. split; auto.
  intros Hc. rewrite (looked_cut _ _ _ Hc) in A6. eapply exact_answer; eauto. destruct A1 as (? & ? & _ & (A1 & _) & _). exact A1.
Qed.

Lemma res_flushed : forall O cf trA q p trB a s sA, disj_ok O ->
    resumed O cf db0 (trA ++ (OTs q p, Quiet) :: trB ++ [(ODeliver q, a)]) s -> resumed O cf db0 trA sA ->
    made (w_conf (watch_from hist0 cf trA)) -> ~ In q (queries_of trA) -> ~ In q (queries_of trB) ->
    let cfA := w_conf (watch_from hist0 cf trA) in
    0 <= ts_max cfA p -> pending_from hist0 p cf trA trB = [] ->
    exists n pt trB1 trB2 s2 L, chosen cfA (s_disk sA) p n pt /\ trB = trB1 ++ (OWork, Quiet) :: trB2 /\
      resumed O cf db0 (trA ++ (OTs q p, Quiet) :: trB1) s2 /\
      selected p (in_sequence p (seen (cf_cond cfA) (stored_in (s_disk s2) n))) L /\
      a = Answer (Some (page (ts_max cfA p) L)) /\ NoDup (map ev_id L) /\ ordered p L.
Proof.
  intros O cf trA q p trB a s sA Hdj Hx HA Hm Hn1 Hn2 cfA HM HP.
  destruct (res_ts _ _ _ _ _ _ _ _ _ Hdj Hx HA Hm Hn1 Hn2 HM) as (n & pt & trB1 & trB2 & s2 & A1 & A2 & A3 & _ & A4).
  rewrite HP in A4. cbn [pending_in flat_map] in A4.
  destruct A4 as (L & B1 & B2 & B3 & B4). { left. constructor. }
  fold cfA in B1, B2, B4. rewrite app_nil_r in B1, B4.
  exists n, pt, trB1, trB2, s2, L. split; auto. split; auto. split; auto. split; auto. split; auto. split; auto. apply B4.
  apply seen_sorted. eapply stored_sorted. apply (si_repr _ _ (res_inv _ _ _ _ A3)).
Qed.

Lemma res_at_once : forall O cf trA q p x s sA, disj_ok O ->
    resumed O cf db0 (trA ++ [(OTs q p, x)]) s -> resumed O cf db0 trA sA -> made (w_conf (watch_from hist0 cf trA)) ->
    let cfA := w_conf (watch_from hist0 cf trA) in
    (exists qs, qt_types p = Some qs /\ py_create qs = None /\ x = Answer None) \/
    ((forall pt, In pt (cf_parts cfA) -> ~ suits p pt) /\ x = Answer (Some (QRes [] false))) \/
    (exists n pt, chosen cfA (s_disk sA) p n pt /\
      (x = Quiet \/
       qt_order p = DESCENDING /\
       let D := seen (cf_cond cfA) (stored_in (s_disk sA) n) in
       let P := pending_in pt (w_cur (watch_from hist0 cf trA)) in
       (0 <= ts_max cfA p -> ts_exact cfA p (looked_at p D P) x /\ (cuttable p P -> ts_answer cfA p (D ++ P) x)) /\
       (ts_max cfA p < 0 -> x = Answer None))).
Proof.
  intros O cf trA q p x s sA Hdj Hx HA Hm cfA.
  destruct (ts_immediate _ _ _ _ _ _ _ _ Hdj Hx HA Hm) as [H|[H|(n & pt & Hc & [H|(Ho & H1 & H2)])]]; auto.
  - right. right. exists n, pt. auto.
  - right. right. exists n, pt. split; auto. right. split; auto. cbn zeta. split; auto. intros HM. fold cfA in H1.
    pose proof (res_inv _ _ _ _ HA) as HiA. pose proof Hc as (pa & pb & Ep & (Hpo & _) & _ & Hnp).
    apply (kget_In zord) in Hnp; [|apply (rp_psorted _ _ _ (si_repr _ _ HiA))].
    assert (Hwf : wf (pt_sub pt)).
    { eapply nth_wf; [apply (si_ok _ _ HiA)|]. rewrite Ep. apply in_or_app; right; now left. }
    destruct (entries_between _ _ _ _ pt _ _ (cf_cond cfA) (si_repr _ _ HiA) (all_ok _ _ HiA) Hnp Hwf) as [E1 E2].
    assert (Hex := H1 HM _ E2). split; auto. intros Hcu. eapply exact_answer; eauto. now rewrite <- looked_cut.
Qed.

End From.
