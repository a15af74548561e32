(** Conditions of the LMDB backend over whole executions (C29). *)
From Coq Require Import ZArith Lia String Bool List.
From Verif Require Import Base Model_Types Model_Subscription Model_Lmdb Model_LmdbSys Spec_Lmdb Spec_LmdbContent
  Model_Conditions Spec_Conditions Spec_Subscription Proof_Lmdb8 Proof_Lmdb9 Proof_Lmdb10 Proof_Lmdb21 Proof_Conditions.
Import ListNotations.
Open Scope list_scope.

Lemma made_spec : forall sel conf f, (forall d p, jwf d -> jwf (sel d p)) -> conds_ok conf -> made_for sel conf f ->
    forall e, payload_ok e -> (f e = true <-> all_hold same_value sel conf e).
Proof.
  intros sel conf f Hs Hok [H|H] e He.
  - destruct (final_C29_c sel Hs conf Hok) as (g & E & Hg). rewrite E in H. injection H as <-. auto.
  - destruct (final_C29_py sel Hs conf Hok) as (g & E & Hg). rewrite E in H. injection H as <-. auto.
Qed.

Lemma final_C29_made : forall sel conf, (forall d p, jwf d -> jwf (sel d p)) -> conds_ok conf ->
    (exists f, conditions_c sel conf = Some f) /\ (exists f, conditions_py sel conf = Some f) /\
    forall f, made_for sel conf f -> forall e, payload_ok e -> (f e = true <-> all_hold same_value sel conf e).
Proof.
  intros sel conf Hs Hok. split; [|split].
  - destruct (final_C29_c sel Hs conf Hok) as (g & E & _). eauto.
  - destruct (final_C29_py sel Hs conf Hok) as (g & E & _). eauto.
  - intros. now apply made_spec.
Qed.

Lemma final_C29_strict : forall sel conf f, (forall d p, jwf d -> jwf (sel d p)) -> conds_ok conf -> conds_strict conf ->
    made_for sel conf f -> forall e, payload_ok e -> (f e = true <-> all_hold same_json sel conf e).
Proof. intros. rewrite all_hold_strict by auto. now apply made_spec. Qed.

Lemma take_cond : forall cf es H en, In en (take_events cf H es) -> cf_cond (en_conf en) (en_ev en) = true.
Proof.
  intros cf. induction es as [|e es IH]; intros H en Hin; cbn [take_events] in Hin; [destruct Hin|].
  destruct (accepts H cf e) eqn:E; [|eauto]. destruct Hin as [<-|Hin]; [|eauto]. cbn [en_conf en_ev].
  unfold accepts in E. apply andb_prop in E as [E _]. apply andb_prop in E as [_ E]. exact E.
Qed.

Definition met (w : watch) : Prop := forall en, In en (w_all w) -> cf_cond (en_conf en) (en_ev en) = true.

Lemma watch_met : forall cf tr, met (watch_run cf tr).
Proof.
  intros cf tr. unfold watch_run. assert (G : met (watch_start cf)) by (intros en []). revert G. generalize (watch_start cf).
  induction tr as [|[o x] tr IH]; intros w G; cbn [fold_left]; [exact G|]. apply IH.
  unfold met, w_all in *. destruct o; cbn [watch_step w_disk w_queue w_cur]; try exact G.
  - intros en Hin. rewrite !app_assoc, in_app_iff in Hin. destruct Hin as [Hin|Hin]; [apply G; now rewrite app_assoc|eapply take_cond; eauto].
  - intros en Hin. apply G. rewrite concat_app in Hin. cbn [concat app] in Hin. rewrite !app_nil_r in Hin. exact Hin.
  - destruct x; cbn [w_disk w_queue w_cur]; try exact G. intros en Hin. apply G. destruct (w_queue w); cbn [hd tl concat app] in *.
    + rewrite app_nil_r in Hin. exact Hin.
    + rewrite <- !app_assoc in *. exact Hin.
  - intros en Hin. apply G. rewrite !app_nil_r in Hin. apply in_or_app. now left.
Qed.

Lemma final_C29_only : forall O cf tr s sel conf f, (forall d p, jwf d -> jwf (sel d p)) -> conds_ok conf -> made_for sel conf f ->
    execution O cf tr s -> Forall (fun c => cf_cond c = f) (cf :: confs_of tr) -> Forall payload_ok (events_of tr) ->
    forall e, stored_event (s_disk s) e -> all_hold same_value sel conf e.
Proof.
  intros O cf tr s sel conf f Hs Hok Hf Hex Hc Hp e He.
  pose proof (proj1 (proj2 (final_C14 _ _ _ _ Hex)) e He) as (en & Hin & Ee).
  assert (Ha : In en (w_all (watch_run cf tr))) by (unfold w_all; apply in_or_app; now left).
  rewrite Forall_forall in Hc, Hp. subst e. apply (made_spec sel conf f Hs Hok Hf).
  - apply Hp. eapply accepted_events; eauto.
  - rewrite <- (Hc (en_conf en)); [apply (watch_met _ _ _ Ha)|]. eapply (proj2 (watch_confs _ _ _ _ Hex)); eauto.
Qed.

Lemma final_C29_accepted : forall O cf tr s e a sel conf, (forall d p, jwf d -> jwf (sel d p)) -> conds_ok conf ->
    execution O cf (tr ++ [(ORegister [e], a)]) s ->
    let w := watch_run cf tr in let w' := watch_run cf (tr ++ [(ORegister [e], a)]) in
    made_for sel conf (cf_cond (w_conf w)) -> payload_ok e ->
    follows (w_all w) e = true -> becomes_latest (w_all w) (w_conf w) e = true \/ has_place (w_conf w) e = true ->
    (all_hold same_value sel conf e -> w_all w' = w_all w ++ [Entry (w_conf w) e]) /\
    (~ all_hold same_value sel conf e -> w_all w' = w_all w).
Proof.
  intros O cf tr s e a sel conf Hs Hok Hex w w' Hf Hp Hfol Hpl.
  assert (E : w_all w' = w_all w ++ (if accepts (w_all w) (w_conf w) e then [Entry (w_conf w) e] else [])).
  { unfold w', watch_run. rewrite fold_left_app. cbn [fold_left watch_step]. fold (watch_run cf tr). fold w.
    unfold w_all at 1. cbn [w_disk w_queue w_cur take_events]. fold (w_all w). unfold w_all at 2. rewrite <- !app_assoc.
    destruct (accepts (w_all w) (w_conf w) e); reflexivity. }
  pose proof (made_spec sel conf _ Hs Hok Hf e Hp) as M. unfold accepts in E. rewrite Hfol in E.
  assert (P : becomes_latest (w_all w) (w_conf w) e || has_place (w_conf w) e = true) by (apply orb_true_iff; exact Hpl).
  rewrite P in E. cbn [andb] in E. rewrite andb_true_r in E. split; intros H.
  - rewrite (proj2 M H) in E. exact E.
  - destruct (cf_cond (w_conf w) e); [exfalso; apply H, M; reflexivity|]. now rewrite app_nil_r in E.
Qed.

Definition one_event : event := Ev (Eid 1 1 1) [] (Ts 0 0) None (Some (PJson (JBool true))).

Lemma final_C29_refuted : exists sel conf f e, (forall d p, jwf d -> jwf (sel d p)) /\ conds_ok conf /\ payload_ok e /\
    made_for sel conf f /\ f e = true /\ ~ all_hold same_json sel conf e.
Proof.
  exists (fun d _ => d), [([[]], CJson None None (Some (JInt 1)))].
  eexists. exists one_event. split; [auto|]. split; [|split; [|split; [left; reflexivity|split; [reflexivity|]]]].
  - apply Forall_cons; [|apply Forall_nil]. split.
    + apply Forall_cons; [|apply Forall_nil]. intros [|] r H; discriminate.
    + cbn [snd]. constructor; [discriminate|]. intros w H. injection H as <-. constructor.
  - intros d H. injection H as <-. constructor.
  - intros H. specialize (H _ _ (or_introl eq_refl)). assert (S : selects [[]] (ev_type one_event)).
    { exists []. split; [now left|]. split; [intros [|] r E; discriminate|constructor]. }
    specialize (H S). inversion H as [| |? ? ? data v E Ev H1 H2]; subst. injection E as <-. specialize (H2 _ eq_refl).
    inversion H2; subst. discriminate.
Qed.
