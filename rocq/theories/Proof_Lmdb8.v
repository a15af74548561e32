(** LMDB backend: the invariant of executions. *)
From Coq Require Import String Bool ZArith Lia Sorted List.
From Verif Require Import Base Kv Model_Types Model_Subscription Model_Order Model_Codec Keys
  Proof_Subscription Proof_Subscription2 Proof_Order Model_Lmdb Model_LmdbSys Spec_Lmdb
  Proof_Lmdb1 Proof_Lmdb2 Proof_Lmdb3 Proof_Lmdb4 Proof_Lmdb5 Proof_Lmdb6 Proof_Lmdb7.
Import ListNotations.
Open Scope list_scope.
Open Scope Z_scope.

Lemma accepts_take : forall cf H es, Forall (fun en => en_conf en = cf) (take_events cf H es).
Proof.
  intros cf H es. revert H. induction es as [|e es IH]; intros H; cbn [take_events]; auto.
  destruct (accepts H cf e); auto.
Qed.

Lemma register_events_spec : forall cf es d H K m c h pls,
    repr d H K -> pendH d H c h pls -> mem_repr m (flush_write d c) (H ++ h) cf -> conf_ok cf -> parts_known d cf ->
    Forall event_ok es ->
    exists m' c' pls', register_events cf m c es = Some (m', c') /\
      pendH d H c' (h ++ take_events cf (H ++ h) es) pls' /\
      mem_repr m' (flush_write d c') (H ++ h ++ take_events cf (H ++ h) es) cf.
Proof.
  intros cf. induction es as [|e es IH]; intros d H K m c h pls Hr Hp Hm Hco Hpk Hev; cbn [register_events take_events].
  - exists m, c, pls. rewrite !app_nil_r. auto.
  - inversion Hev as [|? ? He Hev']; subst.
    destruct (pendH_spec _ _ _ _ _ _ Hr Hp) as (_ & Hi & Hrc).
    pose proof (register_spec cf m c e _ _ _ Hrc Hm Hco) as Hs.
    destruct (accepts (H ++ h) cf e) eqn:Ea.
    + destruct Hs as (pl & m1 & E & Hpf & Hm1). rewrite E.
      assert (Hp1 : pendH d H (apply_plan c pl) (h ++ [Entry cf e]) (pls ++ [pl])) by (constructor; auto).
      assert (Hpo : plan_ok (flush_write d c) pl) by (eapply plan_for_ok; eauto).
      destruct (flush_apply d c pl (rp_base _ _ _ Hr) Hi Hpo) as [Ef _]. rewrite <- Ef in Hm1.
      destruct (IH d H K m1 (apply_plan c pl) (h ++ [Entry cf e]) (pls ++ [pl])) as (m' & c' & pls' & R1 & R2 & R3); auto.
      { rewrite app_assoc. exact Hm1. }
      exists m', c', pls'. rewrite app_assoc in R2, R3. rewrite <- !app_assoc in R2, R3. rewrite <- !app_assoc. auto.
    + rewrite Hs. eapply IH; eauto.
Qed.

Definition flushes (js : list job) : list changes := flat_map (fun j => match j with JFlush c => [c] | _ => [] end) js.

(** The state of the backend and what is known from watching it. *)
Record sys_inv (s : sys) (w : watch) : Prop := {
  si_conf : s_conf s = w_conf w;
  si_ok : conf_ok (w_conf w);
  si_repr : repr (s_disk s) (w_disk w) (w_gone w);
  si_chain : chain (s_disk s) (w_disk w) (flushes (s_jobs s)) (w_queue w);
  si_pend : exists pls, pendH (written (s_disk s) (flushes (s_jobs s))) (w_disk w ++ concat (w_queue w)) (s_cur s) (w_cur w) pls;
  si_mem : mem_repr (s_mem s) (flush_write (written (s_disk s) (flushes (s_jobs s))) (s_cur s)) (w_all w) (w_conf w);
  si_parts : parts_known (s_disk s) (w_conf w);
  si_sess : Forall (fun en => en_conf en = w_conf w) (concat (w_queue w) ++ w_cur w) }.

Lemma written_parts : forall cs d, db_parts (written d cs) = db_parts d.
Proof. unfold written. induction cs as [|c cs IH]; intros d; cbn [fold_left]; auto. now rewrite IH. Qed.

Lemma flushes_app : forall a b, flushes (a ++ b) = flushes a ++ flushes b.
Proof. intros. unfold flushes. apply flat_map_app. Qed.

Lemma written_snoc : forall d cs c, written d (cs ++ [c]) = flush_write (written d cs) c.
Proof. intros. unfold written. now rewrite fold_left_app. Qed.

Lemma removes_parts : forall ks d, db_parts (fold_left remove_key ks d) = db_parts d.
Proof. induction ks as [|k ks IH]; intros d; cbn [fold_left]; auto. now rewrite IH. Qed.

Lemma mem_repr_removes : forall ks m d H cf, mem_repr m d H cf -> mem_repr m (fold_left remove_key ks d) H cf.
Proof. induction ks as [|k ks IH]; intros m d H cf Hm; cbn [fold_left]; auto. apply IH. now apply mem_repr_remove. Qed.

Lemma opened_inv : forall d H K cf d' m, repr d H K -> conf_ok cf -> open_db cf d = Some (d', m) ->
    sys_inv (Sys cf d' m [] no_changes [] []) (Watch cf H [] [] K).
Proof.
  intros d H K cf d' m Hr Hco Ho. destruct (open_spec _ _ _ _ _ _ Hr Ho) as (H1 & H2 & H3).
  constructor; cbn [s_conf s_disk s_mem s_old s_cur s_jobs s_ready w_conf w_disk w_queue w_cur w_gone flushes flat_map written fold_left chain concat app]; auto.
  - exists []. constructor.
  - rewrite flush_none. unfold w_all. cbn [w_disk w_queue w_cur concat app]. now rewrite app_nil_r.
Qed.

Lemma start_inv : forall cf s, conf_ok cf -> start cf = Some s -> sys_inv s (watch_start cf).
Proof.
  intros cf s Hco. unfold start. destruct (open_db cf empty_db) as [[d m]|] eqn:E; [|discriminate].
  intros [= <-]. eapply opened_inv; eauto. apply repr_empty.
Qed.

Ltac si_fields := cbn [s_conf s_disk s_mem s_old s_cur s_jobs s_ready w_conf w_disk w_queue w_cur w_gone] in *.

Lemma sys_inv_same : forall s s' w, sys_inv s w -> s_conf s' = s_conf s -> s_disk s' = s_disk s -> s_mem s' = s_mem s ->
    s_cur s' = s_cur s -> flushes (s_jobs s') = flushes (s_jobs s) -> sys_inv s' w.
Proof.
  intros s s' w [I1 I2 I3 I4 I5 I6 I7 I8] E1 E2 E3 E4 E5.
  constructor; rewrite ?E1, ?E2, ?E3, ?E4, ?E5; auto.
Qed.

Lemma concat_snoc : forall (A : Type) (l : list (list A)) x, concat (l ++ [x]) = concat l ++ x.
Proof. intros. rewrite concat_app. cbn. now rewrite app_nil_r. Qed.

Lemma work_inv : forall O s w s' x, sys_inv s w -> work O s = Some (s', x) -> sys_inv s' (watch_step w (OWork, x)).
Proof.
  intros O s w s' x Hi. unfold work. destruct (s_jobs s) as [|j js] eqn:Ej.
  - intros [= <- <-]. exact Hi.
  - destruct j as [c|now|q p mx g|q p part sub mx g pre f].
    + intros [= <- <-]. destruct Hi as [I1 I2 I3 I4 (pls & I5) I6 I7 I8]. rewrite Ej in *. cbn [flushes flat_map app] in *.
      destruct w as [wc wd wq wu wg]. si_fields. destruct wq as [|h wq]; cbn [chain] in I4; [easy|].
      destruct I4 as [[pls' Hp] I4]. unfold done_, watch_step. si_fields. cbn [hd tl concat written fold_left] in *.
      constructor; si_fields; auto.
      * now apply (pendH_spec _ _ _ _ _ _ I3 Hp).
      * exists pls. rewrite <- app_assoc. exact I5.
      * unfold w_all in *. si_fields. cbn [concat] in I6. rewrite <- !app_assoc in *. exact I6.
      * rewrite <- app_assoc in I8. apply Forall_app in I8. tauto.
    + destruct (cleanup O (m_parts (s_mem s)) now (s_disk s)) as [db ks] eqn:Ec. intros [= <- <-].
      destruct Hi as [I1 I2 I3 I4 (pls & I5) I6 I7 I8]. rewrite Ej in *. cbn [flushes flat_map app] in *. fold (flushes js) in *.
      destruct (cleanup_spec _ _ _ _ _ _ (repr_ts_wf _ _ _ I3) Ec) as (E & Hnd & Hin).
      destruct (removes_spec ks _ _ _ _ _ _ _ _ I3 I4 I5 Hnd Hin) as (R1 & R2 & R3 & R4). rewrite <- E in *.
      unfold done_, watch_step. constructor; si_fields; auto.
      * eauto.
      * rewrite R4. unfold w_all in *. si_fields. now apply mem_repr_removes.
      * intros pt Hpt. destruct (I7 _ Hpt) as [p Hp]. exists p. rewrite E, removes_parts. auto.
    + destruct (query_refs O (s_disk s) (qs_server p) (mx + 1) (qs_last p)) as [es|]; [|discriminate].
      intros [= <- <-]. cbn [watch_step]. eapply sys_inv_same; eauto. si_fields. now rewrite Ej.
    + destruct (query_stored (cf_cond (s_conf s)) (s_disk s) part p sub f) as [es f'].
      intros [= <- <-]. cbn [watch_step]. eapply sys_inv_same; eauto. si_fields. now rewrite Ej.
Qed.

Lemma step_inv : forall O s w o s' x, sys_inv s w -> exec O s o = Some (s', x) ->
    Forall conf_ok (confs_of [(o, x)]) -> Forall event_ok (events_of [(o, x)]) ->
    sys_inv s' (watch_step w (o, x)).
Proof.
  intros O s w o s' x Hi He Hco Hev. destruct o as [es| |now|p|q p|q p| |q|cf]; cbn [exec] in He.
  - unfold events_of in Hev. cbn [flat_map fst] in Hev. rewrite app_nil_r in Hev.
    destruct Hi as [I1 I2 I3 I4 (pls & I5) I6 I7 I8]. rewrite I1 in He.
    pose proof (chain_repr _ _ _ _ _ I3 I4) as Hr.
    assert (Hpk : parts_known (written (s_disk s) (flushes (s_jobs s))) (w_conf w)).
    { intros pt Hpt. rewrite written_parts. auto. }
    assert (Hall : w_all w = (w_disk w ++ concat (w_queue w)) ++ w_cur w) by (unfold w_all; now rewrite app_assoc).
    rewrite Hall in I6.
    destruct (register_events_spec (w_conf w) es _ _ _ _ _ _ _ Hr I5 I6 I2 Hpk Hev) as (m' & c' & pls' & E & R1 & R2).
    rewrite E in He. injection He as <- <-. cbn [watch_step]. rewrite Hall.
    constructor; si_fields; auto.
    + eauto.
    + unfold w_all. si_fields. rewrite app_assoc. exact R2.
    + rewrite app_assoc. apply Forall_app. split; auto. apply accepts_take.
  - injection He as <- <-. destruct Hi as [I1 I2 I3 I4 (pls & I5) I6 I7 I8]. cbn [watch_step].
    assert (Ef : flushes (s_jobs s ++ [JFlush (s_cur s)]) = flushes (s_jobs s) ++ [s_cur s]) by (rewrite flushes_app; reflexivity).
    constructor; si_fields; rewrite ?Ef; auto.
    + eapply chain_snoc; eauto.
    + exists []. constructor.
    + rewrite flush_none, written_snoc. unfold w_all in *. si_fields. rewrite concat_snoc, app_nil_r. exact I6.
    + rewrite concat_snoc, app_nil_r. exact I8.
  - injection He as <- <-. cbn [watch_step]. eapply sys_inv_same; eauto. unfold push. si_fields. rewrite flushes_app. cbn. now rewrite app_nil_r.
  - injection He as <- <-. exact Hi.
  - destruct (server_query_start p) as [mx|]; injection He as <- <-; [|exact Hi].
    cbn [watch_step]. eapply sys_inv_same; eauto. unfold push. si_fields. rewrite flushes_app. cbn. now rewrite app_nil_r.
  - unfold ts_query_step in He. cbn [watch_step].
    assert (Hpush : forall j, flushes [j] = [] -> sys_inv (push s j) w).
    { intros j Hj. eapply sys_inv_same; eauto. unfold push. si_fields. now rewrite flushes_app, Hj, app_nil_r. }
    destruct (ts_query_start O (s_conf s) (m_parts (s_mem s)) p) as [[[sub mx] [part|]]|]; [|injection He as <- <-; exact Hi|injection He as <- <-; exact Hi].
    destruct (qt_order p).
    + destruct (query_pending _ p sub _) as [es f]. destruct (filter_done f); injection He as <- <-; auto.
    + injection He as <- <-; auto.
  - eapply work_inv; eauto.
  - destruct (take_ready q (s_ready s)) as [[r rs]|]; [|discriminate]. injection He as <- <-. cbn [watch_step].
    eapply sys_inv_same; eauto.
  - destruct (open_db cf (s_disk s)) as [[d m]|] eqn:Eo; [|discriminate]. injection He as <- <-. cbn [watch_step].
    unfold confs_of in Hco. cbn [flat_map fst app] in Hco. inversion Hco; subst.
    eapply opened_inv; eauto. apply Hi.
Qed.

(** Runs from the end. *)
Lemma runs_app : forall O s tr1 s1 tr2 s2, runs O s tr1 s1 -> runs O s1 tr2 s2 -> runs O s (tr1 ++ tr2) s2.
Proof. intros O s tr1 s1 tr2 s2 H1 H2. induction H1; cbn [app]; auto. econstructor; eauto. Qed.

Lemma runs_split : forall O tr1 s tr2 s2, runs O s (tr1 ++ tr2) s2 -> exists s1, runs O s tr1 s1 /\ runs O s1 tr2 s2.
Proof.
  intros O. induction tr1 as [|x tr1 IH]; intros s tr2 s2 H; cbn [app] in H.
  - exists s. split; auto. constructor.
  - inversion H; subst. destruct (IH _ _ _ H5) as (s1' & H1 & H2). exists s1'. split; auto. econstructor; eauto.
Qed.

Lemma runs_one : forall O s o x s', runs O s [(o, x)] s' <-> exec O s o = Some (s', x).
Proof.
  intros. split.
  - intros H. inversion H as [|? ? ? ? ? ? He Hr]; subst. inversion Hr; subst. auto.
  - intros H. econstructor; eauto. constructor.
Qed.

Lemma confs_of_app : forall a b, confs_of (a ++ b) = confs_of a ++ confs_of b.
Proof. intros. apply flat_map_app. Qed.
Lemma events_of_app : forall a b, events_of (a ++ b) = events_of a ++ events_of b.
Proof. intros. apply flat_map_app. Qed.

Lemma execution_snoc : forall O cf tr o x s', execution O cf (tr ++ [(o, x)]) s' <->
    exists s, execution O cf tr s /\ exec O s o = Some (s', x) /\
              Forall conf_ok (confs_of [(o, x)]) /\ Forall event_ok (events_of [(o, x)]).
Proof.
  intros O cf tr o x s'. unfold execution. split.
  - intros (s0 & H1 & H2 & H3 & H4). rewrite confs_of_app, app_comm_cons in H3. apply Forall_app in H3 as [H3 H5].
    rewrite events_of_app in H4. apply Forall_app in H4 as [H4 H6].
    apply runs_split in H2 as (s & H2 & H2'). apply runs_one in H2'.
    exists s. split; [exists s0; auto|auto].
  - intros (s & (s0 & H1 & H2 & H3 & H4) & H5 & H6 & H7). exists s0. split; auto.
    split; [eapply runs_app; eauto; now apply runs_one|].
    rewrite confs_of_app, events_of_app, app_comm_cons, !Forall_app. auto.
Qed.

Lemma execution_nil : forall O cf s, execution O cf [] s <-> start cf = Some s /\ conf_ok cf.
Proof.
  intros. unfold execution. cbn [confs_of events_of flat_map]. split.
  - intros (s0 & H1 & H2 & H3 & _). inversion H2; subst. inversion H3; auto.
  - intros [H1 H2]. exists s. split; [auto|]. split; [constructor|]. split; [constructor; auto|constructor].
Qed.

Lemma execution_split : forall O cf tr1 tr2 s, execution O cf (tr1 ++ tr2) s ->
    exists s1, execution O cf tr1 s1 /\ runs O s1 tr2 s /\ Forall conf_ok (confs_of tr2) /\ Forall event_ok (events_of tr2).
Proof.
  intros O cf tr1 tr2 s (s0 & H1 & H2 & H3 & H4). rewrite confs_of_app, app_comm_cons, Forall_app in H3.
  rewrite events_of_app, Forall_app in H4. apply runs_split in H2 as (s1 & H2 & H2').
  exists s1. split; [exists s0; tauto|tauto].
Qed.

Lemma watch_run_snoc : forall cf tr x, watch_run cf (tr ++ [x]) = watch_step (watch_run cf tr) x.
Proof. intros. unfold watch_run. now rewrite fold_left_app. Qed.

Lemma execution_inv : forall O cf tr s, execution O cf tr s -> sys_inv s (watch_run cf tr).
Proof.
  intros O cf tr. induction tr as [|[o x] tr IH] using rev_ind; intros s H.
  - apply execution_nil in H as [H1 H2]. now apply start_inv.
  - apply execution_snoc in H as (s1 & H1 & H2 & H3 & H4). rewrite watch_run_snoc. eapply step_inv; eauto.
Qed.

(** Everything that is known. *)
Lemma all_repr : forall s w, sys_inv s w ->
    exists K, repr (flush_write (written (s_disk s) (flushes (s_jobs s))) (s_cur s)) (w_all w) K.
Proof.
  intros s w [I1 I2 I3 I4 (pls & I5) I6 I7 I8]. pose proof (chain_repr _ _ _ _ _ I3 I4) as Hr. exists (w_gone w).
  unfold w_all. rewrite app_assoc. now apply (pendH_spec _ _ _ _ _ _ Hr I5).
Qed.
