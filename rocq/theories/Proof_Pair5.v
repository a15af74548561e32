(** Two servers, one of which follows the other one: steps of the remote. *)
From Coq Require Import String Bool ZArith Arith Lia Sorted Permutation List.
From Verif Require Import Base Kv Model_Types Model_Codec Keys Spec_Order Proof_Order Model_Lmdb Model_LmdbSys Spec_Lmdb Spec_LmdbContent Spec_LmdbQuery
  Proof_Lmdb3 Proof_Lmdb4 Proof_Lmdb7 Proof_Lmdb8 Proof_Lmdb9 Proof_Lmdb10 Proof_Lmdb12 Proof_Lmdb13 Proof_Lmdb14 Proof_Lmdb15 Model_LmdbFlush Spec_LmdbFlush Proof_LmdbFlush Proof_LmdbFlush4
  Model_Sync Spec_Sync Proof_Sync Proof_Sync2 Proof_Sync3 Proof_Sync4 Proof_Sync5 Proof_Sync6 Model_Replica Spec_Replica Proof_Replica Proof_Replica2 Proof_Replica3 Proof_Replica4 Proof_Replica5
  Model_Pair Spec_Pair Proof_Pair Proof_Pair2 Proof_Pair3 Proof_Pair4.
Import ListNotations.
Open Scope list_scope.
Open Scope nat_scope.

(** ** Notifications *)

Lemma qrel_same : forall sv s query c y c' y', qrel sv s query c y -> r_req c' = r_req c -> r_resp c' = r_resp c ->
    r_req y' = r_req y -> r_resp y' = r_resp y -> qrel sv s query c' y'.
Proof. intros * H E1 E2 E3 E4. unfold qrel in *. rewrite E1, E2, E3, E4. exact H. Qed.

Lemma joint_notify : forall OB cfA cfB sv A N K F F' top query c s tr y b, joint OB cfA cfB sv A N K F top query c s tr y ->
    f_sys F' = f_sys F -> note_list F A = b :: note_list F' A ->
    exists tr' y', joint OB cfA cfB sv A N K F' top query (notice sv c [Flushed b]) s tr' y'.
Proof.
  intros * J ES EN. assert (JP := joint_phase _ _ _ _ _ _ _ _ _ _ _ _ _ _ J).
  destruct J as [J1 J2 J3 J4 J5 J6 J7 J8 J9 J10 J11 J12 J13 J14]. rewrite EN in J6. cbn [projs flat_map] in J6. cbn [notice].
  destruct (own sv b) as [|e es] eqn:Eo.
  - exists tr, y. constructor; rewrite ?ES; auto.
  - cbn [app] in J6.
    assert (EU : r_up y = r_up c) by (rewrite J2; reflexivity). assert (EC : r_chan y = r_chan c) by (rewrite J2; reflexivity).
    assert (HR : forall y' l, yexec sv (get_last_event_id (m_sys (s_mem s)) sv) y RNotify = Some (y', l) -> batches_in l = [] ->
      replica OB cfB sv (tr ++ [RSync (RNotify, l) []]) y' s).
    { intros y' l Hy Hl. eapply replica_sync; [exact J1|exact Hy|constructor|now rewrite Hl]. }
    assert (HQ : forall l, told [(RNotify, l)] = [] -> Forall quiet_sync [RSync (RNotify, l) []]).
    { intros l Hl. constructor; [|constructor]. exists RNotify, l. auto. }
    assert (HY : yexec sv (get_last_event_id (m_sys (s_mem s)) sv) y RNotify =
      if r_up c then Some (y_remote y (r_stored y) (r_top y) (projs sv (note_list F' A)) (r_up y) (r_req y) (r_resp y) (r_chan y ++ [YNote (e :: es)]), [Sent (e :: es)])
      else Some (y_remote y (r_stored y) (r_top y) (projs sv (note_list F' A)) (r_up y) (r_req y) (r_resp y) (r_chan y), [Unsent (e :: es)])).
    { unfold yexec. rewrite J6, EU. destruct (y_phase y) eqn:EP; try congruence; reflexivity. }
    destruct (r_up c) eqn:EU2.
    + specialize (HR _ _ HY eq_refl). destruct (quiet_parts _ tr (HQ [Sent (e :: es)] eq_refl)) as (Q1 & Q2 & Q3).
      eexists _, _. econstructor; [exact HR|..]; rewrite ?ES; unfold y_remote; cbn [r_stored r_top r_lag r_req r_resp]; auto.
      * rewrite J2. unfold put. cbn. rewrite EU2. reflexivity.
      * rewrite so_far_app. cbn. now rewrite app_nil_r.
      * rewrite remote_events_app. cbn. now rewrite app_nil_r.
      * intros i l Hi. apply (J11 i l). rewrite sync_part_app in Hi. apply in_app_or in Hi as [Hi|[Hi|[]]]; [exact Hi|discriminate].
      * now rewrite Q1.
      * now rewrite Q2.
    + specialize (HR _ _ HY eq_refl). destruct (quiet_parts _ tr (HQ [Unsent (e :: es)] eq_refl)) as (Q1 & Q2 & Q3).
      eexists _, _. econstructor; [exact HR|..]; rewrite ?ES; unfold y_remote; cbn [r_stored r_top r_lag r_req r_resp]; auto.
      * rewrite J2. unfold put. cbn. reflexivity.
      * rewrite so_far_app. cbn. now rewrite app_nil_r.
      * rewrite remote_events_app. cbn. now rewrite app_nil_r.
      * intros i l Hi. apply (J11 i l). rewrite sync_part_app in Hi. apply in_app_or in Hi as [Hi|[Hi|[]]]; [exact Hi|discriminate].
      * now rewrite Q1.
      * now rewrite Q2.
Qed.

(** ** Registrations, start of a flush *)

Lemma joint_register : forall OB cfA cfB sv A N K F F' top query c s tr y es r, joint OB cfA cfB sv A N K F top query c s tr y ->
    s_disk (f_sys F') = s_disk (f_sys F) -> s_jobs (f_sys F') = s_jobs (f_sys F) -> s_ready (f_sys F') = s_ready (f_sys F) -> f_loop F' = f_loop F ->
    growing sv top (own sv es) = true ->
    joint OB cfA cfB sv (A ++ [(ORegister es, r)]) N K F' (last_id top (own sv es)) query c s tr y.
Proof.
  intros * J E1 E2 E3 E4 G. destruct J as [J1 J2 J3 J4 J5 J6 J7 J8 J9 J10 J11 J12 J13 J14].
  assert (W : w_going (A ++ [(ORegister es, r)]) = w_going A /\ w_waits (A ++ [(ORegister es, r)]) = w_waits A ++ es /\ w_ended (A ++ [(ORegister es, r)]) = w_ended A).
  { wr. destruct (write_run A) as [[en go] wa]. auto. }
  destruct W as (W1 & W2 & W3). rewrite J8 in G.
  constructor; rewrite ?E1, ?W1, ?W2, ?W3, ?watch_run_snoc; cbn [watch_step w_disk]; auto.
  - unfold qrel in *. rewrite E2, E3. exact J4.
  - unfold note_list in *. rewrite E4, W1. exact J6.
  - rewrite app_assoc, own_app, growing_app, J7, G. reflexivity.
  - rewrite app_assoc, own_app, last_id_app, J8. reflexivity.
Qed.

Lemma joint_start : forall OB cfA cfB sv A N K F F' top query c s tr y r futs fin futs' bs' fin', joint OB cfA cfB sv A N K F top query c s tr y ->
    s_disk (f_sys F') = s_disk (f_sys F) -> (exists ch, s_jobs (f_sys F') = s_jobs (f_sys F) ++ [JFlush ch]) -> s_ready (f_sys F') = s_ready (f_sys F) ->
    f_loop F = LGo futs fin -> f_loop F' = LWrite futs' bs' fin' -> w_going A = [] ->
    joint OB cfA cfB sv (A ++ [(OFlush, r)]) N K F' top query c s tr y.
Proof.
  intros * J E1 (ch & E2) E3 E4 E5 E6. destruct J as [J1 J2 J3 J4 J5 J6 J7 J8 J9 J10 J11 J12 J13 J14].
  assert (W : w_going (A ++ [(OFlush, r)]) = [w_waits A] /\ w_waits (A ++ [(OFlush, r)]) = [] /\ w_ended (A ++ [(OFlush, r)]) = w_ended A).
  { wr. destruct (write_run A) as [[en go] wa]. cbn [fst snd] in *. subst go. auto. }
  destruct W as (W1 & W2 & W3). rewrite E6 in *. cbn [concat app] in *.
  constructor; rewrite ?E1, ?W1, ?W2, ?W3, ?watch_run_snoc; cbn [watch_step w_disk concat]; rewrite ?app_nil_r; auto.
  - unfold qrel in *. rewrite E3. destruct query as [q|]; [|exact J4]. destruct J4 as (A1 & A2 & last & max & g & A3 & A4).
    split; auto. split; auto. exists last, max, g. split; auto. destruct A4 as [(A5 & A6)|A4]; [left|right; exact A4].
    split; [|exact A6]. rewrite E2. apply in_or_app. now left.
  - unfold note_list in *. rewrite E5, W1. rewrite E4 in J6. exact J6.
Qed.

(** ** Database work *)

Lemma work_facts : forall O cf A F x r, far O cf A F -> exec O (f_sys F) OWork = Some (x, r) ->
    sys_inv (f_sys F) (watch_run cf A) /\ sys_inv x (watch_run cf (A ++ [(OWork, r)])) /\ hist_ok (w_disk (watch_run cf (A ++ [(OWork, r)]))).
Proof.
  intros O cf A F x r HF Hx. pose proof (far_other _ _ _ _ _ _ _ HF Hx eq_refl) as HF'.
  pose proof (execution_inv _ _ _ _ (fa_exec _ _ _ _ HF)) as I. pose proof (execution_inv _ _ _ _ (fa_exec _ _ _ _ HF')) as I'. split; [exact I|]. split; [exact I'|].
  apply all_ok in I'. unfold w_all in I'. eapply hist_ok_app; eauto.
Qed.

Lemma stored_map : forall s w e, sys_inv s w -> stored_event (s_disk s) e -> In e (map en_ev (w_disk w)).
Proof. intros s w e Hi He. destruct (stored_acc _ _ _ Hi He) as (en & A & B). apply in_map_iff. eauto. Qed.

Lemma joint_wrote : forall OA OB cfA cfB sv A N K F top query c s tr y x, far OA cfA A F -> joint OB cfA cfB sv A N K F top query c s tr y ->
    exec OA (f_sys F) OWork = Some (x, Wrote) ->
    exists tr' y', joint OB cfA cfB sv (A ++ [(OWork, Wrote)]) N K (set_sys F x) top query c s tr' y'.
Proof.
  intros * HF J Hx. assert (JP := joint_phase _ _ _ _ _ _ _ _ _ _ _ _ _ _ J).
  destruct (work_facts _ _ _ _ _ _ HF Hx) as (I & I' & HO).
  assert (Q := wrote_queue _ _ _ _ _ I Hx).
  destruct (fa_go _ _ _ _ HF) as [[_ Q2]|(futs & bs & fin & h & L & G & Q2 & S)]; [congruence|].
  destruct J as [J1 J2 J3 J4 J5 J6 J7 J8 J9 J10 J11 J12 J13 J14].
  assert (W : w_going (A ++ [(OWork, Wrote)]) = [] /\ w_waits (A ++ [(OWork, Wrote)]) = w_waits A /\ w_ended (A ++ [(OWork, Wrote)]) = w_ended A ++ concat bs).
  { wr. destruct (write_run A) as [[en go] wa]. cbn [fst snd] in *. subst go. auto. }
  destruct W as (W1 & W2 & W3).
  assert (WD : w_disk (watch_run cfA (A ++ [(OWork, Wrote)])) = w_disk (watch_run cfA A) ++ h) by (rewrite watch_run_snoc; cbn [watch_step w_disk]; rewrite Q2; reflexivity).
  rewrite G in *. cbn [concat] in *. rewrite app_nil_r in *. rewrite own_app, growing_app in J7. apply andb_prop in J7 as [G1 G2].
  assert (HL : r_lag y = []) by (rewrite J6; unfold note_list; rewrite L, G; reflexivity).
  set (fl := flagged (own sv (map en_ev h)) (projs sv bs)).
  assert (B1 : map batch fl = projs sv bs) by apply flagged_batch.
  assert (B2 : map fst (filter snd (concat fl)) = own sv (map en_ev h)).
  { unfold fl. rewrite flagged_stored, projs_concat. apply flag_filter; [now apply growing_spec in G1|]. now apply subseq_filter. }
  assert (R1 := commit_all OB cfB sv fl tr y s J1 JP). rewrite B1, B2, projs_concat, HL in R1. cbn [app] in R1. specialize (R1 G1).
  set (y1 := store y (r_stored y ++ own sv (map en_ev h)) (last_id (r_top y) (own sv (concat bs))) (projs sv bs)) in *.
  assert (C : forall a b, In a (w_disk (watch_run cfA A)) -> In b h -> ev_id (en_ev a) = ev_id (en_ev b) -> False).
  { intros a b Ha Hb E. rewrite WD in HO. assert (X := before_after _ _ _ _ HO Ha Hb). rewrite E in X. specialize (X eq_refl). rewrite ltb_irrefl in X. discriminate. }
  assert (SB : forall e, stored_event (s_disk x) e -> stored_event (s_disk (f_sys F)) e \/ In e (map en_ev h)).
  { intros e He. rewrite watch_run_snoc in I'. destruct (stored_back _ _ _ _ _ _ _ I I' Hx ltac:(discriminate) He) as [X|(h' & Q' & en & E1 & E2 & E3 & _)]; [auto|].
    rewrite Q2 in E1. injection E1 as <- <-. right. apply in_map_iff. eauto. }
  destruct (clean_step OB cfB sv (tr ++ do_commits fl) y1 s (s_disk x) (w_disk (watch_run cfA (A ++ [(OWork, Wrote)])))) as (is & L' & R2 & S2 & C2); auto.
  - intros e He. unfold y1 in He. cbn [store y_remote r_stored] in He. rewrite WD, map_app, own_app. apply in_or_app. apply in_app_or in He as [He|He]; [left|right; exact He].
    apply J5 in He as [He1 He2]. apply own_In. split; auto. eapply stored_map; eauto.
  - intros e E He. unfold y1. cbn [store y_remote r_stored]. apply in_or_app. destruct (SB _ He) as [X|X]; [left; now apply J5|right; now apply own_In].
  - intros e He. eapply stored_map; eauto.
  - intros i l Hi. rewrite sync_part_app in Hi. apply in_app_or in Hi as [Hi|Hi]; [|exfalso; eapply cleans_of_commits; eauto].
    destruct (J11 _ _ Hi) as [(en & E1 & E2) E3]. split; [exists en; split; auto; rewrite WD; apply in_or_app; now left|].
    intros e He E. destruct (SB _ He) as [X|X]; [exact (E3 _ X E)|]. apply in_map_iff in X as (en' & <- & X). eapply C; eauto. congruence.
  - assert (QP : Forall quiet_sync (do_commits fl ++ do_cleans is)) by (apply Forall_app; split; [apply commits_quiet|apply cleans_quiet]).
    rewrite <- app_assoc in R2, C2. destruct (quiet_parts _ tr QP) as (P1 & P2 & P3).
    eexists _, _. econstructor; [exact R2|..]; unfold y1, store, y_remote; cbn [r_stored r_top r_lag r_req r_resp set_sys f_sys]; rewrite ?W1, ?W2, ?W3, ?WD; cbn [concat app]; auto.
    + rewrite J2. reflexivity.
    + assert (EJ : exists ch js, s_jobs (f_sys F) = JFlush ch :: js /\ s_jobs x = js /\ s_ready x = s_ready (f_sys F)).
      { cbn [exec] in Hx. unfold work in Hx. destruct (s_jobs (f_sys F)) as [|[ch|now|q p mx g|q p part sub mx g pre f] js] eqn:Ej; try discriminate.
        - injection Hx as <-. exists ch, js. auto.
        - destruct (cleanup _ _ _ _). discriminate.
        - destruct (query_refs _ _ _ _ _); discriminate.
        - destruct (query_stored _ _ _ _ _ _). discriminate. }
      destruct EJ as (ch & js & E1 & E2 & E3). unfold qrel in *. cbn [r_req r_resp]. destruct query as [q|]; [|exact J4].
      destruct J4 as (A1 & A2 & last & max & g & A3 & A4). split; auto. split; auto. exists last, max, g. split; auto. rewrite E2, E3.
      destruct A4 as [(A5 & A6)|A4]; [left|right; exact A4]. split; [|exact A6]. rewrite E1 in A5. destruct A5 as [[=]|A5]. exact A5.
    + unfold note_list. cbn [set_sys f_loop]. rewrite L, W1. reflexivity.
    + rewrite J8. rewrite own_app, last_id_app. reflexivity.
    + rewrite !so_far_app, so_far_commits, so_far_cleans, app_nil_r, B2, J9, map_app, own_app. reflexivity.
    + rewrite !remote_events_app, events_commits, events_cleans, app_nil_r, B1, projs_concat, J10, own_app. reflexivity.
    + rewrite WD in C2. exact C2.
    + now rewrite P1.
    + now rewrite P2.
Qed.

Lemma joint_cleaned : forall OA OB cfA cfB sv A N K F top query c s tr y x ks, far OA cfA A F -> joint OB cfA cfB sv A N K F top query c s tr y ->
    exec OA (f_sys F) OWork = Some (x, Cleaned ks) ->
    exists tr' y', joint OB cfA cfB sv (A ++ [(OWork, Cleaned ks)]) N K (set_sys F x) top query c s tr' y'.
Proof.
  intros * HF J Hx. assert (JP := joint_phase _ _ _ _ _ _ _ _ _ _ _ _ _ _ J).
  destruct (work_facts _ _ _ _ _ _ HF Hx) as (I & I' & HO).
  destruct J as [J1 J2 J3 J4 J5 J6 J7 J8 J9 J10 J11 J12 J13 J14].
  assert (W : write_run (A ++ [(OWork, Cleaned ks)]) = write_run A).
  { rewrite write_snoc. destruct (write_run A) as [[en go] wa]. reflexivity. }
  assert (WD : w_disk (watch_run cfA (A ++ [(OWork, Cleaned ks)])) = w_disk (watch_run cfA A)) by (rewrite watch_run_snoc; reflexivity).
  assert (SB : forall e, stored_event (s_disk x) e -> stored_event (s_disk (f_sys F)) e).
  { intros e He. pose proof (stored_map _ _ _ I' He) as He'. rewrite WD in He'. apply in_map_iff in He' as (en1 & F1 & F2).
    rewrite watch_run_snoc in I'. destruct (stored_back _ _ _ _ _ _ _ I I' Hx ltac:(discriminate) He) as [X|(h' & Q' & en & E1 & E2 & E3 & _)]; [auto|].
    exfalso. pose proof (all_ok _ _ I) as HA. unfold w_all in HA. rewrite E1 in HA. cbn [concat] in HA. rewrite <- app_assoc in HA.
    rewrite app_assoc in HA. apply hist_ok_app in HA. assert (X := before_after _ _ _ _ HA F2 E2). rewrite F1, E3 in X. specialize (X eq_refl). rewrite ltb_irrefl in X. discriminate. }
  destruct (clean_step OB cfB sv tr y s (s_disk x) (w_disk (watch_run cfA (A ++ [(OWork, Cleaned ks)])))) as (is & L' & R2 & S2 & C2); auto.
  - intros e He. apply J5 in He as [He1 He2]. rewrite WD. apply own_In. split; auto. eapply stored_map; eauto.
  - intros e E He. apply J5. auto.
  - intros e He. eapply stored_map; eauto.
  - intros i l Hi. rewrite WD. destruct (J11 _ _ Hi) as [E1 E3]. split; auto.
  - destruct (quiet_parts _ tr (cleans_quiet is)) as (P1 & P2 & P3).
    eexists _, _. econstructor; [exact R2|..]; unfold store, y_remote; cbn [r_stored r_top r_lag r_req r_resp set_sys f_sys]; rewrite ?WD; unfold w_going, w_waits, w_ended in *; rewrite ?W; auto.
    + rewrite J2. reflexivity.
    + assert (EJ : exists ch js, s_jobs (f_sys F) = JCleanup ch :: js /\ s_jobs x = js /\ s_ready x = s_ready (f_sys F)).
      { cbn [exec] in Hx. unfold work in Hx. destruct (s_jobs (f_sys F)) as [|[ch|now|q p mx g|q p part sub mx g pre f] js] eqn:Ej; try discriminate.
        - destruct (cleanup _ _ _ _). injection Hx as <- <-. exists now, js. auto.
        - destruct (query_refs _ _ _ _ _); discriminate.
        - destruct (query_stored _ _ _ _ _ _). discriminate. }
      destruct EJ as (ch & js & E1 & E2 & E3). unfold qrel in *. cbn [r_req r_resp]. destruct query as [q|]; [|exact J4].
      destruct J4 as (A1 & A2 & last & max & g & A3 & A4). split; auto. split; auto. exists last, max, g. split; auto. rewrite E2, E3.
      destruct A4 as [(A5 & A6)|A4]; [left|right; exact A4]. split; [|exact A6]. rewrite E1 in A5. destruct A5 as [[=]|A5]. exact A5.
    + rewrite J6. unfold note_list, w_going. cbn [set_sys f_loop]. rewrite W. reflexivity.
    + rewrite !so_far_app, so_far_cleans, app_nil_r. exact J9.
    + rewrite !remote_events_app, events_cleans, app_nil_r. exact J10.
    + rewrite WD in C2. exact C2.
    + now rewrite P1.
    + now rewrite P2.
Qed.
