(** Two servers, one of which follows the other one: the properties. *)
From Coq Require Import String Bool ZArith Arith Lia Sorted Permutation List.
From Verif Require Import Base Kv Model_Types Model_Codec Keys Spec_Order Proof_Order Model_Lmdb Model_LmdbSys Spec_Lmdb Spec_LmdbContent Spec_LmdbQuery
  Proof_Lmdb3 Proof_Lmdb4 Proof_Lmdb7 Proof_Lmdb8 Proof_Lmdb9 Proof_Lmdb10 Proof_Lmdb12 Proof_Lmdb13 Proof_Lmdb14 Proof_Lmdb15 Model_LmdbFlush Spec_LmdbFlush Proof_LmdbFlush Proof_LmdbFlush4
  Model_Sync Spec_Sync Proof_Sync Proof_Sync2 Proof_Sync3 Proof_Sync4 Proof_Sync5 Proof_Sync6 Model_Replica Spec_Replica Proof_Replica Proof_Replica2 Proof_Replica3 Proof_Replica4 Proof_Replica5
  Model_Pair Spec_Pair Proof_Pair Proof_Pair2 Proof_Pair3 Proof_Pair4 Proof_Pair5 Proof_Pair6.
Import ListNotations.
Open Scope list_scope.
Open Scope nat_scope.

(** ** The client *)

Lemma ask_phase : forall O cf sv tr y s, replicated O cf sv tr y s -> restarts_safe tr -> y_phase y <> PEnd -> r_req y <> None \/ r_resp y <> None ->
    y_phase y = PAsk /\ (r_req y <> None -> r_resp y = None).
Proof.
  intros O cf sv tr y s H S HP HQ. destruct (src_run _ _ _ _ _ _ H S) as [[L HR] _]. pose proof (yflow_run _ _ _ _ HR) as Y. unfold yflow in Y.
  assert (W : wired y = [] -> r_resp y = None).
  { unfold wired. intros E. apply app_eq_nil in E as [_ E]. destruct (r_resp y); [discriminate|reflexivity]. }
  destruct (y_phase y) eqn:EP; try congruence; try (exfalso; destruct HQ as [HQ|HQ]; apply HQ; tauto).
  split; [reflexivity|]. intros Hr. destruct Y as (_ & [(_ & Y & _)|(Y & _)]); [auto|congruence].
Qed.

Lemma joint_client : forall OB cfA cfB sv A N K F top query c s tr y o l c' xs s', joint OB cfA cfB sv A N K F top query c s tr y ->
    Forall conf_ok (cfB :: confs_of N) -> Forall event_ok (events_of N) -> client_op o = true ->
    yexec sv (get_last_event_id (m_sys (s_mem s)) sv) c o = Some (c', l) -> runs OB s xs s' -> map fst xs = map ORegister (batches_in l) ->
    exists tr' y', joint OB cfA cfB sv A (N ++ xs) (K ++ told [(o, l)]) F top query c' s' tr' y'.
Proof.
  intros * J HC HE Ho Hy Hr Hm. assert (JP := joint_phase _ _ _ _ _ _ _ _ _ _ _ _ _ _ J).
  pose proof (yexec_end _ _ _ _ _ _ Ho Hy) as HP'.
  destruct J as [J1 J2 J3 J4 J5 J6 J7 J8 J9 J10 J11 J12 J13 J14].
  assert (X : exists rq rs, yexec sv (get_last_event_id (m_sys (s_mem s)) sv) y o = Some (put c' y rq rs, l) /\ qrel sv (f_sys F) query c' (put c' y rq rs)).
  { destruct query as [q|].
    - destruct J4 as (A1 & A2 & last & max & g & A3 & A4).
      assert (PA : y_phase c = PAsk).
      { replace (y_phase c) with (y_phase y) by (rewrite J2; reflexivity). apply (ask_phase OB cfB sv tr y s); auto; [split; [exact J1|rewrite J12; auto]|].
        destruct A4 as [(_ & B & _)|(es & res & _ & _ & _ & B)]; rewrite B; [left|right]; discriminate. }
      assert (Hm' : mild_op o = true).
      { destruct o; try discriminate Ho; try reflexivity; exfalso; unfold yexec in Hy; rewrite PA in Hy; try discriminate. rewrite A2 in Hy. discriminate. }
      destruct (put_keep _ _ _ y _ _ _ (r_req y) (r_resp y) Hm' Hy) as (B1 & B2 & B3). rewrite <- J2 in B1.
      exists (r_req y), (r_resp y). split; [exact B1|]. split; [congruence|]. split; [congruence|]. exists last, max, g. split; [exact A3|exact A4].
    - destruct J4 as [A1 A2]. exists (r_req c'), (r_resp c'). split; [|split; reflexivity]. rewrite A1, A2 in J2.
      pose proof (put_yexec _ _ _ y _ _ _ Ho Hy) as B. rewrite <- J2 in B. exact B. }
  destruct X as (rq & rs & X1 & X2).
  exists (tr ++ [RSync (o, l) xs]), (put c' y rq rs).
  econstructor; [eapply replica_sync; eauto|..]; cbn [put r_stored r_top r_lag r_req r_resp]; auto.
  - rewrite so_far_app. destruct o; try discriminate Ho; cbn; now rewrite app_nil_r.
  - rewrite remote_events_app. destruct o; try discriminate Ho; cbn; now rewrite app_nil_r.
  - intros i l' Hi. apply (J11 i l'). rewrite sync_part_app in Hi. apply in_app_or in Hi as [Hi|[Hi|[]]]; [exact Hi|]. injection Hi as -> _. discriminate Ho.
  - rewrite local_part_snoc. congruence.
  - rewrite current_snoc. cbn [again]. rewrite sync_part_snoc, told_add, J13. reflexivity.
  - apply restarts_snoc; [discriminate|exact J14].
Qed.

(** ** Restarts of the remote *)

Lemma last_own : forall m d H K cf sv, mem_repr m d H cf -> repr d H K -> get_last_event_id (m_sys m) sv = last_id (Eid sv 0 0) (own sv (map en_ev H)).
Proof.
  intros m d H K cf sv Hm Hr.
  assert (Hlast : get_last_event_id (m_sys m) sv = match last_ev H sv with Some l => ev_id l | None => Eid sv 0 0 end).
  { unfold get_last_event_id. rewrite (mr_ids _ _ _ _ Hm), (rp_ids _ _ _ Hr). destruct (last_ev H sv); auto. }
  rewrite Hlast. clear. induction H as [|en H IH] using rev_ind; [reflexivity|]. rewrite last_ev_snoc, map_app, own_app, last_id_app. cbn [map own filter].
  unfold last_step. destruct (Z.eqb (eid_server (ev_id (en_ev en))) sv); [reflexivity|]. exact IH.
Qed.

Lemma joint_restart : forall OA OB cfA cfB sv A N K F top query c s tr y cf x, far OA cfA A F -> joint OB cfA cfB sv A N K F top query c s tr y ->
    Forall conf_ok (cfB :: confs_of N) -> Forall event_ok (events_of N) ->
    (forall l e, own sv (w_ended A) = l ++ [e] -> In e (map en_ev (w_disk (watch_run cfA A)))) ->
    exec OA (f_sys F) (OReopen cf) = Some (x, Quiet) ->
    exists tr' y', joint OB cfA cfB sv (A ++ [(OReopen cf, Quiet)]) N [] (fstart x) (get_last_event_id (m_sys (s_mem x)) sv) None (renew sv c) s tr' y'.
Proof.
  intros * HF J HC HE HS Hx. destruct J as [J1 J2 J3 J4 J5 J6 J7 J8 J9 J10 J11 J12 J13 J14].
  assert (W : w_going (A ++ [(OReopen cf, Quiet)]) = [] /\ w_waits (A ++ [(OReopen cf, Quiet)]) = [] /\ w_ended (A ++ [(OReopen cf, Quiet)]) = w_ended A).
  { wr. destruct (write_run A) as [[en go] wa]. auto. }
  destruct W as (W1 & W2 & W3).
  assert (SD : forall e, stored_event (s_disk x) e <-> stored_event (s_disk (f_sys F)) e).
  { intros e. cbn [exec] in Hx. unfold open_db in Hx. destruct (validate_settings _ _ _); [|discriminate]. destruct (init_partitions _ _). injection Hx as <-. reflexivity. }
  assert (HL : get_last_event_id (m_sys (s_mem x)) sv = stored_top sv tr).
  { pose proof (execution_inv _ _ _ _ (fa_exec _ _ _ _ HF)) as I. cbn [exec] in Hx. destruct (open_db cf (s_disk (f_sys F))) as [[db m]|] eqn:Eo; [|discriminate].
    injection Hx as <-. cbn [s_mem]. destruct (open_spec _ _ _ _ _ _ (si_repr _ _ I) Eo) as (O1 & O2 & _). rewrite (last_own _ _ _ _ _ _ O2 O1). unfold stored_top. now rewrite J9. }
  assert (ES : ends_stored tr).
  { intros l e ok E. assert (HI : increasing (remote_events tr)).
    { refine (proj1 (proj2 (final_C73_only OB cfB sv tr y s _ J14))). split; [exact J1|rewrite J12; auto]. }
    assert (E1 : remote_events tr = map fst l ++ [e]) by (rewrite call_commits, E, map_app; reflexivity).
    rewrite J10 in E1. apply HS in E1 as E2. assert (E3 : In e (stored_so_far tr)).
    { rewrite J9. apply own_In. split; [exact E2|]. assert (X : In e (own sv (w_ended A))) by (rewrite E1; apply in_or_app; right; now left). now apply own_In in X. }
    rewrite stored_commits, E in E3. apply in_map_iff in E3 as ([e' ok'] & <- & E3). cbn [fst] in *. apply filter_In in E3 as [E3 E4]. cbn [snd] in E4. subst ok'.
    apply in_app_or in E3 as [E3|[E3|[]]]; [|now injection E3 as <-].
    exfalso. rewrite call_commits, E, map_app in HI. apply increasing_inv in HI as (_ & _ & HI). assert (X : id_lt e' e').
    { apply HI; [apply in_map_iff; exists (e', true); auto|now left]. }
    unfold id_lt in X. rewrite ltb_irrefl in X. discriminate. }
  exists (tr ++ [RRestart]), (restarted sv (stored_top sv tr) y).
  econstructor; [apply replica_restart; exact J1|..]; rewrite ?W1, ?W2, ?W3, ?watch_run_snoc; cbn [restarted r_stored r_top r_lag r_req r_resp fstart f_sys watch_step w_disk concat app own filter]; auto.
  - discriminate.
  - split; reflexivity.
  - intros e. rewrite SD. apply J5.
  - rewrite so_far_app. cbn. now rewrite app_nil_r.
  - rewrite remote_events_app. cbn. now rewrite app_nil_r.
  - intros i l Hi. rewrite sync_part_app in Hi. cbn [sync_part flat_map] in Hi. rewrite app_nil_r in Hi. destruct (J11 i l Hi) as [B1 B2]. split; [exact B1|]. intros e He. apply B2. now apply SD.
  - rewrite local_part_snoc, app_nil_r. exact J12.
  - now rewrite current_snoc.
  - intros a b E. apply app_snoc_split in E as [(-> & -> & _)|(b' & -> & E)]; [exact ES|exact (J14 a b' E)].
Qed.

(** ** All steps *)

Lemma told_cons : forall tr x, lost x = false -> told (client_part (since (tr ++ [x]))) = told (client_part (since tr)) ++ told (client_part [x]).
Proof. intros tr x H. rewrite since_snoc, H, client_snoc. apply told_add. Qed.

Lemma restarts_ok_snoc : forall cf sv tr x, restarts_ok cf sv (tr ++ [x]) -> restarts_ok cf sv tr.
Proof. intros cf sv tr x H a c b E. apply (H a c (b ++ [x])). rewrite E, <- app_assoc. reflexivity. Qed.

Lemma ordered_app : forall (A : Type) (R : A -> A -> Prop) l l', ForallOrdPairs R (l ++ l') -> ForallOrdPairs R l.
Proof.
  intros A R l l' H. induction l as [|x l IH]; [constructor|]. inversion H as [|x' l0 F H']; subst. apply Forall_app in F as [F _]. constructor; auto.
Qed.

Lemma kept_app : forall cf A B, conditions_kept (cf :: confs_of (A ++ B)) -> conditions_kept (cf :: confs_of A).
Proof. intros cf A B H. unfold conditions_kept in *. rewrite confs_of_app, app_comm_cons in H. eapply ordered_app; exact H. Qed.

Lemma ok_app : forall cf A B, Forall conf_ok (cf :: confs_of (A ++ B)) -> Forall event_ok (events_of (A ++ B)) ->
    (Forall conf_ok (cf :: confs_of A) /\ Forall event_ok (events_of A)) /\ Forall event_ok (events_of B).
Proof.
  intros cf A B HC HE. rewrite confs_of_app, app_comm_cons in HC. rewrite events_of_app in HE. apply Forall_app in HC as [HC _]. apply Forall_app in HE as [HE HE2]. auto.
Qed.

Lemma note_still : forall O cf A F F', far O cf A F -> (f_loop F' = f_loop F \/
       (exists futs bs fin, f_loop F = LWrite futs bs fin /\ f_loop F' = LNotify futs bs fin /\ flush_done (f_sys F) = true) \/ (still F /\ still F')) ->
    note_list F' A = note_list F A.
Proof.
  intros O cf A F F' HF [E|[(futs & bs & fin & E1 & E2 & Hd)|[S1 S2]]]; unfold note_list, still in *.
  - now rewrite E.
  - rewrite E1, E2. destruct (fa_go _ _ _ _ HF) as [[-> _]|(? & ? & ? & h & _ & _ & Q & _)]; [reflexivity|].
    apply flush_done_flushes in Hd. pose proof (queue_of_flushes _ _ (execution_inv _ _ _ _ (fa_exec _ _ _ _ HF))) as Hq. rewrite Hd, Q in Hq. discriminate.
  - destruct (f_loop F) as [| | |? [|] ?|]; destruct (f_loop F') as [| | |? [|] ?|]; try destruct S1; try destruct S2; reflexivity.
Qed.

Lemma notice_none : forall sv c l, (forall b, l <> [Flushed b]) -> notice sv c l = c.
Proof. intros sv c [|[b|n ok] [|]] H; try reflexivity. exfalso. eapply H; reflexivity. Qed.

Lemma pair_joint : forall OA OB cfA cfB sv tr st, pair OA OB cfA cfB sv tr st -> pick_ok OA ->
    Forall conf_ok (cfA :: confs_of (remote_part tr)) -> Forall event_ok (events_of (remote_part tr)) -> conditions_kept (cfA :: confs_of (remote_part tr)) ->
    Forall conf_ok (cfB :: confs_of (near_part tr)) -> Forall event_ok (events_of (near_part tr)) -> restarts_ok cfA sv tr ->
    exists tr' y, joint OB cfA cfB sv (remote_part tr) (near_part tr) (told (client_part (since tr)))
      (d_remote st) (d_top st) (d_query st) (d_client st) (d_local st) tr' y.
Proof.
  intros OA OB cfA cfB sv tr st H HP. induction H as [a b Ha Hb|tr F top q us c s o xs l F' c' q' H IH He Hu Hr|tr F top us c s last q x H IH Hq Hn He
    |tr F top q us c s o l c' xs s' H IH Ho Hy Hr Hm|tr F top q us c s o x s' H IH He Hb Hr|tr F top q us c s H IH|tr F top q us c s cf x r H IH He];
    intros CA EA KA CB EB RO; cbn [d_remote d_top d_query d_client d_local d_used] in *.
  - exists [], (ystart sv). assert (SD : forall e, ~ stored_event (s_disk a) e).
    { intros e. unfold start in Ha. unfold open_db in Ha. cbn [validate_settings] in Ha. destruct (validate_settings _ _ _); [|discriminate]. destruct (init_partitions _ _). injection Ha as <-.
      intros [X|X]; exact X. }
    constructor; try reflexivity; auto.
    + now apply replica_start.
    + discriminate.
    + split; reflexivity.
    + intros e. split; [intros []|]. intros [_ X]. exfalso. exact (SD _ X).
    + intros i l [].
    + intros a' b' E. destruct a'; discriminate.
  - rewrite remote_snoc, near_snoc, told_cons in * by reflexivity. cbn [remote_part near_part client_part flat_map] in *. rewrite ?app_nil_r in *.
    try (change (told []) with (@nil (synced * option nat)); rewrite app_nil_r).
    destruct (ok_app _ _ _ CA EA) as [[CA1 EA1] EA2]. specialize (IH CA1 EA1 (kept_app _ _ _ KA) CB EB (restarts_ok_snoc _ _ _ _ RO)).
    destruct IH as (tr' & y & J). pose proof (pair_far _ _ _ _ _ _ _ H CA1 EA1) as HF. cbn [d_remote] in HF. destruct (usual_fine _ _ _ _ Hu) as [U1 U2].
    pose proof (pair_numbers _ _ _ _ _ _ _ H) as [HN _]. cbn [d_remote] in HN.
    destruct (fexec_inner _ _ _ _ _ _ He U1) as [[-> ES]|(p & r & -> & Hx & [(es & -> & ->)|[[-> ->]|[-> Hot]]])].
    + rewrite !app_nil_r. destruct (fexec_still _ _ _ _ _ He U1 U2) as (E1 & E2 & Hl).
      assert (R0 : forall c0, returned q o [] c0 = (c0, q)) by (intros c0; destruct q; [destruct o as [| | | | | |[]| | | | | | | |]|]; reflexivity).
      rewrite R0 in Hr. injection Hr as <- <-.
      assert (HU : forall (P : Prop), P -> P) by auto.
      assert (T : top_after sv top o = top).
      { destruct o; try reflexivity. exfalso. cbn [fexec] in He. destruct (f_open F); [|discriminate]. destruct (exec OA (f_sys F) (ORegister es)) as [[? ?]|]; discriminate. }
      rewrite T. destruct Hl as [(futs & b & bs & fin & -> & -> & L1 & L2)|[Hn Hl]].
      * eapply joint_notify; [exact J|exact E1|]. unfold note_list. rewrite L1, L2. reflexivity.
      * rewrite (notice_none _ _ _ Hn). exists tr', y. eapply joint_same; [exact J|reflexivity|reflexivity|now rewrite E1|eapply note_still; eauto|apply J|apply J|rewrite E1; apply J].
    + pose proof He as He2. cbn [fexec] in He2. destruct (f_open F); [|discriminate].
      destruct (exec OA (f_sys F) (ORegister es)) as [[x r']|] eqn:Ex; [|discriminate]. injection He2 as <- <- <-.
      cbn [notice] in Hr. assert (R0 : returned q (FRegister es) [(ORegister es, r')] c = (c, q)) by (destruct q; reflexivity). rewrite R0 in Hr. injection Hr as <- <-.
      cbn [usual] in Hu. cbn [exec] in Ex. destruct (register_events _ _ _ _) as [[m ch]|]; [|discriminate]. injection Ex as <- <-.
      exists tr', y. apply joint_register with (F := F); auto.
    + cbn [fexec exec] in He. destruct (f_loop F) as [|futs fin| | |] eqn:L; try discriminate. injection He as <- <- <-.
      cbn [notice] in Hr. assert (R0 : forall z, returned q FStart z c = (c, q)) by (intros; destruct q; reflexivity). rewrite R0 in Hr. injection Hr as <- <-.
      exists tr', y. eapply joint_start with (F := F); [exact J|reflexivity|eexists; reflexivity|reflexivity|exact L|reflexivity|].
      destruct (fa_go _ _ _ _ HF) as [[G _]|(? & ? & ? & ? & L2 & _)]; [exact G|congruence].
    + destruct (other_set _ _ _ _ _ _ He) as (_ & x & r2 & Ex & -> & [= <-] & ->). cbn [notice] in Hr. cbn [top_after].
      destruct p as [es|  |now|p|n p|n p| |n|cf]; try discriminate Hot.
      1,2,3,4: assert (R0 : forall z, returned q (FOther z) [(z, r)] c = (c, q) \/ exists n, z = ODeliver n) by (intros z; destruct z; eauto; left; destruct q; reflexivity).
      1,2,3,4: match type of Hr with returned _ (FOther ?z) _ _ = _ => destruct (R0 z) as [R1|(n' & [=])]; rewrite R1 in Hr; injection Hr as <- <- end.
      1,2,3,4: match type of Ex with exec _ _ ?z = _ => destruct (exec_extends _ _ z _ _ Ex eq_refl ltac:(discriminate) ltac:(intros; discriminate)) as [X1 X2] end;
        exists tr', y; eapply joint_quiet; [exact J|reflexivity|exact X2|apply X1|apply J|apply J|eapply qrel_extends; [apply J|exact X1]].
      * assert (R1 : returned q (FOther OWork) [(OWork, r)] c = (c, q)) by (destruct q; reflexivity). rewrite R1 in Hr. injection Hr as <- <-.
        assert (HI : increasing (r_stored y)).
        { assert (RP : replicated OB cfB sv tr' y s) by (split; [apply J|rewrite (j_loc _ _ _ _ _ _ _ _ _ _ _ _ _ _ J); auto]).
          destruct (src_run _ _ _ _ _ _ RP (j_safe _ _ _ _ _ _ _ _ _ _ _ _ _ _ J)) as [[L HR] _]. exact (t_inc _ _ (ystore_run _ _ _ _ HR)). }
        destruct r as [|a| |ks].
        -- eapply joint_work; eauto. eapply kept_app; eauto.
        -- exfalso. cbn [exec] in Ex. unfold work in Ex. destruct (s_jobs (f_sys F)) as [|[ch|now|q0 p mx g|q0 p part sub mx g pre f] js]; try discriminate.
           ++ destruct (cleanup _ _ _ _). discriminate.
           ++ destruct (query_refs _ _ _ _ _); discriminate.
           ++ destruct (query_stored _ _ _ _ _ _). discriminate.
        -- eapply joint_wrote; eauto.
        -- eapply joint_cleaned; eauto.
      * exists tr', y. eapply joint_deliver; eauto.
  - rewrite remote_snoc, near_snoc, told_cons in * by reflexivity. cbn [remote_part near_part client_part flat_map app] in *. rewrite ?app_nil_r in *.
    try (change (told []) with (@nil (synced * option nat)); rewrite app_nil_r).
    destruct (ok_app _ _ _ CA EA) as [[CA1 EA1] EA2]. specialize (IH CA1 EA1 (kept_app _ _ _ KA) CB EB (restarts_ok_snoc _ _ _ _ RO)).
    destruct IH as (tr' & y & J). exists tr', y. pose proof (j_q _ _ _ _ _ _ _ _ _ _ _ _ _ _ J) as [Q1 Q2].
    assert (RP : replicated OB cfB sv tr' y s) by (split; [apply J|rewrite (j_loc _ _ _ _ _ _ _ _ _ _ _ _ _ _ J); auto]).
    destruct (ask_phase _ _ _ _ _ _ RP (j_safe _ _ _ _ _ _ _ _ _ _ _ _ _ _ J) (joint_phase _ _ _ _ _ _ _ _ _ _ _ _ _ _ J)) as [_ P2]; [left; rewrite Q1, Hq; discriminate|].
    specialize (P2 ltac:(rewrite Q1, Hq; discriminate)).
    pose proof He as He2. cbn [exec] in He2. destruct (server_query_start (client_query sv last)) as [max|] eqn:Es; [|discriminate]. injection He2 as <-.
    eapply joint_quiet; [exact J|reflexivity|discriminate|reflexivity|rewrite (j_cl _ _ _ _ _ _ _ _ _ _ _ _ _ _ J) at 1; reflexivity|apply J|].
    split; [reflexivity|]. split; [cbn [y_remote r_resp]; congruence|]. exists last, max, (cur_gen (f_sys F)). split; [exact Es|]. left.
    split; [cbn [push s_jobs]; apply in_or_app; right; now left|]. split; [congruence|exact P2].
  - rewrite remote_snoc, near_snoc, told_cons in * by reflexivity. cbn [remote_part near_part client_part flat_map app] in *. rewrite ?app_nil_r in *.
    destruct (ok_app _ _ _ CB EB) as [[CB1 EB1] EB2]. specialize (IH CA EA KA CB1 EB1 (restarts_ok_snoc _ _ _ _ RO)).
    destruct IH as (tr' & y & J). eapply joint_client; eauto.
  - rewrite remote_snoc, near_snoc, told_cons in * by reflexivity. cbn [remote_part near_part client_part flat_map app] in *. rewrite ?app_nil_r in *.
    try (change (told []) with (@nil (synced * option nat)); rewrite app_nil_r).
    destruct (ok_app _ _ _ CB EB) as [[CB1 EB1] EB2]. specialize (IH CA EA KA CB1 EB1 (restarts_ok_snoc _ _ _ _ RO)).
    destruct IH as (tr' & y & J). exists (tr' ++ [RLocal (o, x)]), y. destruct J as [J1 J2 J3 J4 J5 J6 J7 J8 J9 J10 J11 J12 J13 J14]. constructor; auto.
    + eapply replica_local; eauto. intros cf E. destruct (Hr cf E) as [R1 R2]. rewrite J2. split; [exact R1|exact R2].
    + rewrite so_far_app. cbn. now rewrite app_nil_r.
    + rewrite remote_events_app. cbn. now rewrite app_nil_r.
    + intros i l Hi. apply (J11 i l). rewrite sync_part_app in Hi. apply in_app_or in Hi as [Hi|[]]. exact Hi.
    + rewrite local_part_snoc. congruence.
    + rewrite current_snoc. cbn [again]. rewrite sync_part_snoc, app_nil_r. exact J13.
    + apply restarts_snoc; [discriminate|exact J14].
  - rewrite remote_snoc, near_snoc, since_snoc in *. cbn [lost remote_part near_part client_part flat_map app] in *. rewrite ?app_nil_r in *.
    specialize (IH CA EA KA CB EB (restarts_ok_snoc _ _ _ _ RO)).
    destruct IH as (tr' & y & J). exists (tr' ++ [RAgain]), (renew sv y). destruct J as [J1 J2 J3 J4 J5 J6 J7 J8 J9 J10 J11 J12 J13 J14].
    constructor; cbn [renew r_stored r_top r_lag r_req r_resp]; auto.
    + now apply replica_again.
    + discriminate.
    + split; reflexivity.
    + rewrite so_far_app. cbn. now rewrite app_nil_r.
    + rewrite remote_events_app. cbn. now rewrite app_nil_r.
    + intros i l Hi. apply (J11 i l). rewrite sync_part_app in Hi. apply in_app_or in Hi as [Hi|[]]. exact Hi.
    + rewrite local_part_snoc, app_nil_r. exact J12.
    + rewrite current_snoc. reflexivity.
    + apply restarts_snoc; [discriminate|exact J14].
  - rewrite remote_snoc, near_snoc, since_snoc in *. cbn [lost remote_part near_part client_part flat_map app] in *. rewrite ?app_nil_r in *.
    destruct (ok_app _ _ _ CA EA) as [[CA1 EA1] EA2]. specialize (IH CA1 EA1 (kept_app _ _ _ KA) CB EB (restarts_ok_snoc _ _ _ _ RO)).
    destruct IH as (tr' & y & J). pose proof (pair_far _ _ _ _ _ _ _ H CA1 EA1) as HF. cbn [d_remote] in HF. assert (r = Quiet) as -> by (eapply reopen_quiet; eauto).
    eapply joint_restart; [exact HF|exact J|exact CB|exact EB|intros l e E; exact (RO tr cf [] eq_refl l e E)|exact He].
Qed.
