(** A local server that follows a remote one: the properties. *)
From Coq Require Import String Bool ZArith Arith Lia Sorted List.
From Verif Require Import Base Kv Model_Types Model_Subscription Model_Codec Keys Spec_Order Proof_Order Model_Lmdb Model_LmdbSys
  Spec_Lmdb Spec_LmdbContent Proof_Lmdb3 Proof_Lmdb8 Proof_Lmdb9 Proof_Lmdb10 Proof_Service Proof_Service2
  Model_Sync Spec_Sync Proof_Sync Proof_Sync2 Proof_Sync3 Proof_Sync4 Proof_Sync5 Proof_Sync6 Model_Replica Spec_Replica Proof_Replica Proof_Replica2 Proof_Replica3 Proof_Replica4.
Import ListNotations.
Open Scope string_scope.
Open Scope list_scope.
Open Scope nat_scope.

(** ** Where the copy comes from *)
Lemma src_run : forall O cf sv tr y s, replicated O cf sv tr y s -> restarts_safe tr ->
    (exists L, sync_run sv L (viewed tr) y) /\ forall en, In en (hist cf tr) -> srv (en_ev en) = sv -> In (en_ev en) (call (viewed tr)).
Proof.
  intros O cf sv tr y s (H & HC & HE) Hsafe.
  induction H as [s H0|tr y s o l y' xs s' H IH Hx Hr Hm|tr y s o x s' H IH Hx Hb Ho|tr y s H IH|tr y s H IH].
  - split; [exists (Eid sv 0 0); constructor|intros en []].
  - apply safe_pre in Hsafe as [Hsafe Hre]. rewrite local_part_snoc in HC, HE. rewrite confs_of_app in HC. rewrite ev_app in HE. inversion HC as [|? ? C1 C2]; subst. apply Forall_app in C2 as [C2 _]. apply Forall_app in HE as [E1 E2].
    assert (HRep : replicated O cf sv tr y s) by (split; [exact H|split; [now constructor|exact E1]]).
    destruct (IH (Forall_cons _ C1 C2) E1 Hsafe) as ((L & I1) & I2). pose proof (replica_exec _ _ _ _ _ _ HRep) as HX.
    destruct (register_all _ _ _ _ _ _ _ HX Hr Hm E2) as (_ & _ & HH & _ & _). rewrite <- given_batches in HH.
    assert (HR' : exists L', sync_run sv L' (viewed (tr ++ [RSync (o, l) xs])) y').
    { rewrite viewed_snoc. cbn [view1]. destruct (y_phase y) eqn:E;
        try (exists L; econstructor; [exact I1|]; rewrite (yexec_any sv L (get_last_event_id (m_sys (s_mem s)) sv)); auto; intros ->; unfold yexec in Hx; rewrite E in Hx; discriminate).
      exists (get_last_event_id (m_sys (s_mem s)) sv). econstructor; [eapply phase_any; eauto|exact Hx]. }
    split; [exact HR'|]. intros en Hen Hs. unfold hist in Hen. rewrite local_part_snoc, HH in Hen. apply in_app_or in Hen as [Hen|Hen].
    + rewrite viewed_snoc. cbn [view1]. rewrite call_snoc. apply in_or_app. auto.
    + apply take_in in Hen. destruct HR' as (L' & HR'). eapply given_call; [exact HR'|]. rewrite viewed_snoc. cbn [view1]. rewrite given_snoc. apply in_or_app. auto.
  - apply safe_pre in Hsafe as [Hsafe Hre]. rewrite local_part_snoc in HC, HE. rewrite confs_of_app in HC. rewrite ev_app in HE. inversion HC as [|? ? C1 C2]; subst. apply Forall_app in C2 as [C2 _]. apply Forall_app in HE as [E1 E2].
    destruct (IH (Forall_cons _ C1 C2) E1 Hsafe) as (I1 & I2). rewrite viewed_snoc. cbn [view1]. split; [exact I1|]. intros en Hen Hs. unfold hist in Hen. rewrite local_part_snoc in Hen.
    unfold watch_run in Hen. rewrite fold_left_app in Hen. apply entries_from in Hen as [Hen|Hen]; [now apply I2|]. exfalso. cbn in Hen. rewrite app_nil_r in Hen.
    destruct o; try (now destruct Hen). cbn in Hb. rewrite Forall_forall in Hb. exact (Hb _ Hen Hs).
  - apply safe_pre in Hsafe as [Hsafe Hre]. rewrite local_part_snoc, app_nil_r in HC, HE. destruct (IH HC HE Hsafe) as ((L & I1) & I2). rewrite viewed_snoc. cbn [view1]. split; [exists L; exact (alone_run _ _ L _ _ I1)|].
    intros en Hen Hs. unfold hist in Hen. rewrite local_part_snoc, app_nil_r in Hen. rewrite alone_call. now apply I2.
  - apply safe_pre in Hsafe as [Hsafe Hre]. rewrite local_part_snoc, app_nil_r in HC, HE. destruct (IH HC HE Hsafe) as ((L & I1) & I2). rewrite viewed_snoc. cbn [view1]. split.
    { exists L. rewrite (stored_top_safe sv tr (Hre eq_refl)), <- viewed_call, <- (top_last _ _ _ _ I1). exact (relag_run _ _ L _ _ I1). }
    intros en Hen Hs. unfold hist in Hen. rewrite local_part_snoc, app_nil_r in Hen. rewrite relag_call. now apply I2.
Qed.

Lemma hist_filter : forall sv H, hist_ok H -> increasing (filter (fun e => Z.eqb (eid_server (ev_id e)) sv) (map en_ev H)).
Proof.
  intros sv H. induction H as [|en H IH] using rev_ind; intros Hk; [constructor|]. apply hist_ok_snoc in Hk as [Hk Ha]. rewrite map_app, filter_app. cbn [map filter].
  destruct (Z.eqb_spec (eid_server (ev_id (en_ev en))) sv) as [E|E]; [|rewrite app_nil_r; auto]. apply increasing_app; [auto|repeat constructor|].
  intros a b Hia [<-|[]]. apply filter_In in Hia as [Hia Es]. apply Z.eqb_eq in Es. apply in_map_iff in Hia as (x & <- & Hx). apply goes_follows in Ha. eapply follows_in; eauto. congruence.
Qed.

Lemma final_C73_only : forall O cf sv tr y s, replicated O cf sv tr y s -> restarts_safe tr ->
    increasing (copy cf sv tr) /\ increasing (remote_events tr) /\ forall e, In e (copy cf sv tr) -> In e (remote_events tr).
Proof.
  intros O cf sv tr y s H HS. destruct (src_run _ _ _ _ _ _ H HS) as ((L & H1) & H2). split; [|split].
  - apply hist_filter. eapply all_ok. eapply execution_inv. eapply replica_exec; eauto.
  - rewrite <- viewed_call. apply (n_inc _ _ _ (ynote_run _ _ _ _ H1)).
  - intros e He. apply filter_In in He as [He Es]. apply Z.eqb_eq in Es. apply in_map_iff in He as (en & <- & Hen). rewrite <- viewed_call. now apply H2.
Qed.

(** ** No gaps *)
Lemma final_C73_behind : forall O cf sv tr y s, replicated O cf sv tr y s -> restarts_safe tr -> timely (remote_events tr) ->
    forall e, persisted (sync_part tr) e -> ~ removed (sync_part tr) e -> taken cf tr e ->
    eid_leb (ev_id e) (get_last_event_id (m_sys (s_mem s)) sv) = true -> have cf tr e.
Proof.
  intros O cf sv tr y s H HS Ht e Hp Hr Hk Hl. destruct (rinv_run _ _ _ _ _ _ H HS Ht) as (L & V).
  assert (K : kept (viewed tr) e) by (apply viewed_kept; split; auto).
  destruct (last_here _ _ _ _ _ _ _ _ _ (replica_exec _ _ _ _ _ _ H) (v_run _ _ _ _ _ V) K Hl) as (en & E1 & E2 & E3).
  exact (v_inv _ _ _ _ _ V e en K Hk E1 E2 E3).
Qed.

Lemma final_C73_disk : forall O cf sv tr y s, replicated O cf sv tr y s -> restarts_safe tr -> timely (remote_events tr) ->
    forall e en, persisted (sync_part tr) e -> ~ removed (sync_part tr) e -> taken cf tr e ->
    In en (w_disk (watch_run cf (local_part tr))) -> eid_server (ev_id (en_ev en)) = sv -> eid_leb (ev_id e) (ev_id (en_ev en)) = true ->
    exists en', In en' (w_disk (watch_run cf (local_part tr))) /\ en_ev en' = e.
Proof.
  intros O cf sv tr y s H HS Ht e en Hp Hr Hk Hen Hs Hl. destruct (rinv_run _ _ _ _ _ _ H HS Ht) as (L & V).
  assert (K : kept (viewed tr) e) by (apply viewed_kept; split; auto).
  assert (Hall : In en (hist cf tr)) by (unfold hist, w_all; apply in_or_app; auto).
  destruct (v_inv _ _ _ _ _ V e en K Hk Hall Hs Hl) as (en' & I1 & I2). unfold hist, w_all in I1. apply in_app_or in I1 as [I1|I1]; [eauto|]. exfalso.
  pose proof (all_ok _ _ (execution_inv _ _ _ _ (replica_exec _ _ _ _ _ _ H))) as Hok. unfold w_all in Hok.
  destruct (call_sv _ _ _ _ _ (v_run _ _ _ _ _ V) (kept_call _ _ K)) as [S1 _].
  assert (X : eid_ltb (ev_id (en_ev en)) (ev_id (en_ev en')) = true) by (eapply later_above; eauto; rewrite I2; unfold srv in *; congruence).
  rewrite I2 in X. exact (ltb_irr _ _ X Hl).
Qed.

(** ** Finished connections *)
Lemma finished_started : forall sv L tr s, sync_run sv L tr s -> finished tr -> y_phase s <> PNew.
Proof.
  intros sv L tr s H (n & Hn) E. assert (Hp : y_phase s <> PEnd) by congruence.
  assert (Hd : y_phase s = PDone) by (eapply finished_done; eauto; exists n; exact Hn). congruence.
Qed.

Lemma final_C73_all : forall O cf sv tr y s, replicated O cf sv tr y s -> restarts_safe tr -> timely (remote_events tr) -> finished (sync_part (current tr)) ->
    forall e, persisted (sync_part tr) e -> ~ removed (sync_part tr) e -> taken cf tr e -> ~ waiting y e -> have cf tr e.
Proof.
  intros O cf sv tr y s H HS Ht Hf e Hp Hr Hk Hw. destruct (rinv_run _ _ _ _ _ _ H HS Ht) as (L & V). pose proof (v_run _ _ _ _ _ V) as R.
  assert (Hf' : finished (viewed tr)) by (destruct Hf as (n & Hf); exists n; now rewrite viewed_told).
  assert (K : kept (viewed tr) e) by (apply viewed_kept; split; auto).
  destruct (v_beg _ _ _ _ _ V (finished_started _ _ _ _ R Hf') e K Hk) as [Hfr|Hh]; [|exact Hh].
  apply (v_acc _ _ _ _ _ V); auto. destruct K as [(b & B1 & B2) K2]. eapply (final_C41_all _ _ _ _ R Hf' b); eauto.
  pose proof (ynote_run _ _ _ _ R) as N. assert (Hb : In (batch b) (map batch (commits (viewed tr)))) by now apply in_map.
  rewrite (n_all _ _ _ N), (n_sent _ _ _ N) in Hb. rewrite !in_app_iff in *. destruct Hb as [Hb|[[Hb|Hb]|Hb]]; auto; exfalso; apply Hw; exists (batch b);
    (split; [unfold batch; apply in_map_iff; exists (e, true); auto|]); [right|now left].
  unfold notes_of in Hb. apply in_flat_map in Hb as (m & M1 & M2). destruct m; [|destruct M2]. destruct M2 as [->|[]]. exact M1.
Qed.

Lemma final_C73_synced : forall O cf sv tr y s, replicated O cf sv tr y s -> restarts_safe tr -> timely (remote_events tr) -> finished (sync_part (current tr)) ->
    exists a k es xs b, tr = a ++ RSync (RQuery k, [Answered (QRes es false)]) xs :: b /\ existsb again b = false /\
      forall e, persisted (sync_part a) e -> ~ removed (sync_part tr) e -> taken cf tr e -> have cf tr e.
Proof.
  intros O cf sv tr y s H HS Ht Hf. destruct (rinv_run _ _ _ _ _ _ H HS Ht) as (L & V). pose proof (v_run _ _ _ _ _ V) as R.
  assert (Hf' : finished (viewed tr)) by (destruct Hf as (n & Hf); exists n; now rewrite viewed_told).
  destruct (final_C41_synced _ _ _ _ R Hf') as (X & k & es & Z & E & HG).
  destruct (viewed_split _ _ _ (QRes es false) _ E) as (a & xs & b & E1 & E2 & E3); [now left|].
  exists a, k, es, xs, b. split; [exact E1|]. split; [exact E2|]. intros e Hp Hr Hk.
  assert (PX : persisted X e) by (rewrite <- E3; unfold persisted; rewrite viewed_commits; exact Hp).
  assert (RX : ~ removed X e) by (intros (l & Hl); apply Hr; apply viewed_removed; exists l; rewrite E; apply in_or_app; auto).
  assert (K : kept (viewed tr) e).
  { apply viewed_kept. split; [|exact Hr]. destruct Hp as (c & C1 & C2). exists c. split; [|exact C2]. rewrite E1. unfold sync_part. rewrite flat_map_app. unfold commits. rewrite flat_map_app. apply in_or_app. left. exact C1. }
  destruct (v_beg _ _ _ _ _ V (finished_started _ _ _ _ R Hf') e K Hk) as [Hfr|Hh]; [|exact Hh].
  apply (v_acc _ _ _ _ _ V); auto. eapply gives_given; [exact R|]. apply HG; auto.
Qed.
