(** Two servers that are left alone: while they are not at rest, one of them
    can go on. *)
From Coq Require Import String Bool ZArith Arith Lia Sorted Permutation List.
From Verif Require Import Base Kv Model_Types Model_Codec Keys Spec_Order Proof_Order Model_Lmdb Model_LmdbSys Spec_Lmdb Spec_LmdbContent Spec_LmdbQuery
  Proof_Lmdb3 Proof_Lmdb4 Proof_Lmdb5 Proof_Lmdb7 Proof_Lmdb8 Proof_Lmdb9 Proof_Lmdb10 Proof_Lmdb12 Proof_Lmdb13 Proof_Lmdb14 Proof_Lmdb15 Model_LmdbFlush Spec_LmdbFlush Proof_LmdbFlush Proof_LmdbFlush3 Proof_LmdbFlush4
  Model_Sync Spec_Sync Proof_Sync Proof_Sync2 Proof_Sync3 Proof_Sync4 Proof_Sync5 Proof_Sync6 Model_Replica Spec_Replica Proof_Replica Proof_Replica2 Proof_Replica3 Proof_Replica4 Proof_Replica5
  Model_Pair Spec_Pair Proof_Pair Proof_Pair2 Proof_Pair3 Proof_Pair4 Proof_Pair5 Proof_Pair6 Proof_Pair7 Proof_Pair8 Proof_Reach Spec_Converge Proof_Converge Proof_Converge2 Proof_Converge3.
Import ListNotations.
Open Scope list_scope.
Open Scope nat_scope.

(** ** Batches are accepted by the local backend *)

Lemma register_total : forall O cf tr s es, execution O cf tr s -> Forall event_ok es -> exists s', exec O s (ORegister es) = Some (s', Quiet).
Proof.
  intros O cf tr s es HX Hev. pose proof (execution_inv _ _ _ _ HX) as [I1 I2 I3 I4 (pls & I5) I6 I7 I8]. set (w := watch_run cf tr) in *.
  pose proof (chain_repr _ _ _ _ _ I3 I4) as Hr.
  assert (Hpk : parts_known (written (s_disk s) (flushes (s_jobs s))) (w_conf w)) by (intros pt Hpt; rewrite written_parts; auto).
  assert (Hall : w_all w = (w_disk w ++ concat (w_queue w)) ++ w_cur w) by (unfold w_all; now rewrite app_assoc). rewrite Hall in I6.
  destruct (register_events_spec (w_conf w) es _ _ _ _ _ _ _ Hr I5 I6 I2 Hpk Hev) as (m' & c' & pls' & E & _). cbn [exec]. rewrite I1, E. eauto.
Qed.

Lemma yexec_last0 : forall sv L L' y o, o <> YBegin -> yexec sv L y o = yexec sv L' y o.
Proof. intros sv L L' y o H. unfold yexec. destruct (y_phase y); try reflexivity; destruct o; try reflexivity; congruence. Qed.

Lemma given_in_gives : forall w es l, In es (gives_in w l) -> incl es (given_in l).
Proof.
  intros w es l H e He. unfold gives_in in H. apply in_flat_map in H as (x & X1 & X2). unfold given_in. apply in_flat_map. exists x. split; [exact X1|].
  destruct x as [w' es'| | | | | |]; try (now destruct X2). destruct w, w'; cbn in X2; try (now destruct X2); destruct X2 as [<-|[]]; exact He.
Qed.

Lemma batches_ok : forall OA OB cfA cfB sv tr st, paired OA OB cfA cfB sv tr st -> restarts_ok cfA sv tr ->
    forall o c' l, client_op o = true -> yexec sv (get_last_event_id (m_sys (s_mem (d_local st))) sv) (d_client st) o = Some (c', l) ->
    batches_in l = [] \/ exists es, batches_in l = [es] /\ Forall event_ok es.
Proof.
  intros * HPR RO o c' l Ho Hy. pose proof HPR as (HP & PO & CA & EA & KA & CB & EB). destruct (pair_joint _ _ _ _ _ _ _ HP PO CA EA KA CB EB RO) as (tr' & y & J).
  destruct (batches_one _ _ _ _ _ _ Hy) as [->|(Hn & w & es & E1 & E2)]; [now left|right]. exists es. split; [exact E1|].
  assert (NB : o <> YBegin).
  { intros ->. unfold yexec in Hy. destruct (y_phase (d_client st)), (r_up (d_client st)); try discriminate; injection Hy as <- <-; discriminate. }
  pose proof (j_rep _ _ _ _ _ _ _ _ _ _ _ _ _ _ J) as J1. pose proof (j_cl _ _ _ _ _ _ _ _ _ _ _ _ _ _ J) as J2. pose proof (j_q _ _ _ _ _ _ _ _ _ _ _ _ _ _ J) as J4.
  pose proof (j_end _ _ _ _ _ _ _ _ _ _ _ _ _ _ J) as J10. pose proof (j_loc _ _ _ _ _ _ _ _ _ _ _ _ _ _ J) as J12. pose proof (j_safe _ _ _ _ _ _ _ _ _ _ _ _ _ _ J) as J14.
  assert (RP : replicated OB cfB sv tr' y (d_local st)) by (split; [exact J1|rewrite J12; auto]).
  assert (X : exists y', yexec sv (get_last_event_id (m_sys (s_mem (d_local st))) sv) y o = Some (y', l)).
  { destruct (d_query st) as [q|].
    - destruct J4 as (A1 & A2 & last & max & g & A3 & A4).
      assert (PA : y_phase (d_client st) = PAsk).
      { replace (y_phase (d_client st)) with (y_phase y) by (rewrite J2; reflexivity). apply (ask_phase OB cfB sv tr' y (d_local st)); auto; [exact (joint_phase _ _ _ _ _ _ _ _ _ _ _ _ _ _ J)|].
        destruct A4 as [(_ & B & _)|(es' & res & _ & _ & _ & B)]; rewrite B; [left|right]; discriminate. }
      assert (Hm' : mild_op o = true).
      { destruct o; try discriminate Ho; try reflexivity; exfalso; unfold yexec in Hy; rewrite PA in Hy; try discriminate. rewrite A2 in Hy. discriminate. }
      destruct (put_keep _ _ _ y _ _ _ (r_req y) (r_resp y) Hm' Hy) as (B1 & B2 & B3). rewrite <- J2 in B1. eauto.
    - destruct J4 as [A1 A2]. rewrite A1, A2 in J2. pose proof (put_yexec _ _ _ y _ _ _ Ho Hy) as B. rewrite <- J2 in B. eauto. }
  destruct X as (y' & X). destruct (src_run _ _ _ _ _ _ RP J14) as [[L HR] _]. rewrite (yexec_last0 _ _ L) in X by exact NB.
  assert (HR' : sync_run sv L (viewed tr' ++ [(o, l)]) y') by (econstructor; eauto).
  apply Forall_forall. intros e He. assert (G : In e (given (viewed tr' ++ [(o, l)]))).
  { rewrite given_snoc. apply in_or_app. right. eapply given_in_gives; eauto. }
  apply (given_call _ _ _ _ _ HR') in G. rewrite call_snoc in G.
  assert (G' : In e (call (viewed tr'))).
  { apply in_app_or in G as [G|G]; [exact G|]. destruct o; try (now destruct G). now destruct (Hn b). }
  rewrite viewed_call, J10 in G'. apply own_In in G' as [G' _]. pose proof (pair_far _ _ _ _ _ _ _ HP CA EA) as HF.
  rewrite Forall_forall in EA. apply EA. eapply subseq_In; [exact (fa_sub _ _ _ _ HF)|]. apply in_or_app. now left.
Qed.

Lemma client_can : forall OA OB cfA cfB sv tr st, paired OA OB cfA cfB sv tr st -> restarts_ok cfA sv tr ->
    forall o c' l, client_op o = true -> yexec sv (get_last_event_id (m_sys (s_mem (d_local st))) sv) (d_client st) o = Some (c', l) ->
    exists xs st', paired OA OB cfA cfB sv (tr ++ [DClient (o, l) xs]) st'.
Proof.
  intros * HPR RO o c' l Ho Hy. pose proof (batches_ok _ _ _ _ _ _ _ HPR RO _ _ _ Ho Hy) as HB. pose proof (near_exec _ _ _ _ _ _ _ HPR) as NX.
  assert (R : exists xs s', runs OB (d_local st) xs s' /\ map fst xs = map ORegister (batches_in l) /\ confs_of xs = [] /\ Forall event_ok (events_of xs)).
  { destruct HB as [E|(es & E & Hes)]; rewrite E.
    - exists [], (d_local st). repeat split; constructor.
    - destruct (register_total _ _ _ _ _ NX Hes) as (s' & X). exists [(ORegister es, Quiet)], s'. split; [eapply runs_cons; [exact X|constructor]|]. split; [reflexivity|]. split; [reflexivity|].
      cbn [events_of flat_map fst]. now rewrite app_nil_r. }
  destruct R as (xs & s' & R1 & R2 & R3 & R4). destruct HPR as (HP & PO & CA & EA & KA & CB & EB). destruct st as [F top q us c s]. cbn [d_client d_local] in *.
  exists xs, (PState F top q us c' s'). split; [eapply pair_client; eauto|]. rewrite remote_snoc, near_snoc. cbn [remote_part near_part flat_map]. rewrite !app_nil_r.
  repeat (split; [assumption|]). rewrite confs_of_app, events_of_app, R3, app_nil_r. split; [exact CB|]. apply Forall_app. auto.
Qed.

(** ** The server of the client's last id *)

Lemma eid_last0 : forall O cf tr s sv, execution O cf tr s -> eid_server (get_last_event_id (m_sys (s_mem s)) sv) = sv.
Proof.
  intros O cf tr s sv HX. pose proof (execution_inv _ _ _ _ HX) as [I1 I2 I3 I4 (pls & I5) I6 I7 I8].
  pose proof (chain_repr _ _ _ _ _ I3 I4) as Hr. destruct (pendH_spec _ _ _ _ _ _ Hr I5) as (_ & _ & Hrc).
  unfold w_all in I6. rewrite app_assoc in I6. rewrite (last_own _ _ _ _ _ sv I6 Hrc).
  destruct (own sv (map en_ev ((w_disk (watch_run cf tr) ++ concat (w_queue (watch_run cf tr))) ++ w_cur (watch_run cf tr)))) as [|e es] eqn:E; [reflexivity|].
  destruct (last_id_in (Eid sv 0 0) (e :: es)) as (x & Hx & ->); [discriminate|]. rewrite <- E in Hx. now apply own_In in Hx.
Qed.

Lemma last_id_sv : forall sv i es, eid_server i = sv -> Forall (fun e => eid_server (ev_id e) = sv) es -> eid_server (last_id i es) = sv.
Proof.
  intros sv i es Hi Hs. destruct es as [|e es]; [exact Hi|]. destruct (last_id_in i (e :: es)) as (x & Hx & ->); [discriminate|]. rewrite Forall_forall in Hs. auto.
Qed.

Lemma turn_last : forall x, y_last (fst (drain x)) = y_last x /\ y_last (fst (next x)) = y_last x /\ y_last (fst (Model_Sync.sessions x)) = y_last x.
Proof.
  intros x. assert (D : y_last (fst (drain x)) = y_last x) by (unfold drain; destruct (next_queued _ _) as [[]|]; reflexivity).
  assert (N : y_last (fst (next x)) = y_last x) by (unfold next; destruct (y_more x); [reflexivity|]; destruct (y_ev x); [exact D|reflexivity]).
  split; [exact D|]. split; [exact N|]. unfold Model_Sync.sessions. destruct (y_ev x); [exact N|]. cbv zeta. destruct (Z.eqb _ _); [exact N|reflexivity].
Qed.

Lemma advance_last : forall x, y_last (fst (advance x)) = last_id (y_last x) (y_ev x).
Proof. intros x. unfold advance. destruct (turn_last (y_set x (y_phase x) (y_ev x) (last_id (y_last x) (y_ev x)) (y_queue x))) as (_ & _ & ->). reflexivity. Qed.

Lemma client_sv : forall sv L U query c o c' l, shape sv U query c -> eid_server (y_last c) = sv -> eid_server L = sv -> yexec sv L c o = Some (c', l) -> eid_server (y_last c') = sv.
Proof.
  intros sv L U query c o c' l [_ S2 _] Hc HL H.
  assert (AD : forall x y l0, (y, l0) = advance x -> eid_server (y_last x) = sv -> Forall (fun e => eid_server (ev_id e) = sv) (y_ev x) -> eid_server (y_last y) = sv).
  { intros x y l0 E E1 E2. replace y with (fst (advance x)) by (rewrite <- E; reflexivity). rewrite advance_last. now apply last_id_sv. }
  assert (SE : forall x y l0, (y, l0) = Model_Sync.sessions x -> eid_server (y_last x) = sv -> eid_server (y_last y) = sv).
  { intros x y l0 E E1. replace y with (fst (Model_Sync.sessions x)) by (rewrite <- E; reflexivity). destruct (turn_last x) as (_ & _ & ->). exact E1. }
  assert (DR : forall x y l0, (y, l0) = drain x -> eid_server (y_last x) = sv -> eid_server (y_last y) = sv).
  { intros x y l0 E E1. replace y with (fst (drain x)) by (rewrite <- E; reflexivity). destruct (turn_last x) as (-> & _ & _). exact E1. }
  apply Forall_app in S2 as [S2 S3].
  unfold yexec in H. destruct (y_phase c) eqn:P; try discriminate; destruct o; try discriminate;
    repeat match type of H with
    | (if ?b then _ else _) = _ => destruct b; try discriminate
    | match r_lag c with _ => _ end = _ => destruct (r_lag c); try discriminate
    | match r_req c with _ => _ end = _ => destruct (r_req c); try discriminate
    | match r_resp c with _ => _ end = _ => destruct (r_resp c); try discriminate
    | match r_chan c with _ => _ end = _ => destruct (r_chan c) as [|[]]; try discriminate
    | match y_queue c with _ => _ end = _ => destruct (y_queue c); try discriminate
    end; try (injection H as <- <-; cbn; first [exact Hc|exact HL]); try (injection H as H; symmetry in H).
  all: try (eapply AD; [exact H| |]; cbn; first [exact Hc|exact S2|idtac]).
  all: try (eapply SE; [exact H|]; exact Hc).
  all: try (eapply DR; [exact H|]; exact Hc).
  all: apply Forall_app; auto.
Qed.

Lemma notice_last : forall sv c l, y_last (notice sv c l) = y_last c.
Proof. intros sv c [|[b|] [|]]; try reflexivity. cbn. destruct (own sv b); [reflexivity|]. destruct (r_up c); reflexivity. Qed.

Lemma returned_last : forall q o xs c c' q', returned q o xs c = (c', q') -> y_last c' = y_last c.
Proof.
  intros q o xs c c' q' H. unfold returned in H. destruct q as [n|]; [|now injection H as <- <-]. destruct o as [| | | | | |p| | | | | | | |]; try (now injection H as <- <-).
  destruct p; try (now injection H as <- <-). destruct xs as [|[p' r] [|]]; try (now injection H as <- <-); destruct r; try (now injection H as <- <-).
  destruct (Nat.eqb n q); now injection H as <- <-.
Qed.

Lemma ok_snoc : forall OA OB cfA cfB sv tr x, Forall conf_ok (cfA :: confs_of (remote_part (tr ++ [x]))) -> Forall event_ok (events_of (remote_part (tr ++ [x]))) ->
    conditions_kept (cfA :: confs_of (remote_part (tr ++ [x]))) -> Forall conf_ok (cfB :: confs_of (near_part (tr ++ [x]))) -> Forall event_ok (events_of (near_part (tr ++ [x]))) ->
    pick_ok OA -> forall st, pair OA OB cfA cfB sv tr st -> paired OA OB cfA cfB sv tr st.
Proof.
  intros * CA EA KA CB EB PO st H. split; [exact H|]. split; [exact PO|]. rewrite remote_snoc in *. rewrite near_snoc in *.
  destruct (ok_app _ _ _ CA EA) as [[CA1 EA1] _]. destruct (ok_app _ _ _ CB EB) as [[CB1 EB1] _]. pose proof (kept_app _ _ _ KA). auto.
Qed.

Lemma pair_last : forall OA OB cfA cfB sv tr st, paired OA OB cfA cfB sv tr st -> restarts_ok cfA sv tr -> eid_server (y_last (d_client st)) = sv.
Proof.
  intros * (H & PO & CA & EA & KA & CB & EB) RO. revert CA EA KA CB EB RO.
  induction H as [a b Ha Hb|tr F top q us c s o xs l F' c' q' H IH He Hu Hr|tr F top us c s last q x H IH Hq Hn He
    |tr F top q us c s o l c' xs s' H IH Ho Hy Hr Hm|tr F top q us c s o x s' H IH He Hb Hr|tr F top q us c s H IH|tr F top q us c s cf x r H IH He];
    intros CA EA KA CB EB RO; [reflexivity|..];
    pose proof (ok_snoc _ _ _ _ _ _ _ CA EA KA CB EB PO _ H) as HP; pose proof (restarts_ok_snoc _ _ _ _ RO) as RO'; pose proof HP as (_ & _ & CA1 & EA1 & KA1 & CB1 & EB1);
    specialize (IH CA1 EA1 KA1 CB1 EB1 RO'); cbn [d_client] in *; try reflexivity; try exact IH.
  - rewrite (returned_last _ _ _ _ _ _ Hr), notice_last. exact IH.
  - eapply client_sv; [exact (pair_shape _ _ _ _ _ _ _ HP RO')|exact IH| |exact Hy]. exact (eid_last0 _ _ _ _ _ (near_exec _ _ _ _ _ _ _ HP)).
Qed.

Lemma req_last : forall OA OB cfA cfB sv tr st last, paired OA OB cfA cfB sv tr st -> restarts_ok cfA sv tr -> r_req (d_client st) = Some last -> eid_server last = sv /\ d_query st = None.
Proof.
  intros * HP RO Hr. pose proof (pair_last _ _ _ _ _ _ _ HP RO) as HL. destruct (pair_shape _ _ _ _ _ _ _ HP RO) as [_ _ S]. unfold nothing in S.
  destruct (y_phase (d_client st)); try (exfalso; destruct S as [S _]; try destruct S as (_ & S & _); destruct S as (S1 & S2 & S3); congruence); try (exfalso; destruct S as (S1 & S2 & S3); congruence).
  - exfalso. destruct S as ((_ & S & _) & _). congruence.
  - exfalso. destruct S as ((_ & S & _) & _). congruence.
  - destruct S as (_ & [(S1 & S2 & _)|[(_ & S2 & _)|(_ & S2 & _)]]); try congruence. split; congruence.
  - exfalso. destruct S as ((_ & S & _) & _). congruence.
  - exfalso. destruct S as ((_ & S & _) & _). congruence.
  - exfalso. destruct S as ((_ & S & _) & _). congruence.
  - exfalso. destruct S as ((_ & S & _) & _). congruence.
  - destruct S.
Qed.
