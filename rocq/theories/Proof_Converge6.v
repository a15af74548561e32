(** Two servers that are left alone: what C76 says. *)
From Coq Require Import String Bool ZArith Arith Lia Sorted Permutation List.
From Verif Require Import Base Kv Model_Types Model_Codec Keys Spec_Order Proof_Order Model_Lmdb Model_LmdbSys Spec_Lmdb Spec_LmdbContent Spec_LmdbQuery
  Proof_Lmdb3 Proof_Lmdb4 Proof_Lmdb7 Proof_Lmdb8 Proof_Lmdb9 Proof_Lmdb10 Proof_Lmdb12 Proof_Lmdb13 Proof_Lmdb14 Proof_Lmdb15 Model_LmdbFlush Spec_LmdbFlush Proof_LmdbFlush Proof_LmdbFlush3 Proof_LmdbFlush4
  Model_Sync Spec_Sync Proof_Sync Proof_Sync2 Proof_Sync3 Proof_Sync4 Proof_Sync5 Proof_Sync6 Model_Replica Spec_Replica Proof_Replica Proof_Replica2 Proof_Replica3 Proof_Replica4 Proof_Replica5
  Model_Pair Spec_Pair Proof_Pair Proof_Pair2 Proof_Pair3 Proof_Pair4 Proof_Pair5 Proof_Pair6 Proof_Pair7 Proof_Pair8 Proof_Reach Spec_Converge Proof_Converge Proof_Converge2 Proof_Converge3 Proof_Converge4 Proof_Converge5.
Import ListNotations.
Open Scope list_scope.
Open Scope nat_scope.

Lemma rest_restful : forall OA OB cfA cfB sv tr st, paired OA OB cfA cfB sv tr st -> restarts_ok cfA sv tr -> at_rest OA OB cfA cfB sv tr st -> restful st.
Proof. intros * HP RO HA. destruct (progress _ _ _ _ _ _ _ HP RO) as [(x & st' & X & Y)|R]; [now destruct (HA _ _ X)|exact R]. Qed.

Lemma restful_rest : forall OA OB cfA cfB sv tr st, paired OA OB cfA cfB sv tr st -> restful st -> at_rest OA OB cfA cfB sv tr st.
Proof.
  intros * (HP & _) (R1 & R2 & R3 & R4 & R5 & R6 & R7 & R8 & R9) x st' (HX & _) HO. destruct (pair_snoc _ _ _ _ _ _ _ _ HX) as (s1 & H1 & HG).
  rewrite (pair_fun _ _ _ _ _ _ _ H1 _ HP) in HG. clear HX H1 HP.
  destruct HG as [F top q us c s o xs l F' c' q' He Hu Hr|F top us c s last q y Hq Hn He|F top q us c s o l c' xs s' Ho Hy Hr Hm|st x st' Hn]; cbn [d_remote d_client] in *; [| | |now destruct (Hn HO)].
  - destruct R3 as [(L1 & L2 & L3 & L4)|(L1 & L2)]; destruct o as [| | | | | |p| | | | | | | |]; cbn [of_itself d_remote] in HO; try (now destruct HO);
      cbn [fexec] in He; rewrite ?L1, ?L4 in He; try discriminate; try (destruct HO; congruence).
    + destruct p; try (now destruct HO); try congruence. cbn [other exec] in He. rewrite R2 in He. discriminate.
    + destruct p; try (now destruct HO); try congruence. cbn [other exec] in He. rewrite R2 in He. discriminate.
    + destruct (f_open F); discriminate.
  - congruence.
  - unfold yexec in Hy. rewrite R4 in Hy. destruct o; try discriminate Ho; try discriminate Hy.
    + rewrite R9 in Hy. discriminate.
    + rewrite R8 in Hy. discriminate.
    + rewrite R6, R5 in Hy. discriminate.
    + rewrite R6 in Hy. discriminate.
Qed.

Lemma final_C76_rests : forall OA OB cfA cfB sv tr st, paired OA OB cfA cfB sv tr st -> restarts_ok cfA sv tr -> at_rest OA OB cfA cfB sv tr st ->
    finished (client_part (since tr)) /\ (forall e, ~ coming st e) /\ all_written cfA tr.
Proof.
  intros * HP RO HA. destruct (rest_restful _ _ _ _ _ _ _ HP RO HA) as (R1 & R2 & R3 & R4 & R5 & R6 & R7 & R8 & R9). pose proof HP as (HP0 & PO & CA & EA & KA & CB & EB).
  split; [|split].
  - destruct (pair_joint _ _ _ _ _ _ _ HP0 PO CA EA KA CB EB RO) as (tr' & y & [J1 J2 J3 J4 J5 J6 J7 J8 J9 J10 J11 J12 J13 J14]).
    assert (RP : replicated OB cfB sv tr' y (d_local st)) by (split; [exact J1|rewrite J12; auto]). destruct (src_run _ _ _ _ _ _ RP J14) as [[L HR] _].
    assert (PD : y_phase y = PDone) by (rewrite J2; exact R4).
    assert (FI : finished (viewed tr')) by (apply (finished_done _ _ _ _ HR); congruence). unfold finished in *. now rewrite viewed_told, J13 in FI.
  - intros e [(b & B & _)|(b & B & _)]; [|rewrite R5 in B; destruct B]. unfold to_notify in B. destruct R3 as [(L1 & _)|(L1 & _)]; rewrite L1 in B; destruct B.
  - pose proof (pair_far _ _ _ _ _ _ _ HP0 CA EA) as [F1 F2 F3 F4 _]. unfold all_written, w_all.
    assert (RG : f_reg (d_remote st) = []) by (destruct R3 as [(_ & L2 & _)|(_ & L2)]; exact L2). rewrite F2, RG in F3. cbn [concat] in F3.
    assert (CU : w_cur (watch_run cfA (remote_part tr)) = []) by (apply (map_eq_nil en_ev); inversion F3; reflexivity).
    destruct F4 as [[_ Q]|(futs & bs & fin & h & L & _)]; [|exfalso; destruct R3 as [(L1 & _)|(L1 & _)]; congruence]. rewrite CU, Q. cbn [concat]. now rewrite !app_nil_r.
Qed.

(** ** What is accepted does not change *)

Lemma watch_all_same : forall cf A x r, (forall es, x <> ORegister es) -> (forall c, x <> OReopen c) -> w_all (watch_run cf (A ++ [(x, r)])) = w_all (watch_run cf A).
Proof.
  intros cf A x r H1 H2. unfold watch_run. rewrite fold_left_app. cbn [fold_left]. set (w := fold_left watch_step A (watch_start cf)). unfold w_all.
  destruct x; try reflexivity; [now destruct (H1 es)| | |now destruct (H2 cf0)]; cbn [watch_step].
  - cbn [w_disk w_queue w_cur]. rewrite concat_app. cbn [concat]. now rewrite !app_nil_r.
  - destruct r; try reflexivity. cbn [w_disk w_queue w_cur]. destruct (w_queue w) as [|h Q]; cbn [hd tl concat]; rewrite <- ?app_assoc; reflexivity.
Qed.

Lemma step_same : forall OA OB cfA sv tr st x st', dgo OA OB sv st x st' -> of_itself st x ->
    w_all (watch_run cfA (remote_part (tr ++ [x]))) = w_all (watch_run cfA (remote_part tr)) /\ events_of (remote_part (tr ++ [x])) = events_of (remote_part tr) /\
    confs_of (near_part (tr ++ [x])) = confs_of (near_part tr).
Proof.
  intros * HG HO. rewrite remote_snoc, near_snoc, events_of_app, confs_of_app.
  destruct HG as [F top q us c s o xs l F' c' q' He Hu Hr|F top us c s last q y Hq Hn He|F top q us c s o l c' xs s' Ho Hy Hr Hm|st x st' Hn]; [| | |now destruct (Hn HO)];
    cbn [remote_part near_part flat_map]; rewrite ?app_nil_r.
  - destruct (usual_fine _ _ _ _ Hu) as [U1 _].
    destruct (fexec_inner _ _ _ _ _ _ He U1) as [[-> _]|(p & r & -> & _ & [(es & -> & ->)|[[-> ->]|[-> Hp]]])]; [now rewrite !app_nil_r|destruct HO| |].
    + rewrite watch_all_same by discriminate. cbn. now rewrite !app_nil_r.
    + rewrite watch_all_same by (intros ? ->; discriminate Hp). destruct p; try discriminate Hp; cbn; now rewrite !app_nil_r.
  - rewrite watch_all_same by discriminate. auto.
  - split; [reflexivity|]. split; [reflexivity|]. enough (E : confs_of xs = []) by (rewrite E; apply app_nil_r).
    revert Hm. generalize (batches_in l). clear. induction xs as [|[o x] xs IH]; intros bs Hm; [reflexivity|]. destruct bs as [|b bs]; [discriminate|]. cbn in Hm. injection Hm as -> Hm. cbn. eapply IH; eauto.
Qed.

Lemma many_same : forall OA OB cfA cfB sv tr D st', paired OA OB cfA cfB sv (tr ++ D) st' -> undisturbed OA OB cfA cfB sv tr D ->
    w_all (watch_run cfA (remote_part (tr ++ D))) = w_all (watch_run cfA (remote_part tr)) /\ events_of (remote_part (tr ++ D)) = events_of (remote_part tr) /\
    confs_of (near_part (tr ++ D)) = confs_of (near_part tr).
Proof.
  intros * HP HU. revert st' HP. induction D as [|x D IH] using rev_ind; intros st' HP; [rewrite app_nil_r; auto|].
  rewrite app_assoc in *. pose proof HP as (HP1 & _). destruct (pair_snoc _ _ _ _ _ _ _ _ HP1) as (s1 & H1 & HG).
  assert (HX : of_itself s1 x) by (eapply HU; [reflexivity|exact H1]). destruct (step_same _ _ cfA _ (tr ++ D) _ _ _ HG HX) as (-> & -> & ->).
  apply (IH) with (st' := s1); [|eapply paired_pre; eauto].
  intros a' x' b' st1 E' H'. apply (HU a' x' (b' ++ [x]) st1); [|exact H']. now rewrite E', <- app_assoc.
Qed.

Lemma final_C76_converges : forall OA OB cfA cfB sv tr st, paired OA OB cfA cfB sv tr st -> restarts_ok cfA sv tr -> clock_ok sv tr ->
    forall D st', paired OA OB cfA cfB sv (tr ++ D) st' -> undisturbed OA OB cfA cfB sv tr D -> at_rest OA OB cfA cfB sv (tr ++ D) st' ->
    forall e, eid_server (ev_id e) = sv -> to_keep cfA tr D e -> takes cfB tr e -> stored_event (remote_db st') e /\ got cfB (tr ++ D) e.
Proof.
  intros * HP RO CO D st' HP' HU HA e Hs Hk Ht. pose proof (many_less _ _ _ _ _ _ _ RO (proj1 HP) _ _ HP' HU) as RO'.
  destruct (many_same _ _ _ _ _ _ _ _ HP' HU) as (E1 & E2 & E3). destruct (final_C76_rests _ _ _ _ _ _ _ HP' RO' HA) as (FI & NC & AW).
  pose proof (remote_exec _ _ _ _ _ _ _ HP') as RX. pose proof (si_repr _ _ (execution_inv _ _ _ _ RX)) as Hr. pose proof (repr_content _ _ _ Hr) as Hct.
  assert (ST : stored_event (remote_db st') e).
  { unfold all_written in AW. destruct Hk as [Hk|(en & Hk & <- & Hp & Hg)]; rewrite <- E1, <- AW in Hk; unfold remote_db.
    - left. now apply (ct_latest _ _ _ Hct).
    - right. apply existsb_exists in Hp as (pt & Hpt & Hp). destruct (Spec_Lmdb.place pt (en_ev en)) as [t|] eqn:Ep; [|discriminate].
      destruct (rp_parts _ _ _ Hr en pt Hk Hpt) as [n Hn].
      assert (H : In ((n, t, ev_id (en_ev en)), en_ev en) (db_ts (s_disk (f_sys (d_remote st'))))).
      { apply (ct_ts _ _ _ Hct). split; [|apply Hg]. exists (en_conf en), pt. cbn [fst snd]. split; [now destruct en|]. split; [exact Hpt|].
        split; [|auto]. eapply (kget_In zord); [apply (rp_psorted _ _ _ Hr)|exact Hn]. }
      unfold vals. apply (in_map snd) in H. exact H. }
  split; [exact ST|]. eapply final_C74_all; eauto.
  - unfold clock_ok. rewrite E2. exact CO.
  - unfold takes. rewrite E3. exact Ht.
Qed.

Lemma final_C76_can : forall OA OB cfA cfB sv tr st, paired OA OB cfA cfB sv tr st -> restarts_ok cfA sv tr ->
    exists D st', paired OA OB cfA cfB sv (tr ++ D) st' /\ undisturbed OA OB cfA cfB sv tr D /\ at_rest OA OB cfA cfB sv (tr ++ D) st'.
Proof.
  intros * HP RO. remember (todo sv tr st) as n eqn:En. revert tr st HP RO En. induction n as [n IH] using lt_wf_ind. intros tr st HP RO En.
  destruct (progress _ _ _ _ _ _ _ HP RO) as [(x & s1 & X1 & X2)|R].
  - assert (U1 : undisturbed OA OB cfA cfB sv tr [x]).
    { intros a y b s E Hs. destruct a as [|z a]; [|destruct a; discriminate]. injection E as -> <-. rewrite app_nil_r in Hs. now rewrite (pair_fun _ _ _ _ _ _ _ Hs _ (proj1 HP)). }
    pose proof (many_less _ _ _ _ _ _ _ RO (proj1 HP) _ _ X1 U1) as RO1. pose proof (proj1 X1) as X1'. destruct (pair_snoc _ _ _ _ _ _ _ _ X1') as (s0 & H0 & HG).
    rewrite (pair_fun _ _ _ _ _ _ _ H0 _ (proj1 HP)) in HG. destruct (step_less _ _ _ _ _ _ _ _ _ X1 RO1 (proj1 HP) HG X2) as [_ L].
    destruct (IH (todo sv (tr ++ [x]) s1)) with (tr := tr ++ [x]) (st := s1) as (D & st' & D1 & D2 & D3); try assumption; [lia|reflexivity|].
    exists (x :: D), st'. change (x :: D) with ([x] ++ D). rewrite app_assoc. split; [exact D1|]. split; [|exact D3].
    intros a y b s E Hs. destruct a as [|z a].
    + injection E as -> _. rewrite app_nil_r in Hs. now rewrite (pair_fun _ _ _ _ _ _ _ Hs _ (proj1 HP)).
    + injection E as <- E. apply (D2 a y b s E). rewrite <- app_assoc. exact Hs.
  - exists [], st. rewrite app_nil_r. split; [exact HP|]. split; [intros a y b s E; destruct a; discriminate|]. now apply restful_rest.
Qed.
