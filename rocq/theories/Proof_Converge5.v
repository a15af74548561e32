(** Two servers that are left alone: where they come to rest. *)
From Coq Require Import String Bool ZArith Arith Lia Sorted Permutation List.
From Verif Require Import Base Kv Model_Types Model_Codec Keys Spec_Order Proof_Order Model_Lmdb Model_LmdbSys Spec_Lmdb Spec_LmdbContent Spec_LmdbQuery
  Proof_Lmdb3 Proof_Lmdb4 Proof_Lmdb7 Proof_Lmdb8 Proof_Lmdb9 Proof_Lmdb10 Proof_Lmdb12 Proof_Lmdb13 Proof_Lmdb14 Proof_Lmdb15 Model_LmdbFlush Spec_LmdbFlush Proof_LmdbFlush Proof_LmdbFlush3 Proof_LmdbFlush4
  Model_Sync Spec_Sync Proof_Sync Proof_Sync2 Proof_Sync3 Proof_Sync4 Proof_Sync5 Proof_Sync6 Model_Replica Spec_Replica Proof_Replica Proof_Replica2 Proof_Replica3 Proof_Replica4 Proof_Replica5
  Model_Pair Spec_Pair Proof_Pair Proof_Pair2 Proof_Pair3 Proof_Pair4 Proof_Pair5 Proof_Pair6 Proof_Pair7 Proof_Pair8 Proof_Reach Spec_Converge Proof_Converge Proof_Converge2 Proof_Converge3 Proof_Converge4.
Import ListNotations.
Open Scope list_scope.
Open Scope nat_scope.

(** ** The flush loop *)

Definition loop_inv (F : fstate) : Prop :=
  match f_loop F with
  | LGo _ true => f_open F = false
  | LWrite _ _ true | LNotify _ _ true | LDone => f_open F = false /\ f_reg F = []
  | _ => True
  end.

Lemma loop_inv_step : forall O F o F' xs l, fexec O F o = Some (F', xs, l) -> loop_inv F -> loop_inv F'.
Proof.
  intros O F o F' xs l H HI. destruct o; finv H; unfold loop_inv in *; ffields; cbn [f_loop f_open f_reg set_loop set_sys] in *; auto;
    repeat match goal with E : f_loop F = _ |- _ => rewrite E in *; clear E end; auto;
    repeat match goal with |- context [if ?b then _ else _] => destruct b end; auto;
    try (destruct (f_loop F) as [|? []|? ? []|? ? []|]; try exact I; try destruct HI; congruence).
  destruct (f_loop F) as [|? []|? ? []|? ? []|]; auto; tauto.
Qed.

Lemma pair_loop : forall OA OB cfA cfB sv tr st, pair OA OB cfA cfB sv tr st -> loop_inv (d_remote st).
Proof.
  intros * H. induction H; cbn [d_remote] in *; auto; try exact I.
  eapply loop_inv_step; eauto.
Qed.

(** ** Somebody can go on *)

Definition restful (st : pstate) : Prop :=
  s_jobs (f_sys (d_remote st)) = [] /\ s_ready (f_sys (d_remote st)) = [] /\
  ((f_loop (d_remote st) = LWait /\ f_reg (d_remote st) = [] /\ f_queue (d_remote st) = [] /\ f_open (d_remote st) = true) \/ (f_loop (d_remote st) = LDone /\ f_reg (d_remote st) = [])) /\
  y_phase (d_client st) = PDone /\ r_chan (d_client st) = [] /\ y_busy (d_client st) = false /\ r_req (d_client st) = None /\ r_resp (d_client st) = None /\ r_up (d_client st) = true.

Lemma take_head : forall r rs, exists n w ws, take_ready n (r :: rs) = Some (w, ws).
Proof. intros r rs. exists (ready_id r), r, rs. cbn [take_ready]. now rewrite Nat.eqb_refl. Qed.

Lemma client_move : forall sv L U c, shape sv U None c -> r_req c = None ->
    (exists o c' l, client_op o = true /\ yexec sv L c o = Some (c', l)) \/ (y_phase c = PDone /\ r_chan c = [] /\ y_busy c = false /\ r_resp c = None /\ r_up c = true).
Proof.
  intros sv L U c [S1 S2 S3] Hq. destruct (y_busy c) eqn:B.
  { left. exists YDone. destruct (y_phase c) eqn:P; try (now destruct S3); unfold yexec; rewrite P, B; eauto. }
  destruct (r_chan c) as [|m ms] eqn:C.
  2: { left. exists YRecv. destruct (y_phase c) eqn:P; try (now destruct S3); unfold yexec; rewrite P, B, C; destruct m; eauto; destruct (y_queue c); eauto. }
  destruct (r_resp c) as [q|] eqn:R.
  { left. exists RRespond. destruct (y_phase c) eqn:P; try (now destruct S3); unfold yexec; rewrite P, R; eauto. }
  destruct (y_phase c) eqn:P; try (now destruct S3).
  - left. destruct (r_up c) eqn:E; [exists YBegin|exists RConnect]; unfold yexec; rewrite P, E; eauto.
  - left. exists YGo. unfold yexec. rewrite P. destruct (ask c). eauto.
  - exfalso. destruct S3 as (_ & [(_ & X & _)|[((? & X) & _)|(_ & _ & q & X & _)]]); [congruence|discriminate|]. unfold wired in X. rewrite C, R in X. discriminate.
  - left. exists YWake. unfold yexec. rewrite P. cbv zeta. destruct (qr_events q); [destruct (advance _); eauto|]. destruct (Nat.eqb _ _); [eauto|]. destruct (advance _). eauto.
  - left. exists YGo. unfold yexec. rewrite P. destruct (advance c). eauto.
  - left. exists YGo. unfold yexec. rewrite P. destruct (Model_Sync.sessions c). eauto.
  - left. exists YGo. unfold yexec. rewrite P. destruct (drain c). eauto.
  - left. exists YGo. unfold yexec. rewrite P. destruct (drain c). eauto.
  - right. repeat split. destruct (r_up c) eqn:E; [reflexivity|]. discriminate (S1 eq_refl).
Qed.

Lemma remote_can : forall OA OB cfA cfB sv tr st o F' xs l, paired OA OB cfA cfB sv tr st -> fexec OA (d_remote st) o = Some (F', xs, l) -> usual sv (d_top st) (d_used st) o ->
    confs_of xs = [] -> events_of xs = [] -> exists st', paired OA OB cfA cfB sv (tr ++ [DRemote (o, xs, l)]) st'.
Proof.
  intros * (HP & PO & CA & EA & KA & CB & EB) He Hu Hc Hv. destruct st as [F top q us c s]. cbn [d_remote d_top d_used] in *. destruct (returned q o xs (notice sv c l)) as [c' q'] eqn:R.
  eexists. split; [eapply pair_remote; eauto|]. rewrite remote_snoc, near_snoc. cbn [remote_part near_part flat_map]. rewrite !app_nil_r.
  rewrite confs_of_app, events_of_app, Hc, Hv, !app_nil_r. repeat (split; [assumption|]). assumption.
Qed.

Lemma fresh_number : forall us : list nat, exists q, ~ In q us.
Proof.
  intros us. exists (S (list_max us)). intros H. assert (X : Forall (fun k => k <= list_max us) us) by (apply list_max_le; lia). rewrite Forall_forall in X. specialize (X _ H). lia.
Qed.

Lemma progress : forall OA OB cfA cfB sv tr st, paired OA OB cfA cfB sv tr st -> restarts_ok cfA sv tr ->
    (exists x st', paired OA OB cfA cfB sv (tr ++ [x]) st' /\ of_itself st x) \/ restful st.
Proof.
  intros * HP RO. pose proof (remote_exec _ _ _ _ _ _ _ HP) as RX. pose proof HP as (HP0 & PO & CA & EA & KA & CB & EB).
  assert (Loop : forall o F' xs l, fexec OA (d_remote st) o = Some (F', xs, l) -> usual sv (d_top st) (d_used st) o -> confs_of xs = [] -> events_of xs = [] -> of_itself st (DRemote (o, xs, l)) ->
    exists x st', paired OA OB cfA cfB sv (tr ++ [x]) st' /\ of_itself st x).
  { intros o F' xs l E1 E2 E3 E4 E5. destruct (remote_can _ _ _ _ _ _ _ _ _ _ _ HP E1 E2 E3 E4) as (st' & X). eauto. }
  destruct (s_jobs (f_sys (d_remote st))) as [|j js] eqn:J.
  2: { left. destruct (work_total _ _ _ _ RX PO) as (s2 & x & W & _); [congruence|]. apply (Loop (FOther OWork) (set_sys (d_remote st) s2) [(OWork, x)] []); try reflexivity; try exact I.
       - cbn [fexec other]. now rewrite W.
       - cbn [of_itself]. congruence. }
  destruct (s_ready (f_sys (d_remote st))) as [|r rs] eqn:R.
  2: { left. destruct (take_head r rs) as (n & w & ws & T).
       apply (Loop (FOther (ODeliver n)) (set_sys (d_remote st) (done_ (f_sys (d_remote st)) (s_disk (f_sys (d_remote st))) (s_jobs (f_sys (d_remote st))) ws)) [(ODeliver n, Answer (finish (f_sys (d_remote st)) w))] []);
         try reflexivity; try exact I. cbn [fexec other exec]. now rewrite R, T. }
  destruct (r_req (d_client st)) as [last|] eqn:Q.
  { left. destruct (req_last _ _ _ _ _ _ _ _ HP RO Q) as [L1 L2]. destruct (fresh_number (d_used st)) as (q & Hq). destruct st as [F top q0 us c s]. cbn [d_remote d_client d_query d_used] in *. subst q0.
    eexists (DAsk q (client_query sv last)), _. split; [|exact I]. split.
    - eapply pair_ask; eauto. cbn [exec]. unfold server_query_start, client_query. cbn [qs_last qs_server qs_max]. rewrite L1, Z.eqb_refl. reflexivity.
    - rewrite remote_snoc, near_snoc. cbn [remote_part near_part flat_map]. rewrite !app_nil_r, confs_of_app, events_of_app. cbn [confs_of events_of flat_map app fst]. rewrite !app_nil_r. repeat (split; [assumption|]). assumption. }
  assert (QN : d_query st = None).
  { destruct (d_query st) as [n|] eqn:E; [exfalso|reflexivity]. destruct (pair_joint _ _ _ _ _ _ _ HP0 PO CA EA KA CB EB RO) as (tr' & y & JJ).
    pose proof (j_q _ _ _ _ _ _ _ _ _ _ _ _ _ _ JJ) as J4. rewrite E in J4. destruct J4 as (_ & _ & last & max & g & _ & [(B & _)|(es & res & B & _)]); [rewrite J in B|rewrite R in B]; destruct B. }
  pose proof (pair_shape _ _ _ _ _ _ _ HP RO) as SH. rewrite QN in SH.
  destruct (client_move sv (get_last_event_id (m_sys (s_mem (d_local st))) sv) _ _ SH Q) as [(o & c' & l & O1 & O2)|(P1 & P2 & P3 & P4 & P5)].
  { left. destruct (client_can _ _ _ _ _ _ _ HP RO _ _ _ O1 O2) as (xs & st' & X). exists (DClient (o, l) xs), st'. split; [exact X|exact I]. }
  pose proof (pair_loop _ _ _ _ _ _ _ HP0) as LI. unfold loop_inv in LI.
  destruct (f_loop (d_remote st)) as [|futs fin|futs bs fin|futs [|b bs] fin|] eqn:EL.
  - destruct (f_reg (d_remote st)) as [|es ess] eqn:ER; [|left; eapply (Loop FWake); [cbn [fexec]; rewrite EL; reflexivity|exact I|reflexivity|reflexivity|cbn [of_itself]; left; congruence]].
    destruct (f_queue (d_remote st)) as [|f fs] eqn:EQ; [|left; eapply (Loop FWake); [cbn [fexec]; rewrite EL; reflexivity|exact I|reflexivity|reflexivity|cbn [of_itself]; right; congruence]].
    destruct (f_open (d_remote st)) eqn:EO.
    + right. unfold restful. rewrite EL, ER, EQ, EO. auto 12.
    + left. eapply (Loop FCancel); [cbn [fexec]; rewrite EO, EL; unfold finalise; reflexivity|exact I|reflexivity|reflexivity|exact I].
  - left. eapply (Loop FStart); [cbn [fexec exec]; rewrite EL; reflexivity|exact I|reflexivity|reflexivity|exact I].
  - left. eapply (Loop FWrote); [cbn [fexec]; rewrite EL; unfold flush_done; rewrite J; reflexivity|exact I|reflexivity|reflexivity|exact I].
  - left. destruct fin.
    + eapply (Loop FEnd); [cbn [fexec]; rewrite EL; reflexivity|exact I|reflexivity|reflexivity|exact I].
    + eapply (Loop FAnswer); [cbn [fexec]; rewrite EL; reflexivity|exact I|reflexivity|reflexivity|exact I].
  - left. eapply (Loop (FNotify true)); [cbn [fexec]; rewrite EL; reflexivity|exact I|reflexivity|reflexivity|exact I].
  - right. unfold restful. rewrite EL. destruct LI as [_ LI]. rewrite LI. auto 12.
Qed.
