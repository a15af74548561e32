(** An event a server has acknowledged comes to a server that follows it when
    both are left alone. *)
From Coq Require Import String Bool ZArith Arith Lia Sorted List.
From Verif Require Import Base Kv Model_Types Model_Codec Keys Spec_Order Proof_Order Model_Subscription Model_Lmdb Model_LmdbSys Spec_Lmdb Spec_LmdbContent Spec_LmdbQuery
  Proof_Lmdb3 Proof_Lmdb8 Proof_Lmdb9 Proof_Lmdb10 Proof_Lmdb14 Proof_Lmdb15 Proof_Lmdb21 Proof_Lmdb23 Proof_LmdbCleanup Model_Engine Spec_Engine Model_Eventer Spec_Eventer Model_Service Spec_Service Proof_Service Proof_Service2 Proof_Service3 Proof_Service4 Proof_Service5 Proof_Service6
  Model_LmdbFlush Model_Sync Spec_Sync Model_Replica Spec_Replica Proof_Replica3 Model_Pair Spec_Pair Proof_Pair Proof_Pair7 Proof_Pair8 Spec_Reach Proof_Reach
  Spec_Converge Proof_Converge Proof_Converge2 Proof_Converge3 Proof_Converge4 Proof_Converge5 Proof_Converge6 Spec_Eventual.
Import ListNotations.
Open Scope list_scope.
Open Scope nat_scope.

Lemma final_C77_comes : forall OA OB cfA cfB tr0 srv rs r acked C tr st, answered OA cfA tr0 srv rs r acked C ->
    runs_on OA OB cfA cfB srv (tr0 ++ backend_part (acked ++ C)) tr st ->
    forall D st', paired OA OB cfA cfB srv (tr ++ D) st' -> undisturbed OA OB cfA cfB srv tr D -> at_rest OA OB cfA cfB srv (tr ++ D) st' ->
    exists es, r = Some es /\ map reg_of es = rs /\
      forall e, In e es -> lasting (conf_at cfA tr0) cfA cfB tr D e -> stored_event (remote_db st') e /\ got cfB (tr ++ D) e.
Proof.
  intros * ((vtr0 & tk & ms & size & HS) & (A & c & conv & last & l & j & B & l2 & -> & HQ) & HC) (HP & (X & EX & NX) & RO & CO) D st' HP' HU HA.
  set (acked := A ++ SRegister (VRegister c conv last rs, l) j :: B ++ [SServer (VRegistered c r, l2)]) in *.
  pose proof (service_cut _ _ _ _ _ _ _ _ _ _ HS) as HB.
  destruct (final_C72_stored OA cfA tr0 vtr0 srv tk ms size A c conv last rs l j B r l2 [] HB HQ HC) as (es & E1 & E2 & HV).
  exists es. split; [exact E1|]. split; [exact E2|]. intros e He (D1 & D2 & D3 & D4). destruct (HV e He D1) as [Sv Hen]. specialize (Hen D2).
  fold acked in Hen. eapply final_C76_converges; eauto. right. exists (Entry (conf_at cfA tr0) e). split; [|split; [reflexivity|split; [exact D2|exact D3]]].
  rewrite EX, bp_app, <- !app_assoc, app_assoc, watch_run_app. apply Proof_Lmdb23.all_grows; [|exact Hen].
  destruct HS as ((w & b & HPr) & _). pose proof (process_no_reopen _ _ _ _ _ HPr) as N. rewrite bp_app in N. apply no_reopen_split in N as [_ N].
  intros cf x Hi. apply in_app_or in Hi as [Hi|Hi]; [eapply N; exact Hi|eapply NX; exact Hi].
Qed.

Lemma final_C77_ends : forall OA OB cfA cfB srv T tr st, runs_on OA OB cfA cfB srv T tr st ->
    (exists D st', paired OA OB cfA cfB srv (tr ++ D) st' /\ undisturbed OA OB cfA cfB srv tr D /\ at_rest OA OB cfA cfB srv (tr ++ D) st') /\
    exists n, forall D st', paired OA OB cfA cfB srv (tr ++ D) st' -> undisturbed OA OB cfA cfB srv tr D -> length D <= n.
Proof. intros * (HP & _ & RO & _). split; [eapply final_C76_can; eauto|eapply final_C76_ends; eauto]. Qed.

Lemma final_C77_latest : forall OA OB cfA cfB tr0 srv rs r acked C tr st, answered OA cfA tr0 srv rs r acked C ->
    runs_on OA OB cfA cfB srv (tr0 ++ backend_part (acked ++ C)) tr st ->
    forall D st1, paired OA OB cfA cfB srv (tr ++ D) st1 -> undisturbed OA OB cfA cfB srv tr D -> at_rest OA OB cfA cfB srv (tr ++ D) st1 ->
    forall L p a st', paired OA OB cfA cfB srv ((tr ++ D) ++ L ++ [DLocal (OLatest p, a)]) st' -> local_up L -> Forall (fun c => c = cfB) (confs_of (near_part (tr ++ D))) -> valid_latest p ->
    exists es found, r = Some es /\ map reg_of es = rs /\ a = Answer (Some (QRes found false)) /\ NoDup (map ev_type found) /\
      forall e, In e es -> lasting (conf_at cfA tr0) cfA cfB tr D e -> covers cfB (ev_type e) = true -> asked p (ev_type e) ->
        exists e', In e' found /\ ev_type e' = ev_type e /\ ts_leb (ev_ts e) (ev_ts e') = true /\ newest (w_all (watch_run cfB (near_part ((tr ++ D) ++ L)))) (ev_type e) e'.
Proof.
  intros * HA HS D st1 H1 HU HR L p a st' HP HD HC Hp. destruct (final_C77_comes _ _ _ _ _ _ _ _ _ _ _ _ HA HS _ _ H1 HU HR) as (es & E1 & E2 & HG).
  pose proof (near_exec _ _ _ _ _ _ _ HP) as HX. rewrite app_assoc, near_app in HX. cbn [near_part flat_map app] in HX.
  assert (Hcc : Forall (fun c => c = cfB) (confs_of (near_part ((tr ++ D) ++ L)))).
  { rewrite near_app, confs_of_app. apply Forall_app. split; [exact HC|]. apply Forall_forall. intros c Hc. exfalso. apply in_flat_map in Hc as ([o x] & Ho & Hc).
    destruct o; try (now destruct Hc). eapply HD. exact Ho. }
  destruct (final_C15_newest _ _ _ _ _ _ HX Hp Hcc) as (found & F1 & F2 & F3). exists es, found. split; [exact E1|]. split; [exact E2|]. split; [exact F1|]. split; [exact F2|].
  intros e He Hd Hk Ha. destruct (HG e He Hd) as (_ & en & Hen & <-).
  assert (Hen' : In en (w_all (watch_run cfB (near_part ((tr ++ D) ++ L))))).
  { rewrite near_app, watch_run_app. apply Proof_Lmdb23.all_grows; auto. }
  destruct (newest_exists _ _ _ Hen' eq_refl) as (e' & N & Le). exists e'.
  assert (Et : ev_type e' = ev_type (en_ev en)) by (destruct N as (? & ? & ? & _ & _ & N & _); exact N).
  split; [apply F3; rewrite Et; auto|]. auto.
Qed.
