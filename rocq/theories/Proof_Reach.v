(** An event a server has acknowledged is found at a server that follows it. *)
From Coq Require Import String Bool ZArith Arith Lia Sorted List.
From Verif Require Import Base Kv Model_Types Model_Codec Keys Spec_Order Proof_Order Model_Subscription Model_Lmdb Model_LmdbSys Spec_Lmdb Spec_LmdbContent Spec_LmdbQuery
  Proof_Lmdb3 Proof_Lmdb8 Proof_Lmdb9 Proof_Lmdb10 Proof_Lmdb14 Proof_Lmdb15 Proof_Lmdb21 Proof_Lmdb23 Proof_LmdbCleanup Model_Engine Spec_Engine Model_Eventer Spec_Eventer Model_Service Spec_Service Proof_Service2 Proof_Service5 Proof_Service6
  Model_LmdbFlush Model_Sync Spec_Sync Model_Replica Spec_Replica Proof_Replica3 Model_Pair Spec_Pair Proof_Pair Proof_Pair7 Proof_Pair8 Spec_Reach.
Import ListNotations.
Open Scope list_scope.
Open Scope nat_scope.

Lemma near_exec : forall OA OB cfA cfB sv tr st, paired OA OB cfA cfB sv tr st -> execution OB cfB (near_part tr) (d_local st).
Proof.
  intros OA OB cfA cfB sv tr st (HP & _ & _ & _ & _ & HC & HE).
  assert (G : exists s0, start cfB = Some s0 /\ runs OB s0 (near_part tr) (d_local st)).
  { clear HC HE. induction HP as [a b Ha Hb|? ? ? ? ? ? ? ? ? ? ? ? ? H IH|? ? ? ? ? ? ? ? ? H IH|tr F top q us c s o l c' xs s' H IH Ho Hy Hr Hm|tr F top q us c s o x s' H IH He Hb Hr|? ? ? ? ? ? ? H IH|? ? ? ? ? ? ? ? ? ? H IH];
      cbn [d_local] in *; try (destruct IH as (s0 & I1 & I2); exists s0; split; [exact I1|]; rewrite near_snoc; cbn [near_part flat_map]; rewrite ?app_nil_r; try exact I2).
    - exists b. split; [exact Hb|constructor].
    - eapply runs_app; eauto.
    - eapply runs_app; [exact I2|]. eapply runs_cons; [exact He|constructor]. }
  destruct G as (s0 & G1 & G2). exists s0. auto.
Qed.

Lemma remote_exec : forall OA OB cfA cfB sv tr st, paired OA OB cfA cfB sv tr st -> execution OA cfA (remote_part tr) (f_sys (d_remote st)).
Proof. intros * (HP & _ & HC & HE & _). exact (fa_exec _ _ _ _ (pair_far _ _ _ _ _ _ _ HP HC HE)). Qed.

Lemma final_C75_reaches : forall OA OB cfA cfB tr0 srv rs r acked C tr st, acknowledged OA cfA tr0 srv rs r acked C ->
    synchronized OA OB cfA cfB srv (tr0 ++ backend_part (acked ++ C)) tr st ->
    exists es, r = Some es /\ map reg_of es = rs /\ forall e, In e es -> due (conf_at cfA tr0) cfA cfB tr st e -> eid_server (ev_id e) = srv /\ got cfB tr e.
Proof.
  intros * ((vtr0 & tk & ms & size & HS) & (A & c & conv & last & l & j & B & l2 & -> & HQ) & HC & HF & Hq) (HP & (X & EX) & RO & CO & FI).
  destruct (final_C72_written _ _ _ _ _ _ _ _ _ _ _ _ _ _ _ _ _ _ _ HS HQ HC HF Hq) as (es & E1 & E2 & HW).
  pose proof (service_cut _ _ _ _ _ _ _ _ _ _ HS) as HA.
  destruct (final_C72_stored OA cfA tr0 vtr0 srv tk ms size A c conv last rs l j B r l2 [] HA HQ HC) as (es' & E1' & _ & HV). assert (es' = es) as -> by congruence.
  exists es. split; [exact E1|]. split; [exact E2|]. intros e He (D1 & D2 & D3 & D4 & D5). assert (Sv : eid_server (ev_id e) = srv) by (apply HV; auto).
  split; [exact Sv|]. eapply final_C74_all; eauto.
  pose proof (remote_exec _ _ _ _ _ _ _ HP) as RX. rewrite EX, <- app_assoc in RX. eapply (HW e He D1 D2 X); [exact RX|]. rewrite EX, <- app_assoc in D3. exact D3.
Qed.

(** ** Queries *)

Lemma lt_le : forall a b, ts_ltb a b = true -> ts_leb a b = true.
Proof. intros. apply ts_leb_lt. auto. Qed.

Lemma newest_exists : forall H en t, In en H -> ev_type (en_ev en) = t -> exists e', newest H t e' /\ ts_leb (ev_ts (en_ev en)) (ev_ts e') = true.
Proof.
  induction H as [|x H IH] using rev_ind; intros en t Hi Et; [destruct Hi|].
  assert (Tot : forall a b, ts_ltb a b = true \/ ts_leb b a = true).
  { intros a b. destruct (ts_leb b a) eqn:E; [auto|]. left. rewrite ts_leb_ltb in E. now apply negb_false_iff in E. }
  assert (Old : forall e', newest H t e' -> exists e'', newest (H ++ [x]) t e'' /\ ts_leb (ev_ts e') (ev_ts e'') = true /\ (ev_type (en_ev x) = t -> ts_leb (ev_ts (en_ev x)) (ev_ts e'') = true)).
  { intros e' (H1 & en' & H2 & EH & <- & E & N1 & N2). subst H. destruct (list_eq_dec string_dec (ev_type (en_ev x)) t) as [Ex|Ex].
    - destruct (Tot (ev_ts (en_ev x)) (ev_ts (en_ev en'))) as [L|L].
      + exists (en_ev en'). split; [|split; [apply ts_leb_refl|intros _; now apply lt_le]]. exists H1, en', (H2 ++ [x]). split; [now rewrite <- app_assoc|]. split; [reflexivity|]. split; [exact E|].
        split; [exact N1|]. intros y Hy Ey. apply in_app_or in Hy as [Hy|[<-|[]]]; auto.
      + exists (en_ev x). split; [|split; [exact L|intros _; apply ts_leb_refl]]. exists (H1 ++ en' :: H2), x, []. split; [reflexivity|]. split; [reflexivity|]. split; [exact Ex|]. split; [|intros y []].
        intros y Hy Ey. apply in_app_or in Hy as [Hy|[<-|Hy]]; [eapply ts_leb_trans; [apply N1; auto|exact L]|exact L|eapply ts_leb_trans; [apply lt_le, N2; auto|exact L]].
    - exists (en_ev en'). split; [|split; [apply ts_leb_refl|congruence]]. exists H1, en', (H2 ++ [x]). split; [now rewrite <- app_assoc|]. split; [reflexivity|]. split; [exact E|].
      split; [exact N1|]. intros y Hy Ey. apply in_app_or in Hy as [Hy|[<-|[]]]; [auto|congruence]. }
  apply in_app_or in Hi as [Hi|[->|[]]].
  - destruct (IH _ _ Hi Et) as (e' & A & B). destruct (Old _ A) as (e'' & C & D & _). exists e''. split; [exact C|]. eapply ts_leb_trans; eauto.
  - destruct (in_dec (list_eq_dec string_dec) t (map (fun y => ev_type (en_ev y)) H)) as [I|I].
    + apply in_map_iff in I as (y & Ey & Hy). destruct (IH _ _ Hy Ey) as (e' & A & _). destruct (Old _ A) as (e'' & C & _ & D). exists e''. auto.
    + exists (en_ev en). split; [|apply ts_leb_refl]. exists H, en, []. split; [reflexivity|]. split; [reflexivity|]. split; [exact Et|]. split; [|intros y []].
      intros y Hy Ey. exfalso. apply I. apply in_map_iff. eauto.
Qed.

Lemma paired_near : forall OA OB cfA cfB sv tr D st, paired OA OB cfA cfB sv (tr ++ D) st -> exists s, execution OB cfB (near_part tr) s.
Proof.
  intros * H. apply near_exec in H. unfold near_part in *. rewrite flat_map_app in H. apply execution_prefix in H. exact H.
Qed.

Lemma near_app : forall a b, near_part (a ++ b) = near_part a ++ near_part b.
Proof. intros. unfold near_part. apply flat_map_app. Qed.

Lemma final_C75_latest : forall OA OB cfA cfB tr0 srv rs r acked C tr st D p a st', acknowledged OA cfA tr0 srv rs r acked C ->
    synchronized OA OB cfA cfB srv (tr0 ++ backend_part (acked ++ C)) tr st ->
    paired OA OB cfA cfB srv (tr ++ D ++ [DLocal (OLatest p, a)]) st' -> local_up D -> Forall (fun c => c = cfB) (confs_of (near_part tr)) -> valid_latest p ->
    exists es found, r = Some es /\ map reg_of es = rs /\ a = Answer (Some (QRes found false)) /\ NoDup (map ev_type found) /\
      forall e, In e es -> due (conf_at cfA tr0) cfA cfB tr st e -> covers cfB (ev_type e) = true -> asked p (ev_type e) ->
        exists e', In e' found /\ ev_type e' = ev_type e /\ ts_leb (ev_ts e) (ev_ts e') = true /\ newest (w_all (watch_run cfB (near_part (tr ++ D)))) (ev_type e) e'.
Proof.
  intros * HA HS HP HD HC Hp. destruct (final_C75_reaches _ _ _ _ _ _ _ _ _ _ _ _ HA HS) as (es & E1 & E2 & HG).
  pose proof (near_exec _ _ _ _ _ _ _ HP) as HX. rewrite app_assoc, near_app in HX. cbn [near_part flat_map app] in HX.
  assert (Hcc : Forall (fun c => c = cfB) (confs_of (near_part (tr ++ D)))).
  { rewrite near_app, confs_of_app. apply Forall_app. split; [exact HC|]. apply Forall_forall. intros c Hc. exfalso. apply in_flat_map in Hc as ([o x] & Ho & Hc).
    destruct o; try (now destruct Hc). eapply HD. exact Ho. }
  destruct (final_C15_newest _ _ _ _ _ _ HX Hp Hcc) as (found & F1 & F2 & F3). exists es, found. split; [exact E1|]. split; [exact E2|]. split; [exact F1|]. split; [exact F2|].
  intros e He Hd Hk Ha. destruct (HG e He Hd) as (_ & en & Hen & <-).
  assert (Hen' : In en (w_all (watch_run cfB (near_part (tr ++ D))))).
  { rewrite near_app, watch_run_app. apply Proof_Lmdb23.all_grows; auto. }
  destruct (newest_exists _ _ _ Hen' eq_refl) as (e' & N & L). exists e'.
  assert (Et : ev_type e' = ev_type (en_ev en)) by (destruct N as (? & ? & ? & _ & _ & N & _); exact N).
  split; [apply F3; rewrite Et; auto|]. auto.
Qed.

Lemma gone_near : forall cf t1 t2 i, (forall n t, ~ In (n, t, i) (w_gone (watch_run cf (t1 ++ t2)))) -> forall n t, ~ In (n, t, i) (w_gone (watch_run cf t1)).
Proof. intros cf t1 t2 i H n t Hi. apply (H n t). rewrite watch_run_app. now apply gone_grows. Qed.

Lemma final_C75_server : forall OA OB cfA cfB tr0 srv rs r acked C tr st D q p E found more st', acknowledged OA cfA tr0 srv rs r acked C ->
    synchronized OA OB cfA cfB srv (tr0 ++ backend_part (acked ++ C)) tr st ->
    let tr' := tr ++ D ++ DLocal (OServer q p, Quiet) :: E ++ [DLocal (ODeliver q, Answer (Some (QRes found more)))] in
    paired OA OB cfA cfB srv tr' st' -> local_up D -> local_up E -> conditions_kept (cfB :: confs_of (near_part tr)) -> pick_ok OB ->
    ~ In q (queries_of (near_part (tr ++ D))) -> ~ In q (queries_of (near_part E)) -> qs_server p = srv -> qs_persisted p = false ->
    by_id found /\
    exists es, r = Some es /\ map reg_of es = rs /\
      forall e, In e es -> due (conf_at cfA tr0) cfA cfB tr st e -> after (qs_last p) e ->
        (forall n t, ~ In (n, t, ev_id e) (w_gone (watch_run cfB (near_part tr')))) ->
        In e found \/ (more = true /\ Z.of_nat (List.length found) = server_max p /\ forall y, In y found -> eid_ltb (ev_id y) (ev_id e) = true).
Proof.
  intros * HA HS tr' HP HD HE HK Hpk Hq1 Hq2 Hsv Hps. destruct (final_C75_reaches _ _ _ _ _ _ _ _ _ _ _ _ HA HS) as (es & E1 & E2 & HG).
  pose proof (near_exec _ _ _ _ _ _ _ HP) as HX. set (tA := near_part (tr ++ D)) in *.
  assert (Eq : near_part tr' = tA ++ (OServer q p, Quiet) :: near_part E ++ [(ODeliver q, Answer (Some (QRes found more)))]).
  { unfold tr', tA. rewrite !near_app. change (near_part (?a :: ?b)) with (near_part [a] ++ near_part b). rewrite near_app. cbn [near_part flat_map app]. rewrite <- app_assoc. reflexivity. }
  rewrite Eq in HX. pose proof HX as HXA. apply execution_prefix in HXA as [sA HXA].
  assert (NC : forall t, no_reopen t -> confs_of t = []).
  { intros t N. destruct (confs_of t) as [|c l0] eqn:Ec; [reflexivity|]. exfalso. assert (Hc : In c (confs_of t)) by (rewrite Ec; now left).
    apply in_flat_map in Hc as ([o x] & Ho & Hc). destruct o; try (now destruct Hc). eapply N. exact Ho. }
  assert (HK' : conditions_kept (cfB :: confs_of tA)).
  { unfold tA. rewrite near_app, confs_of_app, (NC _ HD), app_nil_r. exact HK. }
  destruct (final_C26_server _ _ _ _ _ _ _ _ _ _ Hpk HXA HX HK' Hq1 Hq2) as [Y1 Y2]. split; [exact Y1|]. exists es. split; [exact E1|]. split; [exact E2|].
  intros e He Hd Haf Hg. destruct (HG e He Hd) as (Sv & en & Hen & <-). rewrite Eq in Hg.
  assert (Hen' : In en (w_all (watch_run cfB tA))).
  { unfold tA. rewrite near_app, watch_run_app. apply Proof_Lmdb23.all_grows; auto. }
  assert (Hpl : has_place (en_conf en) (en_ev en) = true).
  { destruct Hd as (_ & _ & _ & _ & Ht). unfold takes in Ht. rewrite Forall_forall in Ht.
    assert (HS' : exists s, execution OB cfB (near_part tr) s) by (eapply paired_near; exact HP). destruct HS' as [s1 HS'].
    apply Ht. eapply watch_confs; eauto. }
  rewrite Hps in Y2. apply Y2; auto; [congruence|apply (held_entry OB cfB tA); [exact HXA|exact Hen'|discriminate|left; split; [exact Hpl|eapply gone_near; exact Hg]]|].
  assert (HX2 : exists s', execution OB cfB (tA ++ (OServer q p, Quiet) :: near_part E) s' /\ exec OB s' (ODeliver q) = Some (d_local st', Answer (Some (QRes found more)))).
  { change (?a :: ?l ++ ?m) with ((a :: l) ++ m) in HX. rewrite app_assoc in HX. apply execution_snoc in HX as (s' & HX & Hex & _). eauto. }
  destruct HX2 as (s' & HX2 & Hex).
  assert (Ed : s_disk (d_local st') = s_disk s').
  { cbn [exec] in Hex. destruct (take_ready q (s_ready s')) as [[? ?]|]; [|discriminate]. injection Hex as <- _. reflexivity. }
  rewrite Ed. apply (held_entry OB cfB _ s'); [exact HX2| |discriminate|left; split; [exact Hpl|]].
  - rewrite watch_run_app. cbn [fold_left watch_step]. apply Proof_Lmdb23.all_grows; auto.
  - change (?a :: ?l ++ ?m) with ((a :: l) ++ m) in Hg. rewrite app_assoc in Hg. eapply gone_near; exact Hg.
Qed.
