(** Lemmas for C79: what the process has written when it ends, and that it
    ends. *)
From Coq Require Import String Bool ZArith Arith Lia Sorted List.
From Verif Require Import Base Model_Types Model_Lmdb Model_LmdbSys Spec_Lmdb Spec_LmdbContent Spec_LmdbQuery Spec_Order Proof_Lmdb8 Proof_Lmdb9 Proof_Lmdb10 Proof_Lmdb13 Proof_Lmdb14 Proof_Lmdb23
  Model_LmdbFlush Spec_LmdbFlush Proof_LmdbFlush Proof_LmdbFlush2 Proof_LmdbFlush3 Proof_LmdbFlush4 Proof_LmdbCleanup
  Model_Engine Spec_Engine Proof_Engine5 Model_Eventer Spec_Eventer Model_Service Spec_Service Spec_Eventual Proof_Service Proof_Service2 Proof_Service3 Proof_Service4 Proof_Service5 Proof_Service6 Model_Exit Spec_Exit Proof_Exit.
From Verif Require Model_Main Spec_Main Proof_Main Proof_Main2 Proof_Main3.
Import ListNotations.
Open Scope list_scope.
Open Scope nat_scope.

Lemma process_lifetime : forall O cf mc T tr s f, server_process O cf mc T tr s -> x_back s = Some f -> lifetime O cf T (back_of tr) f.
Proof.
  intros O cf mc T tr s f (d & A & B & C & D) E. pose proof (xi_back _ _ _ _ _ (xinv_run _ _ _ _ _ C)) as H. rewrite E in H. exists d. auto.
Qed.

Lemma process_main : forall O cf mc T tr s, server_process O cf mc T tr s -> Model_Main.mruns mc Model_Main.minit (main_of tr) (x_main s).
Proof. intros O cf mc T tr s (d & _ & _ & C & _). exact (xi_main _ _ _ _ _ (xinv_run _ _ _ _ _ C)). Qed.

Lemma process_has : forall O cf mc T tr s, server_process O cf mc T tr s -> (has_backend tr <-> x_back s <> None).
Proof.
  intros O cf mc T tr s H. unfold has_backend. rewrite (Proof_Main2.made_created _ _ _ (process_main _ _ _ _ _ _ H)).
  destruct H as (d & _ & _ & C & _). symmetry. exact (xi_has _ _ _ _ _ (xinv_run _ _ _ _ _ C)).
Qed.

Lemma exit_last : forall O mc d tr s, xruns O mc d tr s -> exited tr -> exists a ms fs, tr = a ++ [(XExit, ms, fs)] /\ ~ exited a.
Proof.
  intros O mc d tr s H He. inversion H as [E|a s1 o ms fs s2 H1 Hx E1 E2]; subst; [destruct He|].
  assert (N : ~ exited a).
  { intros He'. apply (xi_exit _ _ _ _ _ (xinv_run _ _ _ _ _ H1)) in He'. unfold xexec in Hx. rewrite He' in Hx. discriminate. }
  unfold exited in He. rewrite xops_app, in_app_iff in He. destruct He as [He|[He|[]]]; [contradiction|]. cbn [fst] in He. subst o. exists a, ms, fs. auto.
Qed.

Theorem final_C79_order : forall O cf mc T tr s, server_process O cf mc T tr s -> exited tr ->
    (exists a ms fs, tr = a ++ [(XExit, ms, fs)] /\ ~ exited a) /\
    Model_Main.mruns mc Model_Main.minit (main_of tr) (x_main s) /\ In Model_Main.OOver (Spec_Main.seen (main_of tr)) /\
    (has_backend tr -> In FEnd (done_of (back_of tr))) /\ (~ has_backend tr -> back_of tr = []).
Proof.
  intros O cf mc T tr s H He. pose proof (process_main _ _ _ _ _ _ H) as Hm. pose proof (process_has _ _ _ _ _ _ H) as Hh.
  pose proof H as (d & _ & _ & C & _). pose proof (xinv_run _ _ _ _ _ C) as I. split; [eapply exit_last; eauto|]. split; [exact Hm|].
  assert (Ev : Model_Main.m_phase (x_main s) = Model_Main.POver).
  { apply (xi_exit _ _ _ _ _ I) in He. destruct (xi_clean _ _ _ _ _ I) as [E|[E|E]]; congruence. }
  split.
  { pose proof (Proof_Main.minv_run _ _ _ Hm) as [V _]. rewrite Ev in V. destruct V as (_ & o & _ & ->). rewrite !in_app_iff. right. right. now left. }
  pose proof (xi_back _ _ _ _ _ I) as Hb. split.
  - intros Hy. apply Hh in Hy. destruct (x_back s) as [f|] eqn:Ef; [|congruence]. eapply done_ended; [exact Hb|]. eapply xi_over; eauto.
  - intros Hn. destruct (x_back s) as [f|]; [exfalso; apply Hn, Hh; discriminate|exact Hb].
Qed.

Theorem final_C79_written : forall O cf mc T tr s, server_process O cf mc T tr s -> exited tr -> writes_ok (back_of tr) ->
    let w := watched cf T (back_of tr) in
    has_backend tr -> w_disk w = w_all w /\ exists d, execution O cf (T ++ inner (back_of tr)) d /\ content (s_disk d) (w_all w) (w_gone w).
Proof.
  intros O cf mc T tr s H He Hw w Hb. destruct (final_C79_order _ _ _ _ _ _ H He) as (_ & _ & _ & Hd & _). specialize (Hd Hb).
  apply (process_has _ _ _ _ _ _ H) in Hb. destruct (x_back s) as [f|] eqn:Ef; [|congruence]. pose proof (process_lifetime _ _ _ _ _ _ _ H Ef) as L.
  destruct (final_C50 _ _ _ _ _ L Hw Hd) as [A B]. split; [exact A|]. exists (f_sys f). split; [|exact B]. exact (fl_exec _ _ _ _ _ (lifetime_flink _ _ _ _ _ L Hw)).
Qed.

(** ** Acknowledged events *)

Lemma shown_from : forall O cf tr0 vtr0 srv tk ms size A c conv last rs l j B r l2 C,
    let acked := A ++ SRegister (VRegister c conv last rs, l) j :: B ++ [SServer (VRegistered c r, l2)] in
    let tr := A ++ SRegister (VRegister c conv last rs, l) j :: B ++ SServer (VRegistered c r, l2) :: C in
    service O cf tr0 vtr0 srv tk ms size tr -> quiet c (server_part B) ->
    clock_forward srv (w_all (watch_run cf tr0)) (readings (engine_part acked)) ->
    exists es, r = Some es /\ map reg_of es = rs /\
      forall e, In e es -> cf_cond (conf_at cf tr0) e = true -> covers (conf_at cf tr0) (ev_type e) = true ->
        exists a b, events_of (tr0 ++ backend_part tr) = a ++ e :: b /\ shown (conf_at cf tr0) (w_all (watch_run cf (tr0 ++ backend_part tr))) a e b.
Proof.
  intros O cf tr0 vtr0 srv tk ms size A c conv last rs l j B r l2 C acked tr HS HQ HC.
  destruct (answered_request _ _ _ _ _ _ _ _ _ _ _ _ _ _ _ _ _ _ _ HS HQ) as (es & -> & E & D). exists es. split; [reflexivity|]. split; [exact E|].
  intros e He Hc Hk. destruct D as [->|(T1 & i & rest & x & T2 & D)]; [destruct He|].
  assert (Et : tr = T1 ++ SBatch i (ORegister (es ++ rest), x) :: (T2 ++ SServer (VRegistered c (Some es), l2) :: C)).
  { unfold tr. change (A ++ SRegister (VRegister c conv last rs, l) j :: B ++ SServer (VRegistered c (Some es), l2) :: C)
      with (A ++ (SRegister (VRegister c conv last rs, l) j :: B) ++ SServer (VRegistered c (Some es), l2) :: C).
    rewrite app_assoc, D, <- app_assoc. reflexivity. }
  assert (Ek : acked = (T1 ++ [SBatch i (ORegister (es ++ rest), x)]) ++ (T2 ++ [SServer (VRegistered c (Some es), l2)])).
  { unfold acked. change (A ++ SRegister (VRegister c conv last rs, l) j :: B ++ [SServer (VRegistered c (Some es), l2)])
      with (A ++ (SRegister (VRegister c conv last rs, l) j :: B) ++ [SServer (VRegistered c (Some es), l2)]).
    rewrite app_assoc, D, <- !app_assoc. reflexivity. }
  rewrite Et in HS. rewrite Ek in HC. apply clock_app in HC. rewrite Et. destruct (batch_stored _ _ _ _ _ _ _ _ _ _ _ _ _ HS HC e) as (_ & _ & X3); auto. apply in_or_app. now left.
Qed.

Theorem final_C79_acknowledged : forall O cf mc T tr s tr0 srv rs r acked C, server_process O cf mc T tr s -> exited tr -> writes_ok (back_of tr) ->
    answered O cf tr0 srv rs r acked C -> tr0 ++ backend_part (acked ++ C) = T ++ inner (back_of tr) ->
    exists es, r = Some es /\ map reg_of es = rs /\
      forall e, In e es -> cf_cond (conf_at cf tr0) e = true -> has_place (conf_at cf tr0) e = true ->
      forall X d, execution O cf ((T ++ inner (back_of tr)) ++ X) d ->
        (forall n t, ~ In (n, t, ev_id e) (w_gone (watch_run cf ((T ++ inner (back_of tr)) ++ X)))) -> stored_event (s_disk d) e.
Proof.
  intros O cf mc T tr s tr0 srv rs r acked C H He Hw ((vtr0 & tk & ms & size & HS) & (A & c & conv & last & l & j & B & l2 & Ea & HQ) & HC) E.
  assert (Ek : acked ++ C = A ++ SRegister (VRegister c conv last rs, l) j :: B ++ SServer (VRegistered c r, l2) :: C).
  { rewrite Ea, <- app_assoc. cbn [app]. rewrite <- app_assoc. reflexivity. }
  rewrite Ek in HS. rewrite Ea in HC. destruct (final_C72_stored _ _ _ _ _ _ _ _ _ _ _ _ _ _ _ _ _ _ _ HS HQ HC) as (es & -> & Er & Hs).
  exists es. split; [reflexivity|]. split; [exact Er|]. intros e Hi Hc Hp X d HX Hg. destruct (Hs e Hi Hc) as [_ Hen]. specialize (Hen Hp). rewrite <- Ek, E in Hen.
  assert (D : In (Entry (conf_at cf tr0) e) (w_disk (watch_run cf (T ++ inner (back_of tr))))).
  { assert (Q : has_backend tr \/ back_of tr = []).
    { destruct (final_C79_order _ _ _ _ _ _ H He) as (_ & _ & _ & _ & Hn). unfold has_backend in *.
      destruct (in_dec (fun x y : Model_Main.res => ltac:(decide equality)) Model_Main.RBackend (Spec_Main.made (main_of tr))); auto. }
    destruct Q as [Q|Q].
    - destruct (final_C79_written _ _ _ _ _ _ H He Hw Q) as [W _]. unfold watched in W. rewrite W. exact Hen.
    - rewrite Q in *. cbn [inner flat_map] in *. rewrite app_nil_r in *. destruct H as (d0 & _ & [->|(T1 & c0 & x & ->)] & _); [destruct Hen|].
      rewrite watch_run_snoc in *. unfold w_all in Hen. cbn [watch_step w_disk w_queue w_cur concat] in *. rewrite !app_nil_r in Hen. exact Hen. }
  destruct (held_entry O cf _ d (Entry (conf_at cf tr0) e) true HX) as [Hd|[Hd _]]; cbn [en_ev en_conf]; auto; try discriminate.
  - unfold w_all. apply in_or_app. left. rewrite watch_run_app. now apply disk_grows.
  - intros _. rewrite watch_run_app. now apply disk_grows.
Qed.

Theorem final_C79_latest : forall O cf mc T tr s tr0 srv rs r acked C x Y p a d, server_process O cf mc T tr s -> exited tr -> writes_ok (back_of tr) ->
    answered O cf tr0 srv rs r acked C -> tr0 ++ backend_part (acked ++ C) = T ++ inner (back_of tr) ->
    let next := (T ++ inner (back_of tr)) ++ (OReopen (conf_at cf tr0), x) :: Y in
    execution O cf (next ++ [(OLatest p, a)]) d -> no_reopen Y -> valid_latest p ->
    exists es found, r = Some es /\ map reg_of es = rs /\ a = Answer (Some (QRes found false)) /\ NoDup (map ev_type found) /\
      forall e, In e es -> cf_cond (conf_at cf tr0) e = true -> covers (conf_at cf tr0) (ev_type e) = true -> asked p (ev_type e) ->
        exists e', In e' found /\ up_to_date (events_of next) e e'.
Proof.
  intros O cf mc T tr s tr0 srv rs r acked C x Y p a d H He Hw ((vtr0 & tk & ms & size & HS) & (A & c & conv & last & l & j & B & l2 & Ea & HQ) & HC) E next HX Hn Hp.
  assert (Ek : acked ++ C = A ++ SRegister (VRegister c conv last rs, l) j :: B ++ SServer (VRegistered c r, l2) :: C).
  { rewrite Ea, <- app_assoc. cbn [app]. rewrite <- app_assoc. reflexivity. }
  rewrite Ek in HS. rewrite Ea in HC. destruct (shown_from _ _ _ _ _ _ _ _ _ _ _ _ _ _ _ _ _ _ _ HS HQ HC) as (es & -> & Er & Hs). rewrite <- Ek, E in Hs.
  destruct (final_C15 _ _ _ _ _ _ HX Hp) as (found & -> & Hnd & Hf). exists es, found. split; [reflexivity|]. split; [exact Er|]. split; [reflexivity|]. split; [exact Hnd|].
  intros e Hi Hc Hk Hq. destruct (Hs e Hi Hc Hk) as (u & v & Ev & S).
  assert (D : w_disk (watch_run cf (T ++ inner (back_of tr))) = w_all (watch_run cf (T ++ inner (back_of tr)))).
  { destruct (final_C79_order _ _ _ _ _ _ H He) as (_ & _ & _ & _ & Nb). unfold has_backend in *.
    destruct (in_dec (fun x y : Model_Main.res => ltac:(decide equality)) Model_Main.RBackend (Spec_Main.made (main_of tr))) as [Q|Q].
    - destruct (final_C79_written _ _ _ _ _ _ H He Hw Q) as [W _]. exact W.
    - rewrite (Nb Q). cbn [inner flat_map]. rewrite app_nil_r. destruct H as (d0 & _ & [->|(T1 & c0 & x0 & ->)] & _); [reflexivity|].
      rewrite watch_run_snoc. unfold w_all. cbn [watch_step w_disk w_queue w_cur concat]. now rewrite !app_nil_r. }
  set (w0 := watch_run cf (T ++ inner (back_of tr))) in *.
  assert (Ew : watch_run cf next = fold_left watch_step Y (watch_step w0 (OReopen (conf_at cf tr0), x))).
  { unfold next. rewrite watch_run_app. reflexivity. }
  assert (S1 : shown (conf_at cf tr0) (w_all (watch_step w0 (OReopen (conf_at cf tr0), x))) u e v).
  { unfold w_all at 1. cbn [watch_step w_disk w_queue w_cur concat]. rewrite !app_nil_r, D. exact S. }
  destruct (shown_run _ Y _ u e v Hn eq_refl S1) as [(e' & Hv & Hd) Hcf]. rewrite <- Ew in Hv, Hcf. pose proof (visible_type _ _ _ _ Hv) as (Et & _).
  exists e'. split.
  - apply Hf. rewrite Et. split; [|exact Hq]. rewrite Hcf. exact Hv.
  - split; [exact Et|]. destruct Hd as [Hd|[Hd|[Hd Hj]]]; auto. right. right. split; [exact Hd|]. exists u, (v ++ events_of Y). split; [|exact Hj].
    unfold next. rewrite ev_app. change (events_of ((OReopen (conf_at cf tr0), x) :: Y)) with (events_of Y). rewrite Ev, <- app_assoc. reflexivity.
Qed.

(** ** The process ends *)

(** Steps that a backend takes while it closes. *)
Definition down (O : oracle) (f : fstate) (k : list fitem) (f2 : fstate) : Prop :=
  fruns O f k f2 /\ Forall (fun o => loop_step o = true \/ o = FEnd) (done_of k).

Lemma loop_registered : forall k, Forall (fun o => loop_step o = true \/ o = FEnd) (done_of k) -> registered k = [] /\ writes_ok k.
Proof.
  induction k as [|[[o xs] l] k IH]; intros H; [split; [reflexivity|intros []]|]. cbn [done_of map fst] in H. inversion H as [|? ? H1 H2]; subst.
  destruct (IH H2) as [A B]. split.
  - change ((o, xs, l) :: k) with ([(o, xs, l)] ++ k). rewrite registered_app, A, app_nil_r. unfold registered. cbn [done_of map fst flat_map]. destruct H1 as [H1| ->]; [|reflexivity]. destruct o; try discriminate; reflexivity.
  - intros [E|E]; [|exact (B E)]. cbn [fst] in E. subst o. destruct H1; discriminate.
Qed.

Lemma closing_notify : forall O cf T futs bs fin tr f, lifetime O cf T tr f -> writes_ok tr -> f_loop f = LNotify futs bs fin -> f_open f = false ->
    reach O cf T tr (fun _ f2 => f_loop f2 = LNotify futs [] fin /\ f_open f2 = false).
Proof.
  intros O cf T futs bs fin. induction bs as [|b bs IH]; intros tr f H Hw Hl Hop; [eapply reach_here; eauto|].
  eapply (reach_step _ _ _ _ f (FNotify true)); auto; [cbn [fexec]; rewrite Hl; reflexivity|]. intros H2 Hw2. exact (IH _ _ H2 Hw2 eq_refl Hop).
Qed.

Lemma closing_write : forall O cf T futs bs fin, pick_ok O -> forall j tr f, lifetime O cf T tr f -> writes_ok tr -> f_loop f = LWrite futs bs fin -> f_open f = false ->
    List.length (s_jobs (f_sys f)) = j -> reach O cf T tr (fun _ f2 => f_loop f2 = LNotify futs [] fin /\ f_open f2 = false).
Proof.
  intros O cf T futs bs fin Ho j. induction j as [|j IH]; intros tr s H Hw Hl Hop Hj.
  - eapply (reach_step _ _ _ _ s FWrote); auto.
    + cbn [fexec]. rewrite Hl. unfold flush_done. destruct (s_jobs (f_sys s)); [reflexivity|discriminate].
    + intros H2 Hw2. exact (closing_notify _ _ _ _ _ _ _ _ H2 Hw2 eq_refl Hop).
  - destruct (work_total _ _ _ _ (fl_exec _ _ _ _ _ (lifetime_flink _ _ _ _ _ H Hw)) Ho) as (y & x & Ew & Ej).
    { intros E. rewrite E in Hj. discriminate. }
    eapply (reach_step _ _ _ _ s (FOther OWork)); auto; [cbn [fexec other]; rewrite Ew; reflexivity|].
    intros H2 Hw2. apply (IH _ (set_sys s y) H2 Hw2); [exact Hl|exact Hop|]. cbn [set_sys f_sys]. rewrite Ej.
    destruct (s_jobs (f_sys s)); [discriminate|]. cbn in *. lia.
Qed.

Lemma closing_go : forall O cf T futs fin tr f, pick_ok O -> lifetime O cf T tr f -> writes_ok tr -> f_loop f = LGo futs fin -> f_open f = false ->
    reach O cf T tr (fun _ f2 => f_loop f2 = LNotify futs [] fin /\ f_open f2 = false).
Proof.
  intros O cf T futs fin tr f Ho H Hw Hl Hop. eapply (reach_step _ _ _ _ f FStart); auto; [cbn [fexec]; rewrite Hl; reflexivity|].
  intros H2 Hw2. exact (closing_write _ _ _ _ _ _ Ho _ _ _ H2 Hw2 eq_refl Hop eq_refl).
Qed.

Definition nearly (f : fstate) : Prop := f_loop f = LDone \/ exists futs, f_loop f = LNotify futs [] true.

Lemma closing_end : forall O cf T tr f, pick_ok O -> lifetime O cf T tr f -> writes_ok tr -> f_open f = false -> reach O cf T tr (fun _ f2 => nearly f2).
Proof.
  intros O cf T tr f Ho H Hw Hop.
  assert (Last : forall tr f futs, lifetime O cf T tr f -> writes_ok tr -> f_loop f = LNotify futs [] false -> f_open f = false -> reach O cf T tr (fun _ f2 => nearly f2)).
  { intros tr1 f1 futs H1 Hw1 Hl1 Hop1. eapply (reach_step _ _ _ _ f1 FCancel); auto; [cbn [fexec]; rewrite Hop1, Hl1; reflexivity|].
    intros H2 Hw2. eapply reach_trans; [eapply closing_go; eauto; reflexivity|]. intros tr3 f3 H3 Hw3 _ [Hl3 _]. eapply reach_here; eauto. right. eauto. }
  assert (Rest : forall tr f futs fin, lifetime O cf T tr f -> writes_ok tr -> f_loop f = LNotify futs [] fin -> f_open f = false -> reach O cf T tr (fun _ f2 => nearly f2)).
  { intros tr1 f1 futs [] H1 Hw1 Hl1 Hop1; [|eauto]. eapply reach_here; eauto. right. eauto. }
  destruct (f_loop f) as [|futs fin|futs bs fin|futs bs fin|] eqn:El.
  - eapply (reach_step _ _ _ _ f FCancel); auto; [cbn [fexec]; rewrite Hop, El; reflexivity|].
    intros H2 Hw2. eapply reach_trans; [eapply closing_go; eauto; reflexivity|]. intros tr3 f3 H3 Hw3 _ [Hl3 _]. eapply reach_here; eauto. right. eauto.
  - eapply reach_trans; [eapply closing_go; eauto|]. intros tr3 f3 H3 Hw3 _ [Hl3 Hop3]. eauto.
  - eapply reach_trans; [eapply closing_write; eauto|]. intros tr3 f3 H3 Hw3 _ [Hl3 Hop3]. eauto.
  - eapply reach_trans; [eapply closing_notify; eauto|]. intros tr3 f3 H3 Hw3 _ [Hl3 Hop3]. eauto.
  - eapply reach_here; eauto. now left.
Qed.

Lemma fruns_end : forall O a b s c, fruns O s (a ++ b) c -> forall m, fruns O s a m -> fruns O m b c.
Proof.
  intros O a b s c H m Hm. apply fruns_split in H as (m' & H1 & H2).
  assert (E : m' = m); [|now subst]. clear H2. revert m m' Hm H1. induction a as [|i a IH] using rev_ind; intros m m' Hm H1.
  - inversion Hm; [|destruct tr; discriminate]. inversion H1; [|destruct tr; discriminate]. congruence.
  - destruct i as [[o xs] l]. apply fruns_inv in Hm as (x & o1 & xs1 & l1 & E1 & A1 & A2). apply fruns_inv in H1 as (y & o2 & xs2 & l2 & E2 & B1 & B2).
    injection E1 as -> -> ->. injection E2 as -> -> ->. rewrite (IH _ _ A1 B1) in *. congruence.
Qed.

Lemma backend_ends : forall O cf T tr f, pick_ok O -> lifetime O cf T tr f -> writes_ok tr -> f_open f = false -> exists k f2, down O f k f2 /\ f_loop f2 = LDone.
Proof.
  intros O cf T tr f Ho H Hw Hop. destruct (closing_end _ _ _ _ _ Ho H Hw Hop) as (k & f1 & (d & A1 & A2 & A3 & A4) & B & C & D).
  assert (R : fruns O f k f1).
  { destruct H as (d' & X1 & _ & X3 & _).
    assert (E : d' = d). { destruct X1 as (z & Z1 & Z2 & _), A1 as (z' & Z3 & Z4 & _). rewrite Z1 in Z3. injection Z3 as <-. eapply runs_fun; eauto. }
    subst. eapply fruns_end; eauto. }
  assert (F : Forall (fun o => loop_step o = true \/ o = FEnd) (done_of k)) by (eapply Forall_impl; [|exact C]; cbn; auto).
  destruct D as [D|(futs & D)]; [exists k, f1; split; [split; auto|auto]|].
  exists (k ++ [(FEnd, [], [])]), (set_loop f1 LDone). split; [split|reflexivity].
  - econstructor; [exact R|]. cbn [fexec]. now rewrite D.
  - rewrite done_app. apply Forall_app. split; [exact F|]. constructor; [now right|constructor].
Qed.

Definition xreach (O : oracle) (cf : conf) (mc : Model_Main.mconf) (T : list (op * out)) (tr : list xitem) (P : xstate -> Prop) : Prop :=
  exists k s, server_process O cf mc T (tr ++ k) s /\ writes_ok (back_of (tr ++ k)) /\ Forall ending_step (ops_of_process k) /\ P s.

Lemma xreach_here : forall O cf mc T tr s (P : _ -> Prop), server_process O cf mc T tr s -> writes_ok (back_of tr) -> P s -> xreach O cf mc T tr P.
Proof. intros. exists [], s. rewrite app_nil_r. split; [auto|]. split; [auto|]. split; [constructor|auto]. Qed.

Definition harmless (fs : list fitem) : Prop := registered fs = [] /\ writes_ok fs.

Lemma process_step : forall O cf mc T tr s o s2 ms fs, server_process O cf mc T tr s -> writes_ok (back_of tr) -> harmless fs ->
    (forall d, xexec O mc d s o = Some (s2, ms, fs)) -> server_process O cf mc T (tr ++ [(o, ms, fs)]) s2 /\ writes_ok (back_of (tr ++ [(o, ms, fs)])).
Proof.
  intros O cf mc T tr s o s2 ms fs (d & A & B & C & D) Hw [Hr Hf] Hx.
  assert (Eb : back_of (tr ++ [(o, ms, fs)]) = back_of tr ++ fs) by (rewrite back_app; cbn; now rewrite app_nil_r). split.
  - exists d. split; [exact A|]. split; [exact B|]. split; [econstructor; eauto|]. rewrite Eb, registered_app, Hr, app_nil_r. exact D.
  - rewrite Eb. unfold writes_ok in *. rewrite done_app, in_app_iff. tauto.
Qed.

Lemma xreach_step : forall O cf mc T tr s o s2 ms fs (P : _ -> Prop), server_process O cf mc T tr s -> writes_ok (back_of tr) ->
    (forall d, xexec O mc d s o = Some (s2, ms, fs)) -> harmless fs -> ending_step o ->
    (forall tr2, server_process O cf mc T tr2 s2 -> writes_ok (back_of tr2) -> xreach O cf mc T tr2 P) -> xreach O cf mc T tr P.
Proof.
  intros O cf mc T tr s o s2 ms fs P H Hw Hx Hf Ho Hk. destruct (process_step _ _ _ _ _ _ _ _ _ _ H Hw Hf Hx) as [H2 Hw2].
  destruct (Hk _ H2 Hw2) as (k & s3 & A & B & C & D). exists ((o, ms, fs) :: k), s3. rewrite <- app_assoc in A, B. cbn [app] in A, B.
  split; [exact A|]. split; [exact B|]. split; [constructor; auto|exact D].
Qed.

Lemma xreach_trans : forall O cf mc T tr (P Q : _ -> Prop), xreach O cf mc T tr P ->
    (forall tr2 s2, server_process O cf mc T tr2 s2 -> writes_ok (back_of tr2) -> P s2 -> xreach O cf mc T tr2 Q) -> xreach O cf mc T tr Q.
Proof.
  intros O cf mc T tr P Q (k & s & A & B & C & D) H. destruct (H _ _ A B D) as (k2 & s2 & A2 & B2 & C2 & D2).
  exists (k ++ k2), s2. rewrite app_assoc. split; [auto|]. split; [auto|]. split; [|auto]. rewrite xops_app. apply Forall_app; auto.
Qed.

Lemma backend_steps : forall O cf mc T k tr s f f2, server_process O cf mc T tr s -> writes_ok (back_of tr) -> x_back s = Some f -> x_at s <> AGone -> down O f k f2 ->
    xreach O cf mc T tr (fun s2 => s2 = Xst (x_main s) (Some f2) (x_at s)).
Proof.
  intros O cf mc T. induction k as [|[[o xs] l] k IH] using rev_ind; intros tr s f f2 H Hw Ef Ha [Hr Hf].
  - inversion Hr; [|destruct tr0; discriminate]. subst. eapply xreach_here; eauto. destruct s as [u v w]. cbn [x_main x_back x_at] in *. congruence.
  - apply fruns_inv in Hr as (f1 & o' & xs' & l' & E & Hr & Hx). injection E as <- <- <-. rewrite done_app in Hf. apply Forall_app in Hf as [Hf1 Hf2].
    cbn [done_of map fst] in Hf2. inversion Hf2 as [|? ? Hf3 _]; subst.
    eapply xreach_trans; [eapply (IH tr s f f1); eauto; split; auto|]. intros tr2 s2 H2 Hw2 ->.
    eapply (xreach_step _ _ _ _ _ _ (XBack o) (Xst (x_main s) (Some f2) (x_at s)) [] [(o, xs, l)]); eauto.
    + intros d. unfold xexec. cbn [x_at x_back x_main]. assert (Nc : o <> FClose) by (intros ->; destruct Hf3; discriminate). destruct (x_at s); try congruence; destruct o; try congruence; rewrite Hx; reflexivity.
    + assert (Hf4 : Forall (fun o => loop_step o = true \/ o = FEnd) (done_of [(o, xs, l)])) by (constructor; [exact Hf3|constructor]). now apply loop_registered in Hf4.
    + intros tr3 H3 Hw3. eapply xreach_here; eauto.
Qed.

(** A step of the main runner that ends something. *)
Lemma main_step : forall O mc s e m l, x_at s <> AGone -> allowed s e = true -> e <> Model_Main.ECreated -> Model_Main.mstep mc (x_main s) e = Some (m, l) ->
    exists s2 fs, (forall d, xexec O mc d s (XMain e) = Some (s2, [(e, l)], fs)) /\ harmless fs /\ x_main s2 = m /\ x_at s2 = x_at s.
Proof.
  intros O mc s e m l Ha Hal Ne Hst.
  assert (Ec : forall d, created d s e = x_back s) by (intros d; unfold created; destruct e; congruence).
  destruct (closes l) eqn:El.
  - destruct (close_back_spec O (x_back s)) as (b2 & Eb & _). eexists (Xst m b2 (x_at s)), _. split; [|split; [|split; reflexivity]].
    + intros d. unfold xexec. rewrite Hal, Hst, Ec, El, Eb. destruct (x_at s); try congruence; reflexivity.
    + destruct (x_back s); (split; [reflexivity|]); intros E; cbn in E; [destruct E as [E|[]]; discriminate|exact E].
  - exists (Xst m (x_back s) (x_at s)), []. split; [|split; [|split; reflexivity]].
    + intros d. unfold xexec. rewrite Hal, Hst, Ec, El. destruct (x_at s); try congruence; reflexivity.
    + split; [reflexivity|intros []].
Qed.

Definition stopped (s : xstate) : Prop := Model_Main.m_phase (x_main s) = Model_Main.POver /\ x_at s = AClose.

Lemma stopping_ends : forall O cf mc T, pick_ok O -> forall l tr s a, server_process O cf mc T tr s -> writes_ok (back_of tr) -> x_at s = AClose ->
    Model_Main.m_phase (x_main s) = Model_Main.PStop a l -> xreach O cf mc T tr stopped.
Proof.
  intros O cf mc T Ho. induction l as [|a' l IH]; intros tr s a H Hw Ha Hp.
  - assert (Fin : forall tr s, server_process O cf mc T tr s -> writes_ok (back_of tr) -> x_at s = AClose -> Model_Main.m_phase (x_main s) = Model_Main.PStop a [] ->
                  allowed s Model_Main.EDone = true -> xreach O cf mc T tr stopped).
    { clear tr s H Hw Ha Hp. intros tr s H Hw Ha Hp Hal. destruct (main_step O mc s Model_Main.EDone (Model_Main.with_phase (x_main s) Model_Main.POver) [Model_Main.OOver]) as (s2 & fs & A & B & C & D);
        [congruence|exact Hal|discriminate|cbn [Model_Main.mstep]; rewrite Hp; reflexivity|].
      eapply (xreach_step _ _ _ _ _ _ (XMain Model_Main.EDone)); eauto; [cbn; unfold Spec_Main.own_step; auto|]. intros tr2 H2 Hw2. eapply xreach_here; eauto.
      split; [rewrite C; reflexivity|congruence]. }
    assert (D : a = Model_Main.AClose Model_Main.RBackend \/ a <> Model_Main.AClose Model_Main.RBackend) by (destruct a as [[]|]; auto; right; discriminate).
    destruct D as [-> |D].
    + pose proof H as (d & _ & _ & Hx & _). destruct (xi_shut _ _ _ _ _ (xinv_run _ _ _ _ _ Hx) _ Hp) as (f & Ef & Hop).
      destruct (backend_ends _ _ _ _ _ Ho (process_lifetime _ _ _ _ _ _ _ H Ef) Hw Hop) as (k & f2 & Hd & Hl).
      eapply xreach_trans; [eapply (backend_steps _ _ _ _ k tr s f f2); eauto; congruence|]. intros tr2 s2 H2 Hw2 ->.
      apply (Fin _ _ H2 Hw2); cbn [x_at x_main]; auto. cbn [allowed x_main x_back]. now rewrite Hp, Hl.
    + apply (Fin _ _ H Hw Ha Hp). cbn [allowed]. rewrite Hp. destruct a as [[]|]; try reflexivity. congruence.
  - assert (D : a <> Model_Main.AClose Model_Main.RBackend).
    { intros ->. pose proof (process_main _ _ _ _ _ _ H) as Hm. destruct (stop_last _ _ _ _ _ Hm Hp) as [_ Z]. destruct (Z eq_refl). discriminate. }
    destruct (main_step O mc s Model_Main.EDone (Model_Main.with_phase (x_main s) (Model_Main.PStop a' l)) [Model_Main.action_out a']) as (s2 & fs & A & B & C & E);
      [congruence|cbn [allowed]; rewrite Hp; destruct a as [[]|]; try reflexivity; congruence|discriminate|cbn [Model_Main.mstep]; rewrite Hp; reflexivity|].
    eapply (xreach_step _ _ _ _ _ _ (XMain Model_Main.EDone)); eauto; [cbn; unfold Spec_Main.own_step; auto|].
    intros tr2 H2 Hw2. apply (IH tr2 s2 a' H2 Hw2); [congruence|rewrite C; reflexivity].
Qed.

Lemma closing_ends : forall O cf mc T tr s, pick_ok O -> server_process O cf mc T tr s -> writes_ok (back_of tr) -> x_at s = AClose -> xreach O cf mc T tr stopped.
Proof.
  intros O cf mc T tr s Ho H Hw Ha. pose proof H as (d & _ & _ & Hx & _).
  assert (Hop : Model_Main.m_open (x_main s) = false) by (apply (xi_at _ _ _ _ _ (xinv_run _ _ _ _ _ Hx)); congruence).
  assert (Cancel : forall m l, Model_Main.mstep mc (x_main s) Model_Main.ECancel = Some (m, l) ->
            match Model_Main.m_phase m with Model_Main.PStop _ _ | Model_Main.POver => True | _ => False end -> xreach O cf mc T tr stopped).
  { intros m l Hst Hph. destruct (main_step O mc s Model_Main.ECancel m l) as (s2 & fs & A & B & C & D); [congruence|reflexivity|discriminate|exact Hst|].
    eapply (xreach_step _ _ _ _ _ _ (XMain Model_Main.ECancel)); eauto; [cbn; unfold Spec_Main.own_step; auto|]. intros tr2 H2 Hw2. subst m.
    destruct (Model_Main.m_phase (x_main s2)) eqn:Ep; try destruct Hph.
    - eapply stopping_ends; eauto. congruence.
    - eapply xreach_here; eauto. split; congruence. }
  assert (Stop : Model_Main.waits (Model_Main.m_phase (x_main s)) = true -> xreach O cf mc T tr stopped).
  { intros Hwt. destruct (Model_Main.stop (x_main s)) as [m l] eqn:Es. apply (Cancel m l).
    - cbn [Model_Main.mstep]. rewrite Hop. destruct (Model_Main.m_phase (x_main s)); try discriminate; cbn [Model_Main.waits]; now rewrite Es.
    - destruct (stop_cases _ _ _ Es) as [X _]. destruct (Model_Main.stops _ _); destruct X as [-> _]; exact I. }
  destruct (Model_Main.m_phase (x_main s)) as [|r l| | | | |b| |a l|] eqn:Ep; try (apply Stop; reflexivity).
  - eapply (Cancel (Model_Main.with_phase (x_main s) Model_Main.POver) [Model_Main.OOver]); [cbn [Model_Main.mstep]; now rewrite Hop, Ep|exact I].
  - eapply stopping_ends; eauto.
  - eapply xreach_here; eauto. split; auto.
Qed.

Theorem final_C79_ends : forall O cf mc T tr s, pick_ok O -> server_process O cf mc T tr s -> writes_ok (back_of tr) ->
    In XSignal (ops_of_process tr) \/ Spec_Main.must_end (main_of tr) ->
    exists k s2, server_process O cf mc T (tr ++ k) s2 /\ Forall ending_step (ops_of_process k) /\ writes_ok (back_of (tr ++ k)) /\ exited (tr ++ k).
Proof.
  intros O cf mc T tr s Ho H Hw Hr. pose proof H as (d & _ & _ & Hx & _). pose proof (xinv_run _ _ _ _ _ Hx) as I.
  assert (Gone : forall tr s, server_process O cf mc T tr s -> x_at s = AGone -> exited tr).
  { intros tr1 s1 (d1 & _ & _ & Hx1 & _) Ha. now apply (xi_exit _ _ _ _ _ (xinv_run _ _ _ _ _ Hx1)). }
  assert (Sleep : forall tr s, server_process O cf mc T tr s -> writes_ok (back_of tr) -> x_at s = ASleep -> xreach O cf mc T tr (fun s => x_at s = AGone)).
  { intros tr1 s1 H1 Hw1 Ha. eapply (xreach_step _ _ _ _ _ _ XExit (Xst (x_main s1) (x_back s1) AGone) [] []); eauto.
    - intros d1. unfold xexec. now rewrite Ha.
    - split; [reflexivity|intros []].
    - exact Logic.I.
    - intros tr2 H2 Hw2. eapply xreach_here; eauto. }
  assert (Close : forall tr s, server_process O cf mc T tr s -> writes_ok (back_of tr) -> x_at s = AClose -> xreach O cf mc T tr (fun s => x_at s = AGone)).
  { intros tr1 s1 H1 Hw1 Ha. eapply xreach_trans; [eapply closing_ends; eauto|]. intros tr2 s2 H2 Hw2 [Ep Ha2].
    eapply (xreach_step _ _ _ _ _ _ XClosed (Xst (x_main s2) (x_back s2) ASleep) [] []); eauto.
    - intros d1. unfold xexec. now rewrite Ha2, Ep.
    - split; [reflexivity|intros []].
    - exact Logic.I. }
  assert (Shut : forall tr s, server_process O cf mc T tr s -> writes_ok (back_of tr) -> x_at s = AWait -> Model_Main.m_open (x_main s) = false -> xreach O cf mc T tr (fun s => x_at s = AGone)).
  { intros tr1 s1 H1 Hw1 Ha Hop. eapply (xreach_step _ _ _ _ _ _ XClosing); eauto.
    - intros d1. unfold xexec. rewrite Ha, Hop. unfold clean. cbn [Model_Main.mstep]. reflexivity.
    - split; [reflexivity|intros []].
    - exact Logic.I.
    - intros tr2 H2 Hw2. eapply Close; eauto. }
  assert (All : xreach O cf mc T tr (fun s => x_at s = AGone)).
  { destruct (x_at s) eqn:Ha; eauto using xreach_here.
    destruct Hr as [Hr|Hr]; [exfalso; exact (xi_signal _ _ _ _ _ I Hr Ha)|].
    destruct (Proof_Main3.reason_state _ _ _ (process_main _ _ _ _ _ _ H)) as [X _]. apply X in Hr. destruct (Model_Main.m_open (x_main s)) eqn:Eop; [|eauto].
    destruct Hr as [Hr|Hr]; [congruence|].
    destruct (main_step O mc s Model_Main.EBound (Model_Main.Mst (Model_Main.m_phase (x_main s)) false (Model_Main.m_created (x_main s)) (Model_Main.m_ending (x_main s))
       (Model_Main.m_engine (x_main s)) (Model_Main.m_reset (x_main s)) (Model_Main.m_token (x_main s))) []) as (s2 & fs & A & B & C & D); [congruence|reflexivity|discriminate| |].
    { cbn [Model_Main.mstep]. rewrite Eop. destruct (Model_Main.m_ending (x_main s)); [congruence|reflexivity]. }
    eapply (xreach_step _ _ _ _ _ _ (XMain Model_Main.EBound)); eauto; [cbn; unfold Spec_Main.own_step; auto|].
    intros tr2 H2 Hw2. eapply Shut; eauto; [congruence|rewrite C; reflexivity]. }
  destruct All as (k & s2 & A & B & C & D). exists k, s2. split; [exact A|]. split; [exact C|]. split; [exact B|]. eapply Gone; eauto.
Qed.

(** ** Ids after the process *)

Theorem final_C79_ids : forall O cf mc T tr s X d srv ms size etr es, server_process O cf mc T tr s -> exited tr -> writes_ok (back_of tr) ->
    execution O cf ((T ++ inner (back_of tr)) ++ X) d -> engine_run ms size (get_last_event_id (m_sys (s_mem d)) srv) etr es ->
    forall en e, In en (w_all (watched cf T (back_of tr))) -> eid_server (ev_id (en_ev en)) = srv -> In e (concat (handed etr)) ->
    eid_lt (ev_id (en_ev en)) (ev_id e).
Proof.
  intros O cf mc T tr s X d srv ms size etr es H He Hw HX HE en e Hi Hs Hj.
  assert (D : In en (w_disk (watch_run cf (T ++ inner (back_of tr))))).
  { destruct (final_C79_order _ _ _ _ _ _ H He) as (_ & _ & _ & _ & Nb). unfold has_backend in *.
    destruct (in_dec (fun x y : Model_Main.res => ltac:(decide equality)) Model_Main.RBackend (Spec_Main.made (main_of tr))) as [Q|Q].
    - destruct (final_C79_written _ _ _ _ _ _ H He Hw Q) as [W _]. unfold watched in W, Hi. rewrite W. exact Hi.
    - unfold watched in Hi. rewrite (Nb Q) in *. cbn [inner flat_map] in *. rewrite app_nil_r in *. destruct H as (d0 & _ & [->|(T1 & c0 & x0 & ->)] & _); [destruct Hi|].
      rewrite watch_run_snoc in *. unfold w_all in Hi. cbn [watch_step w_disk w_queue w_cur concat] in *. now rewrite !app_nil_r in Hi. }
  eapply final_C35_stored; eauto. unfold w_all. apply in_or_app. left. rewrite watch_run_app. now apply disk_grows.
Qed.
