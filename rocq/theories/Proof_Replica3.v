(** A local server that follows a remote one: the joint invariant. *)
From Coq Require Import String Bool ZArith Arith Lia Sorted List.
From Verif Require Import Base Kv Model_Types Model_Subscription Model_Codec Keys Spec_Order Proof_Order Model_Lmdb Model_LmdbSys
  Spec_Lmdb Spec_LmdbContent Proof_Lmdb3 Proof_Lmdb8 Proof_Lmdb9 Proof_Lmdb10 Proof_Service Proof_Service2
  Model_Sync Spec_Sync Proof_Sync Proof_Sync2 Proof_Sync3 Proof_Sync4 Proof_Sync5 Proof_Sync6 Model_Replica Spec_Replica Proof_Replica Proof_Replica2.
Import ListNotations.
Open Scope string_scope.
Open Scope list_scope.
Open Scope nat_scope.

Definition srv (e : event) : Z := eid_server (ev_id e).
Definition tle (a b : event) : Prop := ts_leb (ev_ts a) (ev_ts b) = true.
Definition holds (H : history) (e : event) : Prop := exists en, In en H /\ en_ev en = e.

(** ** What is accepted of a batch *)
Lemma take_all : forall cf sv (W : event -> Prop) es H, increasing es ->
    Forall (fun e => srv e = sv /\ eid_ltb (Eid sv 0 0) (ev_id e) = true /\ ts_leb min_timestamp (ev_ts e) = true) es ->
    (forall a b, In a es -> In b es -> id_lt a b -> tle a b) ->
    (forall en e, In en H -> srv (en_ev en) = sv -> In e es -> id_lt (en_ev en) e -> tle (en_ev en) e) ->
    (forall e, In e es -> W e -> cf_cond cf e = true /\ has_place cf e = true) ->
    (forall e en, In e es -> W e -> In en H -> srv (en_ev en) = sv -> eid_leb (ev_id e) (ev_id (en_ev en)) = true -> holds H e) ->
    forall e, In e es -> W e -> holds (H ++ take_events cf H es) e.
Proof.
  intros cf sv W es. induction es as [|x es IH]; intros H Hi Hf Ht Hh Hc Hg e He HW; [destruct He|].
  inversion Hi as [|? ? Hi1 Hi2]; subst. inversion Hf as [|? ? (F1 & F2 & F3) Hf']; subst. rewrite Forall_forall in Hi2. cbn [take_events].
  destruct (accepts H cf x) eqn:A.
  - destruct He as [<-|He]; [exists (Entry cf x); split; auto; apply in_or_app; right; now left|].
    destruct (IH (H ++ [Entry cf x])) with (e := e) as (en & E1 & E2); auto.
    + intros a b Ha Hb. apply Ht; now right.
    + intros en b Hen Hs Hb Hl. apply in_app_or in Hen as [Hen|[<-|[]]]; [apply Hh; auto; now right|]. cbn [en_ev] in *. apply Ht; auto; [now left|now right].
    + intros b Hb. apply Hc. now right.
    + intros b en Hb HWb Hen Hs Hl. apply in_app_or in Hen as [Hen|[<-|[]]].
      * destruct (Hg b en) as (en' & G1 & G2); auto; [now right|]. exists en'. split; auto. apply in_or_app. auto.
      * exfalso. cbn [en_ev] in Hl. specialize (Hi2 _ Hb). unfold id_lt in Hi2. exact (ltb_irr _ _ Hi2 Hl).
    + exists en. split; auto. rewrite <- app_assoc in E1. exact E1.
  - destruct He as [<-|He].
    2:{ apply IH; auto; [intros a b Ha Hb; apply Ht; now right|intros en b ? ? ?; apply Hh; auto; now right|intros b Hb; apply Hc; now right|].
        intros b en Hb HWb Hen Hs Hl. apply (Hg b en); auto. now right. }
    assert (G : holds H x); [|destruct G as (en & G1 & G2); exists en; split; auto; apply in_or_app; auto].
    destruct (Hc x) as [C1 C2]; [now left|auto|]. unfold accepts in A. rewrite C1, C2, orb_true_r, !andb_true_r in A. unfold follows in A.
    change (eid_server (ev_id x)) with (srv x) in A. rewrite F2, F3 in A. cbn [andb] in A.
    assert (Q : exists en, In en H /\ srv (en_ev en) = srv x /\ eid_ltb (ev_id (en_ev en)) (ev_id x) && ts_leb (ev_ts (en_ev en)) (ev_ts x) = false).
    { clear - A. induction H as [|en H IH]; [discriminate|]. cbn [forallb] in A. apply andb_false_iff in A as [A|A].
      - apply orb_false_iff in A as [A1 A2]. apply negb_false_iff, server_eqb_iff in A1. exists en. split; [now left|]. auto.
      - destruct (IH A) as (en' & Q1 & Q2). exists en'. split; auto. now right. }
    destruct Q as (en & Q1 & Q2 & Q3). apply (Hg x en); auto; [now left|].
    destruct (leb_or_ltb (ev_id x) (ev_id (en_ev en))) as [Q|Q]; auto. exfalso.
    assert (T : tle (en_ev en) x) by (apply Hh; auto; now left). unfold tle in T. rewrite Q, T in Q3. discriminate.
Qed.

(** ** Batches given *)
Lemma given_batches : forall l, given_in l = concat (batches_in l).
Proof. induction l as [|x l IH]; [reflexivity|]. unfold given_in, batches_in in *. cbn [flat_map]. rewrite concat_app, IH. f_equal. destruct x; try reflexivity. cbn. now rewrite app_nil_r. Qed.

Lemma batches_one : forall sv l0 s o s' l, yexec sv l0 s o = Some (s', l) ->
    batches_in l = [] \/ ((forall b, o <> RCommit b) /\ exists w es, batches_in l = [es] /\ In es (gives_in w l)).
Proof.
  intros sv l0 s1 o s' l H.
  assert (K : forall w es, In (Give w es) l -> batches_in l = [es] -> (forall b, o <> RCommit b) ->
    batches_in l = [] \/ ((forall b, o <> RCommit b) /\ exists w es, batches_in l = [es] /\ In es (gives_in w l))).
  { intros w es Hi Hb Hn. right. split; [exact Hn|]. exists w, es. split; [exact Hb|]. apply in_flat_map. exists (Give w es). split; [exact Hi|]. destruct w; now left. }
  pcase H s1; clear H; try match goal with |- context [snd (drain ?x)] => destruct (drain_turn x) end; try (left; reflexivity);
    (eapply K; [first [left; reflexivity|right; left; reflexivity]|reflexivity|discriminate]).
Qed.

Lemma concat_inc : forall ls es, increasing (concat ls) -> In es ls -> increasing es.
Proof.
  induction ls as [|x ls IH]; intros es H Hi; [destruct Hi|]. cbn in H. apply increasing_inv in H as (H1 & H2 & _). destruct Hi as [->|Hi]; auto.
Qed.

Lemma gives_inc : forall sv L tr s w es, sync_run sv L tr s -> In es (gives w tr) -> increasing es.
Proof.
  intros sv L tr s w es H Hi. destruct (final_C41_order _ _ _ _ H) as (_ & O1 & _ & O2).
  apply increasing_inv in O1 as (O1 & O1' & _). apply increasing_inv in O2 as (_ & O2 & _). destruct w; [exact (concat_inc _ _ O1 Hi)|exact (concat_inc _ _ O1' Hi)|exact (concat_inc _ _ O2 Hi)].
Qed.

(** ** The remote's ids *)
Lemma top_low : forall sv L tr s, sync_run sv L tr s -> eid_leb (Eid sv 0 0) (r_top s) = true /\ Forall (fun e => eid_ltb (Eid sv 0 0) (ev_id e) = true) (call tr).
Proof.
  intros sv L tr s H. unfold sync_run in H. remember (ystart sv) as s0 eqn:E0. induction H as [s|s tr s1 o l s2 H IH Hx]; [subst; split; [apply leb_refl|constructor]|].
  destruct (IH E0) as [I1 I2]. rewrite call_snoc.
  assert (K : (r_top s2 = r_top s1 /\ (forall b, o <> RCommit b)) \/ exists b, o = RCommit b /\ growing sv (r_top s1) (map fst b) = true /\ r_top s2 = last_id (r_top s1) (map fst b)).
  { pcase Hx s1; try (left; split; [reflexivity|discriminate]). right. eauto. }
  destruct K as [[K1 K2]|(b & -> & K1 & K2)].
  - rewrite K1. split; auto. apply Forall_app. split; auto. destruct o; try constructor. exfalso. eapply K2; eauto.
  - rewrite K2. split; [eapply eid_leb_trans'; [exact I1|]; eapply last_id_le; eauto|]. apply Forall_app. split; auto. apply growing_spec in K1 as [_ K1].
    eapply Forall_impl; [|exact K1]. cbn. intros e (_ & X & _). eapply leb_ltb_trans; eauto.
Qed.

Lemma call_sv : forall sv L tr s e, sync_run sv L tr s -> In e (call tr) -> srv e = sv /\ eid_leb (ev_id e) (r_top s) = true.
Proof. intros sv L tr s e H He. pose proof (n_top _ _ _ (ynote_run _ _ _ _ H)) as N. rewrite Forall_forall in N. now apply N. Qed.

Lemma given_call : forall sv L tr s e, sync_run sv L tr s -> In e (given tr) -> In e (call tr).
Proof. intros sv L tr s e H He. destruct (final_C41_only _ _ _ _ H _ He) as (b & B1 & B2). unfold call. apply in_concat. exists (batch b). split; auto. now apply in_map. Qed.

Lemma kept_call : forall tr e, kept tr e -> In e (call tr).
Proof. intros tr e [(b & B1 & B2) _]. unfold call. apply in_concat. exists (batch b). split; [now apply in_map|]. unfold batch. apply in_map_iff. exists (e, true). auto. Qed.

Lemma timely_le : forall l a b, increasing l -> timely l -> In a l -> In b l -> id_lt a b -> tle a b.
Proof.
  induction l as [|x l IH]; intros a b Hi Ht Ha Hb Hl; [destruct Ha|]. inversion Hi as [|? ? H1 H2]; subst. inversion Ht as [|? ? T1 T2]; subst. rewrite Forall_forall in H2, T2.
  destruct Ha as [<-|Ha], Hb as [<-|Hb].
  - unfold id_lt in Hl. now rewrite eid_ltb_irrefl in Hl.
  - now apply T2.
  - specialize (H2 _ Ha). unfold id_lt in *. rewrite (eid_ltb_asym _ _ H2) in Hl. discriminate.
  - now apply IH.
Qed.

Lemma new_given : forall sv L tr s, sync_run sv L tr s -> y_phase s = PNew -> given tr = [].
Proof.
  intros sv L tr s H E. pose proof (ynote_run _ _ _ _ H) as N. pose proof (yflow_run _ _ _ _ H) as F. pose proof (ypage_run _ _ _ _ H) as P.
  rewrite (n_given _ _ _ N). pose proof (n_queue _ _ _ N) as Q. unfold yflow in F. rewrite E in *. destruct Q as (_ & -> & ->). destruct F as (_ & _ & F & _).
  destruct (g_pre _ _ _ P) as [r Hr]. unfold pcat in Hr. rewrite F in Hr. cbn in Hr. symmetry in Hr. apply app_eq_nil in Hr as [-> _]. reflexivity.
Qed.

(** ** Registration *)
Lemma register_all : forall O cf tr s s' bs xs, execution O cf tr s -> runs O s xs s' -> map fst xs = map ORegister bs ->
    Forall event_ok (events_of xs) ->
    execution O cf (tr ++ xs) s' /\ confs_of (tr ++ xs) = confs_of tr /\
    w_all (watch_run cf (tr ++ xs)) = w_all (watch_run cf tr) ++ take_events (w_conf (watch_run cf tr)) (w_all (watch_run cf tr)) (concat bs) /\
    w_conf (watch_run cf (tr ++ xs)) = w_conf (watch_run cf tr) /\ events_of xs = concat bs.
Proof.
  intros O cf tr s s' bs. revert tr s. induction bs as [|b bs IH]; intros tr s xs HX HR HM HE.
  - destruct xs; [|discriminate]. inversion HR; subst. rewrite !app_nil_r. cbn [concat take_events]. rewrite ?app_nil_r. auto.
  - destruct xs as [|[o x] xs]; [discriminate|]. cbn in HM. injection HM as -> HM. inversion HR as [|? ? ? s1 ? ? HS HR']; subst.
    change ((ORegister b, x) :: xs) with ([(ORegister b, x)] ++ xs) in HE |- *. rewrite ev_app in HE. apply Forall_app in HE as [HE1 HE2].
    assert (HX1 : execution O cf (tr ++ [(ORegister b, x)]) s1).
    { apply execution_snoc. exists s. repeat split; auto. constructor. }
    destruct (IH _ _ _ HX1 HR' HM HE2) as (I1 & I2 & I3 & I4 & I5). rewrite <- app_assoc in I1, I2, I3, I4. split; [exact I1|]. split; [rewrite I2, confs_snoc; apply app_nil_r|].
    rewrite watch_run_snoc in I3, I4. cbn [watch_step w_conf w_disk w_queue w_cur] in I3, I4. split; [|split; [exact I4|]].
    + assert (A : forall w h, w_all (Watch (w_conf w) (w_disk w) (w_queue w) (w_cur w ++ h) (w_gone w)) = w_all w ++ h) by (intros; unfold w_all; cbn [w_disk w_queue w_cur]; now rewrite <- !app_assoc).
      rewrite !A in I3. rewrite I3. cbn [concat]. set (H := w_all (watch_run cf tr)). set (c := w_conf (watch_run cf tr)).
      assert (T : forall a b H, take_events c H (a ++ b) = take_events c H a ++ take_events c (H ++ take_events c H a) b).
      { clear. induction a as [|e a IH]; intros b H; [cbn; now rewrite app_nil_r|]. cbn [app take_events]. destruct (accepts H c e); [|apply IH]. cbn [app]. rewrite IH. now rewrite <- app_assoc. }
      rewrite T, <- app_assoc. reflexivity.
    + rewrite ev_app, I5. cbn. now rewrite app_nil_r.
Qed.

Lemma replica_exec : forall O cf sv tr y s, replicated O cf sv tr y s -> execution O cf (local_part tr) s.
Proof.
  intros O cf sv tr y s (H & HC & HE). enough (X : exists s0, start cf = Some s0 /\ runs O s0 (local_part tr) s) by (destruct X as (s0 & X1 & X2); exists s0; auto).
  clear HC HE. induction H as [s H0|tr y s o l y' xs s' H IH Hx Hr Hm|tr y s o x s' H IH Hx Hb Ho|tr y s H IH|tr y s H IH]; [exists s; split; auto; constructor| | | |];
    destruct IH as (s0 & I1 & I2); exists s0; (split; [exact I1|]); rewrite local_part_snoc.
  - eapply runs_app; eauto.
  - eapply runs_app; eauto. econstructor; [eauto|constructor].
  - now rewrite app_nil_r.
  - now rewrite app_nil_r.
Qed.
