(** A local server that follows a remote one: the joint invariant and what
    follows from it. *)
From Coq Require Import String Bool ZArith Arith Lia Sorted List.
From Verif Require Import Base Kv Model_Types Model_Subscription Model_Codec Keys Spec_Order Proof_Order Model_Lmdb Model_LmdbSys
  Spec_Lmdb Spec_LmdbContent Proof_Lmdb3 Proof_Lmdb8 Proof_Lmdb9 Proof_Lmdb10 Proof_Service Proof_Service2
  Model_Sync Spec_Sync Proof_Sync Proof_Sync2 Proof_Sync3 Proof_Sync4 Proof_Sync5 Proof_Sync6 Model_Replica Spec_Replica Proof_Replica Proof_Replica2 Proof_Replica3.
Import ListNotations.
Open Scope string_scope.
Open Scope list_scope.
Open Scope nat_scope.

Definition hist (cf : conf) (tr : list rstep) : history := w_all (watch_run cf (local_part tr)).

Record rinv (cf : conf) (sv : Z) (tr : list rstep) (y : ystate) (L : event_id) : Prop := {
  v_run : sync_run sv L (viewed tr) y;
  v_src : forall en, In en (hist cf tr) -> srv (en_ev en) = sv -> In (en_ev en) (call (viewed tr));
  v_inv : forall e en, kept (viewed tr) e -> taken cf tr e -> In en (hist cf tr) -> srv (en_ev en) = sv ->
            eid_leb (ev_id e) (ev_id (en_ev en)) = true -> holds (hist cf tr) e;
  v_acc : forall e, In e (given (viewed tr)) -> kept (viewed tr) e -> taken cf tr e -> holds (hist cf tr) e;
  v_beg : y_phase y <> PNew -> forall e, kept (viewed tr) e -> taken cf tr e -> fresh L e \/ holds (hist cf tr) e;
  v_low : y_phase y <> PNew -> eid_leb L (r_top y) = true }.

(** ** Local steps *)
Lemma last_here : forall O cf tr s sv e T L y, execution O cf tr s -> sync_run sv L T y -> kept T e ->
    eid_leb (ev_id e) (get_last_event_id (m_sys (s_mem s)) sv) = true ->
    exists en, In en (w_all (watch_run cf tr)) /\ srv (en_ev en) = sv /\ eid_leb (ev_id e) (ev_id (en_ev en)) = true.
Proof.
  intros O cf tr s sv e T L y HX HR Hk Hl. destruct (final_C14 _ _ _ _ HX) as (_ & _ & X). destruct (X sv) as [(H1 & en & H2 & E & E1 & E2 & _)|[_ E]].
  - exists en. rewrite E. split; [apply in_or_app; right; now left|]. unfold srv. rewrite E1. auto.
  - exfalso. rewrite E in Hl. destruct (top_low _ _ _ _ HR) as [_ F]. rewrite Forall_forall in F. specialize (F _ (kept_call _ _ Hk)). exact (ltb_irr _ _ F Hl).
Qed.

Lemma last_top : forall O cf tr s sv T L y, execution O cf tr s -> sync_run sv L T y ->
    (forall en, In en (w_all (watch_run cf tr)) -> srv (en_ev en) = sv -> In (en_ev en) (call T)) ->
    eid_leb (get_last_event_id (m_sys (s_mem s)) sv) (r_top y) = true.
Proof.
  intros O cf tr s sv T L y HX HR Hs. destruct (final_C14 _ _ _ _ HX) as (_ & _ & X). destruct (X sv) as [(H1 & en & H2 & E & E1 & E2 & _)|[_ E]].
  - rewrite <- E1. eapply call_sv; [exact HR|]. apply Hs; [rewrite E; apply in_or_app; right; now left|]. unfold srv. now rewrite E1.
  - rewrite E. eapply top_low; eauto.
Qed.

Lemma taken_pre : forall cf tr x e, taken cf (tr ++ [x]) e -> taken cf tr e.
Proof.
  intros cf tr x e H. unfold taken in *. rewrite local_part_snoc, confs_of_app in H. inversion H as [|? ? H1 H2]; subst. apply Forall_app in H2 as [H2 _]. now constructor.
Qed.
Lemma remote_snoc : forall tr x, exists r, remote_events (tr ++ [x]) = remote_events tr ++ r.
Proof.
  intros tr x. unfold remote_events. rewrite sync_part_snoc. destruct x as [[o l] xs|x| |]; [|exists []; now rewrite !app_nil_r|exists []; now rewrite !app_nil_r|exists []; now rewrite !app_nil_r].
  rewrite commits_snoc, map_app, concat_app. eauto.
Qed.
Lemma timely_pre : forall a b, timely (a ++ b) -> timely a.
Proof.
  induction a as [|x a IH]; intros b H; [constructor|]. cbn in H. inversion H as [|? ? H1 H2]; subst. apply Forall_app in H2 as [H2 _]. constructor; eauto. eapply IH; eauto.
Qed.

Lemma holds_app : forall H h e, holds H e -> holds (H ++ h) e.
Proof. intros H h e (en & A & B). exists en. split; auto. apply in_or_app. auto. Qed.

(** A later event of the server is above. *)
Lemma later_above : forall H r en en', hist_ok (H ++ r) -> In en H -> In en' r -> srv (en_ev en) = srv (en_ev en') ->
    eid_ltb (ev_id (en_ev en)) (ev_id (en_ev en')) = true.
Proof.
  intros H r en en' Hk Hi Hr Hs. apply in_split in Hr as (r1 & r2 & ->). specialize (Hk (H ++ r1) en' r2). rewrite <- app_assoc in Hk. specialize (Hk eq_refl).
  apply goes_follows in Hk. eapply follows_in; eauto. apply in_or_app. auto.
Qed.

(** ** A step of the synchronization *)
Lemma rinv_sync : forall O cf sv tr y s o l y' xs s' L, replicated O cf sv tr y s -> rinv cf sv tr y L ->
    yexec sv (get_last_event_id (m_sys (s_mem s)) sv) y o = Some (y', l) -> runs O s xs s' -> map fst xs = map ORegister (batches_in l) ->
    Forall event_ok (events_of xs) -> timely (remote_events (tr ++ [RSync (o, l) xs])) ->
    exists L', rinv cf sv (tr ++ [RSync (o, l) xs]) y' L'.
Proof.
  intros O cf sv tr y s o l y' xs s' L HRep [VR VS VI VA VB VL] Hx Hr Hm He Ht.
  pose proof (replica_exec _ _ _ _ _ _ HRep) as HX. destruct (register_all _ _ _ _ _ _ _ HX Hr Hm He) as (HX' & HC & HH & _ & HE).
  rewrite <- given_batches in HH, HE.
  set (T := viewed tr) in *. set (H := hist cf tr) in *. set (i0 := get_last_event_id (m_sys (s_mem s)) sv) in *.
  (* the id the connection begins with *)
  set (L' := match y_phase y with PNew => i0 | _ => L end).
  assert (HR : sync_run sv L' T y).
  { unfold L'. destruct (y_phase y) eqn:E; try exact VR. eapply phase_any; eauto. }
  assert (Hx' : yexec sv L' y o = Some (y', l)).
  { unfold L'. destruct (y_phase y) eqn:E; try exact Hx; rewrite (yexec_any sv L i0); auto; intros ->; unfold yexec in Hx; rewrite E in Hx; discriminate. }
  assert (HR' : sync_run sv L' (T ++ [(o, l)]) y') by (econstructor; eauto).
  assert (EV : viewed (tr ++ [RSync (o, l) xs]) = T ++ [(o, l)]) by (rewrite viewed_snoc; reflexivity).
  assert (EL : local_part (tr ++ [RSync (o, l) xs]) = local_part tr ++ xs) by (rewrite local_part_snoc; reflexivity).
  assert (EH : hist cf (tr ++ [RSync (o, l) xs]) = H ++ take_events (w_conf (watch_run cf (local_part tr))) H (given_in l)) by (unfold hist; rewrite EL; exact HH).
  assert (Etk : forall e, taken cf (tr ++ [RSync (o, l) xs]) e <-> taken cf tr e) by (intros e; unfold taken; rewrite EL, HC; reflexivity).
  set (T' := T ++ [(o, l)]) in *. set (H' := H ++ take_events (w_conf (watch_run cf (local_part tr))) H (given_in l)) in *.
  (* events kept after the step *)
  assert (HK : forall e, kept T' e -> kept T e \/ (given_in l = [] /\ eid_ltb (r_top y) (ev_id e) = true)).
  { intros e Hk. apply kept_snoc in Hk as [Hk|(b & -> & Hb)]; auto. right. apply yexec_case in Hx' as [_ C]. inversion C; subst. split; [reflexivity|].
    match goal with G : growing _ _ _ = true |- _ => apply growing_spec in G as [_ G]; rewrite Forall_forall in G; apply (G e) end.
    apply in_map_iff. exists (e, true). auto. }
  assert (Hcall : forall e, In e (call T) -> In e (call T')) by (intros e Hc; unfold T'; rewrite call_snoc; apply in_or_app; auto).
  assert (Hgc : forall e, In e (given_in l) -> In e (call T')).
  { intros e Hg. eapply given_call; [exact HR'|]. unfold T'. rewrite given_snoc. apply in_or_app. auto. }
  assert (Hbeg0 : forall e, kept T e -> taken cf tr e -> fresh L' e \/ holds H e).
  { intros e Hk Htk. unfold L'. destruct (y_phase y) eqn:E; try (apply VB; auto; discriminate).
    destruct (leb_or_ltb (ev_id e) i0) as [Hle|Hlt]; auto. right. destruct (last_here _ _ _ _ _ _ _ _ _ HX HR Hk Hle) as (en & E1 & E2 & E3). eapply VI; eauto. }
  assert (Hlow : eid_leb L' (r_top y) = true).
  { unfold L'. destruct (y_phase y) eqn:E; try (apply VL; discriminate). eapply last_top; eauto. }
  assert (Htop : eid_leb (r_top y) (r_top y') = true).
  { clear - Hx'. pcase Hx' y; try apply leb_refl. eapply last_id_le; eauto. }
  (* what is accepted *)
  assert (Hnew : forall e, In e (given_in l) -> kept T' e -> taken cf tr e -> holds H' e).
  { intros e Hg Hk Htk. unfold H'. eapply (take_all _ sv (fun e => kept T e /\ taken cf tr e) (given_in l)); eauto.
    - destruct (batches_one _ _ _ _ _ _ Hx') as [B|[_ (w & es & B & B1)]]; rewrite given_batches, B; [constructor|]. cbn [concat]. rewrite app_nil_r.
      eapply (gives_inc _ _ _ _ w); [exact HR'|]. unfold T'. rewrite gives_snoc. apply in_or_app. auto.
    - apply Forall_forall. intros x Hxg. destruct (call_sv _ _ _ _ _ HR' (Hgc _ Hxg)) as [S1 _]. split; [exact S1|]. split.
      + destruct (top_low _ _ _ _ HR') as [_ F]. rewrite Forall_forall in F. now apply F, Hgc.
      + rewrite HE in He. rewrite Forall_forall in He. destruct (He _ Hxg) as (_ & _ & [[Q1 Q2] [Q3 Q4]] & _). unfold ts_leb, min_timestamp. cbn [ts_s ts_us]. lia.
    - intros a b Ha Hb. apply (timely_le (call T')); auto; [apply (n_inc _ _ _ (ynote_run _ _ _ _ HR'))|]. rewrite <- EV, viewed_call. exact Ht.
    - intros en b Hen Hs Hb. apply (timely_le (call T')); auto; [apply (n_inc _ _ _ (ynote_run _ _ _ _ HR'))|]. rewrite <- EV, viewed_call. exact Ht.
    - intros x _ [_ Hxt]. destruct (watch_confs _ _ _ _ HX) as [Hc _]. unfold taken in Hxt. rewrite Forall_forall in Hxt. now apply Hxt.
    - intros x en Hxg [Hxk Hxt] Hen Hs Hl. eapply VI; eauto.
    - split; [|exact Htk]. destruct (HK _ Hk) as [Hk'|[Hn _]]; auto. rewrite Hn in Hg. destruct Hg. }
  exists L'. split; rewrite ?EV, ?EH.
  - exact HR'.
  - intros en Hen Hs. apply in_app_or in Hen as [Hen|Hen]; [apply Hcall; auto|]. apply take_in in Hen. now apply Hgc.
  - intros e en Hk Htk Hen Hs Hl. apply Etk in Htk.
    assert (Hkc : kept T e \/ (given_in l = [] /\ eid_ltb (r_top y) (ev_id e) = true)) by auto.
    apply in_app_or in Hen as [Hen|Hen].
    + destruct Hkc as [Hk'|[_ Hn]]; [apply holds_app; eapply VI; eauto|]. exfalso.
      destruct (call_sv _ _ _ _ _ HR (VS _ Hen Hs)) as [_ Hle]. exact (ltb_irr _ _ (leb_ltb_trans _ _ _ Hle Hn) Hl).
    + apply take_in in Hen. destruct Hkc as [Hk'|[Hn _]]; [|rewrite Hn in Hen; destruct Hen].
      destruct (Hbeg0 _ Hk' Htk) as [Hf|Hf]; [|now apply holds_app].
      assert (Hg : In e (given T')).
      { eapply gapless; eauto. unfold T'. rewrite given_snoc. apply in_or_app. auto. }
      unfold T' in Hg. rewrite given_snoc in Hg. apply in_app_or in Hg as [Hg|Hg]; [apply holds_app; now apply VA|now apply Hnew].
  - intros e Hg Hk Htk. apply Etk in Htk. unfold T' in Hg. rewrite given_snoc in Hg. apply in_app_or in Hg as [Hg|Hg]; [|now apply Hnew].
    destruct (HK _ Hk) as [Hk'|[_ Hn]]; [apply holds_app; now apply VA|]. exfalso.
    destruct (call_sv _ _ _ _ _ HR (given_call _ _ _ _ _ HR Hg)) as [_ Hle]. exact (ltb_irr _ _ Hn Hle).
  - intros _ e Hk Htk. apply Etk in Htk. destruct (HK _ Hk) as [Hk'|[_ Hn]].
    + destruct (Hbeg0 _ Hk' Htk); auto. right. now apply holds_app.
    + left. unfold fresh. eapply leb_ltb_trans; eauto.
  - intros _. eapply eid_leb_trans'; eauto.
Qed.

Lemma rinv_local : forall O cf sv tr y s o x s' L, replicated O cf sv tr y s -> rinv cf sv tr y L -> exec O s o = Some (s', x) -> besides sv o ->
    (forall c, o = OReopen c -> y_phase y = PNew /\ r_up y = false) -> rinv cf sv (tr ++ [RLocal (o, x)]) y L.
Proof.
  intros O cf sv tr y s o x s' L HRep [VR VS VI VA VB VL] Hx Hb Ho. pose proof (replica_exec _ _ _ _ _ _ HRep) as HX.
  assert (EV : viewed (tr ++ [RLocal (o, x)]) = viewed tr) by (rewrite viewed_snoc; reflexivity).
  assert (EL : local_part (tr ++ [RLocal (o, x)]) = local_part tr ++ [(o, x)]) by (rewrite local_part_snoc; reflexivity).
  pose proof (taken_pre cf tr (RLocal (o, x))) as Htk.
  destruct (step_all _ _ _ _ _ _ (execution_inv _ _ _ _ HX) Hx) as [(h & E & _ & _ & Hh & Hn)|(c & -> & E)].
  - assert (EH : hist cf (tr ++ [RLocal (o, x)]) = hist cf tr ++ h) by (unfold hist; rewrite EL, watch_run_snoc; exact E).
    assert (Hother : forall en, In en h -> srv (en_ev en) <> sv).
    { intros en Hen. destruct o; try (rewrite Hh in Hen by discriminate; now destruct Hen). cbn in Hb. rewrite Forall_forall in Hb.
      apply Hb. apply (take_in (w_conf (watch_run cf (local_part tr))) _ (w_all (watch_run cf (local_part tr)))).
      assert (E2 : hist cf tr ++ h = hist cf tr ++ take_events (w_conf (watch_run cf (local_part tr))) (w_all (watch_run cf (local_part tr))) es).
      { unfold hist. rewrite <- E. unfold w_all at 1. cbn [watch_step w_disk w_queue w_cur]. rewrite !app_assoc. unfold w_all at 2. rewrite !app_assoc. reflexivity. }
      apply app_inv_head in E2. now rewrite <- E2. }
    split; rewrite ?EV, ?EH; auto.
    + intros en Hen Hs. apply in_app_or in Hen as [Hen|Hen]; auto. exfalso. now apply (Hother en).
    + intros e en Hk Ht Hen Hs Hl. apply in_app_or in Hen as [Hen|Hen]; [|exfalso; now apply (Hother en)]. apply holds_app. eapply VI; eauto.
    + intros e Hg Hk Ht. apply holds_app. auto.
    + intros Hp e Hk Ht. destruct (VB Hp e Hk (Htk _ Ht)); auto. right. now apply holds_app.
  - destruct (Ho c eq_refl) as [Hp _].
    assert (EH : hist cf (tr ++ [RLocal (OReopen c, x)]) = w_disk (watch_run cf (local_part tr))) by (unfold hist; rewrite EL, watch_run_snoc; exact E).
    assert (E2 : hist cf tr = w_disk (watch_run cf (local_part tr)) ++ concat (w_queue (watch_run cf (local_part tr))) ++ w_cur (watch_run cf (local_part tr))) by reflexivity.
    pose proof (all_ok _ _ (execution_inv _ _ _ _ HX)) as Hok. change (w_all (watch_run cf (local_part tr))) with (hist cf tr) in Hok.
    set (D := w_disk (watch_run cf (local_part tr))) in *. set (r := concat (w_queue (watch_run cf (local_part tr))) ++ w_cur (watch_run cf (local_part tr))) in *.
    split; rewrite ?EV, ?EH; auto.
    + intros en Hen Hs. apply VS; auto. rewrite E2. apply in_or_app. auto.
    + intros e en Hk Ht Hen Hs Hl. destruct (VI e en) as (en' & I1 & I2); auto; [rewrite E2; apply in_or_app; auto|].
      rewrite E2 in I1. apply in_app_or in I1 as [I1|I1]; [exists en'; auto|]. exfalso. rewrite E2 in Hok.
      destruct (call_sv _ _ _ _ _ VR (kept_call _ _ Hk)) as [S1 _].
      assert (X : eid_ltb (ev_id (en_ev en)) (ev_id (en_ev en')) = true) by (eapply later_above; eauto; rewrite I2; congruence).
      rewrite I2 in X. exact (ltb_irr _ _ X Hl).
    + intros e Hg. rewrite (new_given _ _ _ _ VR Hp) in Hg. destruct Hg.
    + intros Hp'. contradiction.
Qed.

Lemma rinv_again : forall cf sv tr y L, rinv cf sv tr y L -> rinv cf sv (tr ++ [RAgain]) (renew sv y) L.
Proof.
  intros cf sv tr y L [VR VS VI VA VB VL].
  assert (EV : viewed (tr ++ [RAgain]) = alone (viewed tr)) by (rewrite viewed_snoc; reflexivity).
  assert (EH : hist cf (tr ++ [RAgain]) = hist cf tr) by (unfold hist; rewrite local_part_snoc, app_nil_r; reflexivity).
  pose proof (taken_pre cf tr RAgain) as Htk.
  split; rewrite ?EV, ?EH.
  - exact (alone_run _ _ L _ _ VR).
  - intros en Hen Hs. rewrite alone_call. auto.
  - intros e en Hk Ht. apply (proj1 (alone_kept _ _)) in Hk. apply VI; auto.
  - intros e Hg. rewrite (mute_given _ (alone_outs _)) in Hg. destruct Hg.
  - intros Hp. exfalso. now apply Hp.
  - intros Hp. exfalso. now apply Hp.
Qed.

Lemma rinv_restart : forall cf sv tr y L, rinv cf sv tr y L -> ends_stored tr -> rinv cf sv (tr ++ [RRestart]) (restarted sv (stored_top sv tr) y) L.
Proof.
  intros cf sv tr y L [VR VS VI VA VB VL] Hs.
  assert (EV : viewed (tr ++ [RRestart]) = relag (viewed tr)) by (rewrite viewed_snoc; reflexivity).
  assert (EH : hist cf (tr ++ [RRestart]) = hist cf tr) by (unfold hist; rewrite local_part_snoc, app_nil_r; reflexivity).
  pose proof (taken_pre cf tr RRestart) as Htk.
  split; rewrite ?EV, ?EH.
  - rewrite (stored_top_safe sv tr Hs), <- viewed_call, <- (top_last _ _ _ _ VR). exact (relag_run _ _ L _ _ VR).
  - intros en Hen Hse. rewrite relag_call. auto.
  - intros e en Hk Ht. apply (proj1 (relag_kept _ _)) in Hk. apply VI; auto.
  - intros e Hg. rewrite (mute_given _ (relag_outs _)) in Hg. destruct Hg.
  - intros Hp. exfalso. now apply Hp.
  - intros Hp. exfalso. now apply Hp.
Qed.

Lemma safe_pre : forall tr x, restarts_safe (tr ++ [x]) -> restarts_safe tr /\ (x = RRestart -> ends_stored tr).
Proof.
  intros tr x H. split.
  - intros a b E. apply (H a (b ++ [x])). rewrite E, <- app_assoc. reflexivity.
  - intros ->. apply (H tr []). reflexivity.
Qed.

Lemma rinv_run : forall O cf sv tr y s, replicated O cf sv tr y s -> restarts_safe tr -> timely (remote_events tr) -> exists L, rinv cf sv tr y L.
Proof.
  intros O cf sv tr y s (H & HC & HE) Hsafe Ht.
  induction H as [s H0|tr y s o l y' xs s' H IH Hx Hr Hm|tr y s o x s' H IH Hx Hb Ho|tr y s H IH|tr y s H IH].
  - exists (Eid sv 0 0). split.
    + constructor.
    + intros en [].
    + intros e en _ _ [].
    + intros e [].
    + intros Hp. exfalso. now apply Hp.
    + intros Hp. exfalso. now apply Hp.
  - apply safe_pre in Hsafe as [Hsafe Hre]. destruct (remote_snoc tr (RSync (o, l) xs)) as (r & Er). pose proof Ht as Ht'. rewrite Er in Ht'. apply timely_pre in Ht'.
    rewrite local_part_snoc in HC, HE. rewrite confs_of_app in HC. rewrite ev_app in HE. inversion HC as [|? ? C1 C2]; subst. apply Forall_app in C2 as [C2 _]. apply Forall_app in HE as [E1 E2].
    assert (HRep : replicated O cf sv tr y s) by (split; [exact H|split; [now constructor|exact E1]]).
    destruct (IH (Forall_cons _ C1 C2) E1 Hsafe Ht') as (L & I). eapply rinv_sync; eauto.
  - apply safe_pre in Hsafe as [Hsafe Hre]. destruct (remote_snoc tr (RLocal (o, x))) as (r & Er). pose proof Ht as Ht'. rewrite Er in Ht'. apply timely_pre in Ht'.
    rewrite local_part_snoc in HC, HE. rewrite confs_of_app in HC. rewrite ev_app in HE. inversion HC as [|? ? C1 C2]; subst. apply Forall_app in C2 as [C2 _]. apply Forall_app in HE as [E1 E2].
    assert (HRep : replicated O cf sv tr y s) by (split; [exact H|split; [now constructor|exact E1]]).
    destruct (IH (Forall_cons _ C1 C2) E1 Hsafe Ht') as (L & I). exists L. eapply rinv_local; eauto.
  - apply safe_pre in Hsafe as [Hsafe Hre]. destruct (remote_snoc tr RAgain) as (r & Er). pose proof Ht as Ht'. rewrite Er in Ht'. apply timely_pre in Ht'.
    rewrite local_part_snoc, app_nil_r in HC, HE. destruct (IH HC HE Hsafe Ht') as (L & I). exists L. now apply rinv_again.
  - apply safe_pre in Hsafe as [Hsafe Hre]. destruct (remote_snoc tr RRestart) as (r & Er). pose proof Ht as Ht'. rewrite Er in Ht'. apply timely_pre in Ht'.
    rewrite local_part_snoc, app_nil_r in HC, HE. destruct (IH HC HE Hsafe Ht') as (L & I). exists L. apply rinv_restart; auto.
Qed.
