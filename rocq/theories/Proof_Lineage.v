(** Lemmas for C82. *)
From Coq Require Import String Bool ZArith Lia Sorted List.
From Verif Require Import Base Kv Model_Types Model_Subscription Spec_Subscription Model_Codec Keys Model_Lmdb Model_LmdbSys Spec_Order Proof_Order Spec_Lmdb Spec_LmdbContent
  Model_Copy Spec_Copy Proof_Copy Model_Convert Spec_Convert
  Proof_Lmdb1 Proof_Lmdb2 Proof_Lmdb3 Proof_Lmdb4 Proof_Lmdb5 Proof_Lmdb6 Proof_Lmdb7 Proof_Lmdb8 Proof_Lmdb9 Proof_Lmdb10 Proof_Lmdb11 Proof_Lmdb12
  Spec_Resume Proof_Resume Proof_Resume2 Proof_Resume3 Proof_Resume4 Proof_ResumeQuery Spec_Lineage.
Import ListNotations.
Open Scope list_scope.
Open Scope Z_scope.

(** ** Events that are not stored any more *)

Definition has_id (l : list event) (e : event) : bool := existsb (fun x => eid_eqb (ev_id x) (ev_id e)) l.
Definition stored_events (d : ldb) : list event := vals (db_latest d) ++ vals (db_ts d).
Definition missing (d : ldb) (l : list event) : list event := filter (fun e => negb (has_id (stored_events d) e)) l.

Lemma stored_events_In : forall d e, In e (stored_events d) <-> stored_event d e.
Proof. intros d e. unfold stored_events, stored_event. apply in_app_iff. Qed.

Lemma has_id_spec : forall d e, has_id (stored_events d) e = true <-> exists x, stored_event d x /\ ev_id x = ev_id e.
Proof.
  intros d e. unfold has_id. rewrite existsb_exists. split; intros (x & A & B); exists x.
  - rewrite <- stored_events_In. split; auto. now apply (oeqb_spec eidord).
  - rewrite stored_events_In. split; auto. now apply (oeqb_spec eidord).
Qed.

Lemma missing_In : forall d l e, In e (missing d l) <-> In e l /\ ~ exists x, stored_event d x /\ ev_id x = ev_id e.
Proof. intros d l e. unfold missing. rewrite filter_In, negb_true_iff, <- not_true_iff_false, has_id_spec. reflexivity. Qed.

Lemma once_missing : forall d l, (forall a b, In a l -> In b l -> ev_id a = ev_id b -> a = b) -> (forall e, stored_event d e -> In e l) ->
    forall e, once_stored d (missing d l) e <-> In e l.
Proof.
  intros d l U S e. unfold once_stored. rewrite missing_In. split; [intros [A|[A _]]; auto|]. intros A.
  destruct (has_id (stored_events d) e) eqn:E.
  - apply has_id_spec in E as (x & X & Y). left. replace e with x; auto.
  - right. split; auto. intros X. apply has_id_spec in X. congruence.
Qed.

(** ** Copies *)

Lemma copy_stored : forall sl st d e, kept_sorted d -> stored_event (copy_content sl st d) e -> stored_event d e.
Proof.
  intros sl st d e K [H|H]; cbn [copy_content db_latest db_ts] in H; rewrite copy_db_same in H by (apply K).
  - destruct sl; [destruct H|now left].
  - destruct st; [destruct H|now right].
Qed.

Lemma copy_consistent : forall sl st d c, consistent d -> copy sl st d None = (true, Some c) -> consistent c.
Proof.
  intros sl st d c [G C] Ec. pose proof (cs_sorted _ _ C) as K. destruct (final_C47_skip sl st d K) as (c' & Ec' & K' & _ & Ei & Et & L1 & L2 & L3 & L4 & _).
  rewrite Ec in Ec'. injection Ec' as <-. injection Ec as Ec.
  assert (U : forall e, once_stored c (missing c (stored_events d ++ G)) e <-> once_stored d G e).
  { intros e. rewrite once_missing.
    - rewrite in_app_iff, stored_events_In. reflexivity.
    - intros a b A B. rewrite in_app_iff, stored_events_In in A, B. now apply (cs_once _ _ C).
    - intros x X. rewrite in_app_iff, stored_events_In. left. apply (copy_stored sl st); auto. now rewrite Ec. }
  assert (UL : forall sv e, last_stored c (missing c (stored_events d ++ G)) sv e <-> last_stored d G sv e).
  { intros sv e. unfold last_stored. rewrite U. split; intros (A & B & D); (split; [exact A|split; [exact B|]]); intros x X; apply D; now apply U. }
  assert (Ec0 : copy sl st d None = (true, Some c)) by (now rewrite <- Ec).
  exists (missing c (stored_events d ++ G)). constructor.
  - exact K'.
  - intros e A B. apply missing_In in A as [_ A]. apply A. eauto.
  - intros e A. apply (cs_event _ _ C). now apply U.
  - intros a b A B. apply (cs_once _ _ C); now apply U.
  - intros a b A B. apply (cs_order _ _ C); now apply U.
  - intros s i. rewrite Ei, (cs_ids _ _ C). split; intros (e & A & B); exists e; (split; [now apply UL|exact B]).
  - intros s t. rewrite Et, (cs_tss _ _ C). split; intros (e & A & B); exists e; (split; [now apply UL|exact B]).
  - intros r t. unfold same_or_skipped in L1, L2. destruct sl; rewrite L1, L2; [split; [intros []|intros (e & [] & _)]|]. apply (cs_types _ _ C).
  - unfold same_or_skipped in L1. destruct sl; rewrite L1; [constructor|apply (cs_latest _ _ C)].
  - unfold same_or_skipped in L4. destruct st; rewrite L4; [constructor|apply (cs_parts _ _ C)].
  - intros p t i e. unfold same_or_skipped in L3, L4. destruct st; rewrite L3, L4; [intros []|]. apply (cs_ts _ _ C).
  - apply (final_C47_exact sl st d c K Ec0 (cs_refs _ _ C)).
  - intros i rs H. rewrite <- Ec in H. cbn [copy_content db_ref] in H. apply copy_ref_items in H; [|apply K]. destruct H as (rs0 & H & R).
    destruct (cs_lists _ _ C _ _ H) as [A B]. unfold ref_item in R. destruct (negb sl && negb st); [now injection R as <-|].
    destruct (kept_refs sl st rs0) eqn:E; [discriminate|]. injection R as <-. split; [discriminate|]. rewrite <- E. apply ssorted_sof.
  - apply (final_C47_counters sl st d c K Ec0 (cs_counts _ _ C)).
Qed.

(** ** Servers *)

Lemma eid_le_anti : forall a b, eid_le a b -> eid_le b a -> a = b.
Proof.
  intros a b [A|A] [B|B]; auto. exfalso. apply (eid_lt_irrefl a). now apply (eid_lt_trans _ b).
Qed.

Lemma hist_once : forall H a b, hist_ok H -> In a H -> In b H -> ev_id (en_ev a) = ev_id (en_ev b) -> a = b.
Proof.
  intros H a b Ho Ha Hb E. pose proof (hist_server_order _ Ho) as Hs. apply in_split in Ha as (A & B & ->).
  apply in_app_or in Hb as [Hb|[Hb|Hb]]; auto; apply in_split in Hb as (X & Y & ->).
  - destruct (Hs X b Y a B) as [L _]; [now rewrite <- app_assoc|now rewrite E|]. rewrite E in L. pose proof (oirrefl eidord (ev_id (en_ev b))) as F. cbn [oltb eidord] in F. congruence.
  - destruct (Hs A a X b Y eq_refl) as [L _]; [now rewrite E|]. rewrite E in L. pose proof (oirrefl eidord (ev_id (en_ev b))) as F. cbn [oltb eidord] in F. congruence.
Qed.

Lemma hist_ordered : forall H a b, hist_ok H -> In a H -> In b H -> eid_server (ev_id (en_ev a)) = eid_server (ev_id (en_ev b)) ->
    eid_lt (ev_id (en_ev a)) (ev_id (en_ev b)) -> ts_le (ev_ts (en_ev a)) (ev_ts (en_ev b)).
Proof.
  intros H a b Ho Ha Hb E L. pose proof (hist_server_order _ Ho) as Hs. apply in_split in Ha as (A & B & ->).
  apply in_app_or in Hb as [Hb|[Hb|Hb]]; try (apply in_split in Hb as (X & Y & ->)).
  - destruct (Hs X b Y a B) as [L' _]; [now rewrite <- app_assoc|auto|]. apply eid_ltb_spec in L'.
    exfalso. apply (eid_lt_irrefl (ev_id (en_ev a))). now apply (eid_lt_trans _ (ev_id (en_ev b))).
  - subst. now apply eid_lt_irrefl in L.
  - destruct (Hs A a X b Y eq_refl E) as [_ L']. now apply ts_leb_spec in L'.
Qed.

Lemma repr_consistent : forall d H K, repr d H K -> no_hidden H -> kept_sorted d -> consistent d.
Proof.
  intros d H K R N Ks. pose proof (repr_content _ _ _ R) as C. pose proof (rp_ok _ _ _ R) as Ho. pose proof (ba_wf _ (rp_base _ _ _ R)) as W.
  assert (U : forall e, once_stored d (missing d (map en_ev H)) e <-> exists en, In en H /\ en_ev en = e).
  { intros e. rewrite once_missing.
    - rewrite in_map_iff. split; intros (x & A & B); exists x; auto.
    - intros a b A B E. apply in_map_iff in A as (x & <- & A). apply in_map_iff in B as (y & <- & B). now rewrite (hist_once H x y).
    - intros x [X|X].
      + apply (ct_latest _ _ _ C) in X. apply latest_of_In in X as (en & A & B & _). apply in_map_iff. eauto.
      + apply in_map_iff in X as ([k y] & <- & X). apply (ct_ts _ _ _ C) in X as [(cf & pt & A & _) _]. apply in_map_iff. exists (Entry cf y). auto. }
  assert (UL : forall sv e, last_stored d (missing d (map en_ev H)) sv e <-> last_ev H sv = Some e).
  { intros sv e. split.
    - intros (A & B & D). apply U in A as (en & A & <-). destruct (last_ev_max H Ho en A) as (l & L & M & _). unfold server_of in B. rewrite B in L. rewrite L. f_equal.
      destruct (last_ev_In _ _ _ L) as (y & Y & <-). f_equal. apply (hist_once H); auto. apply eid_le_anti; [|now apply eid_leb_spec].
      apply D; [apply U; eauto|]. apply (last_ev_server _ _ _ L).
    - intros L. pose proof (last_ev_server _ _ _ L) as S. destruct (last_ev_In _ _ _ L) as (y & Y & E). split; [apply U; eauto|]. split; [exact S|].
      intros x X Ex. apply U in X as (z & Z & <-). destruct (last_ev_max H Ho z Z) as (l & L' & M & _). unfold server_of in Ex. rewrite Ex, L in L'. injection L' as <-. now apply eid_leb_spec. }
  assert (Ref : forall r i, In r (refs_at (db_ref d) i) <-> listed d i r).
  { intros r i. unfold refs_at, listed. destruct (kget eidord i (db_ref d)) as [rs|] eqn:E.
    - split; [intros X; exists rs; split; auto; now apply (kget_In eidord) in E; [|apply Ks]|]. intros (rs' & A & B). apply (kget_In eidord) in A; [|apply Ks]. congruence.
    - split; [intros []|]. intros (rs & A & _). apply (kget_In eidord) in A; [congruence|apply Ks]. }
  exists (missing d (map en_ev H)). constructor.
  - exact Ks.
  - intros e A B. apply missing_In in A as [_ A]. apply A. eauto.
  - intros e A. apply U in A as (en & A & <-). split; [now apply (rp_evs _ _ _ R)|]. apply in_split in A as (X & Y & E).
    pose proof (Ho X en Y E) as F. apply goes_follows in F. unfold follows in F. apply andb_prop in F as [F _]. apply andb_prop in F as [F1 F2].
    split; [now apply eid_ltb_spec|now apply ts_leb_spec].
  - intros a b A B E. apply U in A as (x & X & <-). apply U in B as (y & Y & <-). now rewrite (hist_once H x y).
  - intros a b A B. apply U in A as (x & X & <-). apply U in B as (y & Y & <-). now apply (hist_ordered H).
  - intros s i. rewrite <- (kget_In zord) by (apply Ks). rewrite (rp_ids _ _ _ R). split.
    + destruct (last_ev H s) as [l|] eqn:L; [|discriminate]. intros [= <-]. exists l. split; auto. now apply UL.
    + intros (e & A & <-). apply UL in A. now rewrite A.
  - intros s i. rewrite <- (kget_In zord) by (apply Ks). rewrite (rp_tss _ _ _ R). split.
    + destruct (last_ev H s) as [l|] eqn:L; [|discriminate]. intros [= <-]. exists l. split; auto. now apply UL.
    + intros (e & A & <-). apply UL in A. now rewrite A.
  - intros r t. rewrite <- (kget_In zord) by (apply Ks). split.
    + intros E. destruct (latest_of H t) as [e|] eqn:L; [|exfalso; now apply (proj2 (rp_types _ _ _ R t)); eauto].
      destruct (latest_of_In _ _ _ L) as (_ & _ & _ & T & _). exists e. split; auto. apply (kget_In zord); [apply Ks|]. apply (rp_latest _ _ _ R). now rewrite T.
    + intros (e & A & <-). apply (kget_In zord) in A; [|apply Ks]. now apply (rp_latest _ _ _ R) in A.
  - apply (ct_once _ _ _ C).
  - pose proof (ksorted_NoDup _ _ (rp_psorted _ _ _ R)) as Nk. pose proof (rp_pinj _ _ _ R) as Inj.
    assert (I : forall p p' x, In (p, x) (db_parts d) -> In (p', x) (db_parts d) -> p = p').
    { intros p p' x A B. apply (kget_In zord) in A; [|apply Ks]. apply (kget_In zord) in B; [|apply Ks]. eauto. }
    clear -Nk I. unfold keys, vals in *. induction (db_parts d) as [|[p x] l IH]; cbn [map fst snd] in *; [constructor|]. inversion Nk; subst. constructor.
    + intros X. apply in_map_iff in X as ([p' x'] & E & X). cbn in E. subst x'. apply H1. apply in_map_iff. exists (p', x). split; auto.
      cbn [fst]. symmetry. apply (I p p' x); [now left|now right].
    + apply IH; auto. intros a b y A B. apply (I a b y); now right.
  - intros p t i e A. apply (ct_ts _ _ _ C) in A as [(cf & pt & A & B & D & E & F) _]. cbn [fst snd] in *. split; [exact F|]. exists pt. split; [|auto].
    destruct (rp_conf _ _ _ R _ A) as [_ X]. rewrite Forall_forall in X. now apply X.
  - intros i r. rewrite <- Ref. rewrite <- (stored_at_ref _ r i W). split; [now apply (rp_exact _ _ _ R)|apply (rp_refs _ _ _ R)].
  - intros i rs A. apply (kget_In eidord) in A; [|apply Ks]. now apply (dw_ref _ W) in A.
  - intros p n. pose proof (dw_counts _ W) as Hw. pose proof (rp_counts _ _ _ R p) as Hc. unfold partition_count, cnt, zlen in Hc. unfold entries_in. rewrite <- Hc. unfold counter.
    destruct (kget zord p (db_counts d)) as [m|] eqn:E.
    + split.
      * intros [Hin|[_ Hn]]; [apply (kget_In zord) in Hin; auto; congruence|].
        exfalso. apply Hn. apply (kget_In zord) in E; auto. unfold keys. apply in_map_iff. exists (p, m). auto.
      * intros ->. left. now apply (kget_In zord).
    + split.
      * intros [Hin|[-> _]]; auto. apply (kget_In zord) in Hin; auto. congruence.
      * intros ->. right. split; auto. now apply (kget_None zord).
Qed.

Lemma created_consistent : forall O cf tr s, execution O cf tr s -> conditions_kept (cf :: confs_of tr) -> consistent (s_disk s).
Proof.
  intros O cf tr s H Hk. apply (repr_consistent _ _ _ (si_repr _ _ (execution_inv _ _ _ _ H))); [|now apply (reached_sorted O cf tr)].
  pose proof (Proof_Lmdb10.kept_hidden _ _ _ _ H Hk) as N. unfold w_all in N. eapply no_hidden_app; eauto.
Qed.

Lemma resumed_settings : forall O cf c H tr s, repr c H [] -> ksorted zord (db_settings c) -> resumed O cf c tr s -> ksorted zord (db_settings (s_disk s)).
Proof.
  intros O cf c H tr s R K X. revert s X. induction tr as [|[o x] tr IH] using rev_ind; intros s X.
  - destruct X as (d & m & Eo & X & _). inversion X; subst. cbn [s_disk]. eapply open_settings; eauto.
  - apply resumed_snoc in X as (s1 & X & H2 & _).
    assert (Hcase : (forall c, o <> OReopen c) \/ exists c, o = OReopen c) by (destruct o; eauto; left; discriminate).
    destruct Hcase as [Hn|[c' ->]].
    + rewrite (step_settings _ _ _ _ _ _ (resumed_inv _ _ _ _ _ _ R X) H2 Hn). eauto.
    + cbn [exec] in H2. destruct (open_db c' (s_disk s1)) as [[d m]|] eqn:Eo; [|discriminate]. injection H2 as <- <-. cbn [s_disk].
      apply (open_settings c' (s_disk s1) d m); auto.
Qed.

Lemma served_consistent : forall O cf c tr s, consistent c -> resumed O cf c tr s -> still_accepts cf tr c -> consistent (s_disk s).
Proof.
  intros O cf c tr s HC X [Hk Hl]. pose proof HC as [G HG]. destruct (resume_history_met c HC) as (H & SF & R & T).
  pose proof (si_repr _ _ (resumed_inv _ _ _ _ _ _ R X)) as R'.
  apply (repr_consistent _ _ _ R').
  - assert (N : no_hidden (w_all (watch_from H cf tr))).
    { apply (kept_hidden c H R T O cf tr s X). split; auto. intros t e L. apply Hl. now apply (sf_latest _ _ SF) in L. }
    unfold w_all in N. eapply no_hidden_app; eauto.
  - pose proof (resumed_settings _ _ _ _ _ _ R (ks_settings _ (cs_sorted _ _ HG)) X) as S. pose proof (rp_psorted _ _ _ R') as P.
    destruct (ba_wf _ (rp_base _ _ _ R')) as [A1 A2 [A3 _] A4 A5 A6 A7]. now split.
Qed.

(** ** Results *)

Lemma origin_consistent : forall d, origin d -> consistent d.
Proof.
  intros d H. destruct H as [O cf tr s X K|d c S E|d s c S E].
  - now apply (created_consistent O cf tr).
  - now apply (final_C81_v07 d).
  - now apply (final_C81_v06 d s).
Qed.

Lemma final_C82_consistent : forall d l c, consistent d -> descends d l c -> consistent c.
Proof.
  intros d l c HC D. induction D as [|l sl st c c' D IH E|l O cf tr c s D IH X K]; [exact HC| |].
  - now apply (copy_consistent sl st c).
  - now apply (served_consistent O cf c tr).
Qed.

Lemma ids_grow : forall O cf c tr s, consistent c -> resumed O cf c tr s ->
    forall sv i, In (sv, i) (db_ids c) -> exists i', In (sv, i') (db_ids (s_disk s)) /\ eid_le i i'.
Proof.
  intros O cf c tr s HC X sv i Hi. destruct (resume_history c HC) as (H & SF & R). pose proof (si_repr _ _ (resumed_inv _ _ _ _ _ _ R X)) as R'.
  destruct (last_entry _ _ _ _ R Hi) as (en & A & <- & S). destruct (watch_disk_from H cf tr) as [h Eh].
  destruct (last_ev_max _ (rp_ok _ _ _ R') en) as (l & L & M & _); [rewrite Eh; apply in_or_app; auto|]. rewrite S in L.
  exists (ev_id l). split; [|now apply eid_leb_spec]. apply (kget_In zord); [apply (dw_ids _ (ba_wf _ (rp_base _ _ _ R')))|]. now rewrite (rp_ids _ _ _ R'), L.
Qed.

Lemma final_C82_ids : forall d l c, consistent d -> descends d l c ->
    (forall sv i, In (sv, i) (db_ids d) -> exists i', In (sv, i') (db_ids c) /\ eid_le i i') /\
    (forall e, stored_event c e -> stored_event d e \/ forall i, In (server_of e, i) (db_ids d) -> eid_lt i (ev_id e)).
Proof.
  intros d l c HC D. induction D as [|l sl st c c' D IH E|l O cf tr c s D IH X K].
  - split; [intros sv i Hi; exists i; split; auto; now right|auto].
  - destruct IH as [I1 I2]. pose proof (final_C82_consistent _ _ _ HC D) as [G C]. pose proof (cs_sorted _ _ C) as Ks.
    destruct (final_C47_skip sl st c Ks) as (c2 & E2 & _ & _ & Ei & _). rewrite E in E2. injection E2 as <-. rewrite Ei. split; [exact I1|].
    intros e S. apply I2. apply (copy_stored sl st); auto. now injection E as ->.
  - destruct IH as [I1 I2]. pose proof (final_C82_consistent _ _ _ HC D) as C. split.
    + intros sv i Hi. destruct (I1 _ _ Hi) as (i1 & A & B). destruct (ids_grow _ _ _ _ _ C X _ _ A) as (i2 & A2 & B2). exists i2. split; auto.
      destruct B as [B|B]; [|now rewrite B]. destruct B2 as [B2|B2]; [left; now apply (eid_lt_trans _ i1)|rewrite <- B2; now left].
    + intros e S. destruct (final_C81_ids _ _ _ _ _ C X) as [F _]. destruct (F e S) as [F1|(F1 & _)]; [now apply I2|]. right. intros i Hi.
      destruct (I1 _ _ Hi) as (i1 & A & [B|B]); [apply (eid_lt_trans _ i1); auto|rewrite B; auto].
Qed.

Lemma final_C82_kept : forall d l c k e, consistent d -> descends d l c -> In (k, e) (db_ts d) ->
    In (k, e) (db_ts c) \/ (exists sl, In (Copied sl true) l) \/ exists tr ks, In (Served tr) l /\ In (OWork, Cleaned ks) tr /\ In k ks.
Proof.
  intros d l c k e HC D Hk. induction D as [|l sl st c c' D IH E|l O cf tr c s D IH X K]; [auto| |].
  - destruct IH as [I|[(sl' & I)|(tr & ks & I & J)]].
    + pose proof (final_C82_consistent _ _ _ HC D) as [G C]. destruct (final_C47_skip sl st c (cs_sorted _ _ C)) as (c2 & E2 & _ & _ & _ & _ & _ & _ & L & _).
      rewrite E in E2. injection E2 as <-. destruct st; cbn in L.
      * right. left. exists sl. apply in_or_app. right. now left.
      * left. now rewrite L.
    + right. left. exists sl'. apply in_or_app. auto.
    + right. right. exists tr, ks. split; [apply in_or_app; auto|exact J].
  - destruct IH as [I|[(sl' & I)|(tr' & ks & I & J)]].
    + pose proof (final_C82_consistent _ _ _ HC D) as C. destruct (final_C81_kept _ _ _ _ _ _ _ C X I) as [F|(ks & F)]; [now left|].
      right. right. exists tr, ks. split; [apply in_or_app; right; now left|exact F].
    + right. left. exists sl'. apply in_or_app. auto.
    + right. right. exists tr', ks. split; [apply in_or_app; auto|exact J].
Qed.

(** The latest event of a type is not replaced by an older one. *)
Lemma latest_grows : forall H h t e, hist_ok (H ++ h) -> no_hidden (H ++ h) -> latest_of H t = Some e ->
    exists e', latest_of (H ++ h) t = Some e' /\ ts_le (ev_ts e) (ev_ts e').
Proof.
  intros H h t e. induction h as [|x h IH] using rev_ind; intros Ho N L; [rewrite app_nil_r; exists e; split; auto; now right|].
  rewrite app_assoc in *. pose proof (proj1 (hist_ok_snoc _ _) Ho) as [Ho' Hx]. destruct (IH Ho' (no_hidden_app _ _ N) L) as (p & P & Le).
  rewrite latest_of_snoc. unfold latest_step. rewrite P. destruct (_ && _) eqn:Ec; [|eauto]. apply andb_prop in Ec as [E1 E2]. apply etype_eqb_spec in E1. subst t.
  assert (Cp : cf_cond (en_conf x) p = true) by (apply (N (H ++ h) x [] eq_refl p); auto).
  rewrite Cp. cbn [andb]. destruct (newer p (en_ev x)) eqn:Nw; [eauto|]. exists (en_ev x). split; auto.
  assert (Lx : ts_le (ev_ts p) (ev_ts (en_ev x))).
  { destruct (latest_of_In _ _ _ P) as (y & Y & <- & _). unfold newer in Nw. destruct (server_eqb (en_ev y) (en_ev x)) eqn:Es.
    - apply server_eqb_iff in Es. apply in_split in Y as (A & B & Y). destruct (hist_server_order _ Ho A y B x []) as [_ Z]; [rewrite Y, <- app_assoc; reflexivity|exact Es|]. now apply ts_leb_spec.
    - destruct (ts_lt_total (ev_ts (en_ev y)) (ev_ts (en_ev x))) as [Z|[Z|Z]]; [now left|now right|]. apply ts_ltb_spec in Z. congruence. }
  destruct Le as [Le|Le]; [|now rewrite Le]. destruct Lx as [Lx|Lx]; left; [now apply (ts_lt_trans _ (ev_ts p))|now rewrite <- Lx].
Qed.

Lemma served_latest : forall O cf c tr s t e, consistent c -> resumed O cf c tr s -> still_accepts cf tr c -> In e (vals (db_latest c)) -> ev_type e = t ->
    exists e', In e' (vals (db_latest (s_disk s))) /\ ev_type e' = t /\ ts_le (ev_ts e) (ev_ts e').
Proof.
  intros O cf c tr s t e HC X [Hk Hl] He Et. destruct (resume_history_met c HC) as (H & SF & R & T).
  pose proof (si_repr _ _ (resumed_inv _ _ _ _ _ _ R X)) as R'.
  assert (N : no_hidden (w_all (watch_from H cf tr))).
  { apply (kept_hidden c H R T O cf tr s X). split; auto. intros t' e' L. apply Hl. now apply (sf_latest _ _ SF) in L. }
  destruct (watch_disk_from H cf tr) as [h Eh]. unfold w_all in N. apply no_hidden_app in N. rewrite Eh in N. pose proof (rp_ok _ _ _ R') as Ho. rewrite Eh in Ho.
  destruct (latest_grows H h t e Ho N) as (e' & L & Le); [apply (sf_latest _ _ SF); auto|]. destruct (latest_of_In _ _ _ L) as (_ & _ & _ & Et' & _).
  exists e'. split; [|auto]. apply (ct_latest _ _ _ (repr_content _ _ _ R')). now rewrite Eh, Et'.
Qed.

Lemma final_C82_latest : forall d l c e, consistent d -> descends d l c -> (forall st, ~ In (Copied true st) l) -> In e (vals (db_latest d)) ->
    exists e', In e' (vals (db_latest c)) /\ ev_type e' = ev_type e /\ ts_le (ev_ts e) (ev_ts e').
Proof.
  intros d l c e HC D. induction D as [|l sl st c c' D IH E|l O cf tr c s D IH X K]; intros Ns He.
  - exists e. split; [exact He|]. split; [reflexivity|now right].
  - destruct IH as (e' & A & B); auto; [intros st' Y; apply (Ns st'), in_or_app; auto|]. exists e'. split; [|exact B].
    pose proof (final_C82_consistent _ _ _ HC D) as [G C]. destruct (final_C47_skip sl st c (cs_sorted _ _ C)) as (c2 & E2 & _ & _ & _ & _ & L & _).
    rewrite E in E2. injection E2 as <-. destruct sl; cbn in L; [|now rewrite L]. exfalso. apply (Ns st), in_or_app. right. now left.
  - destruct IH as (e1 & A & B & Le1); auto; [intros st' Y; apply (Ns st'), in_or_app; auto|].
    destruct (served_latest O cf c tr s (ev_type e1) e1 (final_C82_consistent _ _ _ HC D) X K A eq_refl) as (e' & A' & B' & Le). exists e'. split; [exact A'|]. split; [congruence|].
    destruct Le1 as [Le1|Le1]; [|now rewrite Le1]. destruct Le as [Le|Le]; left; [now apply (ts_lt_trans _ (ev_ts e1))|now rewrite <- Le].
Qed.

Lemma final_C82_starts : forall O cf sl st d c, consistent d -> copy sl st d None = (true, Some c) ->
    ((exists s, resumed O cf c [] s) <-> (exists s, resumed O cf d [] s)).
Proof.
  intros O cf sl st d c [G C] E. destruct (final_C47_skip sl st d (cs_sorted _ _ C)) as (c2 & E2 & _ & Es & _). rewrite E in E2. injection E2 as <-.
  assert (V : open_db cf c <> None <-> open_db cf d <> None).
  { unfold open_db. rewrite Es. destruct (validate_settings _ _ _); [|reflexivity].
    destruct (init_partitions (db_parts c) (cf_parts cf)), (init_partitions (db_parts d) (cf_parts cf)). split; discriminate. }
  split; intros (s & X & m & Eo & R & Ok & _); (apply started; [apply V; rewrite Eo; discriminate|now inversion Ok]).
Qed.

Lemma final_C82_origin : forall d l c, origin d -> descends d l c -> consistent c.
Proof. intros d l c Od. apply final_C82_consistent. now apply origin_consistent. Qed.
