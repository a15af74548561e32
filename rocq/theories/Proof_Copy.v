From Coq Require Import String Bool ZArith List.
From Verif Require Import Base Kv Model_Types Model_Codec Keys Model_Lmdb Model_LmdbSys Spec_Lmdb Spec_LmdbContent Proof_Order
  Proof_Lmdb1 Proof_Lmdb2 Proof_Lmdb3 Proof_Lmdb8 Proof_Lmdb10 Model_Copy Spec_Copy.
Import ListNotations.
Open Scope list_scope.
Open Scope Z_scope.

Lemma copy_db_same : forall K V (o : ord K) (m : list (K * V)), ksorted o m -> copy_db o m = m.
Proof.
  intros K V o m H. apply (kext o); auto.
  - apply (ksorted_kputs o). constructor.
  - intros k. change (copy_db o m) with (kputs o m []).
    rewrite (kget_kputs o) by (now apply ksorted_NoDup with (o := o)).
    unfold kget. now destruct (dget (oeqb o) k m).
Qed.

Lemma kept_refs_In : forall sl st rs r, In r (kept_refs sl st rs) <-> In r rs /\ ~ skipped sl st r.
Proof.
  intros sl st rs r. unfold kept_refs. rewrite In_sof. destruct sl, st; rewrite ?filter_In; destruct r; cbn; intuition congruence.
Qed.

(** What is put. *)
Definition ref_item (sl st : bool) (rs : list event_ref) : option (list event_ref) :=
  if negb sl && negb st then Some rs
  else match kept_refs sl st rs with [] => None | l => Some l end.

Lemma copy_ref_get : forall sl st src dst, NoDup (keys src) -> ksorted eidord dst ->
  let res := fold_left (fun dst kv =>
       if negb sl && negb st then kput eidord (fst kv) (snd kv) dst
       else match kept_refs sl st (snd kv) with [] => dst | refs => kput eidord (fst kv) refs dst end) src dst in
  ksorted eidord res /\
  forall i, kget eidord i res =
    match dget (oeqb eidord) i src with
    | Some rs => match ref_item sl st rs with Some l => Some l | None => kget eidord i dst end
    | None => kget eidord i dst
    end.
Proof.
  intros sl st. induction src as [|[k v] src IH]; cbn [fold_left dget keys map fst snd]; intros dst N S.
  - now split.
  - inversion N as [|x l Hk N']; subst.
    set (dst' := if negb sl && negb st then _ else _).
    assert (A : ksorted eidord dst' /\ forall i, kget eidord i dst' =
              if oeqb eidord i k then match ref_item sl st v with Some l => Some l | None => kget eidord i dst end else kget eidord i dst).
    { unfold dst', ref_item. destruct (negb sl && negb st).
      - split; [now apply ksorted_kput|]. intros i. now rewrite kget_kput.
      - destruct (kept_refs sl st v).
        + split; auto. intros i. now destruct (oeqb eidord i k).
        + split; [now apply ksorted_kput|]. intros i. now rewrite kget_kput. }
    destruct A as [A B]. destruct (IH dst' N' A) as [C D]. split; [exact C|].
    intros i. rewrite D, B. clear D B C. destruct (oeqb eidord i k) eqn:E.
    + apply (oeqb_spec eidord) in E. subst i.
      assert (X : dget (oeqb eidord) k src = None) by (apply (dget_None (oeqb_spec eidord)); exact Hk).
      now rewrite X.
    + reflexivity.
Qed.

Lemma copy_ref_items : forall sl st src i l, ksorted eidord src ->
  In (i, l) (copy_ref sl st src) <-> exists rs, In (i, rs) src /\ ref_item sl st rs = Some l.
Proof.
  intros sl st src i l S.
  destruct (copy_ref_get sl st src [] (ksorted_NoDup _ _ S)) as [A B]; [constructor|].
  rewrite <- (kget_In eidord i l _ A). unfold copy_ref. rewrite B.
  change (kget eidord i []) with (@None (list event_ref)).
  split.
  - destruct (dget (oeqb eidord) i src) as [rs|] eqn:E; [|discriminate]. intros H. exists rs.
    split; [now apply (kget_Some_In eidord)|]. destruct (ref_item sl st rs); congruence.
  - intros (rs & H & R). apply (kget_In eidord) in H; auto. unfold kget in H. rewrite H, R. reflexivity.
Qed.

Lemma ref_item_In : forall sl st rs l r, ref_item sl st rs = Some l -> (In r l <-> In r rs /\ ~ skipped sl st r).
Proof.
  intros sl st rs l r. unfold ref_item. destruct (negb sl && negb st) eqn:E.
  - intros [= <-]. destruct sl, st; try discriminate. destruct r; cbn; intuition congruence.
  - intros H. rewrite <- kept_refs_In. destruct (kept_refs sl st rs); [discriminate|]. injection H as <-. reflexivity.
Qed.

Lemma ref_item_None : forall sl st rs r, ref_item sl st rs = None -> In r rs -> ~ skipped sl st r -> False.
Proof.
  intros sl st rs r. unfold ref_item. destruct (negb sl && negb st); [discriminate|]. intros H A B.
  assert (C : In r (kept_refs sl st rs)) by (now apply kept_refs_In).
  destruct (kept_refs sl st rs); [destruct C|discriminate].
Qed.

Lemma copy_listed : forall sl st d i r, ksorted eidord (db_ref d) ->
  (listed (copy_content sl st d) i r <-> listed d i r /\ ~ skipped sl st r).
Proof.
  intros sl st d i r S. unfold listed. cbn [copy_content db_ref]. split.
  - intros (l & H & I). apply copy_ref_items in H; auto. destruct H as (rs & H & R).
    apply (ref_item_In _ _ _ _ _ R) in I. destruct I. split; eauto.
  - intros ((rs & H & I) & N). destruct (ref_item sl st rs) as [l|] eqn:R.
    + exists l. split; [apply copy_ref_items; eauto|]. apply (ref_item_In _ _ _ _ _ R). auto.
    + exfalso. eapply ref_item_None; eauto.
Qed.

Lemma copy_at_ref : forall sl st d r i, kept_sorted d ->
  (at_ref (copy_content sl st d) r i <-> at_ref d r i /\ ~ skipped sl st r).
Proof.
  intros sl st d r i K. destruct r as [k|k]; cbn [at_ref skipped copy_content db_latest db_ts].
  - rewrite (copy_db_same _ _ _ _ (ks_latest _ K)). destruct sl.
    + split; [intros (e & [] & _)|]. intros [_ H]. congruence.
    + intuition congruence.
  - rewrite (copy_db_same _ _ _ _ (ks_ts _ K)). destruct st.
    + split; [intros (e & [] & _)|]. intros [_ H]. congruence.
    + intuition congruence.
Qed.

(** ** Results *)

Lemma copy_none : forall d, kept_sorted d -> copy_content false false d = d.
Proof.
  intros d K. unfold copy_content. cbn [andb negb].
  assert (R : copy_ref false false (db_ref d) = copy_db eidord (db_ref d)) by reflexivity.
  rewrite R, !copy_db_same; try apply K. now destruct d.
Qed.

Lemma final_C47_same : forall d, kept_sorted d -> copy false false d None = (true, Some d).
Proof. intros d K. unfold copy. now rewrite copy_none. Qed.

Lemma final_C47_skip : forall sl st d, kept_sorted d -> exists c, copy sl st d None = (true, Some c) /\ kept_sorted c /\
  db_settings c = db_settings d /\ db_ids c = db_ids d /\ db_tss c = db_tss d /\
  same_or_skipped sl (db_latest d) (db_latest c) /\ same_or_skipped sl (db_types d) (db_types c) /\
  same_or_skipped st (db_ts d) (db_ts c) /\ same_or_skipped st (db_parts d) (db_parts c) /\
  same_or_skipped st (db_counts d) (db_counts c) /\
  (forall i r, listed c i r <-> listed d i r /\ ~ skipped sl st r).
Proof.
  intros sl st d K. exists (copy_content sl st d). split; [reflexivity|].
  assert (E : forall A (o : ord A) (V : Type), ksorted o ([] : list (A * V))) by (intros; constructor).
  split.
  - destruct K. split; cbn [copy_content db_settings db_ids db_tss db_ref db_latest db_types db_ts db_parts db_counts];
      rewrite ?copy_db_same by assumption; auto.
    + destruct (copy_ref_get sl st (db_ref d) [] (ksorted_NoDup _ _ ks_ref)) as [A _]; [constructor|exact A].
    + destruct sl; auto. + destruct sl; auto. + destruct st; auto. + destruct st; auto. + destruct st; auto.
  - cbn [copy_content db_settings db_ids db_tss db_latest db_types db_ts db_parts db_counts]; unfold same_or_skipped.
    rewrite !copy_db_same by (apply K). do 3 (split; [reflexivity|]).
    do 2 (split; [now destruct sl|]). do 3 (split; [now destruct st|]).
    intros i r. apply copy_listed. apply K.
Qed.

Lemma final_C47_lists : forall sl st d c, kept_sorted d -> copy sl st d None = (true, Some c) -> lists_ok d -> lists_ok c.
Proof.
  intros sl st d c K [= <-] L i l H. cbn [copy_content db_ref] in H. apply copy_ref_items in H; [|apply K].
  destruct H as (rs & H & R). destruct (L _ _ H) as [A B]. unfold ref_item in R.
  destruct (negb sl && negb st); [now injection R as <-|].
  destruct (kept_refs sl st rs) eqn:E; [discriminate|]. injection R as <-. split; [discriminate|].
  rewrite <- E. apply (ssorted_NoDup reford). apply ssorted_sof.
Qed.

Lemma final_C47_exact : forall sl st d c, kept_sorted d -> copy sl st d None = (true, Some c) ->
  (forall i r, listed d i r <-> at_ref d r i) -> forall i r, listed c i r <-> at_ref c r i.
Proof.
  intros sl st d c K [= <-] X i r. rewrite copy_listed, copy_at_ref, X; auto; try apply K. reflexivity.
Qed.

Lemma final_C47_counters : forall sl st d c, kept_sorted d -> copy sl st d None = (true, Some c) ->
  (forall p n, counter d p n <-> n = entries_in d p) -> forall p n, counter c p n <-> n = entries_in c p.
Proof.
  intros sl st d c K [= <-] X p n. destruct st.
  - unfold counter, entries_in. cbn. intuition.
  - specialize (X p n). unfold counter, entries_in in *.
    cbn [copy_content db_counts db_ts]. rewrite !copy_db_same by (apply K). exact X.
Qed.

(** ** Databases of executions *)

Lemma settings_sorted : forall O cf tr s, execution O cf tr s -> ksorted zord (db_settings (s_disk s)).
Proof.
  intros O cf tr s H. revert s H. induction tr as [|[o x] tr IH] using rev_ind; intros s H.
  - apply execution_nil in H as [H _]. unfold start in H. destruct (open_db cf empty_db) as [[d m]|] eqn:Eo; [|discriminate].
    injection H as <-. cbn [s_disk]. eapply open_settings; [|exact Eo]. constructor.
  - apply execution_snoc in H as (s1 & H1 & H2 & _).
    assert (Hcase : (forall c, o <> OReopen c) \/ exists c, o = OReopen c) by (destruct o; eauto; left; discriminate).
    destruct Hcase as [Hn|[c ->]].
    + rewrite (step_settings _ _ _ _ _ _ (execution_inv _ _ _ _ H1) H2 Hn). eauto.
    + cbn [exec] in H2. destruct (open_db c (s_disk s1)) as [[d m]|] eqn:Eo; [|discriminate]. injection H2 as <- <-. cbn [s_disk].
      eapply open_settings; eauto.
Qed.

Lemma reached_sorted : forall O cf tr s, execution O cf tr s -> kept_sorted (s_disk s).
Proof.
  intros O cf tr s H. pose proof (settings_sorted _ _ _ _ H) as S.
  pose proof (si_repr _ _ (execution_inv _ _ _ _ H)) as R. pose proof (rp_psorted _ _ _ R) as P.
  destruct (ba_wf _ (rp_base _ _ _ R)) as [A1 A2 [A3 _] A4 A5 A6 A7]. now split.
Qed.

Lemma final_C47_backend : forall O cf tr s sl st cf', execution O cf tr s ->
  exists c, copy sl st (s_disk s) None = (true, Some c) /\
    (forall r i, at_ref c r i -> listed c i r) /\ lists_ok c /\
    (forall p n, counter c p n <-> n = entries_in c p) /\
    match open_db cf' (s_disk s), open_db cf' c with
    | None, None => True
    | Some (_, m), Some (_, m') =>
        forall i, get_last_event_id (m_sys m') i = get_last_event_id (m_sys m) i /\
                  get_last_timestamp (m_sys m') i = get_last_timestamp (m_sys m) i
    | _, _ => False
    end.
Proof.
  intros O cf tr s sl st cf' H. pose proof (reached_sorted _ _ _ _ H) as K.
  exists (copy_content sl st (s_disk s)). split; [reflexivity|].
  destruct (final_C21 _ _ _ _ H) as (_ & L & C). split; [|split; [|split]].
  - intros r i A. apply copy_at_ref in A; auto. destruct A as [A N]. apply copy_listed; [apply K|].
    split; auto. now apply C.
  - eapply final_C47_lists; eauto. reflexivity.
  - eapply final_C47_counters; eauto; [reflexivity|]. now apply (final_C22 O cf tr s).
  - unfold open_db. cbn [copy_content db_settings db_ids db_tss db_parts].
    rewrite !copy_db_same by (apply K).
    destruct (validate_settings _ _ _); auto.
    destruct (init_partitions (db_parts (s_disk s)) (cf_parts cf')),
      (init_partitions (if st then [] else db_parts (s_disk s)) (cf_parts cf')). cbn. auto.
Qed.

Lemma final_C47_refused : forall sl st d x, copy sl st d (Some x) = (false, Some x).
Proof. reflexivity. Qed.
