(** Conversion of files. *)
From Coq Require Import String Ascii Bool ZArith Lia Permutation Sorted List.
From Verif Require Import Base Kv Model_Types Spec_Order Proof_Order Model_Codec Spec_Codec Proof_Codec Keys Model_Sbs Model_Lmdb Spec_LmdbContent Spec_Copy Model_Convert Spec_Convert
  Proof_Convert Proof_Convert2 Proof_Convert3 Proof_Convert4 Model_ConvertBytes Spec_ConvertBytes Proof_ConvertBytes Proof_ConvertBytes2 Proof_ConvertBytes3.
Import ListNotations.
Open Scope string_scope.
Open Scope list_scope.
Open Scope Z_scope.

(** ** Paths *)

Lemma app_longer : forall s t : string, t <> "" -> (s ++ t)%string <> s.
Proof. induction s as [|a s IH]; intros t H E; cbn in *; [auto|]. injection E as E. exact (IH t H E). Qed.
Lemma suffix7 : forall dst, (dst ++ ".v07")%string <> dst.
Proof. intros. apply app_longer. discriminate. Qed.

Lemma dget_ddel_same' : forall (fs : files) k, NoDup (keys fs) -> dget String.eqb k (ddel String.eqb k fs) = None.
Proof. intros. now apply (dget_ddel_same String.eqb_eq). Qed.
Lemma dget_ddel_other' : forall (fs : files) k k', k <> k' -> dget String.eqb k (ddel String.eqb k' fs) = dget String.eqb k fs.
Proof. intros. now apply (dget_ddel_other String.eqb_eq). Qed.
Lemma ddel_absent : forall (fs : files) k, dget String.eqb k fs = None -> ddel String.eqb k fs = fs.
Proof.
  induction fs as [|[k' v] fs IH]; intros k H; cbn [ddel dget] in *; auto. destruct (String.eqb k k'); [discriminate|]. now rewrite IH.
Qed.
Lemma NoDup_ddel' : forall (fs : files) k, NoDup (keys fs) -> NoDup (keys (ddel String.eqb k fs)).
Proof.
  intros fs k H. induction fs as [|[k' v] fs IH]; cbn [ddel keys map fst] in *; auto. inversion H; subst. destruct (String.eqb k k'); auto. cbn [keys map fst]. constructor; auto.
  intros X. apply keys_ddel_incl in X. auto.
Qed.

(** ** Content *)

Lemma same7_convert : forall d c, valid7 d -> convert (V07 d) = Some c -> same7 d c.
Proof.
  intros d c V H. destruct (convert_7_9_content d V) as (c' & E & K). unfold convert in H. cbn [convert_loop conversion] in H. rewrite E in H. injection H as <-.
  destruct (final_C46_same7 d c' V) as (H1 & H2 & H3 & H4 & H5 & H6 & H7). { unfold convert. cbn [convert_loop conversion]. now rewrite E. }
  split; [exact H1|]. split; [exact H2|]. split; [exact H3|]. split; [exact H4|]. split; [intros p n; apply (c79_counts _ _ K)|]. auto.
Qed.
Lemma same6_convert : forall d s c, valid6 d -> own d s -> convert (V06 d) = Some c -> same6 d s c.
Proof.
  intros d s c V O H. destruct (final_C46_latest d s c V O H) as (H1 & H2 & _). destruct (final_C46_data d s c V O H) as (H3 & _).
  pose proof (final_C46_parts d s c V O H) as H4. pose proof (final_C46_refs d s c V O H) as H5. destruct (final_C46_counters d s c V O H) as (H6 & _).
  repeat (split; [assumption|]). assumption.
Qed.

Section Files.
  Variable C : codecs.

  (** ** What is touched *)

  Lemma run_other : forall f left src dst fs p, (p <> src \/ dget String.eqb src fs <> None) -> p <> dst ->
      dget String.eqb p (fst (run_conversion f left src dst fs)) = dget String.eqb p fs.
  Proof.
    intros f left src dst fs p Hs Hd. unfold run_conversion. destruct (f _) as [e|]; cbn [fst].
    - now apply (dget_dset_other String.eqb_eq).
    - assert (G : dget String.eqb p (if dmem String.eqb src fs then fs else dset String.eqb src [] fs) = dget String.eqb p fs).
      { unfold dmem. destruct (dget String.eqb src fs) eqn:E; auto. destruct Hs as [Hs|Hs]; [|congruence]. now apply (dget_dset_other String.eqb_eq). }
      destruct left; auto. now rewrite (dget_dset_other String.eqb_eq).
  Qed.
  Lemma run_new : forall f left src dst fs fs', run_conversion f left src dst fs = (fs', true) -> exists e, dget String.eqb dst fs' = Some e /\ fs' = dset String.eqb dst e fs.
  Proof.
    intros f left src dst fs fs'. unfold run_conversion. destruct (f _) as [e|]; [|discriminate]. intros [= <-]. exists e. split; auto. apply (dget_dset_same String.eqb_eq).
  Qed.

  Lemma turn_other9 : forall f left src src0 dst fs p, p <> dst -> (p <> src \/ (src = src0 /\ src <> dst /\ dget String.eqb src fs <> None)) ->
      dget String.eqb p (fst (match run_conversion f left src dst (ddel String.eqb dst fs) with
        | (fs, false) => (fs, false)
        | (fs, true) => (if (src =? src0)%string then fs else ddel String.eqb src fs, true)
        end)) = dget String.eqb p fs.
  Proof.
    intros f left src src0 dst fs p Hd Hs.
    assert (G : dget String.eqb p (fst (run_conversion f left src dst (ddel String.eqb dst fs))) = dget String.eqb p fs).
    { rewrite run_other; auto.
      - now apply dget_ddel_other'.
      - destruct Hs as [Hs|(Hs & Hn & Hg)]; auto. right. now rewrite dget_ddel_other'. }
    destruct (run_conversion f left src dst (ddel String.eqb dst fs)) as [fs' [|]]; cbn [fst] in G |- *; auto.
    destruct (String.eqb_spec src src0) as [Es|Es]; auto. rewrite dget_ddel_other'; auto. intros ->. destruct Hs as [Hs|(Hs & _)]; congruence.
  Qed.

  Lemma final_C68_others : forall left src dst fs p, p <> dst -> p <> (dst ++ ".v07")%string ->
      dget String.eqb p (fst (convert_files C left src dst fs)) = dget String.eqb p fs.
  Proof.
    intros left src dst fs p Hd Ht. unfold convert_files. destruct (dget String.eqb src fs) as [e|] eqn:Es; auto.
    unfold dmem. destruct (dget String.eqb dst fs) eqn:Ed; auto. assert (N : src <> dst) by congruence.
    destruct (get_version C e) as [[| |]|]; auto.
    - (* 0.6 *)
      cbn [convert_turns is_v9 next_version suffix].
      destruct (String.eqb_spec src (dst ++ ".v07")%string) as [X|X].
      + (* the source is removed first *)
        subst src. unfold run_conversion at 1.
        match goal with |- context [raw_6_7 C ?x] => destruct (raw_6_7 C x) as [e7|] end.
        * rewrite turn_other9; auto. rewrite String.eqb_refl. rewrite (dget_dset_other String.eqb_eq) by auto. now apply dget_ddel_other'.
        * cbn [fst]. assert (G : dget String.eqb p (if dmem String.eqb (dst ++ ".v07")%string (ddel String.eqb (dst ++ ".v07")%string fs) then ddel String.eqb (dst ++ ".v07")%string fs
            else dset String.eqb (dst ++ ".v07")%string [] (ddel String.eqb (dst ++ ".v07")%string fs)) = dget String.eqb p fs).
          { destruct (dmem _ _ _); [|rewrite (dget_dset_other String.eqb_eq) by auto]; now apply dget_ddel_other'. }
          destruct left; auto. now rewrite (dget_dset_other String.eqb_eq).
      + assert (G : dget String.eqb p (fst (run_conversion (raw_6_7 C) left src (dst ++ ".v07")%string (ddel String.eqb (dst ++ ".v07")%string fs))) = dget String.eqb p fs).
        { rewrite run_other; auto; [now apply dget_ddel_other'|]. right. rewrite dget_ddel_other'; congruence. }
        destruct (run_conversion _ _ _ _ _) as [fs1 [|]] eqn:R; cbn [fst] in G |- *; auto.
        rewrite String.eqb_refl. rewrite turn_other9; auto.
    - (* 0.7 *)
      cbn [convert_turns is_v9 next_version]. apply (turn_other9 (raw_7_9 C) left src src dst fs p Hd).
      right. split; [reflexivity|]. split; [exact N|congruence].
  Qed.

  Lemma final_C68_source : forall left src dst fs, src <> (dst ++ ".v07")%string ->
      dget String.eqb src (fst (convert_files C left src dst fs)) = dget String.eqb src fs.
  Proof.
    intros left src dst fs H. destruct (String.eqb_spec src dst) as [->|N]; [|now apply final_C68_others].
    unfold convert_files, dmem. destruct (dget String.eqb dst fs) as [x|] eqn:E; cbn [fst]; now rewrite E.
  Qed.

  Lemma final_C68_refused : forall left src dst fs,
      (dget String.eqb src fs = None \/ dget String.eqb dst fs <> None \/ (exists e, dget String.eqb src fs = Some e /\ (get_version C e = None \/ get_version C e = Some V9))) ->
      convert_files C left src dst fs = (fs, false).
  Proof.
    intros left src dst fs H. unfold convert_files. destruct (dget String.eqb src fs) as [e|] eqn:Es; auto. unfold dmem. destruct (dget String.eqb dst fs) as [x|] eqn:Ed; auto.
    destruct H as [H|[H|(e' & [= <-] & H)]]; [discriminate|now elim H|]. now destruct H as [-> | ->].
  Qed.

  Lemma final_C68_refuted : forall src dst fs e, NoDup (keys fs) -> src = (dst ++ ".v07")%string -> dget String.eqb src fs = Some e -> dget String.eqb dst fs = None ->
      get_version C e = Some V6 -> exists fs', convert_files C None src dst fs = (fs', false) /\ dget String.eqb src fs' = Some [].
  Proof.
    intros src dst fs e N -> Es Ed V. unfold convert_files, dmem. rewrite Es, Ed, V. cbn [convert_turns is_v9 next_version suffix]. unfold run_conversion at 1.
    rewrite (dget_ddel_same' _ _ N). change (raw_6_7 C []) with (@None env). cbv iota. unfold dmem. rewrite (dget_ddel_same' _ _ N). eexists. split; [reflexivity|].
    apply (dget_dset_same String.eqb_eq).
  Qed.

  (** ** Successful conversions *)

  Variable F : Z -> Z -> Prop.
  Hypothesis HC : codecs_ok C F.

  Lemma settings9 : forall d c, convert_7_9 d = Some c -> db_settings c = [(0, "0.9")].
  Proof. intros d c H. unfold convert_7_9 in H. destruct (parts_7_9 _); [|discriminate]. injection H as <-. reflexivity. Qed.

  Lemma final_C68_v07 : forall left src dst fs e d, dget String.eqb src fs = Some e -> dget String.eqb dst fs = None -> file7 C F e d -> valid7 d -> wf7 F d ->
      exists fs' e' c, get_version C e = Some V7 /\ convert_files C left src dst fs = (fs', true) /\ dget String.eqb dst fs' = Some e' /\
        read9 C e' = Some c /\ same7 d c /\ convert (V07 d) = Some c /\ get_version C e' = Some V9 /\ forall p, p <> dst -> dget String.eqb p fs' = dget String.eqb p fs.
  Proof.
    intros left src dst fs e d Es Ed H7 V7d W. destruct (final_C46_total7 _ V7d) as (c & Hc & _). assert (Hc' : convert_7_9 d = Some c).
    { unfold convert in Hc. cbn [convert_loop conversion] in Hc. destruct (convert_7_9 d) as [c'|]; cbn [option_map convert_loop] in Hc; congruence. }
    destruct (raw_7_9_file C F HC _ _ _ H7 W Hc') as (e' & R & H9). assert (N : src <> dst) by congruence.
    exists (dset String.eqb dst e' fs), e', c. split; [now apply (version7 C F _ d)|]. split.
    { unfold convert_files, dmem. rewrite Es, Ed, (version7 C F _ _ H7). cbn [convert_turns is_v9 next_version]. rewrite (ddel_absent _ _ Ed).
      unfold run_conversion. rewrite Es, R, String.eqb_refl. reflexivity. }
    split; [apply (dget_dset_same String.eqb_eq)|]. split; [now apply (read9_file C F HC)|]. split; [now apply same7_convert|]. split; [exact Hc|].
    split; [eapply (version9 C F HC); [exact H9|eapply settings9; eauto]|]. intros p Hp. now apply (dget_dset_other String.eqb_eq).
  Qed.

  Lemma final_C68_v06 : forall left src dst fs e d, NoDup (keys fs) -> src <> (dst ++ ".v07")%string ->
      dget String.eqb src fs = Some e -> dget String.eqb dst fs = None -> file6 C F e d -> valid6 d -> wf6 F d ->
      exists fs' e' c, get_version C e = Some V6 /\ convert_files C left src dst fs = (fs', true) /\ dget String.eqb dst fs' = Some e' /\
        read9 C e' = Some c /\ (forall s, own d s -> same6 d s c) /\ convert (V06 d) = Some c /\ get_version C e' = Some V9 /\
        dget String.eqb (dst ++ ".v07")%string fs' = None /\ forall p, p <> dst -> p <> (dst ++ ".v07")%string -> dget String.eqb p fs' = dget String.eqb p fs.
  Proof.
    intros left src dst fs e d Nd Nt Es Ed H6 V6d W. destruct (final_C46_total _ V6d) as (c & Hc & _).
    assert (Hd : exists d7, convert_6_7 d = Some d7 /\ convert_7_9 d7 = Some c).
    { unfold convert in Hc. cbn [convert_loop conversion] in Hc. destruct (convert_6_7 d) as [d7|]; [|discriminate]. exists d7. split; auto.
      cbn [option_map convert_loop conversion] in Hc. destruct (convert_7_9 d7) as [c'|]; cbn [option_map convert_loop] in Hc; congruence. }
    destruct Hd as (d7 & Hd7 & Hc'). destruct (raw_6_7_file C F HC _ _ _ H6 W Hd7) as (e7 & R6 & H7 & W7).
    destruct (raw_7_9_file C F HC _ _ _ H7 W7 Hc') as (e' & R & H9). assert (N : src <> dst) by congruence. set (tmp := (dst ++ ".v07")%string) in *.
    assert (Tn : tmp <> dst) by apply suffix7.
    set (fs1 := ddel String.eqb tmp fs). set (fs2 := dset String.eqb tmp e7 fs1). set (fs3 := dset String.eqb dst e' fs2). set (fs4 := ddel String.eqb tmp fs3).
    assert (E1s : dget String.eqb src fs1 = Some e) by (unfold fs1; now rewrite dget_ddel_other').
    assert (E2d : dget String.eqb dst fs2 = None). { unfold fs2. rewrite (dget_dset_other String.eqb_eq) by auto. unfold fs1. now rewrite dget_ddel_other' by auto. }
    assert (E2t : dget String.eqb tmp fs2 = Some e7) by apply (dget_dset_same String.eqb_eq).
    assert (X : convert_files C left src dst fs = (fs4, true)).
    { unfold convert_files, dmem. rewrite Es, Ed, (version6 C F _ _ H6). cbn [convert_turns is_v9 next_version suffix]. fold tmp. fold fs1.
      unfold run_conversion at 1. rewrite E1s, R6. rewrite String.eqb_refl. fold fs2. rewrite (ddel_absent _ _ E2d). unfold run_conversion. rewrite E2t, R.
      destruct (String.eqb_spec tmp src); [congruence|]. reflexivity. }
    assert (N3 : NoDup (keys fs3)). { unfold fs3, fs2, fs1. apply (NoDup_dset String.eqb_eq), (NoDup_dset String.eqb_eq). now apply NoDup_ddel'. }
    assert (O : dget String.eqb dst fs4 = Some e'). { unfold fs4. rewrite dget_ddel_other' by auto. apply (dget_dset_same String.eqb_eq). }
    exists fs4, e', c. split; [now apply (version6 C F _ d)|]. split; [exact X|]. split; [exact O|]. split; [now apply (read9_file C F HC)|]. split; [intros s Hs; now apply same6_convert|]. split; [exact Hc|].
    split; [eapply (version9 C F HC); [exact H9|eapply settings9; eauto]|]. split; [unfold fs4; now apply dget_ddel_same'|].
    intros p Hp Ht. change fs4 with (fst (fs4, true)). rewrite <- X. now apply final_C68_others.
  Qed.
End Files.
