(** Lemmas for C80: what is in the destination, and the second attempt. *)
From Coq Require Import String Bool ZArith Lia List.
From Verif Require Import Base Kv Model_Types Model_Codec Model_Sbs Model_Lmdb Model_Convert Spec_Convert Proof_Order Proof_Codec Proof_Convert Proof_Convert2 Proof_Convert3 Proof_Convert4 Proof_ConvertBytes Proof_ConvertBytes2 Proof_ConvertBytes3  Model_ConvertBytes Spec_ConvertBytes
  Proof_ConvertBytes Proof_ConvertBytes2 Proof_ConvertBytes3 Proof_ConvertBytes4 Model_ConvertCut Spec_ConvertCut Proof_ConvertCut.
Import ListNotations.
Open Scope string_scope.
Open Scope list_scope.

Lemma items_nothing : forall name e, no_data e -> eitems name e = [].
Proof.
  intros name e H. unfold eitems. destruct (dget String.eqb name e) as [r|] eqn:E; auto. apply (dget_In String.eqb_eq) in E. eauto.
Qed.

Lemma read_nothing : forall C e, no_data e -> read9 C e = Some empty_db.
Proof. intros C e H. unfold read9. rewrite !(items_nothing _ e H). reflexivity. Qed.

Section Cut.
  Variable C : codecs.
  Variable F : Z -> Z -> Prop.
  Hypothesis HC : codecs_ok C F.

  Lemma good7 : forall e d l, file7 C F e d -> valid7 d -> wf7 F d -> raw_7_9 C e = Some l -> exists c, read9 C l = Some c /\ same7 d c.
  Proof.
    intros e d l H7 V W R. destruct (final_C46_total7 _ V) as (c & Hc & _). assert (Hc' : convert_7_9 d = Some c).
    { unfold convert in Hc. cbn [convert_loop conversion] in Hc. destruct (convert_7_9 d) as [c'|]; cbn [option_map convert_loop] in Hc; congruence. }
    destruct (raw_7_9_file C F HC _ _ _ H7 W Hc') as (e' & R' & H9). rewrite R in R'. injection R' as <-. exists c. split; [now apply (read9_file C F HC)|].
    now apply same7_convert.
  Qed.

  Lemma good6 : forall e d e7 l, file6 C F e d -> valid6 d -> wf6 F d -> raw_6_7 C e = Some e7 -> raw_7_9 C e7 = Some l ->
      exists c, read9 C l = Some c /\ forall s, own d s -> same6 d s c.
  Proof.
    intros e d e7 l H6 V W R6 R. destruct (final_C46_total _ V) as (c & Hc & _).
    assert (Hd : exists d7, convert_6_7 d = Some d7 /\ convert_7_9 d7 = Some c).
    { unfold convert in Hc. cbn [convert_loop conversion] in Hc. destruct (convert_6_7 d) as [d7|]; [|discriminate]. exists d7. split; auto.
      cbn [option_map convert_loop conversion] in Hc. destruct (convert_7_9 d7) as [c'|]; cbn [option_map convert_loop] in Hc; congruence. }
    destruct Hd as (d7 & Hd7 & Hc'). destruct (raw_6_7_file C F HC _ _ _ H6 W Hd7) as (e7' & R6' & H7 & W7). rewrite R6 in R6'. injection R6' as <-.
    destruct (raw_7_9_file C F HC _ _ _ H7 W7 Hc') as (e' & R' & H9). rewrite R in R'. injection R' as <-. exists c. split; [now apply (read9_file C F HC)|].
    intros s Hs. now apply same6_convert.
  Qed.

  Lemma good_version : forall e ex, good_source C F e ex -> get_version C e = Some V7 \/ get_version C e = Some V6.
  Proof.
    intros e ex [(d & H & _)|(d & H & _)]; [left; now apply (version7 C F _ d)|right; now apply (version6 C F _ d)].
  Qed.

  (** A conversion of a good source with a good destination. *)
  Lemma good_runs : forall left src dst fs e ex, NoDup (keys fs) -> src <> (dst ++ ".v07")%string -> dget String.eqb src fs = Some e -> dget String.eqb dst fs = None ->
      good_source C F e ex ->
      exists fs' l c, convert_files C left src dst fs = (fs', true) /\ dget String.eqb dst fs' = Some l /\ read9 C l = Some c /\ ex c /\ get_version C l = Some V9 /\
        forall p, p <> dst -> p <> (dst ++ ".v07")%string -> dget String.eqb p fs' = dget String.eqb p fs.
  Proof.
    intros left src dst fs e ex Nd Nt Es Ed [(d & H & V & W & ->)|(d & H & V & W & ->)].
    - destruct (final_C68_v07 C F HC left src dst fs e d Es Ed H V W) as (fs' & l & c & _ & X & Dl & R & S & _ & G & O).
      exists fs', l, c. repeat (split; [assumption|]). auto.
    - destruct (final_C68_v06 C F HC left src dst fs e d Nd Nt Es Ed H V W) as (fs' & l & c & _ & X & Dl & R & S & _ & G & _ & O).
      exists fs', l, c. repeat (split; [assumption|]). auto.
  Qed.

  Lemma final_C80_atomic : forall src dst fs fs' e ex, NoDup (keys fs) -> src <> (dst ++ ".v07")%string -> dget String.eqb src fs = Some e -> good_source C F e ex ->
      stopped C src dst fs fs' ->
      dget String.eqb dst fs' = None \/
      (exists l, dget String.eqb dst fs' = Some l /\ (no_data l \/ exists c, read9 C l = Some c /\ ex c)).
  Proof.
    intros src dst fs fs' e ex Nd Nt Es G H. destruct (stopped_files C _ _ _ _ _ H Es Nd Nt) as (_ & _ & [N|[[k K]|(l & L & P)]]); [now left| |]; right.
    - exists (opened9 k). split; auto. left. apply opened9_nothing.
    - exists l. split; auto. right. destruct G as [(d & H7 & V & W & ->)|(d & H6 & V & W & ->)]; destruct P as [[Ev R]|(Ev & e7 & R6 & R)].
      + now apply (good7 e d).
      + rewrite (version7 C F _ _ H7) in Ev. discriminate.
      + rewrite (version6 C F _ _ H6) in Ev. discriminate.
      + now apply (good6 e d e7).
  Qed.

  Lemma final_C80_again : forall src dst fs fs' fs2 left e ex, NoDup (keys fs) -> src <> (dst ++ ".v07")%string -> dget String.eqb src fs = Some e -> good_source C F e ex ->
      stopped C src dst fs fs' ->
      (fs2 = ddel String.eqb dst fs' \/ (fs2 = fs' /\ dget String.eqb dst fs' = None)) ->
      exists fs3 l c, convert_files C left src dst fs2 = (fs3, true) /\ dget String.eqb dst fs3 = Some l /\ read9 C l = Some c /\ ex c /\ get_version C l = Some V9 /\
        forall p, p <> dst -> p <> (dst ++ ".v07")%string -> dget String.eqb p fs3 = dget String.eqb p fs.
  Proof.
    intros src dst fs fs' fs2 left e ex Nd Nt Es G H H2. destruct (stopped_files C _ _ _ _ _ H Es Nd Nt) as (N' & O & _).
    assert (Ed : dget String.eqb dst fs = None). { destruct H as (e0 & v & _ & Ed & _). unfold dmem in Ed. destruct (dget String.eqb dst fs); congruence. }
    assert (Ns : src <> dst) by congruence.
    assert (E2 : fs2 = ddel String.eqb dst fs'). { destruct H2 as [E2|[E2 A]]; auto. rewrite E2. symmetry. now apply ddel_absent. } clear H2. subst fs2.
    destruct (good_runs left src dst (ddel String.eqb dst fs') e ex) as (fs3 & l & c & X & L & R & S & V & P).
    - now apply NoDup_ddel'.
    - exact Nt.
    - rewrite dget_ddel_other' by auto. rewrite O by auto. exact Es.
    - now apply dget_ddel_same'.
    - exact G.
    - exists fs3, l, c. repeat (split; [assumption|]). intros p Hp Hq. rewrite P by auto. rewrite dget_ddel_other' by auto. now apply O.
  Qed.

  (** States in which the destination exists without data. *)
  Lemma stops_empty : forall src dst fs e ex, NoDup (keys fs) -> src <> (dst ++ ".v07")%string -> dget String.eqb src fs = Some e -> dget String.eqb dst fs = None ->
      good_source C F e ex -> exists fs', stopped C src dst fs fs' /\ dget String.eqb dst fs' = Some (opened9 9).
  Proof.
    intros src dst fs e ex Nd Nt Es Ed G. assert (M : dmem String.eqb dst fs = false) by (unfold dmem; now rewrite Ed). assert (Ns : src <> dst) by congruence.
    pose proof (suffix7 dst) as Tn.
    destruct G as [(d & H7 & V & W & _)|(d & H6 & V & W & _)].
    - eexists. split.
      + exists e, V7. split; [exact Es|]. split; [exact M|]. split; [now apply (version7 C F _ d)|]. split; [discriminate|].
        eapply (tn_writing C src dst V7 src fs V9 (raw_7_9 C) (opened9 9)); [reflexivity|]. left. now exists 9%nat.
      + cbn [target is_v9]. unfold target. cbn [is_v9]. apply fget_set_same.
    - destruct (final_C46_total _ V) as (c & Hc & _).
      assert (Hd : exists d7, convert_6_7 d = Some d7). { unfold convert in Hc. cbn [convert_loop conversion] in Hc. destruct (convert_6_7 d) as [d7|]; [eauto|discriminate]. }
      destruct Hd as (d7 & Hd7). destruct (raw_6_7_file C F HC _ _ _ H6 W Hd7) as (e7 & R6 & _).
      eexists. split.
      + exists e, V6. split; [exact Es|]. split; [exact M|]. split; [now apply (version6 C F _ d)|]. split; [discriminate|].
        eapply (tn_next C src dst V6 src fs V7 (raw_6_7 C) e7); [reflexivity| |].
        * unfold target, content_of. cbn [is_v9 suffix]. rewrite dget_ddel_other' by auto. now rewrite Es.
        * eapply (tn_writing C src dst V7 _ _ V9 (raw_7_9 C) (opened9 9)); [reflexivity|]. left. now exists 9%nat.
      + unfold target. cbn [is_v9]. apply fget_set_same.
  Qed.

  Lemma final_C80_refused : forall src dst fs e ex, NoDup (keys fs) -> src <> (dst ++ ".v07")%string -> dget String.eqb src fs = Some e -> dget String.eqb dst fs = None ->
      good_source C F e ex ->
      exists fs' l, stopped C src dst fs fs' /\ dget String.eqb dst fs' = Some l /\ no_data l /\ forall left, convert_files C left src dst fs' = (fs', false).
  Proof.
    intros src dst fs e ex Nd Nt Es Ed G. destruct (stops_empty _ _ _ _ _ Nd Nt Es Ed G) as (fs' & S & L). exists fs', (opened9 9). split; [exact S|]. split; [exact L|].
    split; [apply opened9_nothing|]. intros left. apply final_C68_refused. right. left. congruence.
  Qed.

  Lemma starts_empty : forall cf p fs, dget String.eqb p fs = Some (opened9 9) ->
      exists b, server_start C cf p fs = Some b /\ db_ids (fst b) = [] /\ db_ref (fst b) = [] /\ db_latest (fst b) = [] /\ db_ts (fst b) = [].
  Proof.
    intros cf p fs L. unfold server_start. rewrite L. replace (openable (opened9 9)) with true by reflexivity.
    rewrite (read_nothing C _ (opened9_nothing 9)). cbn [obind]. unfold open_db. cbn [db_settings empty_db].
    destruct (validate_settings [] (cf_version cf) (cf_ident cf)) as [st|] eqn:E.
    - destruct (init_partitions _ _) as [a b]. eexists. repeat (split; [reflexivity|]). reflexivity.
    - exfalso. revert E. unfold validate_settings. cbn. destruct (cf_ident cf); cbn; discriminate.
  Qed.

  Lemma final_C80_empty : forall src dst fs e ex cf, NoDup (keys fs) -> src <> (dst ++ ".v07")%string -> dget String.eqb src fs = Some e -> dget String.eqb dst fs = None ->
      good_source C F e ex ->
      exists fs' b, stopped C src dst fs fs' /\ dmem String.eqb dst fs' = true /\ server_start C cf dst fs' = Some b /\
        db_ids (fst b) = [] /\ db_ref (fst b) = [] /\ db_latest (fst b) = [] /\ db_ts (fst b) = [].
  Proof.
    intros src dst fs e ex cf Nd Nt Es Ed G. destruct (stops_empty _ _ _ _ _ Nd Nt Es Ed G) as (fs' & S & L).
    destruct (starts_empty cf dst fs' L) as (b & Q). exists fs', b. split; [exact S|]. split; [unfold dmem; now rewrite L|exact Q].
  Qed.
End Cut.

(** Runs that come to an end, with success or with an exception. *)
Lemma final_C80_source : forall C src dst fs fs', NoDup (keys fs) -> src <> (dst ++ ".v07")%string -> stopped C src dst fs fs' ->
    forall p, p <> dst -> p <> (dst ++ ".v07")%string -> dget String.eqb p fs' = dget String.eqb p fs.
Proof.
  intros C src dst fs fs' Nd Nt H. assert (He : exists e, dget String.eqb src fs = Some e) by (destruct H as (e & v & E & _); eauto). destruct He as [e Es].
  now apply (stopped_files C _ _ _ _ _ H Es Nd Nt).
Qed.

Lemma final_C80_runs : forall C src dst fs fs' e v, NoDup (keys fs) -> src <> (dst ++ ".v07")%string -> dget String.eqb src fs = Some e -> dget String.eqb dst fs = None ->
    get_version C e = Some v -> v <> V9 -> convert_files C None src dst fs = (fs', true) -> stopped C src dst fs fs'.
Proof.
  intros C src dst fs fs' e v Nd Nt Es Ed Ev Nv X. assert (M : dmem String.eqb dst fs = false) by (unfold dmem; now rewrite Ed).
  exists e, v. repeat (split; [assumption|]). unfold convert_files in X. rewrite Es, M, Ev in X. destruct v; [| |congruence].
  - cbn [convert_turns is_v9 next_version] in X.
    set (tmp := (dst ++ suffix V7)%string) in *. set (fs1 := ddel String.eqb tmp fs) in *.
    unfold run_conversion at 1 in X. change (match dget String.eqb src fs1 with Some e0 => e0 | None => [] end) with (content_of src fs1) in X.
    destruct (raw_6_7 C (content_of src fs1)) as [e7|] eqn:R6; [|discriminate]. rewrite String.eqb_refl in X.
    eapply (tn_next C src dst V6 src fs V7 (raw_6_7 C) e7); [reflexivity|exact R6|]. rewrite String.eqb_refl. change (target V7 dst) with tmp. fold fs1.
    set (fs2 := dset String.eqb tmp e7 fs1) in *. set (fs3 := ddel String.eqb dst fs2) in *. unfold run_conversion in X.
    change (match dget String.eqb tmp fs3 with Some e0 => e0 | None => [] end) with (content_of tmp fs3) in X.
    destruct (raw_7_9 C (content_of tmp fs3)) as [l|] eqn:R; [|discriminate]. injection X as <-.
    eapply (tn_next C src dst V7 tmp fs2 V9 (raw_7_9 C) l); [reflexivity|exact R|]. apply tn_now.
  - cbn [convert_turns is_v9 next_version] in X. set (fs1 := ddel String.eqb dst fs) in *. unfold run_conversion in X.
    change (match dget String.eqb src fs1 with Some e0 => e0 | None => [] end) with (content_of src fs1) in X.
    destruct (raw_7_9 C (content_of src fs1)) as [l|] eqn:R; [|discriminate]. rewrite String.eqb_refl in X. injection X as <-.
    eapply (tn_next C src dst V7 src fs V9 (raw_7_9 C) l); [reflexivity|exact R|]. rewrite String.eqb_refl. apply tn_now.
Qed.
