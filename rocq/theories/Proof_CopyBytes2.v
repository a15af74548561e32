(** Lemmas for C83: the copy of a file, copies that stop, and second attempts. *)
From Coq Require Import String Ascii Bool ZArith Lia Permutation Sorted List.
From Verif Require Import Base Kv Model_Types Spec_Order Proof_Order Model_Codec Spec_Codec Proof_Codec Keys Model_Sbs Model_Lmdb Model_Copy Spec_Copy Proof_Copy
  Model_Convert Spec_Convert Model_ConvertBytes Spec_ConvertBytes Proof_ConvertBytes Proof_ConvertBytes2 Proof_ConvertBytes4 Model_ConvertCut Spec_ConvertCut Proof_ConvertCut
  Proof_ConvertCut2 Model_CopyBytes Spec_CopyBytes Proof_CopyBytes.
Import ListNotations.
Open Scope string_scope.
Open Scope list_scope.
Open Scope Z_scope.

(** ** Good environments *)

Record env_ok (e : env) : Prop := {
  eo_sorted : forall n, ksorted bytesord (eitems n e);
  eo_keys : forall n k v, In (k, v) (eitems n e) -> is_bytes k;
  eo_refs : forall k v, In (k, v) (eitems "REF" e) -> is_bytes v }.

Lemma sorted_bytes : forall l : list bytes, StronglySorted bytes_lt l <-> StronglySorted (fun a b => oltb bytesord a b = true) l.
Proof.
  induction l as [|x l IH]; split; intros H; inversion H; subst; constructor; try (now apply IH);
    (eapply Forall_impl; [|eassumption]); intros a Ha; now apply bytes_ltb_lt.
Qed.

Lemma file_env : forall e, file_ok e -> env_ok e.
Proof.
  intros e H. split.
  - intros n. unfold ksorted. change (StronglySorted (fun a b => oltb bytesord a b = true) (map fst (eitems n e))). apply sorted_bytes. now apply items_sorted.
  - intros n k v. now apply items_keys.
  - intros k v Hi. unfold eitems in Hi. destruct (dget String.eqb "REF" e) as [r|] eqn:E; [|destruct Hi]. exact (fo_refs _ H _ _ _ E Hi).
Qed.
Lemma env_file : forall e, env_ok e -> openable e = true -> file_ok e.
Proof.
  intros e [H1 H2 H3] H. assert (G : forall n r, dget String.eqb n e = Some r -> eitems n e = r) by (intros n r E; unfold eitems; now rewrite E). split.
  - intros n Hn. unfold openable in H. rewrite forallb_forall in H. specialize (H n Hn). unfold ehas, dmem in H. destruct (dget String.eqb n e); [eauto|discriminate].
  - intros n r E. rewrite <- (G _ _ E). apply sorted_bytes. exact (H1 n).
  - intros n r k v E Hi. rewrite <- (G _ _ E) in Hi. eauto.
  - intros r k v E Hi. rewrite <- (G _ _ E) in Hi. eauto.
Qed.
Lemma file_open : forall e, file_ok e -> openable e = true.
Proof. intros e H. apply forallb_forall. intros n Hn. destruct (fo_all _ H n Hn) as [r E]. unfold ehas, dmem. now rewrite E. Qed.

Lemma In_kput_item : forall K V (o : ord K) k v k' v' (m : list (K * V)), In (k, v) (kput o k' v' m) -> (k = k' /\ v = v') \/ In (k, v) m.
Proof.
  intros K V o k v k' v'. induction m as [|[k2 v2] m IH]; cbn [kput]; intros H.
  - destruct H as [H|[]]. injection H as <- <-. auto.
  - destruct (oltb o k' k2); [|destruct (oltb o k2 k')].
    + destruct H as [H|H]; [injection H as <- <-; auto|auto].
    + destruct H as [H|H]; [right; now left|]. destruct (IH H); [now left|right; now right].
    + destruct H as [H|H]; [injection H as <- <-; auto|right; now right].
Qed.

Lemma env_put : forall e n k v, env_ok e -> is_bytes k -> (n = "REF" -> is_bytes v) -> env_ok (eput n k v e).
Proof.
  intros e n k v [H1 H2 H3] Hk Hv. split.
  - intros m. destruct (string_dec m n) as [->|N]; [rewrite eitems_eput_same; now apply ksorted_kput|now rewrite eitems_eput_other].
  - intros m k' v' Hi. destruct (string_dec m n) as [->|N]; [|rewrite eitems_eput_other in Hi by auto; eauto].
    rewrite eitems_eput_same in Hi. apply In_kput_item in Hi as [[-> _]|Hi]; eauto.
  - intros k' v' Hi. destruct (string_dec "REF" n) as [E|N]; [|rewrite eitems_eput_other in Hi by auto; eauto]. subst n.
    rewrite eitems_eput_same in Hi. apply In_kput_item in Hi as [[_ ->]|Hi]; eauto.
Qed.
Lemma env_opened : forall k, env_ok (opened9 k).
Proof.
  intros k. pose proof (fun n => items_nothing n _ (opened9_nothing k)) as N.
  split; [intros n|intros n k' v'|intros k' v']; rewrite N; [constructor|intros []|intros []].
Qed.

(** ** Copying of a database *)

Lemma copy_db_items : forall src e name n, eitems n (raw_copy_db src e name) =
    if (n =? name)%string then fold_left (fun m kv => kput bytesord (fst kv) (snd kv) m) (eitems name src) (eitems name e) else eitems n e.
Proof.
  intros src e name n. unfold raw_copy_db. generalize (eitems name src) as r. intros r. revert e. induction r as [|[k v] r IH]; intros e; cbn [fold_left fst snd].
  - destruct (String.eqb_spec n name); now subst.
  - rewrite IH. destruct (String.eqb_spec n name) as [->|N]; [now rewrite eitems_eput_same|now rewrite eitems_eput_other].
Qed.
Lemma copy_db_has : forall src e name n, ehas n e = true -> ehas n (raw_copy_db src e name) = true.
Proof.
  intros src e name n. unfold raw_copy_db. generalize (eitems name src) as r. intros r. revert e. induction r as [|[k v] r IH]; intros e H; cbn [fold_left fst snd]; auto.
  apply IH. destruct (string_dec n name) as [->|N]; [apply ehas_eput_same|now rewrite ehas_eput_other].
Qed.
Lemma copy_db_ok : forall src e name, env_ok src -> env_ok e -> env_ok (raw_copy_db src e name).
Proof.
  intros src e name Hs. unfold raw_copy_db. pose proof (eo_keys _ Hs name) as Hk.
  assert (Hv : name = "REF" -> forall k v, In (k, v) (eitems name src) -> is_bytes v) by (intros ->; apply (eo_refs _ Hs)).
  revert e Hk Hv. generalize (eitems name src) as r. induction r as [|[k v] r IH]; intros e Hk Hv He; cbn [fold_left fst snd]; auto.
  apply IH.
  - intros k' v' Hi. apply (Hk k' v'). now right.
  - intros E k' v' Hi. apply (Hv E k' v'). now right.
  - apply env_put; auto; [apply (Hk k v); now left|intros E; apply (Hv E k v); now left].
Qed.

(** ** References *)

Lemma enc_refs_bytes : forall l b, encode_event_refs l = Some b -> is_bytes b.
Proof.
  induction l as [|r l IH]; intros b H; cbn [encode_event_refs] in H; [injection H as <-; constructor|].
  destruct (encode_event_ref r) as [x|] eqn:E; [|discriminate]. cbn [obind] in H. destruct (encode_event_refs l) as [y|]; [|discriminate]. cbn [obind] in H. injection H as <-.
  apply Forall_app. split; [|now apply IH]. destruct r as [k|k]; cbn [encode_event_ref] in E.
  - destruct (encode_uint k) as [z|] eqn:E2; [|discriminate]. cbn [obind] in E. injection E as <-. apply uint8 in E2. constructor; [unfold db_latest_data; lia|apply E2].
  - destruct (encode_ts_key k) as [z|] eqn:E2; [|discriminate]. cbn [obind] in E. injection E as <-. constructor; [unfold db_timeseries_data; lia|].
    apply key7_form_enc in E2. destruct k as [[p t] i]. destruct E2 as (a & b & c & -> & Ha & (b1 & b2 & -> & Hb1 & Hb2) & (c1 & c2 & c3 & -> & Hc1 & Hc2 & Hc3)).
    destruct Ha as (_ & Ha & _). destruct Hb1 as (_ & Hb1 & _). destruct Hb2 as (_ & Hb2 & _). destruct Hc1 as (_ & Hc1 & _). destruct Hc2 as (_ & Hc2 & _). destruct Hc3 as (_ & Hc3 & _).
    apply Forall_app. split; [exact Ha|]. apply Forall_app. split; [apply Forall_app; split; assumption|]. apply Forall_app. split; [exact Hc1|]. apply Forall_app. split; assumption.
Qed.

Lemma kept_refs_sof : forall sl st rs, kept_refs sl st (sof reford rs) = kept_refs sl st rs.
Proof.
  intros sl st rs. apply (sext reford); try (unfold kept_refs; apply ssorted_sof). intros x. now rewrite !kept_refs_In, In_sof.
Qed.

Section Copy.
  Variable C : codecs.
  Variable F : Z -> Z -> Prop.
  Hypothesis HC : codecs_ok C F.
  Variables (sl st : bool).

  Lemma copy_ref_loop : forall l r, rep eid_form (dec dec_refs) l r -> (forall k v, In (k, v) r -> is_bytes k /\ is_bytes v) -> forall e m,
      rep eid_form (dec dec_refs) m (eitems "REF" e) -> env_ok e ->
      exists e', loop (raw_copy_ref C sl st) r e = Some e' /\ env_ok e' /\
        rep eid_form (dec dec_refs) (fold_left (fun dst kv =>
          if negb sl && negb st then kput eidord (fst kv) (snd kv) dst
          else match kept_refs sl st (snd kv) with [] => dst | refs => kput eidord (fst kv) refs dst end) l m) (eitems "REF" e') /\
        (forall n, n <> "REF" -> eitems n e' = eitems n e) /\ (forall n, ehas n e = true -> ehas n e' = true).
  Proof.
    intros l r H. induction H as [|[k rs] [bk bv] l r [H1 H2] H IH]; intros Hb e m Hm He; cbn [loop fold_left fst snd] in *.
    - exists e. auto.
    - destruct (Hb bk bv (or_introl eq_refl)) as [Bk Bv].
      assert (Hb' : forall k v, In (k, v) r -> is_bytes k /\ is_bytes v) by (intros k' v' Hi; apply (Hb k' v'); now right).
      assert (Put : forall v rs', dec dec_refs rs' v -> is_bytes v ->
        exists e', loop (raw_copy_ref C sl st) r (eput "REF" bk v e) = Some e' /\ env_ok e' /\
          rep eid_form (dec dec_refs) (fold_left (fun dst kv =>
            if negb sl && negb st then kput eidord (fst kv) (snd kv) dst
            else match kept_refs sl st (snd kv) with [] => dst | refs => kput eidord (fst kv) refs dst end) l (kput eidord k rs' m)) (eitems "REF" e') /\
          (forall n, n <> "REF" -> eitems n e' = eitems n e) /\ (forall n, ehas n e = true -> ehas n e' = true)).
      { intros v rs' Hd Bv'. destruct (IH Hb' (eput "REF" bk v e) (kput eidord k rs' m)) as (e' & X & O & R & N & A).
        - rewrite eitems_eput_same. apply kput_rep; auto. apply emb_eid.
        - apply env_put; auto.
        - exists e'. split; [exact X|]. split; [exact O|]. split; [exact R|]. split.
          + intros n Hn. rewrite N by auto. now apply eitems_eput_other.
          + intros n Hn. apply A. destruct (string_dec n "REF") as [->|D]; [apply ehas_eput_same|now rewrite ehas_eput_other]. }
      unfold raw_copy_ref at 1. cbn [fst snd]. destruct (negb sl && negb st) eqn:Ec.
      + cbn [obind]. now apply Put.
      + unfold dec, dec_refs in H2. destruct (decode_event_refs bv) as [l0|] eqn:Ed; [|discriminate]. cbn [obind] in H2. injection H2 as <-. cbn [obind].
        rewrite kept_refs_sof. pose proof (refs_fit _ _ Bv Ed) as Fit.
        destruct (kept_refs sl st l0) as [|x y] eqn:Ek.
        * cbn [obind]. now apply IH.
        * rewrite <- Ek. destruct (refs9_dec (kept_refs sl st l0) (iter C (kept_refs sl st l0))) as (b & E & D).
          { apply (ck_iter _ _ HC). }
          { apply Forall_forall. intros z Hz. apply kept_refs_In in Hz as [Hz _]. rewrite Forall_forall in Fit. auto. }
          rewrite E. cbn [obind]. apply Put; [|exact (enc_refs_bytes _ _ E)].
          unfold dec, dec_refs. unfold refs9_form in D. rewrite D. f_equal.
          apply (sext reford); [apply ssorted_sof|unfold kept_refs; apply ssorted_sof|]. intros z. now rewrite In_sof.
  Qed.

  Lemma raw_copy_file : forall e d, env_ok e -> file_of C e d ->
      exists l, raw_copy C sl st e = Some l /\ env_ok l /\ openable l = true /\ file_of C l (copy_content sl st d).
  Proof.
    intros e d He H. unfold raw_copy. set (e1 := fold_left (raw_copy_db e) _ (opened9 9)).
    assert (N0 : forall n, eitems n (opened9 9) = []) by (intros; apply items_nothing, opened9_nothing).
    assert (O1 : env_ok e1) by (unfold e1; cbn [fold_left]; repeat apply copy_db_ok; auto using env_opened).
    assert (R1 : eitems "REF" e1 = []) by (unfold e1; cbn [fold_left]; rewrite !copy_db_items; reflexivity).
    destruct (copy_ref_loop _ _ (fd_ref _ _ _ H)) with (e := e1) (m := @nil (event_id * list event_ref)) as (e2 & X & O2 & R2 & N2 & A2).
    { intros k v Hi. split; [exact (eo_keys _ He _ _ _ Hi)|exact (eo_refs _ He _ _ Hi)]. } { rewrite R1. constructor. } { exact O1. }
    rewrite X. cbn [obind].
    set (e3 := if sl then e2 else _). set (e4 := if st then e3 else _). exists e4. split; [reflexivity|].
    assert (O3 : env_ok e3) by (unfold e3; destruct sl; auto; cbn [fold_left]; repeat apply copy_db_ok; auto).
    assert (O4 : env_ok e4) by (unfold e4; destruct st; auto; cbn [fold_left]; repeat apply copy_db_ok; auto).
    split; [exact O4|].
    assert (I3 : forall n, eitems n e3 = if sl then eitems n e2 else if (n =? "LATEST_DATA")%string then copy_db bytesord (eitems n e)
                 else if (n =? "LATEST_TYPE")%string then copy_db bytesord (eitems n e) else eitems n e2).
    { intros n. unfold e3. destruct sl; auto. cbn [fold_left]. rewrite !copy_db_items. cbn [String.eqb Ascii.eqb Bool.eqb].
      destruct (String.eqb_spec n "LATEST_TYPE") as [->|]; [|destruct (String.eqb_spec n "LATEST_DATA") as [->|]; auto].
      - rewrite N2 by discriminate. unfold e1. cbn [fold_left]. rewrite !copy_db_items, N0. reflexivity.
      - rewrite N2 by discriminate. unfold e1. cbn [fold_left]. rewrite !copy_db_items, N0. reflexivity. }
    assert (I4 : forall n, eitems n e4 = if st then eitems n e3 else if (n =? "TIMESERIES_DATA")%string then copy_db bytesord (eitems n e)
                 else if (n =? "TIMESERIES_PARTITION")%string then copy_db bytesord (eitems n e)
                 else if (n =? "TIMESERIES_COUNT")%string then copy_db bytesord (eitems n e) else eitems n e3).
    { intros n. unfold e4. destruct st; auto. cbn [fold_left]. rewrite !copy_db_items.
      assert (Z : forall m, In m ["TIMESERIES_DATA"; "TIMESERIES_PARTITION"; "TIMESERIES_COUNT"] -> eitems m e3 = []).
      { intros m Hm. rewrite I3. assert (E2 : eitems m e2 = []).
        { rewrite N2 by (intros ->; cbn in Hm; intuition discriminate). unfold e1. cbn [fold_left]. rewrite !copy_db_items, N0.
          destruct Hm as [<-|[<-|[<-|[]]]]; reflexivity. }
        rewrite E2. destruct Hm as [<-|[<-|[<-|[]]]]; destruct sl; reflexivity. }
      destruct (String.eqb_spec n "TIMESERIES_COUNT") as [->|].
      - cbn [String.eqb Ascii.eqb Bool.eqb]. rewrite (Z "TIMESERIES_COUNT") by (cbn; auto). reflexivity.
      - destruct (String.eqb_spec n "TIMESERIES_PARTITION") as [->|].
        + cbn [String.eqb Ascii.eqb Bool.eqb]. rewrite (Z "TIMESERIES_PARTITION") by (cbn; auto). reflexivity.
        + destruct (String.eqb_spec n "TIMESERIES_DATA") as [->|]; auto. rewrite (Z "TIMESERIES_DATA") by (cbn; auto). reflexivity. }
    split.
    - apply forallb_forall. intros n Hn. assert (B1 : ehas n e1 = true).
      { unfold e1. cbn [fold_left]. repeat apply copy_db_has. cbn in Hn. repeat (destruct Hn as [<-|Hn]; [reflexivity|]). destruct Hn. }
      apply A2 in B1. assert (B3 : ehas n e3 = true) by (unfold e3; destruct sl; auto; cbn [fold_left]; now repeat apply copy_db_has).
      unfold e4. destruct st; auto. cbn [fold_left]. now repeat apply copy_db_has.
    - assert (S : forall n, In n ["SYSTEM_SETTINGS"; "SYSTEM_LAST_EVENT_ID"; "SYSTEM_LAST_TIMESTAMP"] -> eitems n e4 = copy_db bytesord (eitems n e)).
      { intros n Hn. rewrite I4, I3. destruct Hn as [<-|[<-|[<-|[]]]]; cbn [String.eqb Ascii.eqb Bool.eqb];
          rewrite N2 by discriminate; unfold e1; cbn [fold_left]; rewrite !copy_db_items, N0; destruct sl, st; reflexivity. }
      assert (L : forall n, In n ["LATEST_DATA"; "LATEST_TYPE"] -> eitems n e4 = if sl then [] else copy_db bytesord (eitems n e)).
      { intros n Hn. rewrite I4, I3. destruct Hn as [<-|[<-|[]]]; cbn [String.eqb Ascii.eqb Bool.eqb];
          rewrite N2 by discriminate; unfold e1; cbn [fold_left]; rewrite !copy_db_items, N0; destruct sl, st; reflexivity. }
      assert (T : forall n, In n ["TIMESERIES_DATA"; "TIMESERIES_PARTITION"; "TIMESERIES_COUNT"] -> eitems n e4 = if st then [] else copy_db bytesord (eitems n e)).
      { intros n Hn. rewrite I4, I3. destruct Hn as [<-|[<-|[<-|[]]]]; cbn [String.eqb Ascii.eqb Bool.eqb];
          rewrite N2 by discriminate; unfold e1; cbn [fold_left]; rewrite !copy_db_items, N0; destruct sl, st; reflexivity. }
      assert (Rf : eitems "REF" e4 = eitems "REF" e2) by (rewrite I4, I3; destruct sl, st; reflexivity).
      destruct H. split; cbn [copy_content db_settings db_ids db_tss db_ref db_latest db_types db_ts db_parts db_counts].
      + rewrite S by (cbn; auto). apply rep_copy; auto using emb_uint.
      + rewrite S by (cbn; auto). apply rep_copy; auto using emb_uint.
      + rewrite S by (cbn; auto). apply rep_copy; auto using emb_uint.
      + rewrite Rf. exact R2.
      + rewrite L by (cbn; auto). destruct sl; [constructor|apply rep_copy; auto using emb_uint].
      + rewrite L by (cbn; auto). destruct sl; [constructor|apply rep_copy; auto using emb_uint].
      + rewrite T by (cbn; auto). destruct st; [constructor|apply rep_copy; auto using emb_key].
      + rewrite T by (cbn; auto). destruct st; [constructor|apply rep_copy; auto using emb_uint].
      + rewrite T by (cbn; auto). destruct st; [constructor|apply rep_copy; auto using emb_uint].
  Qed.

  Lemma copy_read : forall e d, file_ok e -> read9 C e = Some d ->
      exists l, raw_copy C sl st e = Some l /\ file_ok l /\ read9 C l = Some (copy_content sl st d) /\ copy_of sl st d (copy_content sl st d).
  Proof.
    intros e d K R. pose proof (read_file _ _ _ K R) as H. destruct (raw_copy_file e d (file_env _ K) H) as (l & X & O & P & L).
    exists l. split; [exact X|]. split; [now apply env_file|]. split; [now apply file_read|].
    destruct (final_C47_skip sl st d (file_sorted _ _ _ K H)) as (c & E & _ & Q). injection E as <-. exact Q.
  Qed.

  (** ** Files *)

  Lemma absent : forall dst (fs : files), dget String.eqb dst fs = None <-> dmem String.eqb dst fs = false.
  Proof. intros dst fs. unfold dmem. destruct (dget String.eqb dst fs); split; congruence. Qed.

  Lemma final_C83_copy : forall src dst fs e d, dget String.eqb src fs = Some e -> dget String.eqb dst fs = None -> file_ok e -> read9 C e = Some d ->
      exists fs' l c, copy_files C sl st src dst fs = (fs', true) /\ dget String.eqb dst fs' = Some l /\ file_ok l /\ read9 C l = Some c /\
        c = copy_content sl st d /\ copy_of sl st d c /\ forall p, p <> dst -> dget String.eqb p fs' = dget String.eqb p fs.
  Proof.
    intros src dst fs e d Es Ed K R. destruct (copy_read e d K R) as (l & X & O & L & Q). exists (dset String.eqb dst l fs), l, (copy_content sl st d).
    unfold copy_files. rewrite (proj1 (absent _ _) Ed), Es, (file_open _ K), X. split; [reflexivity|]. split; [apply fget_set_same|].
    repeat (split; [assumption || reflexivity|]). intros p Hp. now apply fget_set_other.
  Qed.

  Lemma final_C83_others : forall src dst fs fs', copy_stopped C sl st src dst fs fs' -> forall p, p <> dst -> dget String.eqb p fs' = dget String.eqb p fs.
  Proof. intros src dst fs fs' H p Hp. destruct H; auto; now apply fget_set_other. Qed.

  Lemma final_C83_atomic : forall src dst fs fs', dget String.eqb dst fs = None -> copy_stopped C sl st src dst fs fs' ->
      dget String.eqb dst fs' = None \/
      (exists l, dget String.eqb dst fs' = Some l /\ no_data l) \/
      copy_files C sl st src dst fs = (fs', true).
  Proof.
    intros src dst fs fs' Ed H. destruct H as [|e|e k|e l M Es O X]; auto.
    - right. left. exists (opened9 0). split; [apply fget_set_same|apply opened9_nothing].
    - right. left. exists (opened9 k). split; [apply fget_set_same|apply opened9_nothing].
    - right. right. unfold copy_files. now rewrite M, Es, O, X.
  Qed.

  Lemma final_C83_ends : forall src dst fs fs' b, copy_files C sl st src dst fs = (fs', b) -> copy_stopped C sl st src dst fs fs'.
  Proof.
    intros src dst fs fs' b. unfold copy_files. destruct (dmem String.eqb dst fs) eqn:M; [intros [= <- <-]; constructor|].
    destruct (dget String.eqb src fs) as [e|] eqn:Es; [|intros [= <- <-]; constructor]. destruct (openable e) eqn:O.
    - destruct (raw_copy C sl st e) as [l|] eqn:X; intros [= <- <-]; [now apply (cs_written C sl st src dst fs e l)|now apply (cs_opened C sl st src dst fs e)].
    - intros [= <- <-]. now apply (cs_created C sl st src dst fs e).
  Qed.

  Lemma final_C83_failed : forall src dst fs fs', copy_files C sl st src dst fs = (fs', false) ->
      fs' = fs \/ (dget String.eqb dst fs = None /\ exists l, dget String.eqb dst fs' = Some l /\ no_data l).
  Proof.
    intros src dst fs fs'. unfold copy_files. destruct (dmem String.eqb dst fs) eqn:M; [intros [= <-]; auto|]. apply absent in M.
    destruct (dget String.eqb src fs) as [e|] eqn:Es; [|intros [= <-]; auto]. destruct (openable e) eqn:O; [destruct (raw_copy C sl st e)|]; intros [= <-]; right.
    - split; auto. exists (opened9 9). split; [apply fget_set_same|apply opened9_nothing].
    - split; auto. exists (opened9 0). split; [apply fget_set_same|apply opened9_nothing].
  Qed.

  Lemma final_C83_again : forall src dst fs fs' e d, NoDup (keys fs) -> dget String.eqb src fs = Some e -> dget String.eqb dst fs = None -> file_ok e -> read9 C e = Some d ->
      copy_stopped C sl st src dst fs fs' ->
      exists fs2 fs3 l, copy_files C sl st src dst fs = (fs2, true) /\ copy_files C sl st src dst (ddel String.eqb dst fs') = (fs3, true) /\
        dget String.eqb dst fs2 = Some l /\ forall p, dget String.eqb p fs3 = dget String.eqb p fs2.
  Proof.
    intros src dst fs fs' e d Nd Es Ed K R H. destruct (copy_read e d K R) as (l & X & _). pose proof (file_open _ K) as O.
    assert (Ns : src <> dst) by congruence.
    assert (N' : NoDup (keys fs')) by (destruct H; auto; now apply fnodup_set).
    pose proof (final_C83_others _ _ _ _ H) as Ot.
    exists (dset String.eqb dst l fs), (dset String.eqb dst l (ddel String.eqb dst fs')), l. unfold copy_files.
    rewrite (proj1 (absent _ _) Ed), Es, O, X. split; [reflexivity|].
    rewrite (proj1 (absent _ _) (dget_ddel_same' _ _ N')), dget_ddel_other', Ot, Es, O, X by auto. split; [reflexivity|]. split; [apply fget_set_same|].
    intros p. destruct (string_dec p dst) as [->|Hp]; [now rewrite !fget_set_same|]. rewrite !fget_set_other, dget_ddel_other' by auto. auto.
  Qed.

  Lemma final_C83_refused : forall src dst fs l, dget String.eqb dst fs = Some l -> copy_files C sl st src dst fs = (fs, false).
  Proof. intros src dst fs l E. unfold copy_files, dmem. now rewrite E. Qed.

  Lemma final_C83_repeat : forall src dst fs e, dget String.eqb src fs = Some e -> dget String.eqb dst fs = None -> file_ok e ->
      exists fs' l, copy_stopped C sl st src dst fs fs' /\ dget String.eqb dst fs' = Some l /\ no_data l /\ copy_files C sl st src dst fs' = (fs', false).
  Proof.
    intros src dst fs e Es Ed K. exists (dset String.eqb dst (opened9 9) fs), (opened9 9).
    split; [apply (cs_opened C sl st src dst fs e 9); auto; [now apply absent|now apply file_open]|]. split; [apply fget_set_same|]. split; [apply opened9_nothing|].
    eapply final_C83_refused. apply fget_set_same.
  Qed.
End Copy.

(** A file without data is opened by every server. *)
(** Stopped copies that are opened. *)
Lemma final_C83_noticed : forall C sl st src dst fs e cf, dget String.eqb src fs = Some e -> dget String.eqb dst fs = None -> file_ok e ->
    exists fs' b, copy_stopped C sl st src dst fs fs' /\ dmem String.eqb dst fs' = true /\ server_start C cf dst fs' = Some b /\
      db_ids (fst b) = [] /\ db_ref (fst b) = [] /\ db_latest (fst b) = [] /\ db_ts (fst b) = [].
Proof.
  intros C sl st src dst fs e cf Es Ed K. destruct (starts_empty C cf dst (dset String.eqb dst (opened9 9) fs) (fget_set_same _ _ _)) as (b & Q).
  exists (dset String.eqb dst (opened9 9) fs), b. split; [apply (cs_opened C sl st src dst fs e); auto; [now apply absent|now apply file_open]|].
  split; [unfold dmem; now rewrite fget_set_same|exact Q].
Qed.

(** Files of former versions. *)
Lemma final_C83_former : forall C F sl st src dst fs e, dget String.eqb src fs = Some e -> dget String.eqb dst fs = None ->
    (exists d, file7 C F e d) \/ (exists d, file6 C F e d) ->
    exists fs' l, copy_files C sl st src dst fs = (fs', false) /\ dget String.eqb dst fs' = Some l /\
      (forall sl' st' src', copy_files C sl' st' src' dst fs' = (fs', false)) /\ (forall cf, server_start C cf dst fs' = None).
Proof.
  intros C F sl st src dst fs e Es Ed H. assert (N : dget String.eqb "SYSTEM_SETTINGS" e = None) by (destruct H as [[d H]|[d H]]; apply H).
  assert (O : openable e = false). { unfold openable, names9. cbn [forallb]. unfold ehas at 1, dmem. now rewrite N. }
  exists (dset String.eqb dst (opened9 0) fs), (opened9 0).
  split; [unfold copy_files; now rewrite (proj1 (absent _ _) Ed), Es, O|]. split; [apply fget_set_same|]. split.
  - intros sl' st' src'. eapply final_C83_refused. apply fget_set_same.
  - intros cf. unfold server_start. rewrite fget_set_same. reflexivity.
Qed.

(** Without skipping, bytes are copied. *)
Lemma plain_ref_loop : forall C src e, loop (raw_copy_ref C false false) (eitems "REF" src) e = Some (raw_copy_db src e "REF").
Proof.
  intros C src. unfold raw_copy_db. generalize (eitems "REF" src) as r. induction r as [|[k v] r IH]; intros e; cbn [loop fold_left fst snd]; [reflexivity|].
  unfold raw_copy_ref at 1. cbn [negb andb obind fst snd]. apply IH.
Qed.

Lemma fold_copy_has : forall src names e n, ehas n e = true -> ehas n (fold_left (raw_copy_db src) names e) = true.
Proof. intros src. induction names as [|m names IH]; intros e n H; cbn [fold_left]; auto. apply IH. now apply copy_db_has. Qed.
Lemma fold_copy_other : forall src names e n, ~ In n names -> eitems n (fold_left (raw_copy_db src) names e) = eitems n e.
Proof.
  intros src. induction names as [|m names IH]; intros e n H; cbn [fold_left]; auto. rewrite IH by (intros X; apply H; now right). rewrite copy_db_items.
  destruct (String.eqb_spec n m) as [->|]; auto. exfalso. apply H. now left.
Qed.
Lemma fold_copy_items : forall src names e n, NoDup names -> (forall m, ksorted bytesord (eitems m src)) -> (forall m, In m names -> eitems m e = []) -> In n names ->
    eitems n (fold_left (raw_copy_db src) names e) = eitems n src.
Proof.
  intros src. induction names as [|m names IH]; intros e n Nd Hs He Hn; cbn [fold_left]; [destruct Hn|]. inversion Nd as [|x y Hm Nd']; subst.
  destruct (string_dec n m) as [->|D].
  - rewrite fold_copy_other by auto. rewrite copy_db_items, String.eqb_refl, (He m) by (now left). apply (copy_db_same _ _ bytesord). apply Hs.
  - destruct Hn as [->|Hn]; [congruence|]. apply IH; auto. intros q Hq. rewrite copy_db_items. destruct (String.eqb_spec q m) as [->|]; [contradiction|]. apply He. now right.
Qed.

Lemma final_C83_same : forall C src dst fs e, dget String.eqb src fs = Some e -> dget String.eqb dst fs = None -> file_ok e ->
    exists fs' l, copy_files C false false src dst fs = (fs', true) /\ dget String.eqb dst fs' = Some l /\
      forall n, database9 n -> dget String.eqb n l = dget String.eqb n e.
Proof.
  intros C src dst fs e Es Ed K. unfold copy_files. rewrite (proj1 (absent _ _) Ed), Es, (file_open _ K).
  unfold raw_copy. rewrite plain_ref_loop. cbn [obind].
  change (fold_left (raw_copy_db e) ["TIMESERIES_DATA"; "TIMESERIES_PARTITION"; "TIMESERIES_COUNT"] _) with (fold_left (raw_copy_db e) names9 (opened9 9)).
  eexists. eexists. split; [reflexivity|]. split; [apply fget_set_same|]. intros n Hn.
  assert (I : eitems n (fold_left (raw_copy_db e) names9 (opened9 9)) = eitems n e).
  { apply fold_copy_items; auto.
    - repeat constructor; cbn [In]; intuition discriminate.
    - intros m. apply (eo_sorted _ (file_env _ K)).
    - intros m _. apply items_nothing, opened9_nothing. }
  assert (P : ehas n (fold_left (raw_copy_db e) names9 (opened9 9)) = true).
  { apply fold_copy_has. unfold database9 in Hn. cbn [In] in Hn. repeat (destruct Hn as [<-|Hn]; [reflexivity|]). destruct Hn. }
  destruct (fo_all _ K n Hn) as [r E]. revert I P. generalize (fold_left (raw_copy_db e) names9 (opened9 9)) as l. intros l I P.
  unfold ehas, dmem in P. unfold eitems in I. rewrite E in *. destruct (dget String.eqb n l); [now subst|discriminate].
Qed.
