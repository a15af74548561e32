(** Lemmas for C84: flushing. *)
From Coq Require Import String Ascii Bool ZArith QArith Lia Permutation Sorted List.
From Verif Require Import Base Kv Model_Types Spec_Order Proof_Order Model_Time Model_Codec Spec_Codec Proof_Codec Keys Model_Sbs Model_Lmdb Model_Copy Spec_Copy Proof_Copy
  Model_Convert Spec_Convert Model_ConvertBytes Spec_ConvertBytes Proof_ConvertBytes Proof_ConvertBytes2 Proof_ConvertBytes4 Model_ConvertCut Spec_ConvertCut Proof_ConvertCut
  Proof_ConvertCut2 Model_CopyBytes Spec_CopyBytes Proof_CopyBytes Proof_CopyBytes2 Model_LmdbBytes Spec_LmdbBytes Proof_LmdbBytes.
Import ListNotations.
Open Scope string_scope.
Open Scope list_scope.
Open Scope Z_scope.

(** Counters. *)
Lemma count_rep : forall e m p k, rep (uint 8) (dec decode_uint) m (eitems "TIMESERIES_COUNT" e) -> uint 8 p k ->
    match truthy (eget "TIMESERIES_COUNT" k e) with Some b => decode_uint b | None => Some 0 end = Some (partition_count m p).
Proof.
  intros e m p k R Hk. pose proof (kget_rep _ _ _ emb_uint p k m _ Hk R) as G. unfold partition_count, eget. destruct (kget zord p m) as [n|].
  - destruct G as (b & -> & D). unfold dec in D. destruct b as [|x b]; [discriminate|]. cbn [truthy]. exact D.
  - rewrite G. reflexivity.
Qed.

Lemma inc_loop : forall c e m, good e -> rep (uint 8) (dec decode_uint) m (eitems "TIMESERIES_COUNT" e) -> (forall p l, In (p, l) c -> u64 p) ->
    (forall p, 0 <= partition_count m p /\ partition_count m p + amount c < 2 ^ 64) ->
    exists e', loop raw_inc c e = Some e' /\ good e' /\ rep (uint 8) (dec decode_uint) (inc_counts c m) (eitems "TIMESERIES_COUNT" e') /\
      forall n, n <> "TIMESERIES_COUNT" -> eitems n e' = eitems n e.
Proof.
  unfold inc_counts. induction c as [|[p l] c IH]; intros e m G R Hp Hn; cbn [loop fold_left fst snd].
  - exists e. auto.
  - assert (P : 0 <= amount c). { clear. induction c as [|[q l] c IH]; cbn [amount fold_right snd]; [lia|]. fold (amount c). lia. }
    destruct (put_uint p (Hp p l (or_introl eq_refl))) as (k & Ek & Fk). destruct (Hn p) as [N1 N2]. cbn [amount fold_right snd] in N2, Hn. fold (amount c) in N2, Hn. cbv beta in N2.
    destruct (put_uint (partition_count m p + zlen l)) as (v & Ev & Fv); [unfold u64, zlen; lia|].
    destruct (IH (eput "TIMESERIES_COUNT" k v e) (kput zord p (partition_count m p + zlen l) m)) as (e' & L & G' & R' & O).
    + apply good_put; [exact G|exact (uint_bytes _ _ _ Fk)|discriminate].
    + rewrite eitems_eput_same. apply kput_rep; [exact emb_uint|exact Fk|exact (uint_dec _ _ Fv)|exact R].
    + intros q l' Hi. apply (Hp q l'). now right.
    + intros q. assert (X : forall v, partition_count (kput zord p v m) q = if oeqb zord q p then v else partition_count m q)
        by (intros w; unfold partition_count; rewrite (kget_kput zord); now destruct (oeqb zord q p)).
      rewrite X. destruct (Hn q) as [N3 N4]. destruct (oeqb zord q p); unfold zlen; lia.
    + exists e'. split; [|split; [exact G'|split; [exact R'|intros n Hn'; rewrite O by exact Hn'; now apply eitems_eput_other]]].
      unfold raw_inc at 1. cbn [fst snd]. rewrite Ek. cbn [obind]. rewrite (count_rep e m p k R Fk). cbn [obind]. rewrite Ev. cbn [obind]. exact L.
Qed.

Section Flush.
  Variable C : codecs.
  Variable F : Z -> Z -> Prop.
  Hypothesis HC : codecs_ok C F.

  Definition held_by (e : env) (d : ldb) : Prop := good e /\ file_of C e d.

  Ltac others O := intros; rewrite ?O by discriminate; assumption.

  Lemma put_event : forall x, payload_ok F x -> exists b, enc_event C x = Some b /\ dec (decode_event C) x b.
  Proof. intros x H. exists (encode_event C x). split; [reflexivity|]. now apply (event_dec C F HC). Qed.
  Lemma put_type : forall t, exists b, enc_type C t = Some b /\ dec (dec_type C) t b.
  Proof.
    intros t. exists (encode_json C (jtype t)). split; [reflexivity|]. unfold dec, dec_type.
    rewrite (json_dec C F HC _ _ (json_enc C _) (wf_jtype F t)). cbn [obind]. apply of_jtype_jtype.
  Qed.

  Lemma system_held : forall e d c, held_by e d -> (forall s i, In (s, i) (sc_ids c) -> u64 s /\ eid_fits i) ->
      (forall s t, In (s, t) (sc_tss c) -> u64 s /\ ts_fits t) -> exists e', raw_system_write c e = Some e' /\ held_by e' (system_write d c).
  Proof.
    intros e d c [G H] Hi Ht. unfold raw_system_write. destruct H.
    destruct (write_rep _ _ zord (uint 8) (dec decode_event_id) "SYSTEM_LAST_EVENT_ID" encode_uint encode_event_id emb_uint (uint_bytes 8) ltac:(discriminate) (sc_ids c))
      with (e := e) (l := db_ids d) as (e1 & L1 & G1 & R1 & O1); auto.
    { intros k v Hk. apply Hi in Hk as [A B]. split; [now apply put_uint|]. destruct (put_eid _ B) as (b & Eb & Fb). exists b. split; [exact Eb|exact (eid_dec9 _ _ Fb)]. }
    destruct (write_rep _ _ zord (uint 8) (dec decode_timestamp) "SYSTEM_LAST_TIMESTAMP" encode_uint encode_timestamp emb_uint (uint_bytes 8) ltac:(discriminate) (sc_tss c))
      with (e := e1) (l := db_tss d) as (e2 & L2 & G2 & R2 & O2); auto.
    { intros k v Hk. apply Ht in Hk as [A B]. split; [now apply put_uint|now apply put_ts]. }
    { rewrite O1 by discriminate. assumption. }
    exists e2. rewrite L1. cbn [obind]. split; [exact L2|]. split; [exact G2|].
    split; cbn [system_write db_settings db_ids db_tss db_ref db_latest db_types db_ts db_parts db_counts]; try exact R2; rewrite O2 by discriminate; try exact R1; others O1.
  Qed.

  Lemma latest_held : forall e d c, held_by e d -> (forall k x, In (k, x) (lc_data c) -> u64 k /\ payload_ok F x) ->
      (forall k t, In (k, t) (lc_types c) -> u64 k) -> exists e', raw_latest_write C c e = Some e' /\ held_by e' (latest_write d c).
  Proof.
    intros e d c [G H] Hd Ht. unfold raw_latest_write. destruct H.
    destruct (write_rep _ _ zord (uint 8) (dec (decode_event C)) "LATEST_DATA" encode_uint (enc_event C) emb_uint (uint_bytes 8) ltac:(discriminate) (lc_data c))
      with (e := e) (l := db_latest d) as (e1 & L1 & G1 & R1 & O1); auto.
    { intros k v Hk. apply Hd in Hk as [A B]. split; [now apply put_uint|now apply put_event]. }
    destruct (write_rep _ _ zord (uint 8) (dec (dec_type C)) "LATEST_TYPE" encode_uint (enc_type C) emb_uint (uint_bytes 8) ltac:(discriminate) (lc_types c))
      with (e := e1) (l := db_types d) as (e2 & L2 & G2 & R2 & O2); auto.
    { intros k v Hk. apply Ht in Hk. split; [now apply put_uint|apply put_type]. }
    { rewrite O1 by discriminate. assumption. }
    exists e2. rewrite L1. cbn [obind]. split; [exact L2|]. split; [exact G2|].
    split; cbn [latest_write db_settings db_ids db_tss db_ref db_latest db_types db_ts db_parts db_counts]; try exact R2; rewrite O2 by discriminate; try exact R1; others O1.
  Qed.

  Lemma ts_held : forall e d c, held_by e d -> (forall p l, In (p, l) c -> u64 p) ->
      (forall p l t x, In (p, l) c -> In (t, x) l -> ts_fits t /\ eid_fits (ev_id x) /\ payload_ok F x) ->
      (forall p n, In (p, n) (db_counts d) -> 0 <= n /\ n + amount c < 2 ^ 64) -> amount c < 2 ^ 64 ->
      exists e', raw_ts_write C c e = Some e' /\ held_by e' (ts_write d c).
  Proof.
    intros e d c [G H] Hp Hs Hc Ha. unfold raw_ts_write. destruct H.
    destruct (write_rep _ _ keyord key7_form (dec (decode_event C)) "TIMESERIES_DATA" encode_ts_key (enc_event C) emb_key key_bytes ltac:(discriminate) (ts_items c))
      with (e := e) (l := db_ts d) as (e1 & L1 & G1 & R1 & O1); auto.
    { intros k v Hk. unfold ts_items in Hk. apply in_flat_map in Hk as ([p l] & Hl & Hk). apply in_map_iff in Hk as ([t x] & E & Hx). cbn [fst snd] in *. injection E as <- <-.
      destruct (Hs _ _ _ _ Hl Hx) as (A & B & D). split; [|now apply put_event]. apply put_key. split; [exact (Hp _ _ Hl)|]. split; assumption. }
    assert (R0 : rep (uint 8) (dec decode_uint) (db_counts d) (eitems "TIMESERIES_COUNT" e1)) by (rewrite O1 by discriminate; assumption).
    destruct (inc_loop c e1 (db_counts d) G1 R0 Hp) as (e2 & L2 & G2 & R2 & O2).
    { intros p. unfold partition_count. destruct (kget zord p (db_counts d)) as [n|] eqn:E; [|lia].
      unfold kget in E. apply (dget_In (oeqb_spec zord)) in E. now apply Hc in E. }
    exists e2. rewrite L1. cbn [obind]. split; [exact L2|]. split; [exact G2|].
    split; cbn [ts_write db_settings db_ids db_tss db_ref db_latest db_types db_ts db_parts db_counts]; try exact R2; rewrite O2 by discriminate; try exact R1; others O1.
  Qed.

  (** References. *)
  Lemma sof_self : forall v, ssorted reford v -> sof reford v = v.
  Proof. intros v H. apply (sext reford); auto using ssorted_sof. intros x. now rewrite In_sof. Qed.
  Lemma put_refs_rep : forall e m i k v, good e -> rep eid_form (dec dec_refs) m (eitems "REF" e) -> eid_form i k -> ssorted reford v -> Forall ref_fits v ->
      exists e', raw_put_refs C k v e = Some e' /\ good e' /\ rep eid_form (dec dec_refs) (put_refs i v m) (eitems "REF" e') /\
        forall n, n <> "REF" -> eitems n e' = eitems n e.
  Proof.
    intros e m i k v G R Hk S A. destruct v as [|r v]; [exists e; auto|]. cbn [raw_put_refs put_refs].
    destruct (refs9_dec (r :: v) (iter C (r :: v)) (ck_iter _ _ HC _) A) as (b & E & D). rewrite E. cbn [obind]. rewrite (sof_self _ S) in D.
    exists (eput "REF" k b e). split; [reflexivity|]. split; [apply good_put; [exact G|now apply (eid_bytes i)|intros _; exact (enc_refs_bytes _ _ E)]|].
    split; [rewrite eitems_eput_same; apply kput_rep; auto using emb_eid|intros n Hn; now apply eitems_eput_other].
  Qed.

  (** The set that is popped. *)
  Lemma popped : forall e m i k, good e -> rep eid_form (dec dec_refs) m (eitems "REF" e) -> eid_form i k ->
      exists v, match truthy (eget "REF" k e) with Some b => decode_refs b | None => Some [] end = Some v /\
        v = match kget eidord i m with Some v => v | None => [] end /\ ssorted reford v /\ Forall ref_fits v /\
        (truthy (eget "REF" k e) = None -> v = []) /\ (kget eidord i m = None -> truthy (eget "REF" k e) = None).
  Proof.
    intros e m i k [G _] R Hk. pose proof (kget_rep _ _ _ emb_eid i k m _ Hk R) as H. unfold eget. destruct (kget eidord i m) as [v|].
    - destruct H as (b & E & D). unfold dec in D. exists v. rewrite E. assert (Q : ssorted reford v /\ Forall ref_fits v).
      { unfold dec_refs in D. destruct (decode_event_refs b) as [rs|] eqn:X; [|discriminate]. cbn [obind] in D. injection D as <-. split; [apply ssorted_sof|].
        assert (B : is_bytes b). { unfold kget in E. apply (dget_In (oeqb_spec bytesord)) in E. exact (eo_refs _ G _ _ E). }
        apply refs_fit in X; [|exact B]. apply Forall_forall. intros x Hx. apply (proj1 (In_sof _ _ _)) in Hx. rewrite Forall_forall in X. auto. }
      destruct b as [|x b].
      + cbn in D. injection D as <-. cbn [truthy]. split; [reflexivity|]. split; [reflexivity|]. split; [apply Q|]. split; [apply Q|]. split; [reflexivity|discriminate].
      + cbn [truthy]. split; [exact D|]. split; [reflexivity|]. split; [apply Q|]. split; [apply Q|]. split; discriminate.
    - rewrite H. cbn [truthy]. exists []. repeat split; constructor.
  Qed.

  Lemma ref_id_rep : forall sc e m i, good e -> rep eid_form (dec dec_refs) m (eitems "REF" e) -> eid_fits i ->
      (forall i x rs, In (i, (x, rs)) (rc_added sc) -> Forall ref_fits rs) ->
      exists e', raw_ref_write_id C sc e i = Some e' /\ good e' /\ rep eid_form (dec dec_refs) (ref_write_id sc m i) (eitems "REF" e') /\
        forall n, n <> "REF" -> eitems n e' = eitems n e.
  Proof.
    intros sc e m i G R Hi Ha. unfold raw_ref_write_id, ref_write_id. destruct (put_eid i Hi) as (k & Ek & Fk). rewrite Ek. cbn [obind].
    destruct (popped e m i k G R Fk) as (v & Ev & E & S & A & _). rewrite Ev, <- E. cbn [obind]. clear E Ev.
    set (v1 := match dget eid_eqb i (rc_added sc) with Some (_, rs) => sunion reford v rs | None => v end).
    assert (Q1 : ssorted reford v1 /\ Forall ref_fits v1).
    { unfold v1. destruct (dget eid_eqb i (rc_added sc)) as [[x rs]|] eqn:X; [|auto]. split; [now apply ssorted_sunion|].
      apply (dget_In (oeqb_spec eidord)) in X. apply Forall_forall. intros y Hy. apply (proj1 (In_sunion _ _ _ _)) in Hy as [Hy|Hy].
      - rewrite Forall_forall in A. auto.
      - apply Ha in X. rewrite Forall_forall in X. auto. }
    set (v2 := match dget eid_eqb i (rc_removed sc) with Some rs => sdiff reford v1 rs | None => v1 end).
    assert (Q2 : ssorted reford v2 /\ Forall ref_fits v2).
    { unfold v2. destruct Q1 as [Q1 Q2]. destruct (dget eid_eqb i (rc_removed sc)) as [rs|]; [|auto]. split; [now apply ssorted_sdiff|].
      apply Forall_forall. intros y Hy. apply (proj1 (In_sdiff _ _ _ _)) in Hy as [Hy _]. rewrite Forall_forall in Q2. auto. }
    destruct Q2 as [Q2 Q3]. destruct (put_refs_rep (edel "REF" k e) (kdel eidord i m) i k v2 (good_del _ _ _ G)) as (e' & L & G' & R' & O); auto.
    { rewrite eitems_edel_same. apply kdel_rep; auto using emb_eid. }
    exists e'. split; [exact L|]. split; [exact G'|]. split; [exact R'|]. intros n Hn. rewrite O by exact Hn. now apply eitems_edel_other.
  Qed.

  Lemma ref_ids_rep : forall sc, (forall i x rs, In (i, (x, rs)) (rc_added sc) -> Forall ref_fits rs) -> forall ids e m, good e ->
      rep eid_form (dec dec_refs) m (eitems "REF" e) -> Forall eid_fits ids ->
      exists e', loop (raw_ref_write_id C sc) ids e = Some e' /\ good e' /\ rep eid_form (dec dec_refs) (fold_left (ref_write_id sc) ids m) (eitems "REF" e') /\
        forall n, n <> "REF" -> eitems n e' = eitems n e.
  Proof.
    intros sc Ha. induction ids as [|i ids IH]; intros e m G R A; cbn [loop fold_left]; [exists e; auto|]. inversion A; subst.
    destruct (ref_id_rep sc e m i G R) as (e1 & L1 & G1 & R1 & O1); auto. rewrite L1. cbn [obind].
    destruct (IH e1 _ G1 R1) as (e2 & L2 & G2 & R2 & O2); auto. exists e2. split; [exact L2|]. split; [exact G2|]. split; [exact R2|].
    intros n Hn. now rewrite O2, O1.
  Qed.

  Lemma ref_held : forall e d c, held_by e d -> (forall s sc i x rs, In (s, sc) c -> In (i, (x, rs)) (rc_added sc) -> eid_fits i /\ Forall ref_fits rs) ->
      (forall s sc i rs, In (s, sc) c -> In (i, rs) (rc_removed sc) -> eid_fits i) ->
      exists e', raw_ref_write C c e = Some e' /\ held_by e' (ref_write d c).
  Proof.
    intros e d c [G H] Ha Hr. unfold raw_ref_write.
    assert (X : forall l e m, (forall sc, In sc l -> In sc (vals c)) -> good e -> rep eid_form (dec dec_refs) m (eitems "REF" e) ->
      exists e', loop (fun e sc => loop (raw_ref_write_id C sc) (sof eidord (keys (rc_added sc) ++ keys (rc_removed sc))) e) l e = Some e' /\ good e' /\
        rep eid_form (dec dec_refs) (fold_left (fun m sc => fold_left (ref_write_id sc) (sof eidord (keys (rc_added sc) ++ keys (rc_removed sc))) m) l m) (eitems "REF" e') /\
        forall n, n <> "REF" -> eitems n e' = eitems n e).
    { induction l as [|sc l IH]; intros e0 m Hl G0 R0; cbn [loop fold_left]; [exists e0; auto|].
      destruct (proj1 (in_map_iff _ _ _) (Hl sc (or_introl eq_refl))) as ([s sc'] & E & Hs). cbn [snd] in E. subst sc'.
      destruct (ref_ids_rep sc (fun i x rs Hi => proj2 (Ha s sc i x rs Hs Hi)) (sof eidord (keys (rc_added sc) ++ keys (rc_removed sc))) e0 m G0 R0) as (e1 & L1 & G1 & R1 & O1).
      { apply Forall_forall. intros i Hi. apply (proj1 (In_sof _ _ _)) in Hi. apply in_app_or in Hi as [Hi|Hi]; apply in_map_iff in Hi as (y & <- & Hy).
        - destruct y as [i [x rs]]. exact (proj1 (Ha _ _ _ _ _ Hs Hy)).
        - destruct y as [i rs]. exact (Hr _ _ _ _ Hs Hy). }
      rewrite L1. cbn [obind]. destruct (IH e1 _ (fun sc' Hi => Hl sc' (or_intror Hi)) G1 R1) as (e2 & L2 & G2 & R2 & O2).
      exists e2. split; [exact L2|]. split; [exact G2|]. split; [exact R2|]. intros n Hn. now rewrite O2, O1. }
    destruct (X (vals c) e (db_ref d) (fun _ Hi => Hi) G (fd_ref _ _ _ H)) as (e' & L & G' & R & O). exists e'. split; [exact L|]. split; [exact G'|]. destruct H.
    split; cbn [ref_write db_settings db_ids db_tss db_ref db_latest db_types db_ts db_parts db_counts]; try exact R; others O.
  Qed.

  Lemma flush_held : forall e d c, held_by e d -> changes_fit F d c -> exists e', raw_flush C c e = Some e' /\ held_by e' (flush_write d c).
  Proof.
    intros e d c H K. destruct K. unfold raw_flush.
    destruct (system_held e d (ch_sys c) H) as (e1 & L1 & H1); auto. rewrite L1. cbn [obind].
    destruct (latest_held e1 _ (ch_latest c) H1) as (e2 & L2 & H2); auto. rewrite L2. cbn [obind].
    destruct (ts_held e2 _ (ch_ts c) H2) as (e3 & L3 & H3); auto. rewrite L3. cbn [obind].
    destruct (ref_held e3 _ (ch_ref c) H3) as (e4 & L4 & H4); auto. exists e4. split; [exact L4|exact H4].
  Qed.

  Lemma read_held : forall e d, file_ok e -> read9 C e = Some d -> held_by e d.
  Proof. intros e d K R. split; [split; [now apply file_env|now apply file_open]|now apply read_file]. Qed.
  Lemma held_read : forall e d, held_by e d -> file_ok e /\ read9 C e = Some d.
  Proof. intros e d [[G O] H]. split; [now apply env_file|now apply file_read]. Qed.

  Lemma final_C84_flush : forall e d c, file_ok e -> read9 C e = Some d -> changes_fit F d c ->
      exists e', raw_flush C c e = Some e' /\ file_ok e' /\ read9 C e' = Some (flush_write d c).
  Proof.
    intros e d c K R H. destruct (flush_held e d c (read_held _ _ K R) H) as (e' & L & Q). exists e'. split; [exact L|now apply held_read].
  Qed.

  (** Ranges of time. *)
  Lemma events_rep : forall l r, rep key7_form (dec (decode_event C)) l r -> traverse (fun kv => decode_event C (snd kv)) r = Some (vals l).
  Proof.
    intros l r H. induction H as [|[k x] [bk b] l r [_ D] H IH]; [reflexivity|]. cbn [traverse vals map fst snd] in *. unfold dec in D. rewrite D. cbn [obind].
    fold (vals l). rewrite IH. reflexivity.
  Qed.
  Lemma final_C84_query : forall e d part tf tt o, file_ok e -> read9 C e = Some d -> u64 part ->
      (forall t, tf = Some t -> ts_fits t) -> (forall t, tt = Some t -> ts_fits t) ->
      raw_query_range C e part tf tt o = Some (query_range d part tf tt o).
  Proof.
    intros e d part tf tt o K R Hp Hf Ht. pose proof (fd_ts _ _ _ (read_file _ _ _ K R)) as H. unfold raw_query_range, query_range.
    set (from := match tf with Some t => t | None => min_timestamp end). set (to := match tt with Some t => t | None => max_timestamp end).
    destruct (put_key (part, from, zero_id)) as (bf & Ef & Ff).
    { split; [exact Hp|]. split; [|repeat split; cbn; lia]. unfold from. destruct tf; [now apply Hf|]. split; cbn; lia. }
    destruct (put_key (part, to, max_id)) as (bt & Et & Ft).
    { split; [exact Hp|]. split; [|repeat split; cbn; lia]. unfold to. destruct tt; [now apply Ht|]. split; cbn; lia. }
    rewrite Ef. cbn [obind]. rewrite Et. cbn [obind].
    assert (L : forall k b, key7_form k b -> bytes_ltb b bf = key_ltb k (part, from, zero_id) /\ bytes_ltb b bt = key_ltb k (part, to, max_id) /\ bytes_ltb bt b = key_ltb (part, to, max_id) k).
    { intros k b Hk. rewrite (emb_ltb _ _ emb_key _ _ _ _ Hk Ff), (emb_ltb _ _ emb_key _ _ _ _ Hk Ft), (emb_ltb _ _ emb_key _ _ _ _ Ft Hk). auto. }
    destruct o; apply events_rep.
    - apply takewhile_rep; [|apply rev_rep, takewhile_rep; [|exact H]]; intros [k x] [b v] [Hk _]; cbn [fst snd] in *; destruct (L _ _ Hk) as (L1 & L2 & _); congruence.
    - apply takewhile_rep; [|apply dropwhile_rep; [|exact H]]; intros [k x] [b v] [Hk _]; cbn [fst snd] in *; destruct (L _ _ Hk) as (L1 & _ & L2); congruence.
  Qed.

  (** Opening. *)
  Lemma put_str : forall s, exists b, enc_str C s = Some b /\ dec (dec_str C) s b.
  Proof.
    intros s. exists (encode_json C (JStr s)). split; [reflexivity|]. unfold dec, dec_str. rewrite (json_dec C F HC _ _ (json_enc C _) (wf_str F s)). reflexivity.
  Qed.
  Lemma put_part : forall p, exists b, enc_part C p = Some b /\ dec (decode_part C) p b.
  Proof.
    intros p. eexists. split; [reflexivity|]. unfold dec, decode_part. rewrite (json_dec C F HC _ _ (json_enc C _)).
    - cbn [obind jfield dget String.eqb Ascii.eqb Bool.eqb of_jstr of_jtypes]. replace (traverse of_jtype (map jtype (pd_subs p))) with (Some (pd_subs p)); [now destruct p|].
      induction (pd_subs p) as [|t l IH]; cbn [map traverse]; [reflexivity|]. rewrite of_jtype_jtype. cbn [obind]. now rewrite <- IH.
    - apply wf_obj; [repeat constructor; cbn; intuition discriminate|]. repeat constructor. induction (pd_subs p) as [|t l IH]; cbn [map]; constructor; auto. apply wf_jtype.
  Qed.
  Lemma new_settings_ok : forall stored v i, validate_settings stored v i = do s <- new_settings stored v i; Some (kputs zord s stored).
  Proof.
    intros stored v i. unfold validate_settings, new_settings. destruct (dget Z.eqb 0 stored) as [x|]; [destruct (negb (x =? v)%string); [reflexivity|]|]; cbn [obind];
      destruct i as [i|]; try reflexivity; match goal with |- context [dget Z.eqb 1 ?s] => destruct (dget Z.eqb 1 s) as [y|]; [destruct (negb (y =? i)%string)|]; reflexivity end.
  Qed.
  Lemma new_settings_keys : forall stored v i s, new_settings stored v i = Some s -> (forall k x, In (k, x) stored -> u64 k) -> forall k x, In (k, x) s -> u64 k.
  Proof.
    intros stored v i s E H. assert (U0 : u64 0) by (unfold u64; lia). assert (U1 : u64 1) by (unfold u64; lia).
    assert (Sd : forall (m : list (Z * string)) k y, u64 k -> (forall k x, In (k, x) m -> u64 k) -> forall k' x, In (k', x) (dset Z.eqb k y m) -> u64 k').
    { intros m k y Hk Hm k' x Hi. apply (in_map fst) in Hi. cbn [fst] in Hi. change (In k' (keys (dset Z.eqb k y m))) in Hi. rewrite keys_dset in Hi.
      assert (Q : forall k2, In k2 (keys m) -> u64 k2) by (intros k2 H2; apply in_map_iff in H2 as ([k3 x3] & <- & H2); exact (Hm _ _ H2)).
      destruct (dmem Z.eqb k m); [auto|]. apply in_app_or in Hi as [Hi|[<-|[]]]; auto. }
    assert (Dd : forall (m : list (Z * string)) k, (forall k x, In (k, x) m -> u64 k) -> forall k' x, In (k', x) (ddel Z.eqb k m) -> u64 k') by (intros m k Hm k' x Hi; apply In_ddel in Hi; eauto).
    unfold new_settings in E. destruct (dget Z.eqb 0 stored) as [y|]; [destruct (negb (y =? v)%string); [discriminate|]|]; cbn [obind] in E;
      (destruct i as [i|]; [match type of E with context [dget Z.eqb 1 ?s] => destruct (dget Z.eqb 1 s) as [z|]; [destruct (negb (z =? i)%string); [discriminate|]|] end|]);
      injection E as <-; eauto.
  Qed.

  Lemma init_loop : forall ps e db cache next res, good e -> rep (uint 8) (dec (decode_part C)) db (eitems "TIMESERIES_PARTITION" e) -> 0 <= next ->
      next + zlen ps < 2 ^ 64 ->
      exists cache' next' e' db' res', loop (raw_init_partition C) ps (cache, next, e, res) = Some (cache', next', e', res') /\
        fold_left init_partition ps (cache, next, db, res) = (cache', next', db', res') /\ good e' /\
        rep (uint 8) (dec (decode_part C)) db' (eitems "TIMESERIES_PARTITION" e') /\ forall n, n <> "TIMESERIES_PARTITION" -> eitems n e' = eitems n e.
  Proof.
    induction ps as [|p ps IH]; intros e db cache next res G R N1 N2; cbn [loop fold_left].
    - exists cache, next, e, db, res. auto.
    - unfold zlen in N2. cbn [List.length] in N2. cbn [raw_init_partition init_partition]. destruct (dget part_data_eqb (part_data_of p) cache) as [i|].
      + cbn [obind]. apply IH; auto. unfold zlen. lia.
      + destruct (write_rep _ _ zord (uint 8) (dec (decode_part C)) "TIMESERIES_PARTITION" encode_uint (enc_part C) emb_uint (uint_bytes 8) ltac:(discriminate) [(next, part_data_of p)])
          with (e := e) (l := db) as (e1 & L1 & G1 & R1 & O1); auto.
        { intros k v [E|[]]. injection E as <- <-. split; [apply put_uint; unfold u64; lia|apply put_part]. }
        rewrite L1. cbn [obind]. destruct (IH e1 (kput zord next (part_data_of p) db) (dset part_data_eqb (part_data_of p) next cache) (next + 1) (dset Z.eqb next p res) G1 R1)
          as (c' & n' & e' & db' & r' & L & E & G' & R' & O'); [lia|unfold zlen; lia|].
        exists c', n', e', db', r'. split; [exact L|]. split; [exact E|]. split; [exact G'|]. split; [exact R'|]. intros n Hn. now rewrite O', O1.
  Qed.

  Lemma rep_keys64 : forall V (fv : V -> bytes -> Prop) l r, rep (uint 8) fv l r -> forall k x, In (k, x) l -> u64 k.
  Proof.
    intros V fv l r H. induction H as [|[k x] [b v] l r [Hk _] H IH]; intros k' x' Hi; [destruct Hi|]. destruct Hi as [Hi|Hi]; [|exact (IH _ _ Hi)].
    injection Hi as <- <-. exact (uint_u64 _ _ Hk).
  Qed.
  Lemma max_id_bound : forall (l : list (Z * part_data)) m B, 0 <= m -> m < B -> (forall k x, In (k, x) l -> k < B) ->
      0 <= fold_left (fun m kv => if m <? fst kv then fst kv else m) l m < B.
  Proof.
    induction l as [|[k x] l IH]; intros m B H1 H2 H3; cbn [fold_left fst]; [lia|]. pose proof (H3 k x (or_introl eq_refl)). destruct (Z.ltb_spec m k); apply IH; try lia;
      intros k' x' Hi; apply (H3 k' x'); now right.
  Qed.

  Lemma final_C84_open : forall e d cf b, file_ok e -> read9 C e = Some d -> zlen (cf_parts cf) + 1 < 2 ^ 64 ->
      (forall p x, In (p, x) (db_parts d) -> p + zlen (cf_parts cf) + 1 < 2 ^ 64) -> open_db cf d = Some b ->
      exists e', raw_open C cf e = Some (e', m_parts (snd b)) /\ file_ok e' /\ read9 C e' = Some (fst b).
  Proof.
    intros e d cf b K R Hn Hp Ho. destruct (read_held _ _ K R) as [G H]. unfold raw_open. rewrite R. cbn [obind]. unfold open_db in Ho. rewrite new_settings_ok in Ho.
    destruct (new_settings (db_settings d) (cf_version cf) (cf_ident cf)) as [s|] eqn:Es; [|discriminate]. cbn [obind] in *.
    destruct (write_rep _ _ zord (uint 8) (dec (dec_str C)) "SYSTEM_SETTINGS" encode_uint (enc_str C) emb_uint (uint_bytes 8) ltac:(discriminate) s)
      with (e := e) (l := db_settings d) as (e1 & L1 & G1 & R1 & O1); [|exact G|apply H|].
    { intros k v Hk. split; [|apply put_str]. apply put_uint. exact (new_settings_keys _ _ _ _ Es (rep_keys64 _ _ _ _ (fd_settings _ _ _ H)) _ _ Hk). }
    rewrite L1. cbn [obind]. unfold init_partitions in Ho.
    set (mx := fold_left (fun m kv => if m <? fst kv then fst kv else m) (db_parts d) 0) in *.
    assert (M : 0 <= mx < 2 ^ 64 - zlen (cf_parts cf) - 1). { apply max_id_bound; [lia|lia|]. intros k x Hi. apply Hp in Hi. lia. }
    assert (R0 : rep (uint 8) (dec (decode_part C)) (db_parts d) (eitems "TIMESERIES_PARTITION" e1)) by (rewrite O1 by discriminate; apply H).
    destruct (init_loop (cf_parts cf) e1 (db_parts d) (fold_left (fun c kv => dset part_data_eqb (snd kv) (fst kv) c) (db_parts d) []) (mx + 1) [] G1 R0)
      as (c' & n' & e' & db' & r' & L & E & G' & R' & O'); [lia|lia|].
    rewrite L. cbn [obind]. rewrite E in Ho. injection Ho as <-. cbn [fst snd m_parts]. exists e'. split; [reflexivity|]. apply held_read. split; [exact G'|]. destruct H.
    split; cbn [db_settings db_ids db_tss db_ref db_latest db_types db_ts db_parts db_counts]; try exact R'; rewrite O' by discriminate; try exact R1; rewrite O1 by discriminate; assumption.
  Qed.
  Lemma final_C84_refused : forall e d cf, read9 C e = Some d -> open_db cf d = None -> raw_open C cf e = None.
  Proof.
    intros e d cf R Ho. unfold raw_open. rewrite R. cbn [obind]. unfold open_db in Ho. rewrite new_settings_ok in Ho.
    destruct (new_settings (db_settings d) (cf_version cf) (cf_ident cf)) as [s|]; [|reflexivity]. cbn [obind] in Ho. destruct (init_partitions _ _); discriminate.
  Qed.

  (** Server queries. *)
  Hypothesis HE : decode_event C [] = None.
  Lemma get_rep : forall e d r, file_of C e d -> ref_fits r -> raw_get_event C e r = Some (get_event d r).
  Proof.
    intros e d r H Hr. assert (X : forall K o (fk : K -> bytes -> Prop) name k b l, emb o fk -> rep fk (dec (decode_event C)) l (eitems name e) -> fk k b ->
      match truthy (eget name b e) with Some b => do x <- decode_event C b; Some (Some x) | None => Some None end = Some (kget o k l)).
    { intros K o fk name k b l E R Hk. pose proof (kget_rep _ _ _ E k b l _ Hk R) as G. unfold eget. destruct (kget o k l) as [x|].
      - destruct G as (v & -> & D). unfold dec in D. destruct v as [|y v]; [congruence|]. cbn [truthy]. rewrite D. reflexivity.
      - rewrite G. reflexivity. }
    destruct r as [n|n]; cbn [raw_get_event get_event ref_fits] in *.
    - destruct (put_uint n Hr) as (b & Eb & Fb). rewrite Eb. cbn [obind]. apply (X _ zord (uint 8)); [apply emb_uint|apply H|exact Fb].
    - destruct (put_key n Hr) as (b & Eb & Fb). rewrite Eb. cbn [obind]. apply (X _ keyord key7_form); [apply emb_key|apply H|exact Fb].
  Qed.
  Lemma scan_rep : forall O e d stop bs, (forall l r, or_pick O l = Some r -> In r l) -> file_of C e d -> eid_form stop bs ->
      forall l r max, rep eid_form (dec dec_refs) l r -> (forall k v, In (k, v) r -> is_bytes v) ->
      raw_scan_refs C O e bs max r = Some (scan_refs O d stop max l).
  Proof.
    intros O e d stop bs HO H Hs l r max R. revert max. induction R as [|[k rs] [b v] l r [Hk D] R IH]; intros max B; cbn [raw_scan_refs scan_refs fst snd] in *; [reflexivity|].
    destruct (max <=? 0); [reflexivity|]. rewrite (emb_ltb _ _ emb_eid _ _ _ _ Hk Hs). cbn [oltb eidord]. destruct (negb (eid_ltb k stop)); [reflexivity|].
    unfold dec in D. assert (D' : decode_refs v = Some rs) by exact D. rewrite D'. cbn [obind]. destruct (or_pick O rs) as [x|] eqn:P; [|reflexivity].
    assert (A : ref_fits x).
    { apply HO in P. unfold dec_refs in D. destruct (decode_event_refs v) as [w|] eqn:X; [|discriminate]. cbn [obind] in D. injection D as <-.
      apply (proj1 (In_sof _ _ _)) in P. apply refs_fit in X; [|apply (B b v); now left]. rewrite Forall_forall in X. auto. }
    rewrite (get_rep e d x H A). cbn [obind]. assert (B' : forall k' v', In (k', v') r -> is_bytes v') by (intros k' v' Hi; apply (B k' v'); now right).
    destruct (get_event d x) as [y|]; [|now apply IH]. rewrite (IH (max - 1) B'). cbn [obind]. reflexivity.
  Qed.
  Lemma In_dropwhile : forall A (f : A -> bool) x l, In x (dropwhile f l) -> In x l.
  Proof. intros A f x. induction l as [|y l IH]; cbn [dropwhile]; auto. destruct (f y); [intros H; right; auto|auto]. Qed.
  Lemma final_C84_server : forall O e d server max last, file_ok e -> read9 C e = Some d -> (forall l r, or_pick O l = Some r -> In r l) ->
      u64 server -> u64 (server + 1) -> (forall i, last = Some i -> eid_fits i) ->
      raw_query_refs C O e server max last = Some (query_refs O d server max last).
  Proof.
    intros O e d server max last K R HO H1 H2 Hl. pose proof (read_file _ _ _ K R) as H. unfold raw_query_refs, query_refs.
    set (start := match last with Some i => i | None => Eid server 0 0 end).
    destruct (put_eid start) as (b1 & E1 & F1). { unfold start. destruct last; [now apply Hl|]. repeat split; cbn; try apply H1; lia. }
    destruct (put_eid (Eid (server + 1) 0 0)) as (b2 & E2 & F2). { repeat split; cbn; try apply H2; lia. }
    rewrite E1. cbn [obind]. rewrite E2. cbn [obind]. cbv zeta.
    assert (D : rep eid_form (dec dec_refs) (dropwhile (fun kv => eid_ltb (fst kv) start) (db_ref d)) (dropwhile (fun kv => bytes_ltb (fst kv) b1) (eitems "REF" e))).
    { apply dropwhile_rep; [|apply H]. intros [k x] [b v] [Hk _]. cbn [fst snd] in *. symmetry. exact (emb_ltb _ _ emb_eid _ _ _ _ Hk F1). }
    assert (B : forall k v, In (k, v) (dropwhile (fun kv => bytes_ltb (fst kv) b1) (eitems "REF" e)) -> is_bytes v).
    { intros k v Hi. apply In_dropwhile in Hi. exact (eo_refs _ (file_env _ K) _ _ Hi). }
    destruct D as [|[k rs] [b v] l r [Hk D] R']; [apply scan_rep; auto; constructor|]. cbn [fst snd] in *.
    replace (bytes_eqb b b1) with (eid_eqb k start) by (symmetry; exact (emb_eqb _ _ emb_eid _ _ _ _ Hk F1)).
    destruct (eid_eqb k start); apply scan_rep; auto.
    - intros k' v' Hi. apply (B k' v'). now right.
    - constructor; [split; assumption|exact R'].
  Qed.
End Flush.
