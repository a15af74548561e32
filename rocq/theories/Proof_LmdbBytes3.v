(** Lemmas for C84: cleanup, sequences of transactions, numbers that do not fit. *)
From Coq Require Import String Ascii Bool ZArith QArith Lia Permutation Sorted List.
From Verif Require Import Base Kv Model_Types Spec_Order Proof_Order Model_Time Model_Codec Spec_Codec Proof_Codec Keys Model_Subscription Model_Order Model_Sbs Model_Lmdb Model_Copy Spec_Copy Proof_Copy
  Model_Convert Spec_Convert Model_ConvertBytes Spec_ConvertBytes Proof_ConvertBytes Proof_ConvertBytes2 Proof_ConvertBytes4 Model_ConvertCut Spec_ConvertCut Proof_ConvertCut
  Proof_ConvertCut2 Model_CopyBytes Spec_CopyBytes Proof_CopyBytes Proof_CopyBytes2 Model_LmdbBytes Spec_LmdbBytes Proof_LmdbBytes Proof_LmdbBytes2.
Import ListNotations.
Open Scope string_scope.
Open Scope list_scope.
Open Scope Z_scope.

Lemma cleanup_loop_rep : forall V (fv : V -> bytes -> Prop) mr me mn dk bd stop bs entries,
    match dk, bd with Some k, Some b => key7_form k b | None, None => True | _, _ => False end -> key7_form stop bs ->
    forall (l : list (ts_key * event)) r (fe : event -> bytes -> Prop) n, rep key7_form fe l r ->
    exists removed, raw_cleanup_loop mr me mn bd bs entries n r = Some removed /\ map snd removed = cleanup_loop mr me mn dk stop entries n l /\
      Forall (fun x => key7_form (snd x) (fst x)) removed /\ (removed = [] \/ mn <= entries - n - zlen removed).
Proof.
  intros V fv mr me mn dk bd stop bs entries Hd Hs l r fe n H. revert n. induction H as [|[k x] [b v] l r [Hk _] H IH]; intros n; cbn [raw_cleanup_loop cleanup_loop fst snd] in *.
  - exists []. auto.
  - assert (Z0 : exists removed : list (bytes * ts_key), Some (@nil (bytes * ts_key)) = Some removed /\ map snd removed = [] /\
        Forall (fun x => key7_form (snd x) (fst x)) removed /\ (removed = [] \/ mn <= entries - n - zlen removed)) by (exists []; auto).
    destruct (match mr with Some m => m <=? n | None => false end); [exact Z0|].
    destruct (entries - n <=? mn) eqn:N; [exact Z0|].
    rewrite (emb_ltb _ _ emb_key _ _ _ _ Hk Hs). cbn [oltb keyord]. destruct (negb (key_ltb k stop)); [exact Z0|].
    assert (D : match bd with Some d => negb (bytes_ltb b d) | None => true end = match dk with Some d => negb (key_ltb k d) | None => true end).
    { destruct dk as [d|], bd as [d'|]; try contradiction; [|reflexivity]. rewrite (emb_ltb _ _ emb_key _ _ _ _ Hk Hd). reflexivity. }
    rewrite D. match goal with |- context [if ?c then Some [] else _] => destruct c; [exact Z0|] end.
    rewrite (key_dec9 _ _ Hk). cbn [obind]. destruct (IH (n + 1)) as (rm & L & M & A & B). rewrite L. cbn [obind]. exists ((b, k) :: rm).
    split; [reflexivity|]. split; [cbn [map snd]; now rewrite M|]. split; [constructor; auto|]. right. unfold zlen in *. cbn [List.length].
    apply Z.leb_gt in N. destruct B as [->|B]; cbn [List.length]; lia.
Qed.

Lemma ddel_none : forall K V (eqb : K -> K -> bool) k (m : list (K * V)), dget eqb k m = None -> ddel eqb k m = m.
Proof. intros K V eqb k. induction m as [|[k' v'] m IH]; cbn [dget ddel]; auto. destruct (eqb k k'); [discriminate|]. intros H. now rewrite IH. Qed.

Section Cleanup.
  Variable C : codecs.
  Variable F : Z -> Z -> Prop.
  Hypothesis HC : codecs_ok C F.
  Variable O : oracle.
  Variable size : Z -> env -> option Z.
  Hypothesis HS : forall s e d, read9 C e = Some d -> size s e = or_size O s d.

  Definition counts_fit (d : ldb) : Prop := forall p n, In (p, n) (db_counts d) -> u64 n.

  Lemma del_fold : forall (fe : event -> bytes -> Prop) removed e l, good e -> rep key7_form fe l (eitems "TIMESERIES_DATA" e) -> Forall (fun x => key7_form (snd x) (fst x)) removed ->
      let e' := fold_left (fun e kk => edel "TIMESERIES_DATA" (fst kk) e) removed e in
      good e' /\ rep key7_form fe (fold_left (fun m k => kdel keyord k m) (map snd removed) l) (eitems "TIMESERIES_DATA" e') /\
      forall n, n <> "TIMESERIES_DATA" -> eitems n e' = eitems n e.
  Proof.
    intros fe. induction removed as [|[b k] removed IH]; intros e l G R A; cbn [fold_left map fst snd]; [auto|]. inversion A; subst. cbn [fst snd] in *.
    destruct (IH (edel "TIMESERIES_DATA" b e) (kdel keyord k l)) as (G' & R' & O'); auto using good_del.
    { rewrite eitems_edel_same. apply kdel_rep; auto using emb_key. }
    split; [exact G'|]. split; [exact R'|]. intros n Hn. rewrite O' by exact Hn. now apply eitems_edel_other.
  Qed.

  Lemma partition_held : forall now e d p lm mr, held_by C e d -> counts_fit d -> u64 p -> u64 (p + 1) ->
      (forall q, lm_duration lm = Some q -> ts_fits (ts_add now (- q)%Q)) -> (forall n, lm_min lm = Some n -> 0 <= n) ->
      exists e', raw_cleanup_partition size now e p lm mr = Some (e', snd (cleanup_partition O now d p lm mr)) /\
        held_by C e' (fst (cleanup_partition O now d p lm mr)) /\ counts_fit (fst (cleanup_partition O now d p lm mr)) /\
        Forall (fun k : ts_key => eid_fits (snd k)) (snd (cleanup_partition O now d p lm mr)).
  Proof.
    intros now e d p lm mr [G H] Hc Hp Hp1 Hd Hm. assert (Z0 : eid_fits zero_id) by (repeat split; cbn; lia). assert (M0 : ts_fits min_timestamp) by (split; cbn; lia).
    unfold raw_cleanup_partition, cleanup_partition.
    destruct (put_key (p, min_timestamp, zero_id)) as (b1 & E1 & F1); [now split|]. rewrite E1. cbn [obind].
    destruct (put_key (p + 1, min_timestamp, zero_id)) as (b2 & E2 & F2); [now split|]. rewrite E2. cbn [obind].
    set (dk := match lm_duration lm with Some q => Some (p, ts_add now (- q)%Q, zero_id) | None => None end).
    assert (D : exists bd, match lm_duration lm with Some q => do k <- encode_ts_key (p, ts_add now (- q)%Q, zero_id); Some (Some k) | None => Some None end = Some bd /\
              match dk, bd with Some k, Some b => key7_form k b | None, None => True | _, _ => False end).
    { unfold dk. destruct (lm_duration lm) as [q|]; [|exists None; auto]. destruct (put_key (p, ts_add now (- q)%Q, zero_id)) as (b & E & Fb); [split; [exact Hp|split; [now apply Hd|exact Z0]]|].
      rewrite E. cbn [obind]. exists (Some b). auto. }
    destruct D as (bd & Ed & Fd). rewrite Ed. cbn [obind].
    assert (Sz : match lm_size lm with Some s => size s e | None => None end = match lm_size lm with Some s => or_size O s d | None => None end).
    { destruct (lm_size lm); [|reflexivity]. apply HS. now apply file_read. }
    rewrite Sz. destruct (put_uint p Hp) as (bp & Ep & Fp).
    assert (Ec : raw_count e p = Some (partition_count (db_counts d) p)). { unfold raw_count. rewrite Ep. cbn [obind]. apply count_rep; [apply H|exact Fp]. }
    rewrite Ec. cbn [obind]. set (entries := partition_count (db_counts d) p).
    set (me := min_opt _ (lm_max lm)). set (mn := match lm_min lm with Some n => n | None => 0 end).
    assert (Hmn : 0 <= mn) by (unfold mn; destruct (lm_min lm); [now apply Hm|lia]).
    assert (He : u64 entries). { unfold entries, partition_count. destruct (kget zord p (db_counts d)) as [n|] eqn:E; [|unfold u64; lia].
      unfold kget in E. apply (dget_In (oeqb_spec zord)) in E. exact (Hc _ _ E). }
    destruct (cleanup_loop_rep event (dec (decode_event C)) mr me mn dk bd (p + 1, min_timestamp, zero_id) b2 entries Fd F2
      (dropwhile (fun kv => key_ltb (fst kv) (p, min_timestamp, zero_id)) (db_ts d)) (dropwhile (fun kv => bytes_ltb (fst kv) b1) (eitems "TIMESERIES_DATA" e)) (dec (decode_event C)) 0)
      as (rm & L & M & A & B).
    { apply dropwhile_rep; [|apply H]. intros [k x] [b v] [Hk _]. cbn [fst snd] in *. symmetry. exact (emb_ltb _ _ emb_key _ _ _ _ Hk F1). }
    rewrite L. cbn [obind]. rewrite <- M. clear L M.
    destruct (del_fold (dec (decode_event C)) rm e (db_ts d) G (fd_ts _ _ _ H) A) as (G1 & R1 & O1). cbv zeta.
    set (e1 := fold_left (fun e kk => edel "TIMESERIES_DATA" (fst kk) e) rm e) in *.
    assert (Q : Forall (fun k : ts_key => eid_fits (snd k)) (map snd rm)).
    { apply Forall_forall. intros k Hk. apply in_map_iff in Hk as ([b k'] & <- & Hk). rewrite Forall_forall in A. apply A in Hk. cbn [fst snd] in *.
      apply key7_form_fits in Hk. destruct k' as [[q t] i]. apply Hk. }
    cbn [fst snd]. destruct H. destruct rm as [|x rm].
    - exists e1. cbn [map]. cbn [obind]. split; [reflexivity|]. split; [|split; [exact Hc|constructor]]. split; [exact G1|].
      split; cbn [db_settings db_ids db_tss db_ref db_latest db_types db_ts db_parts db_counts]; try exact R1; rewrite O1 by discriminate; assumption.
    - destruct B as [B|B]; [discriminate|]. assert (Hn : u64 (entries - zlen (x :: rm))) by (unfold u64, zlen in *; lia).
      destruct (write_rep _ _ zord (uint 8) (dec decode_uint) "TIMESERIES_COUNT" encode_uint encode_uint emb_uint (uint_bytes 8) ltac:(discriminate) [(p, entries - zlen (x :: rm))])
        with (e := e1) (l := db_counts d) as (e2 & L2 & G2 & R2 & O2).
      { intros k v [E|[]]. injection E as <- <-. split; [now apply put_uint|]. destruct (put_uint _ Hn) as (b & Eb & Fb). exists b. split; [exact Eb|exact (uint_dec _ _ Fb)]. }
      { exact G1. } { rewrite O1 by discriminate. assumption. }
      rewrite L2. cbn [obind]. exists e2. cbn [map] in *. split; [reflexivity|]. split.
      + split; [exact G2|].
        assert (Ez : zlen (snd x :: map snd rm) = zlen (x :: rm)) by (unfold zlen; cbn [List.length]; now rewrite map_length).
        split; cbn [db_settings db_ids db_tss db_ref db_latest db_types db_ts db_parts db_counts]; rewrite ?Ez; try exact R2; rewrite O2 by discriminate; try exact R1; rewrite O1 by discriminate; assumption.
      + split; [|exact Q]. intros q n Hi. cbn [db_counts] in Hi. apply In_kput_item in Hi as [[_ ->]|Hi]; [|exact (Hc _ _ Hi)].
        replace (zlen (snd x :: map snd rm)) with (zlen (x :: rm)) by (unfold zlen; cbn [List.length]; now rewrite map_length). exact Hn.
  Qed.

  Lemma partitions_held : forall now mr ps e d acc, held_by C e d -> counts_fit d -> limits_fit now ps -> Forall (fun k : ts_key => eid_fits (snd k)) acc ->
      exists e', raw_cleanup_partitions size now mr e acc ps = Some (e', snd (cleanup_partitions O now mr d acc ps)) /\
        held_by C e' (fst (cleanup_partitions O now mr d acc ps)) /\ counts_fit (fst (cleanup_partitions O now mr d acc ps)) /\
        Forall (fun k : ts_key => eid_fits (snd k)) (snd (cleanup_partitions O now mr d acc ps)).
  Proof.
    intros now mr. induction ps as [|[i p] ps IH]; intros e d acc H Hc Hl A; cbn [raw_cleanup_partitions cleanup_partitions]; [exists e; auto|].
    assert (Hl' : limits_fit now ps) by (intros j q lm Hi; apply (Hl j q lm); now right).
    destruct (pt_limit p) as [lm|] eqn:Ep; [|now apply IH]. cbv zeta.
    destruct (match match mr with Some m => Some (m - zlen acc) | None => None end with Some m => m <? 1 | None => false end); [exists e; auto|].
    destruct (Hl i p lm (or_introl eq_refl) Ep) as (L1 & L2 & L3 & L4).
    destruct (partition_held now e d i lm (match mr with Some m => Some (m - zlen acc) | None => None end) H Hc L1 L2 L3 L4) as (e1 & X & H1 & C1 & A1).
    rewrite X. cbn [obind fst snd]. destruct (cleanup_partition O now d i lm _) as [d1 rm]. cbn [fst snd] in *. apply IH; auto. apply Forall_app. split; assumption.
  Qed.

  Lemma ref_one_rep : forall e m k, good e -> rep eid_form (dec dec_refs) m (eitems "REF" e) -> eid_fits (snd k) ->
      exists e', raw_ref_cleanup_one C e k = Some e' /\ good e' /\ rep eid_form (dec dec_refs) (ref_cleanup_one m k) (eitems "REF" e') /\
        forall n, n <> "REF" -> eitems n e' = eitems n e.
  Proof.
    intros e m k G R Hi. unfold raw_ref_cleanup_one, ref_cleanup_one. destruct (put_eid _ Hi) as (b & Eb & Fb). rewrite Eb. cbn [obind]. cbv zeta.
    destruct (popped e m (snd k) b G R Fb) as (v & Ev & Em & S & A & N1 & N2).
    assert (Rd : rep eid_form (dec dec_refs) (kdel eidord (snd k) m) (eitems "REF" (edel "REF" b e))) by (rewrite eitems_edel_same; apply kdel_rep; auto using emb_eid).
    assert (Od : forall n, n <> "REF" -> eitems n (edel "REF" b e) = eitems n e) by (intros; now apply eitems_edel_other).
    destruct (kget eidord (snd k) m) as [w|] eqn:Ek.
    - subst w. destruct (truthy (eget "REF" b e)) as [x|].
      + rewrite Ev. cbn [obind]. destruct (put_refs_rep C F HC (edel "REF" b e) (kdel eidord (snd k) m) (snd k) b (sdel reford (TimeseriesRef k) v) (good_del _ _ _ G) Rd Fb) as (e' & L & G' & R' & O').
        * now apply ssorted_sdel.
        * apply Forall_forall. intros y Hy. apply (proj1 (In_sdel _ _ _ _)) in Hy as [_ Hy]. rewrite Forall_forall in A. auto.
        * exists e'. split; [exact L|]. split; [exact G'|]. split; [exact R'|]. intros n Hn. rewrite O' by exact Hn. now apply Od.
      + rewrite (N1 eq_refl). cbn [sdel filter put_refs]. exists (edel "REF" b e). split; [reflexivity|]. split; [now apply good_del|]. split; [exact Rd|exact Od].
    - rewrite (N2 eq_refl). exists (edel "REF" b e). split; [reflexivity|]. split; [now apply good_del|]. split; [|exact Od].
      unfold kdel in Rd at 1. rewrite (ddel_none _ _ _ _ _ Ek) in Rd. exact Rd.
  Qed.
  Lemma ref_all_rep : forall ks e m, good e -> rep eid_form (dec dec_refs) m (eitems "REF" e) -> Forall (fun k : ts_key => eid_fits (snd k)) ks ->
      exists e', loop (raw_ref_cleanup_one C) ks e = Some e' /\ good e' /\ rep eid_form (dec dec_refs) (fold_left ref_cleanup_one ks m) (eitems "REF" e') /\
        forall n, n <> "REF" -> eitems n e' = eitems n e.
  Proof.
    induction ks as [|k ks IH]; intros e m G R A; cbn [loop fold_left]; [exists e; auto|]. inversion A; subst.
    destruct (ref_one_rep e m k G R) as (e1 & L1 & G1 & R1 & O1); auto. rewrite L1. cbn [obind].
    destruct (IH e1 _ G1 R1) as (e2 & L2 & G2 & R2 & O2); auto. exists e2. split; [exact L2|]. split; [exact G2|]. split; [exact R2|].
    intros n Hn. now rewrite O2, O1.
  Qed.

  Lemma final_C84_cleanup : forall parts now e d, file_ok e -> read9 C e = Some d -> (forall p n, In (p, n) (db_counts d) -> u64 n) -> limits_fit now parts ->
      exists e', raw_cleanup C size parts now e = Some (e', snd (cleanup O parts now d)) /\ file_ok e' /\ read9 C e' = Some (fst (cleanup O parts now d)).
  Proof.
    intros parts now e d K R Hc Hl. unfold raw_cleanup, cleanup.
    destruct (partitions_held now (Some cleanup_max_results) parts e d [] (read_held _ _ _ K R) Hc Hl (Forall_nil _)) as (e1 & X & H1 & _ & A1). rewrite X. cbn [obind fst snd].
    destruct (cleanup_partitions O now (Some cleanup_max_results) d [] parts) as [d1 rm]. cbn [fst snd] in *. destruct rm as [|k rm].
    - exists e1. split; [reflexivity|]. now apply held_read.
    - destruct H1 as [G1 H1]. destruct (ref_all_rep (k :: rm) e1 (db_ref d1) G1 (fd_ref _ _ _ H1) A1) as (e2 & L2 & G2 & R2 & O2). rewrite L2. cbn [obind]. exists e2.
      split; [reflexivity|]. apply held_read. split; [exact G2|]. destruct H1. cbn [fst].
      split; cbn [db_settings db_ids db_tss db_ref db_latest db_types db_ts db_parts db_counts]; try exact R2; rewrite O2 by discriminate; assumption.
  Qed.

  Lemma final_C84_transactions : forall ts e d d', file_ok e -> read9 C e = Some d -> txns_fit F O d ts -> loop (content_txn O) ts d = Some d' ->
      exists e', loop (raw_txn C size) ts e = Some e' /\ file_ok e' /\ read9 C e' = Some d'.
  Proof.
    induction ts as [|t ts IH]; intros e d d' K R Hf Hl; cbn [loop] in *.
    - injection Hl as <-. exists e. auto.
    - destruct (content_txn O d t) as [d1|] eqn:E; [|discriminate]. cbn [obind] in Hl. destruct Hf as [H1 H2]. specialize (H2 d1 E).
      assert (X : exists e1, raw_txn C size e t = Some e1 /\ file_ok e1 /\ read9 C e1 = Some d1).
      { destruct t as [cf|c|parts now]; cbn [raw_txn content_txn txn_fits] in *.
        - destruct (open_db cf d) as [b|] eqn:Eb; [|discriminate]. cbn [obind] in E. injection E as <-.
          destruct (final_C84_open C F HC e d cf b K R (proj1 H1) (proj2 H1) Eb) as (e1 & L & Q). rewrite L. cbn [obind fst]. eauto.
        - injection E as <-. exact (final_C84_flush C F HC e d c K R H1).
        - injection E as <-. destruct (final_C84_cleanup parts now e d K R (proj1 H1) (proj2 H1)) as (e1 & L & Q). rewrite L. cbn [obind fst]. eauto. }
      destruct X as (e1 & L & K1 & R1). rewrite L. cbn [obind]. exact (IH e1 d1 d' K1 R1 H2 Hl).
  Qed.
End Cleanup.

Lemma final_C84_created : forall C, file_ok (opened9 9) /\ read9 C (opened9 9) = Some empty_db.
Proof. intros C. split; [apply env_file; [apply env_opened|reflexivity]|apply read_nothing, opened9_nothing]. Qed.

(** ** Numbers that do not fit *)

Lemma write_none : forall K V name (ek : K -> option bytes) (ev : V -> option bytes) items e k v, In (k, v) items -> ek k = None -> raw_write name ek ev items e = None.
Proof.
  intros K V name ek ev. unfold raw_write. induction items as [|[k v] items IH]; intros e k' v' Hi E; [destruct Hi|]. cbn [loop fst snd]. destruct Hi as [Hi|Hi].
  - injection Hi as -> ->. now rewrite E.
  - destruct (ek k) as [a|]; [|reflexivity]. cbn [obind]. destruct (ev v) as [b|]; [|reflexivity]. cbn [obind]. exact (IH _ _ _ Hi E).
Qed.
Lemma unfit_none : forall C c e k x, In (k, x) (ts_items (ch_ts c)) -> ~ key_fits k -> raw_flush C c e = None.
Proof.
  intros C c e k x Hi Hk. unfold raw_flush. destruct (raw_system_write (ch_sys c) e) as [e1|]; [|reflexivity]. cbn [obind].
  destruct (raw_latest_write C (ch_latest c) e1) as [e2|]; [|reflexivity]. cbn [obind]. unfold raw_ts_write.
  rewrite (write_none _ _ _ _ _ _ e2 k x Hi (proj1 (proj2 final_C12_ts_key) k Hk)). reflexivity.
Qed.

Lemma add_item : forall parts c x p pt t, In (p, pt) parts -> node_matches (pt_sub pt) (ev_type x) = true -> part_ts pt x = Some t ->
    In ((p, t, ev_id x), x) (ts_items (fst (ts_add_event parts c x))).
Proof.
  intros parts c x p pt t Hp Hm Ht. unfold ts_add_event.
  match goal with |- context [fold_left ?g parts _] => set (f := g) end.
  assert (P : forall ps acc, (exists l, dget Z.eqb p (fst acc) = Some l /\ In (t, x) l) -> exists l, dget Z.eqb p (fst (fold_left f ps acc)) = Some l /\ In (t, x) l).
  { induction ps as [|[q pq] ps IH]; intros [c0 r0] (l & D & Hi); cbn [fold_left]; [eauto|]. apply IH. unfold f. cbn [fst snd] in *.
    destruct (node_matches (pt_sub pq) (ev_type x)); [|eauto]. destruct (part_ts pq x) as [u|]; [|eauto]. cbn [fst]. destruct (Z.eq_dec p q) as [->|N].
    - rewrite (dget_dset_same Z.eqb_eq), D. eexists. split; [reflexivity|]. apply in_or_app. now left.
    - rewrite (dget_dset_other Z.eqb_eq) by exact N. eauto. }
  assert (Q : forall ps acc, In (p, pt) ps -> exists l, dget Z.eqb p (fst (fold_left f ps acc)) = Some l /\ In (t, x) l).
  { induction ps as [|[q pq] ps IH]; intros acc Hi; [destruct Hi|]. cbn [fold_left]. destruct Hi as [Hi|Hi]; [|now apply IH]. injection Hi as -> ->. apply P. unfold f. destruct acc as [c0 r0].
    cbn [fst snd]. rewrite Hm, Ht. cbn [fst]. rewrite (dget_dset_same Z.eqb_eq). eexists. split; [reflexivity|]. apply in_or_app. right. now left. }
  destruct (Q parts (c, []) Hp) as (l & D & Hi). apply (dget_In Z.eqb_eq) in D. unfold ts_items. apply in_flat_map. exists (p, l). split; [exact D|].
  apply in_map_iff. exists (t, x). auto.
Qed.

Lemma final_C84_unfit : forall C e cf m ch x m' ch' p pt t,
    register_event cf m ch x = Some (m', ch') ->
    eid_leb (ev_id x) (get_last_event_id (m_sys m) (eid_server (ev_id x))) = false ->
    ts_ltb (ev_ts x) (get_last_timestamp (m_sys m) (eid_server (ev_id x))) = false -> cf_cond cf x = true ->
    In (p, pt) (m_parts m) -> pt_order pt = SOURCE_TIMESTAMP -> node_matches (pt_sub pt) (ev_type x) = true ->
    ev_src x = Some t -> ~ ts_fits t -> raw_flush C ch' e = None.
Proof.
  intros C e cf m ch x m' ch' p pt t R H1 H2 H3 Hp Ho Hm Hs Ht. apply (unfit_none C ch' e (p, t, ev_id x) x); [|intros (_ & Q & _); auto].
  assert (E : ch_ts ch' = fst (ts_add_event (m_parts m) (ch_ts ch) x)).
  { unfold register_event in R. rewrite H1, H2, H3 in R. cbn [negb] in R. destruct (latest_add _ _ _ _) as [[[ld lc] added] removed].
    destruct (ts_add_event (m_parts m) (ch_ts ch) x) as [tc trefs]. destruct (match added with Some r => r :: trefs | None => trefs end) as [|r rs].
    - injection R as _ <-. reflexivity.
    - destruct (ref_add _ _ _ _) as [[last rc]|]; [|discriminate]. destruct (set_last_event_id _ _ _) as [sd sc]. destruct (set_last_timestamp _ _ _ _) as [sd' sc'].
      injection R as _ <-. reflexivity. }
  rewrite E. apply (add_item (m_parts m) (ch_ts ch) x p pt t Hp Hm). unfold part_ts. now rewrite Ho.
Qed.
