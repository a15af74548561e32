(** LMDB backend: timeseries queries over executions. *)
From Coq Require Import String Bool ZArith Lia Sorted Permutation List.
From Verif Require Import Base Kv Model_Types Model_Subscription Model_Order Model_Codec Keys
  Spec_Order Spec_Codec Spec_Subscription Proof_Subscription Proof_Subscription2 Proof_Order Model_Lmdb Model_LmdbSys Spec_Lmdb Spec_LmdbContent
  Spec_LmdbQuery Spec_LmdbTs
  Proof_Lmdb1 Proof_Lmdb2 Proof_Lmdb3 Proof_Lmdb4 Proof_Lmdb5 Proof_Lmdb6 Proof_Lmdb7 Proof_Lmdb8 Proof_Lmdb9 Proof_Lmdb10 Proof_Lmdb11 Proof_Lmdb12
  Proof_Lmdb13 Proof_Lmdb14 Proof_Lmdb16 Proof_Lmdb18.
Import ListNotations.
Open Scope list_scope.
Open Scope Z_scope.

(** ** The start of a query *)

Definition fits (O : oracle) (p : query_timeseries) (sub : option node) (pt : partition) : bool :=
  order_by_eqb (pt_order pt) (qt_order_by p) && negb (match sub with Some n => or_disj O n (pt_sub pt) | None => false end).

Lemma choose_find : forall O p sub ps, choose_partition O ps (qt_order_by p) sub =
    option_map fst (find (fun x => fits O p sub (snd x)) ps).
Proof.
  intros O p sub. induction ps as [|[i pt] ps IH]; cbn [choose_partition find snd]; auto. unfold fits.
  destruct (order_by_eqb (pt_order pt) (qt_order_by p)); cbn [negb andb]; auto.
  destruct (match sub with Some n => or_disj O n (pt_sub pt) | None => false end); cbn [negb]; auto.
Qed.

Definition sub_of (p : query_timeseries) (sub : option node) : Prop :=
  match qt_types p with None => sub = None | Some qs => exists n, sub = Some n /\ py_create qs = Some n end.

Lemma disj_witness : forall O qs1 qs2 a b, disj_ok O -> py_create qs1 = Some a -> py_create qs2 = Some b ->
    (or_disj O a b = false <-> exists t, node_matches b t = true /\ selects qs1 t).
Proof.
  intros O qs1 qs2 a b Hd Ha Hb. pose proof (Hd _ _ _ _ Ha Hb) as Hx.
  assert (Hm : forall t, node_matches b t = true <-> selects qs2 t) by (apply (proj2 (final_C01 qs2)), Hb).
  split.
  - intros E. destruct (node_isdisjoint a b) eqn:En.
    + rewrite (final_C05 _ _ _ _ Ha Hb) in En. apply Hx in En. congruence.
    + unfold node_isdisjoint in En. 
      destruct (disjoint_spec (height a + height b) a b) as [_ H2]; eauto using create_wf; [lia|].
      destruct (H2 (create_live _ _ Ha) (create_live _ _ Hb) En) as (t & A & B).
      exists t. split; auto. now apply (proj2 (final_C01 qs1) _ Ha).
  - intros (t & A & B). destruct (or_disj O a b) eqn:E; auto. exfalso. apply (proj1 Hx eq_refl t). split; auto. now apply Hm.
Qed.

Lemma fits_suits : forall O p sub pt, disj_ok O -> sub_of p sub -> (exists qs, py_create qs = Some (pt_sub pt)) ->
    (fits O p sub pt = true <-> suits p pt).
Proof.
  intros O p sub pt Hd Hs (qs2 & Hq). unfold fits, suits, sub_of, types_asked in *. rewrite andb_true_iff, negb_true_iff.
  assert (E : order_by_eqb (pt_order pt) (qt_order_by p) = true <-> pt_order pt = qt_order_by p).
  { destruct (pt_order pt), (qt_order_by p); cbn; split; congruence. }
  rewrite E. destruct (qt_types p) as [qs|]; [|subst sub; tauto].
  destruct Hs as (n & -> & Hc). rewrite (disj_witness _ _ _ _ _ Hd Hc Hq). split; intros [A B]; split; auto. destruct B; auto. discriminate.
Qed.

Lemma suits_data : forall p a b, wf (pt_sub a) -> wf (pt_sub b) -> part_data_of a = part_data_of b -> suits p a -> suits p b.
Proof.
  intros p a b Ha Hb Hd [H1 H2]. pose proof Hd as [= Ho Hq].
  assert (Hm : forall t, node_matches (pt_sub a) t = node_matches (pt_sub b) t).
  { intros t. rewrite !to_qts_matches by auto. apply existsb_same. intros x. rewrite <- (In_etype_sort _ x), Hq. apply In_etype_sort. }
  split.
  - rewrite <- H1. destruct (pt_order a), (pt_order b); auto; discriminate.
  - destruct H2 as [|(t & A & B)]; auto. right. exists t. now rewrite <- Hm.
Qed.

Definition chosen_part (cf : conf) (d : ldb) (p : query_timeseries) (c : option Z) : Prop :=
  match c with
  | Some n => exists pt, chosen cf d p n pt
  | None => forall pt, In pt (cf_parts cf) -> ~ suits p pt
  end.

Lemma start_spec : forall O cf tr s p, disj_ok O -> execution O cf tr s -> made (s_conf s) ->
    match ts_query_start O (s_conf s) (m_parts (s_mem s)) p with
    | None => exists qs, qt_types p = Some qs /\ py_create qs = None
    | Some (sub, max, c) => sub_of p sub /\ max = ts_max (s_conf s) p /\ chosen_part (s_conf s) (s_disk s) p c
    end.
Proof.
  intros O cf tr s p Hd Hx Hm. pose proof (execution_inv _ _ _ _ Hx) as Hi. pose proof (execution_table _ _ _ _ Hx) as Ht.
  unfold ts_query_start.
  assert (Hs : match match qt_types p with None => Some None | Some ts => match py_create ts with Some n => Some (Some n) | None => None end end with
               | None => exists qs, qt_types p = Some qs /\ py_create qs = None
               | Some sub => sub_of p sub
               end).
  { unfold sub_of. destruct (qt_types p) as [qs|]; auto. destruct (py_create qs) as [n|] eqn:E; eauto. }
  destruct (match qt_types p with None => Some None | Some ts => match py_create ts with Some n => Some (Some n) | None => None end end) as [sub|]; auto.
  split; [exact Hs|]. split.
  { unfold eff_max, ts_max. destruct (qt_max p) as [m|]; auto. destruct (Z.ltb_spec m (cf_ts_max (s_conf s))); lia. }
  rewrite choose_find.
  assert (Hone : one_id (db_parts (s_disk s))) by (exact (rp_pinj _ _ _ (si_repr _ _ Hi))).
  assert (Hfs : forall pt, In pt (cf_parts (s_conf s)) -> (fits O p sub pt = true <-> suits p pt)).
  { intros pt Hpt. apply fits_suits; auto. }
  assert (Hwf : forall pt, In pt (cf_parts (s_conf s)) -> wf (pt_sub pt)).
  { intros pt Hpt. eapply nth_wf; eauto. rewrite (si_conf _ _ Hi). apply (si_ok _ _ Hi). }
  pose proof (find_numbered (fits O p sub) _ _ _ Hone Ht) as Hf.
  assert (Hr : forall a b, In a (cf_parts (s_conf s)) -> In b (cf_parts (s_conf s)) -> part_data_of a = part_data_of b ->
                           fits O p sub a = fits O p sub b).
  { intros a b Ha Hb E. apply eq_true_iff_eq. rewrite !Hfs by auto. split; apply suits_data; auto. }
  specialize (Hf Hr). unfold chosen_part.
  destruct (option_map fst (find (fun x => fits O p sub (snd x)) (m_parts (s_mem s)))) as [n|].
  - destruct Hf as (a & pt & b & E & A & B & C). exists pt, a, b. split; auto.
    assert (Hin : forall x, In x a -> In x (cf_parts (s_conf s))) by (intros x Hxa; rewrite E; apply in_or_app; auto).
    split; [apply Hfs; auto; rewrite E; apply in_or_app; right; now left|]. split.
    + intros x Hxa Hsx. apply Hfs in Hsx; auto. rewrite B in Hsx; auto. discriminate.
    + apply (kget_Some_In zord). exact C.
  - intros pt Hpt Hsx. apply Hfs in Hsx; auto. rewrite Hf in Hsx; auto. discriminate.
Qed.

(** ** The answer from the entries *)

Lemma in_sequence_eq : forall p l, in_sequence p l = arranged p (in_range p l).
Proof. reflexivity. Qed.

Lemma in_range_app : forall p a b, in_range p (a ++ b) = in_range p a ++ in_range p b.
Proof. intros. unfold in_range. now rewrite filter_app, map_app. Qed.

Lemma behind_incl : forall i l e, In e (behind i l) -> In e l.
Proof. induction l as [|x l IH]; intros e H; cbn in *; auto. destruct (eid_eqb (ev_id x) i); auto. Qed.
Lemma following_suffix : forall last l, exists a, l = a ++ following last l \/ following last l = [].
Proof.
  intros [i|] l; [|exists []; now left]. cbn [following]. induction l as [|x l [a [IH|IH]]]; cbn [behind].
  - exists []. now left.
  - destruct (eid_eqb (ev_id x) i); [exists [x]; now left|]. exists (x :: a). left. cbn [app]. now rewrite <- IH.
  - destruct (eid_eqb (ev_id x) i); [exists [x]; now left|]. exists a. now right.
Qed.

Definition placed (pt : partition) (l : list (timestamp * event)) : Prop := forall t e, In (t, e) l -> place pt e = Some t.

Lemma place_order_ts : forall p pt t e, pt_order pt = qt_order_by p -> place pt e = Some t -> order_ts p e = Some t /\ by_ts (qt_order_by p) e = t.
Proof.
  intros p pt t e Ho. unfold place, order_ts, by_ts. rewrite Ho. destruct (node_matches (pt_sub pt) (ev_type e)); [|discriminate].
  destruct (qt_order_by p); [intros [= <-]; auto|]. intros ->. auto.
Qed.

Lemma NoDup_app_split : forall (A : Type) (a b : list A), NoDup (a ++ b) -> NoDup b.
Proof. induction a as [|x a IH]; intros b H; auto. inversion H. auto. Qed.

Lemma SS_map' : forall (A B : Type) (f : A -> B) (R : A -> A -> Prop) (R' : B -> B -> Prop) l,
    (forall a b, In a l -> In b l -> R a b -> R' (f a) (f b)) -> StronglySorted R l -> StronglySorted R' (map f l).
Proof.
  intros A B f R R'. induction l as [|x l IH]; intros Hf Hs; cbn [map]; [constructor|].
  inversion Hs as [|? ? Ha Hb]; subst. constructor.
  - apply IH; auto. intros a b Hia Hib. apply Hf; now right.
  - rewrite Forall_forall in Hb |- *. intros y Hy. apply in_map_iff in Hy as (z & <- & Hz). apply Hf; [now left|now right|auto].
Qed.

Lemma exact_answer : forall cf p pt l a, pt_order pt = qt_order_by p -> placed pt l -> ts_exact cf p (in_sequence p l) a -> ts_answer cf p l a.
Proof.
  intros cf p pt l a Ho Hp (L & (w & Hw & EL) & Ha & Hn). exists L. split; [exists w; auto|]. split; auto. split; auto.
  intros Hio. rewrite EL. apply SS_filter. destruct (following_suffix (qt_last p) (in_sequence p l)) as (b & [E|E]); [|rewrite E; constructor].
  assert (Hs : ordered p (in_sequence p l)); [|rewrite E in Hs; now apply SS_app_r in Hs].
  unfold in_sequence, ordered.
  assert (Hf : in_order (filter (fun x => within (order_from p) (order_to p) (fst x)) l)) by now apply SS_filter.
  assert (Hpf : placed pt (filter (fun x => within (order_from p) (order_to p) (fst x)) l)).
  { intros t e Hi. apply filter_In in Hi as [Hi _]. now apply Hp. }
  revert Hf Hpf. generalize (filter (fun x => within (order_from p) (order_to p) (fst x)) l). clear - Ho. intros l Hf Hp.
  assert (Hpl : forall x, In x l -> order_ts p (snd x) = Some (fst x)).
  { intros [t e] Hi. eapply place_order_ts; eauto. }
  destruct (qt_order p).
  - rewrite <- map_rev. apply (SS_map' _ _ snd (fun a b => ts_leb (fst b) (fst a) = true)); [|now apply SS_rev].
    intros a b Hia Hib Hab. exists (fst a), (fst b). rewrite <- in_rev in Hia, Hib. auto.
  - apply (SS_map' _ _ snd (fun a b => ts_leb (fst a) (fst b) = true)); auto.
    intros a b Hia Hib Hab. exists (fst a), (fst b). auto.
Qed.

(** ** Entries of a partition *)

Lemma stored_In : forall d H K n t e, repr d H K -> (In (t, e) (stored_in d n) <-> kget keyord (n, t, ev_id e) (db_ts d) = Some e).
Proof.
  intros d H K n t e Hr. unfold stored_in. rewrite in_map_iff. split.
  - intros ([[[m u] i] e'] & [= <- <-] & Hi). apply filter_In in Hi as [Hi E]. cbn [fst snd] in *. apply Z.eqb_eq in E. subst m.
    apply (kget_In keyord) in Hi; [|apply (rp_base _ _ _ Hr)]. destruct (ba_ts _ (rp_base _ _ _ Hr) _ _ Hi) as [E _]. cbn [snd] in E. now rewrite <- E.
  - intros Hk. exists (n, t, ev_id e, e). split; auto. apply filter_In. split; [now apply (kget_Some_In keyord)|apply Z.eqb_refl].
Qed.

Lemma stored_entry : forall d H K n pt t e, repr d H K -> kget zord n (db_parts d) = Some (part_data_of pt) -> wf (pt_sub pt) ->
    In (t, e) (stored_in d n) -> place pt e = Some t /\ exists en, In en H /\ en_ev en = e.
Proof.
  intros d H K n pt t e Hr Hn Hwf Hi. apply (stored_In _ _ _ _ _ _ Hr) in Hi.
  apply (rp_ts _ _ _ Hr) in Hi as [(cf & pt' & Hin & Hpt & Hk & Hp & _) _]. cbn [fst snd] in *.
  split; [|exists (Entry cf e); auto]. rewrite <- Hp. apply part_data_place; auto; [|congruence].
  eapply nth_wf; eauto. apply (rp_conf _ _ _ Hr _ Hin).
Qed.

Lemma stored_placed : forall d H K n pt, repr d H K -> kget zord n (db_parts d) = Some (part_data_of pt) -> wf (pt_sub pt) ->
    placed pt (stored_in d n).
Proof. intros d H K n pt Hr Hn Hwf t e Hi. eapply stored_entry; eauto. Qed.

Lemma stored_nodup : forall d H K n pt, repr d H K -> kget zord n (db_parts d) = Some (part_data_of pt) -> wf (pt_sub pt) ->
    NoDup (map (fun x => ev_id (snd x)) (stored_in d n)).
Proof.
  intros d H K n pt Hr Hn Hwf.
  assert (Hd : NoDup (stored_in d n)).
  { unfold stored_in. pose proof (ksorted_NoDup _ _ (dw_ts _ (ba_wf _ (rp_base _ _ _ Hr)))) as Hk. unfold keys in Hk.
    assert (Hid : forall kv, In kv (db_ts d) -> snd (fst kv) = ev_id (snd kv)).
    { intros [k e] Hi. apply (kget_In keyord) in Hi; [|apply (rp_base _ _ _ Hr)]. apply (ba_ts _ (rp_base _ _ _ Hr) _ _ Hi). }
    induction (db_ts d) as [|[[[m t] i] e] l IH]; cbn; [constructor|]. inversion Hk as [|? ? Hni Hk']; subst.
    assert (IH' := IH Hk' (fun kv Hi => Hid kv (or_intror Hi))). destruct (Z.eqb_spec m n) as [->|]; auto.
    cbn. constructor; auto. intros Hi. apply in_map_iff in Hi as ([[[m u] j] e'] & [= <- <-] & Hi).
    apply filter_In in Hi as [Hi E]. cbn [fst] in E. apply Z.eqb_eq in E. subst m. apply Hni. apply in_map_iff. eexists. split; [|exact Hi].
    pose proof (Hid _ (or_introl eq_refl)) as E1. pose proof (Hid _ (or_intror Hi)) as E2. cbn [fst snd] in *. congruence. }
  assert (Hinj : forall x y, In x (stored_in d n) -> In y (stored_in d n) -> ev_id (snd x) = ev_id (snd y) -> x = y).
  { intros [t e] [u f] Hx Hy E. cbn [snd] in E.
    destruct (stored_entry _ _ _ _ _ _ _ Hr Hn Hwf Hx) as (A & en & B & <-).
    destruct (stored_entry _ _ _ _ _ _ _ Hr Hn Hwf Hy) as (C & en' & D & <-).
    assert (en = en') by (eapply hist_id_inj; eauto; apply (rp_ok _ _ _ Hr)). subst en'. congruence. }
  revert Hd Hinj. generalize (stored_in d n). clear. induction l as [|x l IH]; intros Hd Hi; cbn; [constructor|].
  inversion Hd as [|? ? Hn Hd']; subst. constructor.
  - intros H. apply in_map_iff in H as (y & E & Hy). apply Hn. rewrite (Hi x y); auto; [now left|now right].
  - apply IH; auto. intros a b Ha Hb. apply Hi; now right.
Qed.

Lemma stored_sorted : forall d H K n, repr d H K -> in_order (stored_in d n).
Proof.
  intros d H K n Hr. pose proof (ksorted_SS _ _ keyord _ (dw_ts _ (ba_wf _ (rp_base _ _ _ Hr)))) as Hs. unfold in_order, stored_in.
  apply (SS_map' _ _ _ (fun a b => key_ltb (fst a) (fst b) = true)); [|now apply SS_filter].
  intros [[[m t] i] e] [[[m' u] j] f] Ha Hb. cbn [fst snd]. apply filter_In in Ha as [_ Ha], Hb as [_ Hb]. cbn [fst] in *.
  apply Z.eqb_eq in Ha, Hb. subst m m'. unfold key_ltb. rewrite Z.ltb_irrefl, Z.eqb_refl. cbn [orb andb].
  intros H'. apply orb_true_iff in H'. rewrite ts_leb_lt. destruct H' as [H'|H']; auto. apply andb_true_iff in H' as [H' _].
  apply ts_eqb_spec in H'. auto.
Qed.

Lemma pending_placed : forall pt h, placed pt (pending_in pt h).
Proof.
  intros pt h t e Hi. unfold pending_in in Hi. apply in_flat_map in Hi as (en & _ & Hi).
  destruct (place pt (en_ev en)) as [u|] eqn:E; [|easy]. destruct Hi as [[= <- <-]|[]]. auto.
Qed.

Lemma pending_In : forall pt h t e, In (t, e) (pending_in pt h) <-> place pt e = Some t /\ exists en, In en h /\ en_ev en = e.
Proof.
  intros pt h t e. split.
  - intros Hi. split; [now apply (pending_placed pt h)|]. unfold pending_in in Hi. apply in_flat_map in Hi as (en & H1 & Hi).
    exists en. split; auto. destruct (place pt (en_ev en)); [|easy]. destruct Hi as [[= _ <-]|[]]. auto.
  - intros (Hp & en & Hi & <-). unfold pending_in. apply in_flat_map. exists en. split; auto. rewrite Hp. now left.
Qed.

Lemma NoDup_app_intro : forall (A : Type) (a b : list A), NoDup a -> NoDup b -> (forall x, In x a -> In x b -> False) -> NoDup (a ++ b).
Proof.
  induction a as [|x a IH]; intros b Ha Hb H; auto. inversion Ha as [|? ? Hn Ha']; subst. cbn [app]. constructor.
  - intros Hi. apply in_app_or in Hi as [Hi|Hi]; auto. apply (H x); auto. now left.
  - apply IH; auto. intros y Hy. apply H. now right.
Qed.

Lemma hist_ids_nodup : forall H h, hist_ok (H ++ h) -> NoDup (map (fun en => ev_id (en_ev en)) h).
Proof.
  intros H h. induction h as [|en h IH] using rev_ind; intros Ho; [constructor|]. rewrite app_assoc in Ho.
  pose proof (hist_ok_app _ _ Ho) as Ho'. rewrite map_app. apply NoDup_app_intro; [auto|repeat constructor; easy|].
  intros i Hi [<-|[]]. cbn [en_ev] in Hi. apply in_map_iff in Hi as (en' & E & Hi).
  assert (Hlt : eid_ltb (ev_id (en_ev en')) (ev_id (en_ev en)) = true).
  { eapply before_after; [exact Ho| | |]; [apply in_or_app; right; exact Hi|now left|congruence]. }
  rewrite E, ltb_irrefl in Hlt. discriminate.
Qed.

Lemma pending_nodup : forall pt H h, hist_ok (H ++ h) -> NoDup (map (fun x => ev_id (snd x)) (pending_in pt h)).
Proof.
  intros pt H h Ho. apply hist_ids_nodup in Ho. unfold pending_in. induction h as [|en h IH]; cbn [flat_map map]; [constructor|].
  cbn [map] in Ho. inversion Ho as [|? ? Hn Ho']; subst. rewrite map_app. apply NoDup_app_intro; auto.
  - destruct (place pt (en_ev en)); cbn; repeat constructor; easy.
  - intros i Hi Hi'. apply Hn. destruct (place pt (en_ev en)); [|easy]. destruct Hi as [<-|[]]. cbn [snd].
    apply in_map_iff in Hi' as ([u e] & E & Hi'). apply (proj1 (pending_In pt h u e)) in Hi' as (_ & en' & A & <-). cbn [snd] in E.
    rewrite <- E. now apply (in_map (fun en => ev_id (en_ev en))).
Qed.

(** Stored entries that meet the conditions, and pending ones. *)
Lemma entries_between : forall d H K n pt m h cond, repr d H K -> hist_ok (H ++ m ++ h) -> kget zord n (db_parts d) = Some (part_data_of pt) -> wf (pt_sub pt) ->
    placed pt (seen cond (stored_in d n) ++ pending_in pt h) /\
    NoDup (map (fun x => ev_id (snd x)) (seen cond (stored_in d n) ++ pending_in pt h)).
Proof.
  intros d H K n pt m h cond Hr Ho Hn Hwf. split.
  - intros t e Hi. apply in_app_or in Hi as [Hi|Hi].
    + apply filter_In in Hi as [Hi _]. eapply stored_placed; eauto.
    + now apply (pending_placed pt h).
  - rewrite map_app. apply NoDup_app_intro.
    + pose proof (stored_nodup _ _ _ _ _ Hr Hn Hwf) as Hd. revert Hd. generalize (stored_in d n). clear.
      induction l as [|x l IH]; intros Hd; cbn; [constructor|]. inversion Hd as [|? ? Hi Hd']; subst. destruct (cond (snd x)); auto.
      cbn. constructor; auto. intros Hi'. apply Hi. apply in_map_iff in Hi' as (y & <- & Hy). apply filter_In in Hy.
      now apply (in_map (fun x => ev_id (snd x))).
    + apply (pending_nodup pt (H ++ m)). now rewrite <- app_assoc.
    + intros i Ha Hb. apply in_map_iff in Ha as ([t e] & <- & Ha), Hb as ([u f] & E & Hb). cbn [snd] in E.
      apply filter_In in Ha as [Ha _]. apply (stored_entry _ _ _ _ _ _ _ Hr Hn Hwf) in Ha as (_ & en & A & <-).
      apply (proj1 (pending_In pt h u f)) in Hb as (_ & en' & B & <-).
      assert (Hlt : eid_ltb (ev_id (en_ev en)) (ev_id (en_ev en')) = true).
      { eapply before_after; [exact Ho|exact A|apply in_or_app; right; exact B|congruence]. }
      rewrite E, ltb_irrefl in Hlt. discriminate.
Qed.

Lemma entries_ok : forall d H K n pt h cond, repr d H K -> hist_ok (H ++ h) -> kget zord n (db_parts d) = Some (part_data_of pt) -> wf (pt_sub pt) ->
    placed pt (seen cond (stored_in d n) ++ pending_in pt h) /\
    NoDup (map (fun x => ev_id (snd x)) (seen cond (stored_in d n) ++ pending_in pt h)).
Proof. intros. now apply (entries_between d H K n pt [] h cond). Qed.
