(** LMDB backend: pending changes as seen by queries. *)
From Coq Require Import String Bool ZArith Lia Sorted Permutation List.
From Verif Require Import Base Kv Model_Types Model_Subscription Model_Order Model_Codec Keys
  Spec_Subscription Proof_Subscription Proof_Subscription2 Proof_Order Model_Lmdb Model_LmdbSys Spec_Lmdb Spec_LmdbContent Spec_LmdbQuery
  Proof_Lmdb1 Proof_Lmdb2 Proof_Lmdb3 Proof_Lmdb4 Proof_Lmdb5 Proof_Lmdb6 Proof_Lmdb7 Proof_Lmdb8 Proof_Lmdb9 Proof_Lmdb10.
Import ListNotations.
Open Scope list_scope.
Open Scope Z_scope.

(** ** References that were added *)

Definition added_of (c : ref_changes) (s : Z) := rc_added (server_changes_of c s).

Record pend_ref (c : ref_changes) (h : history) : Prop := {
  pr_disj : forall i, is_added c i -> ~ is_removed c i;
  pr_ev : forall s i e rs, In (i, (e, rs)) (added_of c s) ->
      ev_id e = i /\ eid_server i = s /\ exists en, In en h /\ en_ev en = e;
  pr_sorted : forall s, ksorted eidord (added_of c s) }.

Lemma SS_ddel : forall (V : Type) k (m : list (event_id * V)), ksorted eidord m -> ksorted eidord (ddel eid_eqb k m).
Proof.
  unfold ksorted, keys. induction m as [|[k' v'] m IH]; cbn; intros H; auto.
  inversion H as [|? ? H1 H2]; subst. destruct (eid_eqb k k'); auto. cbn. constructor; auto.
  apply Forall_forall. intros x Hx. rewrite Forall_forall in H2. apply H2. eapply keys_ddel_incl; eauto.
Qed.

Lemma SS_snoc : forall (A : Type) (R : A -> A -> Prop) l x, StronglySorted R l -> (forall y, In y l -> R y x) ->
    StronglySorted R (l ++ [x]).
Proof.
  induction l as [|y l IH]; intros x Hs H; cbn [app]; [constructor; constructor|].
  inversion Hs as [|? ? H1 H2]; subst. constructor.
  - apply IH; auto. intros z Hz. apply H. now right.
  - apply Forall_app. split; auto. constructor; [apply H; now left|constructor].
Qed.

Lemma ref_remove_pend : forall c i r h, rc_wf c -> pend_ref c h ->
    (is_added c i -> In r (added_refs c i)) -> pend_ref (ref_remove c i r) h.
Proof.
  intros c i r h Hwf [Pd Pe Ps] Hr. unfold ref_remove.
  set (s := eid_server i) in *. set (sc := server_changes_of c s) in *.
  destruct (sc_wf_of c s Hwf) as (Hn1 & Hn2 & Hids & Hne & Hso). fold sc in Hn1, Hn2, Hids, Hne, Hso.
  destruct (dget eid_eqb i (rc_added sc)) as [[e refs]|] eqn:Ea.
  - pose proof (dget_In eid_eqb_spec _ _ _ Ea) as Hin.
    assert (Hia : is_added c i) by (unfold is_added; fold s sc; eapply keys_In; eauto).
    assert (Hrr : In r refs). { specialize (Hr Hia). unfold added_refs in Hr. fold s sc in Hr. now rewrite Ea in Hr. }
    rewrite (proj2 (shas_In reford r refs) Hrr). set (refs' := sdel reford r refs).
    set (added := match refs' with [] => ddel eid_eqb i (rc_added sc) | _ => dset eid_eqb i (e, refs') (rc_added sc) end).
    assert (Hk : forall j, In j (keys added) -> In j (keys (rc_added sc))).
    { intros j. unfold added. destruct refs'; [apply keys_ddel_incl|].
      intros H. apply (keys_dset_In _ _ _ eid_eqb_spec) in H as [->|H]; auto. }
    constructor.
    + intros j. unfold is_added, is_removed. rewrite server_changes_dset. destruct (eid_server j =? s) eqn:Es; [|apply Pd].
      apply Z.eqb_eq in Es. cbn [rc_added rc_removed]. intros Hj. apply Hk in Hj.
      specialize (Pd j). unfold is_added, is_removed in Pd. rewrite Es in Pd. auto.
    + intros s' j e' rs. unfold added_of. rewrite server_changes_dset. destruct (s' =? s) eqn:Es; [|apply Pe].
      apply Z.eqb_eq in Es. subst s'. cbn [rc_added]. unfold added. destruct refs' as [|x l].
      * intros Hj. apply In_ddel in Hj. eapply Pe; eauto.
      * intros Hj. apply (In_dset_iff eid_eqb_spec) in Hj; auto. destruct Hj as [(-> & [= -> ->])|[_ Hj]]; eapply Pe; eauto.
    + intros s'. unfold added_of. rewrite server_changes_dset. destruct (s' =? s) eqn:Es; [|apply Ps].
      cbn [rc_added]. unfold added. destruct refs' as [|x l]; [apply SS_ddel, Ps|].
      unfold ksorted. rewrite keys_dset. rewrite (proj2 (dmem_In eid_eqb_spec _ _)); [apply Ps|eapply keys_In; eauto].
  - assert (Hia : ~ is_added c i) by (unfold is_added; fold s sc; now apply (dget_None eid_eqb_spec)).
    constructor.
    + intros j. unfold is_added, is_removed. rewrite server_changes_dset. destruct (eid_server j =? s) eqn:Es; [|apply Pd].
      apply Z.eqb_eq in Es. cbn [rc_added rc_removed]. intros Hj Hj'.
      assert (Hj2 : is_added c j) by (unfold is_added; now rewrite Es).
      apply (keys_dset_In _ _ _ eid_eqb_spec) in Hj' as [->|Hj']; auto.
      apply (Pd j Hj2). unfold is_removed. now rewrite Es.
    + intros s' j e' rs. unfold added_of. rewrite server_changes_dset. destruct (s' =? s) eqn:Es; [|apply Pe].
      apply Z.eqb_eq in Es. subst s'. cbn [rc_added]. apply Pe.
    + intros s'. unfold added_of. rewrite server_changes_dset. destruct (s' =? s) eqn:Es; [|apply Ps]. apply Ps.
Qed.

Lemma pend_ref_mono : forall c h h', pend_ref c h -> (forall en, In en h -> In en h') -> pend_ref c h'.
Proof.
  intros c h h' [Pd Pe Ps] Hh. constructor; auto. intros s i e rs Hin. destruct (Pe _ _ _ _ Hin) as (A & B & en & C & D). eauto 6.
Qed.

(** An id in a history, or known, is not after a later event. *)
Lemma pendH_ref : forall d H K c h pls, repr d H K -> pendH d H c h pls -> pend_ref (ch_ref c) h.
Proof.
  intros d H K c h pls Hr Hp. induction Hp as [|c h pls en pl Hp IH Ha Hco Hev Hpf Hpk].
  - constructor; [intros i []|intros s i e rs []|]. intros s. constructor.
  - destruct (pendH_spec _ _ _ _ _ _ Hr Hp) as (Hpd & Hi & Hrc).
    pose proof (pi_wf _ _ Hi) as Hwf. pose proof (ch_rc_wf c Hwf) as Hrw.
    assert (Hpo : plan_ok (flush_write d c) pl) by (eapply plan_for_ok; eauto).
    set (rc := match pl_latest pl with Some (r, _, Some i) => ref_remove (ch_ref c) i (LatestRef r) | _ => ch_ref c end).
    assert (Hrcw : pend_ref rc h /\ rc_wf rc /\ (forall j, is_added rc j -> is_added (ch_ref c) j) /\
       (forall j, is_removed rc j -> known (flush_write d c) j)).
    { unfold rc. destruct (pl_latest pl) as [[[r n] [i|]]|] eqn:El.
      - destruct (ref_remove_spec (ch_ref c) i (LatestRef r) (refs_at (db_ref d)) Hrw) as (H1 & H2 & H3 & H4).
        { apply (pi_fresh _ _ Hi). }
        split; [|split; [auto|split; [auto|]]].
        2:{ intros j Hj. apply H4 in Hj as [Hj| ->]; [apply (pi_known _ _ Hi); auto|eapply (po_prev _ _ Hpo); eauto]. }
        apply ref_remove_pend; auto. intros Hia.
        assert (Hst : stored_at (flush_write d c) (LatestRef r) i).
        { pose proof (pf_latest _ _ _ _ Hpf) as Hpl. rewrite El in Hpl. destruct Hpl as (Hb & Hrow & Hprev).
          unfold visible in Hprev. destruct (latest_of (H ++ h) (ev_type (en_ev en))) as [p|] eqn:Elat; [|discriminate].
          destruct (covers _ _ && _)%bool; [|discriminate]. injection Hprev as ->.
          assert (Htp : ev_type p = ev_type (en_ev en)).
          { apply latest_of_In in Elat as (? & _ & _ & E & _). exact E. }
          destruct n.
          - exfalso. destruct Hrow as [Hrow _].
            assert (Hex : latest_of (H ++ h) (ev_type (en_ev en)) <> None) by congruence.
            apply (rp_types _ _ _ Hrc) in Hex as (r' & Hr'). now apply Hrow in Hr'.
          - exists p. split; auto. apply (rp_latest _ _ _ Hrc). rewrite Htp. auto. }
        apply (rp_refs _ _ _ Hrc) in Hst. apply (refs_at_flush _ _ (ba_wf _ (rp_base _ _ _ Hr)) Hrw) in Hst as [[Hst|Hst] _]; auto.
        change (In (LatestRef r) (refs_at (db_ref d) i)) in Hst. rewrite (pi_fresh _ _ Hi _ Hia) in Hst. destruct Hst.
      - split; auto. split; auto. split; auto. intros j Hj. apply (pi_known _ _ Hi); auto.
      - split; auto. split; auto. split; auto. intros j Hj. apply (pi_known _ _ Hi); auto. }
    destruct Hrcw as ([Pd Pe Ps] & Hw & Hadd & Hrem).
    assert (Hnk : forall i, known (flush_write d c) i -> i <> ev_id (pl_ev pl)) by (intros i Hk; eapply known_neq; eauto).
    set (e := pl_ev pl) in *. assert (Ee : e = en_ev en) by apply (pf_ev _ _ _ _ Hpf).
    assert (Hnew : ~ is_added rc (ev_id e)).
    { intros Hj. apply (Hnk (ev_id e)); auto. apply (pi_known _ _ Hi). auto. }
    assert (Hch : ch_ref (apply_plan c pl) = dset Z.eqb (eid_server (ev_id e))
       (ServerChanges (dset eid_eqb (ev_id e) (e, sof reford (plan_refs pl)) (added_of rc (eid_server (ev_id e))))
                      (rc_removed (server_changes_of rc (eid_server (ev_id e))))) rc) by reflexivity.
    rewrite Hch. clear Hch. set (s := eid_server (ev_id e)).
    assert (Hnd : forall s', NoDup (keys (added_of rc s'))). { intros s'. apply (sc_wf_of rc s' Hw). }
    constructor.
    + intros j. unfold is_added, is_removed. rewrite server_changes_dset. destruct (eid_server j =? s) eqn:Es; [|apply Pd].
      apply Z.eqb_eq in Es. cbn [rc_added rc_removed]. intros Hj Hj'.
      apply (keys_dset_In _ _ _ eid_eqb_spec) in Hj as [->|Hj].
      * apply (Hnk (ev_id e)); auto.
      * apply (Pd j); [unfold is_added; now rewrite Es|unfold is_removed; now rewrite Es].
    + intros s' j e' rs. unfold added_of at 1. rewrite server_changes_dset. destruct (s' =? s) eqn:Es.
      * apply Z.eqb_eq in Es. subst s'. cbn [rc_added]. intros Hj. apply (In_dset_iff eid_eqb_spec) in Hj; auto.
        destruct Hj as [(-> & [= -> ->])|[_ Hj]].
        -- split; auto. split; auto. exists en. split; auto. apply in_or_app. right. now left.
        -- destruct (Pe _ _ _ _ Hj) as (A & B & en' & C & D). split; auto. split; auto. exists en'. split; auto. apply in_or_app. auto.
      * intros Hj. destruct (Pe _ _ _ _ Hj) as (A & B & en' & C & D). split; auto. split; auto. exists en'. split; auto. apply in_or_app. auto.
    + intros s'. unfold added_of at 1. rewrite server_changes_dset. destruct (s' =? s) eqn:Es; [|apply Ps].
      cbn [rc_added]. unfold ksorted. rewrite keys_dset.
      destruct (dmem eid_eqb (ev_id e) (added_of rc s)) eqn:Em.
      * exfalso. apply (dmem_In eid_eqb_spec) in Em. apply Hnew. exact Em.
      * apply SS_snoc; [apply Ps|]. intros j Hj. unfold olt.
        assert (Hsj : eid_server j = s).
        { apply In_keys_ex in Hj as ([e' rs] & Hj). apply Pe in Hj. apply Hj. }
        assert (Hkn : known (flush_write d c) j).
        { apply (pi_known _ _ Hi). left. apply Hadd. unfold is_added. rewrite Hsj. exact Hj. }
        destruct Hkn as (l & Hl & Hjl). rewrite Hsj in Hl. apply (po_new _ _ Hpo) in Hl. fold e in Hl.
        apply eid_leb_lt in Hjl as [Hjl|<-]; [|exact Hl]. eapply eid_ltb_trans; eauto.
Qed.

(** ** Events that were added *)

Lemma has_place_ex : forall cf e, has_place cf e = true <-> exists pt t, In pt (cf_parts cf) /\ place pt e = Some t.
Proof.
  intros cf e. unfold has_place. rewrite existsb_exists. split.
  - intros (pt & Hin & Hp). destruct (place pt e) as [t|] eqn:E; [eauto|discriminate].
  - intros (pt & t & Hin & Hp). exists pt. rewrite Hp. auto.
Qed.

(** Ids of a history determine its entries. *)
Lemma hist_id_inj : forall H a b, hist_ok H -> In a H -> In b H -> ev_id (en_ev a) = ev_id (en_ev b) -> a = b.
Proof.
  intros H a b Ho Ha Hb E. apply in_split in Ha as (H1 & H2 & ->).
  apply in_app_or in Hb as [Hb|[Hb|Hb]]; auto.
  - exfalso. apply in_split in Hb as (G1 & G2 & ->). rewrite <- app_assoc in Ho. cbn [app] in Ho.
    destruct (hist_server_order _ Ho G1 b G2 a H2 eq_refl) as [Hlt _]; [now rewrite E|].
    rewrite E, eid_ltb_irrefl in Hlt. discriminate.
  - exfalso. apply in_split in Hb as (G1 & G2 & ->).
    destruct (hist_server_order _ Ho H1 a G1 b G2 eq_refl) as [Hlt _]; [now rewrite E|].
    rewrite E, eid_ltb_irrefl in Hlt. discriminate.
Qed.

Lemma hist_not_known : forall d H K h en, repr d H K -> hist_ok (H ++ h) -> In en h -> ~ known d (ev_id (en_ev en)).
Proof.
  intros d H K h en Hr Ho Hin (l & Hl & Hle). rewrite (rp_ids _ _ _ Hr) in Hl.
  destruct (last_ev H (eid_server (ev_id (en_ev en)))) as [x|] eqn:E; [|discriminate]. injection Hl as <-.
  pose proof (last_ev_server _ _ _ E) as Es. apply last_ev_In in E as (en' & Hin' & <-).
  apply in_split in Hin' as (H1 & H2 & ->). apply in_split in Hin as (h1 & h2 & ->).
  destruct (hist_server_order _ Ho H1 en' (H2 ++ h1) en h2) as [Hlt _].
  - rewrite <- !app_assoc. reflexivity.
  - exact Es.
  - rewrite eid_leb_ltb, Hlt in Hle. discriminate.
Qed.

Lemma pend_added : forall d H K c h pls, repr d H K -> pendH d H c h pls -> no_hidden (H ++ h) ->
    forall s e, (exists i rs, In (i, (e, rs)) (added_of (ch_ref c) s)) <->
                eid_server (ev_id e) = s /\ exists en, In en h /\ en_ev en = e /\ live (H ++ h) en.
Proof.
  intros d H K c h pls Hr Hp Hn s e. destruct (pendH_spec _ _ _ _ _ _ Hr Hp) as (Hpd & Hi & Hrc).
  pose proof (pendH_ref _ _ _ _ _ _ Hr Hp) as [Pd Pe Ps].
  pose proof (ch_rc_wf c (pi_wf _ _ Hi)) as Hrw.
  destruct (refs_at_flush _ _ (ba_wf _ (rp_base _ _ _ Hr)) Hrw) as [_ Hfl].
  assert (Hfl' : forall j x, In x (refs_at (db_ref (flush_write d c)) j) <->
     (In x (refs_at (db_ref d) j) \/ In x (added_refs (ch_ref c) j)) /\ ~ In x (removed_refs (ch_ref c) j)) by (intros; apply Hfl).
  clear Hfl. split.
  - intros (i & rs & Hin). destruct (Pe _ _ _ _ Hin) as (E1 & E2 & en & Hen & Ee). rewrite E1. split; auto.
    exists en. split; auto. split; auto.
    assert (Hia : is_added (ch_ref c) i). { unfold is_added. rewrite E2. eapply keys_In; eauto. }
    destruct (sc_wf_of (ch_ref c) s Hrw) as (Hn1 & _ & _ & Hne & _). destruct (Hne _ _ _ Hin) as [Hne' _].
    destruct rs as [|r rs]; [congruence|].
    assert (Hr1 : In r (refs_at (db_ref (flush_write d c)) i)).
    { apply Hfl'. split.
      - right. unfold added_refs. rewrite E2. rewrite (In_dget eid_eqb_spec _ _ _ Hn1 Hin). now left.
      - intros Hrem. apply (Pd _ Hia). unfold is_removed, removed_refs in *.
        destruct (dget eid_eqb i _) eqn:Eg in Hrem; [|destruct Hrem]. eapply keys_In. eapply (dget_In eid_eqb_spec); eauto. }
    apply (rp_exact _ _ _ Hrc Hn) in Hr1. unfold live. rewrite Ee. destruct r as [r|k].
    + left. destruct Hr1 as (e' & Hl & Hid). apply (rp_latest _ _ _ Hrc) in Hl as [_ Hl].
      assert (e' = e); [|now subst]. pose proof Hl as Hl2. apply latest_of_In in Hl2 as (en' & Hin' & <- & _).
      rewrite <- Ee. f_equal. apply (hist_id_inj (H ++ h)); auto; [apply Hrc|apply in_or_app; auto|congruence].
    + right. destruct Hr1 as (e' & Hk & Hid). apply (rp_ts _ _ _ Hrc) in Hk as [(cf & pt & Hin' & Hpt & _ & Hpl & _) _].
      assert (Een : Entry cf e' = en).
      { apply (hist_id_inj (H ++ h)); auto; [apply Hrc|apply in_or_app; auto|]. cbn [en_ev]. congruence. }
      subst en. cbn [en_conf en_ev] in *. subst e'. apply has_place_ex. eauto.
  - intros (Es & en & Hen & Ee & Hl).
    assert (Hnkn : ~ known d (ev_id e)). { rewrite <- Ee. eapply hist_not_known; eauto. apply Hrc. }
    assert (HD : refs_at (db_ref d) (ev_id e) = []).
    { destruct (refs_at (db_ref d) (ev_id e)) eqn:E; auto. exfalso. apply Hnkn. apply (ba_ref _ (rp_base _ _ _ Hr)). rewrite E. discriminate. }
    assert (Hst : exists r, stored_at (flush_write d c) r (ev_id e)).
    { destruct Hl as [Hl|Hl].
      - rewrite Ee in Hl. assert (Hne : latest_of (H ++ h) (ev_type e) <> None) by congruence.
        apply (rp_types _ _ _ Hrc) in Hne as (r & Hrw'). exists (LatestRef r), e. split; auto. apply (rp_latest _ _ _ Hrc). auto.
      - rewrite Ee in Hl. apply has_place_ex in Hl as (pt & t & Hpt & Hpl).
        assert (HenH : In en (H ++ h)) by (apply in_or_app; auto).
        destruct (rp_parts _ _ _ Hrc en pt HenH Hpt) as (p & Hpp).
        exists (TimeseriesRef (p, t, ev_id e)), e. split; auto. apply (rp_ts _ _ _ Hrc). split.
        + exists (en_conf en), pt. cbn [fst snd]. split; [destruct en; cbn in *; now subst|]. auto.
        + intros HK. apply Hnkn. apply (rp_gone _ _ _ Hr _ HK). }
    destruct Hst as (r & Hst). apply (rp_refs _ _ _ Hrc) in Hst. apply Hfl' in Hst as [[Hst|Hst] _].
    + rewrite HD in Hst. destruct Hst.
    + unfold added_refs in Hst. destruct (dget eid_eqb (ev_id e) _) as [[e' rs]|] eqn:Eg in Hst; [|destruct Hst].
      apply (dget_In eid_eqb_spec) in Eg. rewrite Es in Eg. exists (ev_id e), rs.
      destruct (Pe _ _ _ _ Eg) as (E1 & _ & en' & Hen' & Ee').
      assert (Een : en' = en); [|assert (Eee : e' = e) by congruence; now rewrite <- Eee at 2].
      apply (hist_id_inj (H ++ h)); [apply Hrc|apply in_or_app; auto|apply in_or_app; auto|congruence].
Qed.
