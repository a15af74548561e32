(** LMDB backend: removal of timeseries entries, and pending changes that are
    described by a history. *)
From Coq Require Import String Bool ZArith Lia Sorted List.
From Verif Require Import Base Kv Model_Types Model_Subscription Model_Order Model_Codec Keys
  Proof_Subscription Proof_Subscription2 Proof_Order Model_Lmdb Model_LmdbSys Spec_Lmdb Proof_Lmdb1 Proof_Lmdb2 Proof_Lmdb3 Proof_Lmdb4.
Import ListNotations.
Open Scope list_scope.
Open Scope Z_scope.

(** ** Removal of one entry *)

Definition dec_count (m : list (Z * Z)) (p : Z) : list (Z * Z) := kput zord p (partition_count m p - 1) m.

Definition remove_ts (d : ldb) (k : ts_key) : ldb :=
  Ldb (db_settings d) (db_ids d) (db_tss d) (db_ref d) (db_latest d) (db_types d)
      (kdel keyord k (db_ts d)) (db_parts d) (dec_count (db_counts d) (fst (fst k))).

Definition remove_key (d : ldb) (k : ts_key) : ldb :=
  Ldb (db_settings d) (db_ids d) (db_tss d) (ref_cleanup_one (db_ref d) k) (db_latest d) (db_types d)
      (kdel keyord k (db_ts d)) (db_parts d) (dec_count (db_counts d) (fst (fst k))).

Lemma refs_at_cleanup : forall m k j, refs_wf m ->
    refs_at (ref_cleanup_one m k) j = if eid_eqb j (snd k) then sdel reford (TimeseriesRef k) (refs_at m j) else refs_at m j.
Proof.
  intros m k j [Hm _]. unfold ref_cleanup_one. destruct (kget eidord (snd k) m) as [v|] eqn:E.
  - rewrite refs_at_put by auto. destruct (eid_eqb j (snd k)) eqn:Ej; auto.
    apply eid_eqb_spec in Ej. subst. unfold refs_at. now rewrite E.
  - destruct (eid_eqb j (snd k)) eqn:Ej; auto. apply eid_eqb_spec in Ej. subst. unfold refs_at. now rewrite E.
Qed.

Lemma refs_wf_cleanup : forall m k, refs_wf m -> refs_wf (ref_cleanup_one m k).
Proof.
  intros m k Hm. unfold ref_cleanup_one. destruct (kget eidord (snd k) m) as [v|] eqn:E; auto.
  apply refs_wf_put; auto. apply ssorted_sdel. apply (proj2 Hm _ _ E).
Qed.

Lemma cnt_kdel : forall p k (e : event) m, kget keyord k m = Some e ->
    cnt p (kdel keyord k m) = cnt p m - (if fst (fst k) =? p then 1 else 0).
Proof.
  unfold cnt, zlen, kdel, kget. intros p k e m. induction m as [|[k' e'] m IH]; intros Hf; [discriminate|].
  cbn [dget ddel] in *. destruct (oeqb keyord k k') eqn:E.
  - apply key_eqb_spec in E. subst. cbn [filter fst]. destruct (fst (fst k') =? p); cbn [List.length]; lia.
  - specialize (IH Hf). cbn [filter fst]. destruct (fst (fst k') =? p); cbn [List.length]; lia.
Qed.

Lemma partition_count_dec : forall m p q, partition_count (dec_count m p) q = partition_count m q - (if p =? q then 1 else 0).
Proof.
  intros. unfold dec_count. rewrite partition_count_kput. rewrite (Z.eqb_sym q).
  destruct (p =? q) eqn:E; [|lia]. apply Z.eqb_eq in E. now rewrite E.
Qed.

Lemma db_wf_remove : forall d k, db_wf d -> db_wf (remove_key d k).
Proof.
  intros d k H. destruct H. constructor; cbn [remove_key db_ids db_tss db_ref db_latest db_types db_ts db_counts]; auto.
  - now apply refs_wf_cleanup.
  - now apply ksorted_kdel.
  - now apply ksorted_kput.
Qed.

Lemma base_remove : forall d k, base d -> base (remove_key d k).
Proof.
  intros d k [Hw Hr Ht Hs]. constructor; auto using db_wf_remove.
  - intros i Hi. apply (Hr i). intros H0. apply Hi. cbn [remove_key db_ref]. rewrite refs_at_cleanup by apply Hw.
    rewrite H0. now destruct (eid_eqb i (snd k)).
  - intros k' e. cbn [remove_key db_ts]. rewrite kget_kdel by apply Hw. destruct (oeqb keyord k' k); [discriminate|]. apply Ht.
Qed.

Lemma remove_repr : forall d H K k e, repr d H K -> kget keyord k (db_ts d) = Some e ->
    repr (remove_key d k) H (K ++ [k]).
Proof.
  intros d H K k e Hr Hk. pose proof (rp_base _ _ _ Hr) as Hb. pose proof (ba_wf _ Hb) as Hw.
  assert (Htg : forall k', kget keyord k' (db_ts (remove_key d k)) = if key_eqb k' k then None else kget keyord k' (db_ts d)).
  { intros k'. cbn [remove_key db_ts]. rewrite kget_kdel by apply Hw. reflexivity. }
  assert (Hst : forall r i, stored_at (remove_key d k) r i <-> stored_at d r i /\ r <> TimeseriesRef k).
  { intros [x|x] i; cbn [stored_at].
    - split; [intros H0; split; [exact H0|discriminate]|intros [H0 _]; exact H0].
    - setoid_rewrite Htg. destruct (key_eqb x k) eqn:E.
      + apply key_eqb_spec in E. subst. split; [intros (? & [=] & _)|intros [_ H0]; congruence].
      + split; [|tauto]. intros H0. split; auto. intros [= ->]. rewrite (eqb_refl' key_eqb_spec) in E. discriminate. }
  constructor; try apply Hr.
  - now apply base_remove.
  - intros k' e'. rewrite Htg. destruct (key_eqb k' k) eqn:E.
    + apply key_eqb_spec in E. subst. split; [discriminate|]. rewrite in_app_iff. cbn. tauto.
    + assert (k <> k') by (intros ->; rewrite (eqb_refl' key_eqb_spec) in E; discriminate).
      rewrite (rp_ts _ _ _ Hr), in_app_iff. cbn [In]. change (kept (remove_key d k) H k' e') with (kept d H k' e').
      intuition.
  - intros p. cbn [remove_key db_counts db_ts]. rewrite partition_count_dec, (cnt_kdel _ _ _ _ Hk).
    now rewrite (rp_counts _ _ _ Hr).
  - intros x Hx. apply in_app_or in Hx as [Hx|[<-|[]]]; [now apply (rp_gone _ _ _ Hr)|].
    apply (ba_ts _ Hb) in Hk as [-> Hk]. exact Hk.
  - intros r i Hs. apply Hst in Hs as [Hs Hne]. apply (rp_refs _ _ _ Hr) in Hs.
    cbn [remove_key db_ref]. rewrite refs_at_cleanup by apply Hw. destruct (eid_eqb i (snd k)); auto.
    apply In_sdel. auto.
  - intros Hn r i Hin. cbn [remove_key db_ref] in Hin. rewrite refs_at_cleanup in Hin by apply Hw.
    apply Hst. destruct (eid_eqb i (snd k)) eqn:E.
    + apply In_sdel in Hin as [H1 H2]. split; auto. now apply (rp_exact _ _ _ Hr).
    + apply (rp_exact _ _ _ Hr Hn) in Hin. split; auto. intros ->. cbn in Hin. destruct Hin as (x & Hx & <-).
      apply (ba_ts _ Hb) in Hx as [Hx _]. rewrite Hx, (eqb_refl' eid_eqb_spec) in E. discriminate.
Qed.

Lemma dec_inc : forall m p pt, ksorted zord m -> dec_count (inc_count m pt) p = inc_count (dec_count m p) pt.
Proof.
  intros m p pt Hs. unfold dec_count at 1. unfold inc_count at 3. apply (kext zord).
  - apply ksorted_kput. now apply ksorted_kput.
  - apply ksorted_kput. now apply ksorted_kput.
  - intros q. rewrite partition_count_inc, partition_count_dec. unfold inc_count, dec_count.
    rewrite !kget_kput. cbn [oeqb zord].
    destruct (q =? p) eqn:E1; destruct (q =? fst pt) eqn:E2; auto.
    + apply Z.eqb_eq in E1, E2. rewrite <- E1, <- E2, Z.eqb_refl. f_equal. lia.
    + apply Z.eqb_eq in E1. rewrite <- E1. rewrite Z.eqb_sym in E2. rewrite E2. f_equal. lia.
    + apply Z.eqb_eq in E2. rewrite <- E2. rewrite Z.eqb_sym in E1. rewrite E1. f_equal. lia.
Qed.

Lemma dec_incs : forall pts m p, ksorted zord m -> dec_count (fold_left inc_count pts m) p = fold_left inc_count pts (dec_count m p).
Proof.
  induction pts as [|pt pts IH]; cbn [fold_left]; intros m p Hs; auto.
  rewrite IH by (now apply ksorted_kput). now rewrite dec_inc.
Qed.

Lemma remove_store : forall d pl k e, base d -> plan_ok d pl -> kget keyord k (db_ts d) = Some e ->
    remove_key (store_plan d pl) k = store_plan (remove_key d k) pl.
Proof.
  intros d pl k e Hb Hp Hk. pose proof (ba_wf _ Hb) as Hw.
  destruct (ba_ts _ Hb _ _ Hk) as [Hk1 Hk2]. rewrite <- Hk1 in Hk2.
  pose proof (known_neq _ _ _ Hk2 Hp) as Hne.
  assert (Ets : db_ts (remove_key (store_plan d pl) k) = db_ts (store_plan (remove_key d k) pl)).
  { cbn [remove_key store_plan db_ts]. apply (kext keyord).
    - apply ksorted_kdel. apply ksorted_places. apply Hw.
    - apply ksorted_places. apply ksorted_kdel. apply Hw.
    - intros k'. rewrite kget_kdel by (apply ksorted_places, Hw). rewrite !kget_places.
      rewrite kget_kdel by apply Hw. cbn [oeqb keyord]. destruct (key_eqb k' k) eqn:E; auto.
      apply key_eqb_spec in E. subst.
      destruct (existsb (fun pt => key_eqb k (place_key (pl_ev pl) pt)) (pl_places pl)) eqn:Ex; auto.
      apply place_keys in Ex as [_ Ex]. congruence. }
  assert (Ecn : db_counts (remove_key (store_plan d pl) k) = db_counts (store_plan (remove_key d k) pl)).
  { cbn [remove_key store_plan db_counts]. apply dec_incs. apply Hw. }
  assert (Erf : db_ref (remove_key (store_plan d pl) k) = db_ref (store_plan (remove_key d k) pl)).
  { pose proof (dw_ref _ Hw) as Hrw.
    assert (H1 : refs_wf (db_ref (store_plan d pl))) by (apply db_wf_store; auto; apply Hp).
    apply refs_ext.
    - apply refs_wf_cleanup. exact H1.
    - apply db_wf_store; [now apply db_wf_remove|apply Hp].
    - intros i r. cbn [remove_key db_ref]. rewrite refs_at_cleanup by exact H1.
      cbn [store_plan db_ref]. fold (store_refs d pl). fold (store_refs (remove_key d k) pl).
      rewrite !refs_at_kput. destruct (eid_eqb i (ev_id (pl_ev pl))) eqn:Ei.
      + apply eid_eqb_spec in Ei. subst i. destruct (eid_eqb (ev_id (pl_ev pl)) (snd k)) eqn:E; [|tauto].
        apply eid_eqb_spec in E. congruence.
      + unfold store_refs. destruct (pl_latest pl) as [[[r0 n] [j|]]|];
          cbn [remove_key db_ref]; rewrite ?refs_at_drop by (auto using refs_wf_cleanup);
          rewrite ?refs_at_cleanup by auto; try tauto.
        destruct (eid_eqb i (snd k)) eqn:E1; destruct (eid_eqb i j) eqn:E2; try tauto.
        * apply eid_eqb_spec in E1, E2. subst. rewrite (eqb_refl' eid_eqb_spec). rewrite !In_sdel. tauto.
        * destruct (eid_eqb j (snd k)) eqn:E3; [|tauto]. apply eid_eqb_spec in E2, E3. subst.
          rewrite (eqb_refl' eid_eqb_spec) in E1. discriminate. }
  set (a := remove_key (store_plan d pl) k) in *. set (b := store_plan (remove_key d k) pl) in *.
  assert (E1 : db_settings a = db_settings b) by reflexivity.
  assert (E2 : db_parts a = db_parts b) by reflexivity.
  assert (E3 : db_ids a = db_ids b) by reflexivity.
  assert (E4 : db_tss a = db_tss b) by reflexivity.
  assert (E5 : db_latest a = db_latest b) by reflexivity.
  assert (E6 : db_types a = db_types b) by reflexivity.
  clearbody a b. destruct a, b; cbn in *. subst. reflexivity.
Qed.

(** ** Pending changes of a history *)

Definition parts_known (d : ldb) (cf : conf) : Prop :=
  forall pt, In pt (cf_parts cf) -> exists p, kget zord p (db_parts d) = Some (part_data_of pt).

Inductive pendH (d : ldb) (H : history) : changes -> history -> list plan -> Prop :=
| ph_nil : pendH d H no_changes [] []
| ph_snoc : forall c h pls en pl, pendH d H c h pls ->
    accepts (H ++ h) (en_conf en) (en_ev en) = true -> conf_ok (en_conf en) -> event_ok (en_ev en) ->
    plan_for (flush_write d c) (H ++ h) en pl -> parts_known d (en_conf en) ->
    pendH d H (apply_plan c pl) (h ++ [en]) (pls ++ [pl]).

Lemma flush_parts : forall d c, db_parts (flush_write d c) = db_parts d.
Proof. reflexivity. Qed.

Lemma pendH_spec : forall d H K c h pls, repr d H K -> pendH d H c h pls ->
    pend d c pls /\ pend_inv d c /\ repr (flush_write d c) (H ++ h) K.
Proof.
  intros d H K c h pls Hr Hp. pose proof (rp_base _ _ _ Hr) as Hb.
  induction Hp as [|c h pls en pl Hp (IH1 & IH2 & IH3) Ha Hco Hev Hpf Hpk].
  - split; [constructor|]. split; [now apply pend_inv_none|]. rewrite flush_none, app_nil_r. auto.
  - assert (Hpo : plan_ok (flush_write d c) pl) by (eapply plan_for_ok; eauto).
    destruct (flush_apply d c pl Hb IH2 Hpo) as [E Hi]. split; [now constructor|]. split; auto.
    rewrite E, app_assoc. now apply store_repr.
Qed.

Lemma plan_for_ext : forall d d' H en pl, db_types d = db_types d' -> db_parts d = db_parts d' ->
    plan_for d H en pl -> plan_for d' H en pl.
Proof. intros d d' H en pl E1 E2 [A B C D]. constructor; rewrite <- ?E1; auto. intros p t. rewrite <- E2. auto. Qed.

Lemma pendH_remove : forall d H K c h pls k e, repr d H K -> pendH d H c h pls -> kget keyord k (db_ts d) = Some e ->
    pendH (remove_key d k) H c h pls /\ flush_write (remove_key d k) c = remove_key (flush_write d c) k /\
    kget keyord k (db_ts (flush_write d c)) = Some e.
Proof.
  intros d H K c h pls k e Hr Hp Hk. pose proof (rp_base _ _ _ Hr) as Hb.
  pose proof (remove_repr _ _ _ _ _ Hr Hk) as Hr'.
  induction Hp as [|c h pls en pl Hp (IH1 & IH2 & IH3) Ha Hco Hev Hpf Hpk].
  - split; [constructor|]. rewrite !flush_none. auto.
  - destruct (pendH_spec _ _ _ _ _ _ Hr Hp) as (_ & Hi & Hrc).
    assert (Hpo : plan_ok (flush_write d c) pl) by (eapply plan_for_ok; eauto).
    assert (Hpf' : plan_for (flush_write (remove_key d k) c) (H ++ h) en pl).
    { rewrite IH2. eapply plan_for_ext; [| |exact Hpf]; reflexivity. }
    assert (Hp' : pendH (remove_key d k) H (apply_plan c pl) (h ++ [en]) (pls ++ [pl])) by (constructor; auto).
    split; auto.
    destruct (flush_apply d c pl Hb Hi Hpo) as [E _].
    destruct (pendH_spec _ _ _ _ _ _ Hr' IH1) as (_ & Hi' & Hrc').
    assert (Hpo' : plan_ok (flush_write (remove_key d k) c) pl) by (eapply plan_for_ok; eauto).
    destruct (flush_apply (remove_key d k) c pl (rp_base _ _ _ Hr') Hi' Hpo') as [E' _].
    rewrite E, E', IH2. split.
    + symmetry. eapply remove_store; eauto. apply Hrc.
    + cbn [store_plan db_ts]. rewrite kget_places.
      destruct (existsb (fun pt => key_eqb k (place_key (pl_ev pl) pt)) (pl_places pl)) eqn:Ex; auto.
      apply place_keys in Ex as [_ Ex]. apply (ba_ts _ (rp_base _ _ _ Hrc)) in IH3 as [E1 E2].
      exfalso. apply (known_neq _ _ _ E2 Hpo). congruence.
Qed.

(** Several generations of changes. *)
Fixpoint chain (d : ldb) (H : history) (cs : list changes) (hs : list history) : Prop :=
  match cs, hs with
  | [], [] => True
  | c :: cs', h :: hs' => (exists pls, pendH d H c h pls) /\ chain (flush_write d c) (H ++ h) cs' hs'
  | _, _ => False
  end.

Definition written (d : ldb) (cs : list changes) : ldb := fold_left flush_write cs d.

Lemma chain_repr : forall cs d H K hs, repr d H K -> chain d H cs hs -> repr (written d cs) (H ++ concat hs) K.
Proof.
  induction cs as [|c cs IH]; intros d H K [|h hs] Hr Hc; cbn [chain concat written fold_left] in *; try easy.
  - now rewrite app_nil_r.
  - destruct Hc as [[pls Hp] Hc]. rewrite app_assoc. apply IH; auto.
    now apply (pendH_spec _ _ _ _ _ _ Hr Hp).
Qed.

Lemma chain_snoc : forall cs d H hs c h pls, chain d H cs hs -> pendH (written d cs) (H ++ concat hs) c h pls ->
    chain d H (cs ++ [c]) (hs ++ [h]).
Proof.
  induction cs as [|c0 cs IH]; intros d H [|h0 hs] c h pls Hc Hp; cbn [chain concat written fold_left app] in *; try easy.
  - rewrite app_nil_r in Hp. eauto.
  - destruct Hc as [Hx Hc]. split; auto. eapply IH; eauto. rewrite <- app_assoc. exact Hp.
Qed.

Lemma chain_remove : forall cs d H K hs k e, repr d H K -> chain d H cs hs -> kget keyord k (db_ts d) = Some e ->
    chain (remove_key d k) H cs hs /\ written (remove_key d k) cs = remove_key (written d cs) k /\
    kget keyord k (db_ts (written d cs)) = Some e.
Proof.
  induction cs as [|c cs IH]; intros d H K [|h hs] k e Hr Hc Hk; cbn [chain written fold_left] in *; try easy; auto.
  destruct Hc as [[pls Hp] Hc].
  destruct (pendH_remove _ _ _ _ _ _ _ _ Hr Hp Hk) as (H1 & H2 & H3).
  destruct (IH (flush_write d c) (H ++ h) K hs k e) as (H4 & H5 & H6); auto.
  { now apply (pendH_spec _ _ _ _ _ _ Hr Hp). }
  rewrite H2. split; [split; eauto|]. auto.
Qed.
