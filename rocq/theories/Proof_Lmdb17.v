(** LMDB backend: limits of partitions (C27). *)
From Coq Require Import String Bool ZArith QArith Lia Sorted List.
From Verif Require Import Base Kv Model_Types Model_Subscription Model_Order Model_Codec Model_Time Keys
  Spec_Order Spec_Codec Proof_Subscription Proof_Subscription2 Proof_Order Model_Lmdb Model_LmdbSys Spec_Lmdb Spec_LmdbContent Spec_LmdbCleanup
  Proof_Lmdb1 Proof_Lmdb2 Proof_Lmdb3 Proof_Lmdb4 Proof_Lmdb5 Proof_Lmdb6 Proof_Lmdb7 Proof_Lmdb8 Proof_Lmdb9 Proof_Lmdb10
  Proof_Lmdb11 Proof_Lmdb12 Proof_Lmdb13 Proof_Lmdb16.
Import ListNotations.
Open Scope list_scope.
Open Scope Z_scope.

Lemma between_refl : forall d d', (forall p, exists a, entries_of d p = a ++ entries_of d' p) -> between d d d'.
Proof. intros d d' H p. destruct (H p) as [a Ha]. exists [], a. auto. Qed.

Lemma between_l : forall d d1 dm d', (forall p, exists a, entries_of d p = a ++ entries_of d1 p) -> between d1 dm d' -> between d dm d'.
Proof.
  intros d d1 dm d' H Hb p. destruct (H p) as [a Ha]. destruct (Hb p) as (x & y & E1 & E2).
  exists (a ++ x), y. split; auto. rewrite Ha, E1. now rewrite app_assoc.
Qed.

Lemma part_cleaned_split : forall O now lm d d' p r left, part_cleaned O now lm d d' p r left ->
    forall q, exists a, entries_of d q = a ++ entries_of d' q.
Proof.
  intros O now lm d d' p r left H q. destruct (Z.eq_dec q p) as [->|Hq].
  - exists r. apply (pc_split _ _ _ _ _ _ _ _ H).
  - exists []. cbn [app]. symmetry. now apply (pc_other _ _ _ _ _ _ _ _ H).
Qed.


(** All partitions. *)
Lemma cleanup_partitions_effect : forall O now mr ps d acc, ts_wf d -> counts_ok d -> NoDup (keys ps) ->
    let '(d', acc') := cleanup_partitions O now (Some mr) d acc ps in
    exists ks, acc' = acc ++ ks /\ ts_wf d' /\ counts_ok d' /\
      (forall p, exists r, entries_of d p = r ++ entries_of d' p /\ (forall k, In k r <-> In k ks /\ fst (fst k) = p) /\
         (r <> [] -> exists pt lm dm, In (p, pt) ps /\ pt_limit pt = Some lm /\ between d dm d' /\
             least lm <= count (entries_of d' p) /\
             forall a k b, r = a ++ k :: b -> exceeds O lm now dm (count (k :: b ++ entries_of d' p)) k)) /\
      (count acc <= mr -> count acc + count ks <= mr) /\
      (count acc + count ks < mr -> forall p pt lm, In (p, pt) ps -> pt_limit pt = Some lm ->
         exists dm, between d dm d' /\ meets O lm now dm (entries_of d' p)).
Proof.
  intros O now mr. induction ps as [|[i pt] ps IH]; intros d acc Hw Hc Hn; cbn [cleanup_partitions].
  - exists []. rewrite app_nil_r. split; auto. split; auto. split; auto. split; [|split].
    + intros p. exists []. split; auto. split; [intros k; cbn; tauto|contradiction].
    + change (count (A := ts_key) []) with 0. lia.
    + intros _ p pt lm [].
  - inversion Hn as [|? ? Hni Hn']; subst. unfold keys in Hni. cbn [map fst] in Hni.
    destruct (pt_limit pt) as [lm|] eqn:El.
    2:{ specialize (IH d acc Hw Hc Hn'). destruct (cleanup_partitions O now (Some mr) d acc ps) as [d' acc'].
        destruct IH as (ks & H1 & H2 & H3 & H4 & H5 & H6). exists ks. split; auto. split; auto. split; auto. split; [|split; auto].
        - intros p. destruct (H4 p) as (r & E1 & E2 & E3). exists r. split; auto. split; auto. intros Hr.
          destruct (E3 Hr) as (pt' & lm & dm & Hx & Hy). exists pt', lm, dm. split; [now right|auto].
        - intros Hlt p pt' lm' [[= <- <-]|Hi] Hl; [congruence|]. eapply H6; eauto. }
    change (zlen acc) with (count acc).
    destruct (Z.ltb_spec (mr - count acc) 1) as [Hlt|Hge].
    + exists []. rewrite app_nil_r. split; auto. split; auto. split; auto. split; [|split].
      * intros p. exists []. split; auto. split; [intros k; cbn; tauto|contradiction].
      * change (count (A := ts_key) []) with 0. lia.
      * change (count (A := ts_key) []) with 0. lia.
    + pose proof (cleanup_partition_effect O now d i lm (mr - count acc) Hw Hc) as He.
      destruct (cleanup_partition O now d i lm (Some (mr - count acc))) as [d1 r1]. destruct He as (Hp & Hw1 & Hc1).
      specialize (IH d1 (acc ++ r1) Hw1 Hc1 Hn'). destruct (cleanup_partitions O now (Some mr) d1 (acc ++ r1) ps) as [d' acc'].
      destruct IH as (ks & H1 & H2 & H3 & H4 & H5 & H6). exists (r1 ++ ks).
      assert (Hin1 : forall k, In k r1 -> fst (fst k) = i).
      { intros k Hk. assert (Hx : In k (entries_of d i)) by (rewrite (pc_split _ _ _ _ _ _ _ _ Hp); apply in_or_app; auto).
        now apply entries_In in Hx. }
      assert (Hd : forall p, exists a, entries_of d1 p = a ++ entries_of d' p).
      { intros p. destruct (H4 p) as (r & E1 & _). eauto. }
      assert (Hi0 : entries_of d' i = entries_of d1 i /\ forall k, In k ks -> fst (fst k) <> i).
      { destruct (H4 i) as (r & E1 & E2 & E3). destruct r as [|k r].
        - split; [now rewrite E1|]. intros k Hk E. apply (E2 k). auto.
        - exfalso. destruct E3 as (pt' & lm' & dm & Hx & _); [discriminate|]. apply Hni. now apply (in_map fst) in Hx. }
      destruct Hi0 as [Hi1 Hi2].
      rewrite !count_app in *. rewrite app_assoc. split; auto. split; auto. split; auto. split; [|split].
      * intros p. destruct (Z.eq_dec p i) as [->|Hne].
        -- exists r1. rewrite Hi1. split; [apply (pc_split _ _ _ _ _ _ _ _ Hp)|]. split.
           ++ intros k. rewrite in_app_iff. split; [intros Hk; auto|]. intros [[Hk|Hk] E]; auto. now apply Hi2 in Hk.
           ++ intros Hr. exists pt, lm, d. split; [now left|]. split; auto. split.
              ** apply between_refl. intros p. destruct (Hd p) as [a Ha].
                 destruct (part_cleaned_split _ _ _ _ _ _ _ _ Hp p) as [b Hb]. exists (b ++ a). rewrite Hb, Ha. now rewrite app_assoc.
              ** split; [now apply (pc_min _ _ _ _ _ _ _ _ Hp)|apply (pc_over _ _ _ _ _ _ _ _ Hp)].
        -- destruct (H4 p) as (r & E1 & E2 & E3). exists r. rewrite <- (pc_other _ _ _ _ _ _ _ _ Hp p Hne). split; auto. split.
           ++ intros k. rewrite E2, in_app_iff. split; [tauto|]. intros [[Hk|Hk] E]; auto. apply Hin1 in Hk. congruence.
           ++ intros Hr. destruct (E3 Hr) as (pt' & lm' & dm & Hx & Hl & Hb & Hy). exists pt', lm', dm. split; [now right|].
              split; auto. split; auto. eapply between_l; eauto. eapply part_cleaned_split; eauto.
      * intros Hl. pose proof (pc_left _ _ _ _ _ _ _ _ Hp). lia.
      * intros Hl p pt' lm' [[= <- <-]|Hi] Hlm.
        -- assert (lm' = lm) by congruence. subst lm'. exists d. rewrite Hi1. split.
           ++ apply between_refl. intros p. destruct (Hd p) as [a Ha].
              destruct (part_cleaned_split _ _ _ _ _ _ _ _ Hp p) as [b Hb]. exists (b ++ a). rewrite Hb, Ha. now rewrite app_assoc.
           ++ apply (pc_meets _ _ _ _ _ _ _ _ Hp). pose proof (count_nonneg _ ks). lia.
        -- destruct (H6 ltac:(lia) p pt' lm' Hi Hlm) as (dm & Hb & Hm). exists dm. split; auto.
           eapply between_l; eauto. eapply part_cleaned_split; eauto.
Qed.

Lemma cleanup_effect : forall O cf now d H K ps d' ks, repr d H K -> numbered (db_parts d) (cf_parts cf) ps ->
    cleanup O ps now d = (d', ks) -> cleaned O cf now d d' ks.
Proof.
  intros O cf now d H K ps d' ks Hr Hn Ec. pose proof (repr_ts_wf _ _ _ Hr) as Hw.
  assert (Ho : one_id (db_parts d)) by (exact (rp_pinj _ _ _ Hr)).
  destruct (cleanup_spec _ _ _ _ _ _ Hw Ec) as (Ed & Hnd & Hks).
  pose proof (cleanup_partitions_effect O now cleanup_max_results ps d [] Hw (repr_counts _ _ _ Hr) (numbered_nodup _ _ _ Hn)) as He.
  unfold cleanup in Ec. destruct (cleanup_partitions O now (Some cleanup_max_results) d [] ps) as [d1 acc].
  destruct He as (ks1 & E1 & Hw1 & Hc1 & H4 & H5 & H6). cbn [app] in E1. subst acc.
  assert (E : ks = ks1 /\ db_ts d' = db_ts d1).
  { destruct ks1; injection Ec as <- <-; auto. }
  destruct E as [-> Ets].
  assert (Ee : forall p, entries_of d' p = entries_of d1 p) by (intros p; unfold entries_of; now rewrite Ets).
  assert (Hbt : forall dm, between d dm d1 -> between d dm d').
  { intros dm Hb p. rewrite Ee. apply Hb. }
  change (count (A := ts_key) []) with 0 in *. unfold cleanup_max_results in *.
  assert (Hlim : forall p pt lm, In (p, pt) ps -> pt_limit pt = Some lm -> limit_in cf d p lm).
  { intros p pt lm Hi Hl. destruct (numbered_In _ _ _ _ _ Ho Hn Hi) as (Hk & a & b & E & Hb).
    exists a, pt, b. split; auto. split; auto. split; auto. apply (kget_In zord); auto. apply Hr. }
  constructor.
  - lia.
  - intros p. destruct (H4 p) as (r & X1 & X2 & X3). exists r. rewrite Ee. split; auto. split; auto. intros Hne.
    destruct (X3 Hne) as (pt & lm & dm & Y1 & Y2 & Y3 & Y4). exists lm, dm. split; [eauto|]. split; auto.
  - intros k k' Hk Hk'. destruct (H4 (fst (fst k))) as (r & X1 & X2 & _). rewrite Ee in Hk'.
    pose proof (entries_sorted d (fst (fst k)) Hw) as Hs. rewrite X1 in Hs.
    pose proof (SS_app_lt _ _ _ _ _ _ Hs (proj2 (X2 k) (conj Hk eq_refl)) Hk') as Hlt.
    apply entries_In in Hk' as [_ Hp]. unfold olt in Hlt. cbn [oltb keyord] in Hlt. apply key_ltb_spec in Hlt.
    destruct k as [[p1 t1] i1], k' as [[p2 t2] i2]. unfold key_lt in Hlt. unfold older, entry_ts. cbn [fst snd] in *.
    rewrite ts_ltb_spec, eid_ltb_spec. destruct Hlt as [Hlt|[_ Hlt]]; [lia|auto].
  - intros k e. subst d'. rewrite fold_remove_key. cbn [db_ts].
    assert (Hg : forall ks m, ksorted keyord m -> (In (k, e) (fold_left (fun m k => kdel keyord k m) ks m) <-> In (k, e) m /\ ~ In k ks)).
    { clear. induction ks as [|x ks IH]; intros m Hs; cbn [fold_left In]; [tauto|].
      rewrite IH by (now apply ksorted_kdel). rewrite <- !(kget_In keyord) by (auto using ksorted_kdel).
      rewrite (kget_kdel keyord) by auto. destruct (oeqb keyord k x) eqn:E.
      - apply (oeqb_spec keyord) in E. subst. split; [intros [[=] _]|tauto].
      - assert (x <> k). { intros ->. rewrite (proj2 (oeqb_spec keyord k k) eq_refl) in E. discriminate. } tauto. }
    apply Hg. apply Hw.
  - intros Hl p lm (a & pt & b & Ep & El & Hi & Hb).
    destruct (H6 ltac:(lia) p pt lm) as (dm & Y1 & Y2).
    + eapply numbered_last; eauto. apply (kget_In zord); auto. apply Hr.
    + exact El.
    + exists dm. rewrite Ee. auto.
Qed.

(** ** Work in waiting *)

Definition job_time (j : job) : option timestamp := match j with JCleanup now => Some now | _ => None end.

Lemma waiting_jobs : forall O cf tr s, execution O cf tr s -> map job_time (s_jobs s) = waiting tr.
Proof.
  intros O cf tr. induction tr as [|[o x] tr IH] using rev_ind; intros s H.
  - destruct H as (s0 & H1 & H2 & _). inversion H2; subst. unfold start in H1.
    destruct (open_db cf empty_db) as [[d m]|]; [|discriminate]. injection H1 as <-. reflexivity.
  - apply execution_snoc in H as (s1 & H1 & He & _). specialize (IH _ H1).
    unfold waiting. rewrite fold_left_app. cbn [fold_left]. fold (waiting tr). rewrite <- IH. clear IH H1.
    destruct o as [es| |now|q|q pr|q pr| |q|c]; cbn [exec] in He; cbn [waiting_step].
    + destruct (register_events _ _ _ _) as [[m c]|]; [|discriminate]. injection He as <- <-. reflexivity.
    + injection He as <- <-. cbn [s_jobs]. now rewrite map_app.
    + injection He as <- <-. cbn [push s_jobs]. now rewrite map_app.
    + injection He as <- <-. reflexivity.
    + destruct (server_query_start pr); injection He as <- <-; cbn [push s_jobs]; [now rewrite map_app|reflexivity].
    + unfold ts_query_step in He. destruct (ts_query_start _ _ _ _) as [[[sub mx] [part|]]|]; try (injection He as <- <-; reflexivity).
      destruct (qt_order pr); [|injection He as <- <-; cbn [push s_jobs]; now rewrite map_app]. destruct (query_pending _ _ _ _) as [es f].
      destruct (filter_done f); injection He as <- <-; [reflexivity|]. cbn [push s_jobs]. now rewrite map_app.
    + unfold work in He. destruct (s_jobs s1) as [|j js] eqn:Ej; [injection He as <- <-; now rewrite Ej|]. destruct j.
      * injection He as <- <-. reflexivity.
      * destruct (cleanup _ _ _ _) as [d' ks]. injection He as <- <-. reflexivity.
      * destruct (query_refs _ _ _ _ _); [|discriminate]. injection He as <- <-. reflexivity.
      * destruct (query_stored _ _ _ _ _ _). injection He as <- <-. reflexivity.
    + destruct (take_ready _ _) as [[r rs]|]; [|discriminate]. injection He as <- <-. reflexivity.
    + destruct (open_db c (s_disk s1)) as [[d' m]|]; [|discriminate]. injection He as <- <-. reflexivity.
Qed.

Theorem final_C27 : forall O cf tr s s' ks,
    execution O cf tr s -> execution O cf (tr ++ [(OWork, Cleaned ks)]) s' ->
    exists now, hd_error (waiting tr) = Some (Some now) /\
      cleaned O (w_conf (watch_run cf tr)) now (s_disk s) (s_disk s') ks.
Proof.
  intros O cf tr s s' ks H1 H2. pose proof (execution_inv _ _ _ _ H1) as Hi. pose proof (execution_table _ _ _ _ H1) as Ht.
  pose proof (waiting_jobs _ _ _ _ H1) as Hj. apply execution_snoc in H2 as (s1 & H3 & He & _).
  assert (s1 = s) by (eapply execution_fun; eauto). subst s1.
  cbn [exec] in He. unfold work in He. rewrite <- Hj.
  destruct (s_jobs s) as [|[c|now'|q p mx g|q p part sub mx g pre f] js]; try discriminate.
  - destruct (cleanup O (m_parts (s_mem s)) now' (s_disk s)) as [d' ks'] eqn:Ec.
    injection He as <- <-. exists now'. split; [reflexivity|].
    cbn [done_ s_disk]. rewrite <- (si_conf _ _ Hi). eapply cleanup_effect; eauto. apply Hi.
  - destruct (query_refs _ _ _ _ _); discriminate.
  - destruct (query_stored _ _ _ _ _ _); discriminate.
Qed.

(** ** Repetition *)

Lemma NoDup_app_disj : forall (A : Type) (a b : list A), NoDup a -> NoDup b -> (forall x, In x a -> ~ In x b) -> NoDup (a ++ b).
Proof.
  induction a as [|x a IH]; intros b Ha Hb Hd; cbn [app]; auto. inversion Ha; subst. constructor.
  - rewrite in_app_iff. intros [?|?]; [contradiction|]. apply (Hd x); cbn; auto.
  - apply IH; auto. intros y Hy. apply Hd. now right.
Qed.

Lemma cleaned_shrinks : forall O cf now d d' ks H K, repr d H K -> cleaned O cf now d d' ks -> NoDup ks -> ts_wf d' ->
    (forall k, In k ks -> In k (keys (db_ts d))) -> count ks + count (db_ts d') <= count (db_ts d).
Proof.
  intros O cf now d d' ks H K Hr Hc Hn Hw Hin.
  assert (Hl : forall (m : list (ts_key * event)), List.length m = List.length (keys m)) by (intros m; unfold keys; now rewrite map_length).
  unfold count. rewrite !Hl. rewrite <- Nat2Z.inj_add, <- app_length. apply Nat2Z.inj_le.
  apply NoDup_incl_length.
  - apply NoDup_app_disj; auto; [apply (ksorted_NoDup keyord), Hw|].
    intros k Hk Hk'. unfold keys in Hk'. apply in_map_iff in Hk' as ([k1 e] & <- & Hx). apply (cl_kept _ _ _ _ _ _ Hc) in Hx as [_ Hx]. auto.
  - intros k Hk. apply in_app_or in Hk as [Hk|Hk]; auto. unfold keys in *. apply in_map_iff in Hk as ([k1 e] & <- & Hx).
    apply (cl_kept _ _ _ _ _ _ Hc) in Hx as [Hx _]. now apply (in_map fst) in Hx.
Qed.

Lemma between_trans_l : forall O cf now d d1 dm d' ks, cleaned O cf now d d1 ks -> between d1 dm d' -> between d dm d'.
Proof.
  intros O cf now d d1 dm d' ks Hc. apply between_l. intros p. destruct (cl_removed _ _ _ _ _ _ Hc p) as (r & E & _). eauto.
Qed.

Theorem final_C27_repeat : forall O cf tr s clock, execution O cf tr s -> waiting tr = [] ->
    exists l ks s', let now := clock (List.length l) in
      map fst l = map clock (seq 0 (List.length l)) /\
      (forall x, In x l -> 1024 <= count (snd x)) /\ count ks < 1024 /\
      1024 * count l <= count (db_ts (s_disk s)) /\
      execution O cf (tr ++ passes (l ++ [(now, ks)])) s' /\
      forall p lm, limit_in (w_conf (watch_run cf tr)) (s_disk s) p lm ->
        exists dm, between (s_disk s) dm (s_disk s') /\ meets O lm now dm (entries_of (s_disk s') p).
Proof.
  intros O cf tr s clock H Hwt. remember (List.length (db_ts (s_disk s))) as n eqn:En.
  revert tr s clock H Hwt En. induction n as [n IH] using (well_founded_induction lt_wf). intros tr s clock H Hwt En.
  pose proof (execution_inv _ _ _ _ H) as Hi. pose proof (si_repr _ _ Hi) as Hr.
  set (s1 := push s (JCleanup (clock 0%nat))).
  assert (X1 : execution O cf (tr ++ [(OCleanup (clock 0%nat), Quiet)]) s1).
  { apply execution_snoc. exists s. split; auto. split; [reflexivity|]. split; constructor. }
  pose proof (waiting_jobs _ _ _ _ H) as Hj. rewrite Hwt in Hj. apply map_eq_nil in Hj.
  destruct (cleanup O (m_parts (s_mem s)) (clock 0%nat) (s_disk s)) as [d' ks] eqn:Ec.
  set (s2 := done_ s1 d' [] (s_ready s1)).
  assert (X2 : execution O cf ((tr ++ [(OCleanup (clock 0%nat), Quiet)]) ++ [(OWork, Cleaned ks)]) s2).
  { apply execution_snoc. exists s1. split; auto. split; [|split; constructor]. cbn [exec]. unfold work, s1, push. rewrite Hj.
    cbn [s_jobs app s_mem s_disk]. rewrite Ec. reflexivity. }
  destruct (final_C27 _ _ _ _ _ _ X1 X2) as (now & Hh & Hc).
  assert (En' : now = clock 0%nat).
  { unfold waiting in Hh. rewrite fold_left_app in Hh. fold (waiting tr) in Hh. rewrite Hwt in Hh. cbn in Hh. congruence. }
  subst now. assert (Ecf : w_conf (watch_run cf (tr ++ [(OCleanup (clock 0%nat), Quiet)])) = w_conf (watch_run cf tr)).
  { rewrite watch_run_snoc. reflexivity. }
  rewrite Ecf in Hc. change (s_disk s1) with (s_disk s) in Hc. change (s_disk s2) with d' in Hc.
  rewrite <- app_assoc in X2. cbn [app] in X2.
  destruct (Z_lt_le_dec (count ks) 1024) as [Hlt|Hge].
  - exists [], ks, s2. cbn [List.length map seq app]. split; auto. split; [easy|]. split; auto.
    split; [change (count (A := timestamp * list ts_key) []) with 0; pose proof (count_nonneg _ (db_ts (s_disk s))); lia|].
    split; [exact X2|]. exact (cl_done _ _ _ _ _ _ Hc Hlt).
  - destruct (cleanup_spec _ _ _ _ _ _ (repr_ts_wf _ _ _ Hr) Ec) as (Ed & Hnd & Hks).
    pose proof (execution_inv _ _ _ _ X2) as Hi2.
    pose proof (cleaned_shrinks _ _ _ _ _ _ _ _ Hr Hc Hnd (repr_ts_wf _ _ _ (si_repr _ _ Hi2)) Hks) as Hsh.
    assert (Hlen : (List.length (db_ts d') < n)%nat). { subst n. unfold count in *. lia. }
    destruct (IH _ Hlen _ s2 (fun i => clock (S i)) X2) as (l & ks' & s' & I1 & I2 & I3 & I4 & I5 & I6); [|reflexivity|].
    { unfold waiting. rewrite fold_left_app. fold (waiting tr). rewrite Hwt. reflexivity. }
    exists ((clock 0%nat, ks) :: l), ks', s'. cbn zeta in *. cbn [List.length map seq fst]. split.
    { rewrite I1. f_equal. rewrite <- seq_shift, map_map. reflexivity. }
    split. { intros x [<-|Hx]; auto. }
    split; auto. split.
    { change (s_disk s2) with d' in I4. unfold count in *. cbn [List.length]. lia. }
    split.
    { rewrite <- app_assoc in I5. exact I5. }
    intros p lm Hl. assert (Ew : w_conf (watch_run cf (tr ++ [(OCleanup (clock 0%nat), Quiet); (OWork, Cleaned ks)])) = w_conf (watch_run cf tr)).
    { change [(OCleanup (clock 0%nat), Quiet); (OWork, Cleaned ks)] with ([(OCleanup (clock 0%nat), Quiet)] ++ [(OWork, Cleaned ks)]).
      rewrite app_assoc, watch_run_snoc, watch_run_snoc. reflexivity. }
    rewrite Ew in I6. destruct (I6 p lm) as (dm & Y1 & Y2).
    + destruct Hl as (a & pt & b & Z1 & Z2 & Z3 & Z4). exists a, pt, b. split; auto. split; auto. split; auto.
      change (s_disk s2) with d'. rewrite Ed, removes_parts. exact Z3.
    + exists dm. split; auto. change (s_disk s2) with d' in Y1. eapply between_trans_l; eauto.
Qed.
