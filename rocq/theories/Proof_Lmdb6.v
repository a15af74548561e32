(** LMDB backend: cleanup removes entries one by one. *)
From Coq Require Import String Bool ZArith Lia Sorted List.
From Verif Require Import Base Kv Model_Types Model_Subscription Model_Order Model_Codec Keys
  Proof_Subscription Proof_Subscription2 Proof_Order Model_Lmdb Model_LmdbSys Spec_Lmdb
  Proof_Lmdb1 Proof_Lmdb2 Proof_Lmdb3 Proof_Lmdb4 Proof_Lmdb5.
Import ListNotations.
Open Scope list_scope.
Open Scope Z_scope.

(** Timestamps and ids of stored keys are not below the smallest ones. *)
Definition key_low (k : ts_key) : Prop :=
  ts_leb min_timestamp (snd (fst k)) = true /\ eid_leb zero_id (snd k) = true.
Definition ts_low (d : ldb) : Prop := forall k, In k (keys (db_ts d)) -> key_low k.

Lemma eqb_leb_asym_id : forall i, eid_leb zero_id i = true -> eid_ltb i zero_id = false.
Proof. intros i H. rewrite eid_leb_ltb in H. now apply negb_true_iff. Qed.

Lemma key_low_ltb : forall k q, key_low k -> key_ltb k (q, min_timestamp, zero_id) = (fst (fst k) <? q).
Proof.
  intros [[p t] i] q [H1 H2]. cbn [fst snd] in *. unfold key_ltb.
  rewrite ts_leb_ltb in H1. apply negb_true_iff in H1. rewrite H1.
  rewrite (eqb_leb_asym_id _ H2). cbn [fst]. rewrite andb_false_r. cbn [orb]. rewrite andb_false_r. now rewrite orb_false_r.
Qed.

Lemma repr_low : forall d H K, repr d H K -> ts_low d.
Proof.
  intros d H K Hr k Hk. apply In_keys_ex in Hk as [e Hk].
  apply (kget_In keyord) in Hk; [|apply (rp_base _ _ _ Hr)].
  apply (rp_ts _ _ _ Hr) in Hk as [(cf & pt & Hin & _ & _ & Hpl & Hid) _].
  pose proof (rp_evs _ _ _ Hr _ Hin) as ((Hi1 & Hi2 & Hi3) & _ & Ht & Hs). cbn [en_ev] in *.
  split.
  - assert (Hok : ts_ok (snd (fst k))).
    { unfold place in Hpl. destruct (node_matches _ _); [|discriminate]. destruct (pt_order pt); [congruence|auto]. }
    destruct Hok as [Ho1 Ho2]. unfold ts_leb, min_timestamp. cbn [ts_s ts_us]. lia.
  - rewrite Hid. unfold eid_leb, zero_id. cbn [eid_server eid_session eid_instance]. lia.
Qed.

(** ** The deleting loop *)

Lemma cleanup_loop_firstn : forall mr me mi dk stop entries l n,
    exists j, cleanup_loop mr me mi dk stop entries n l = firstn j (keys l).
Proof.
  intros mr me mi dk stop entries. induction l as [|[k e] l IH]; intros n; cbn [cleanup_loop].
  - exists O. reflexivity.
  - destruct (match mr with Some m => m <=? n | None => false end); [exists O; reflexivity|].
    destruct (entries - n <=? mi); [exists O; reflexivity|].
    destruct (negb (key_ltb k stop)); [exists O; reflexivity|].
    destruct (_ && _); [exists O; reflexivity|].
    destruct (IH (n + 1)) as [j Hj]. exists (S j). cbn [keys map fst firstn]. now rewrite Hj.
Qed.

Lemma cleanup_loop_stop : forall mr me mi dk stop entries l n k,
    In k (cleanup_loop mr me mi dk stop entries n l) -> key_ltb k stop = true.
Proof.
  intros mr me mi dk stop entries. induction l as [|[k' e] l IH]; intros n k; cbn [cleanup_loop]; [easy|].
  destruct (match mr with Some m => m <=? n | None => false end); [easy|].
  destruct (entries - n <=? mi); [easy|].
  destruct (key_ltb k' stop) eqn:E; cbn [negb]; [|easy].
  destruct (_ && _); [easy|]. intros [->|H]; eauto.
Qed.

Lemma dropwhile_suffix : forall (A : Type) (f : A -> bool) l, exists p, l = p ++ dropwhile f l.
Proof.
  intros A f l. induction l as [|x l [p IH]]; [exists []; reflexivity|]. cbn [dropwhile].
  destruct (f x); [|exists []; reflexivity]. exists (x :: p). cbn. now rewrite <- IH.
Qed.

Lemma dropwhile_In : forall (A : Type) (f : A -> bool) l x, In x (dropwhile f l) -> In x l.
Proof. intros A f l x H. destruct (dropwhile_suffix A f l) as [p E]. rewrite E. apply in_or_app. auto. Qed.

Lemma dropwhile_sorted : forall (V : Type) (l : list (ts_key * V)) s kv, ksorted keyord l ->
    In kv (dropwhile (fun kv => key_ltb (fst kv) s) l) -> key_ltb (fst kv) s = false.
Proof.
  intros V l s kv. unfold ksorted, keys. induction l as [|[k v] l IH]; cbn [dropwhile map fst]; intros Hs H; [easy|].
  inversion Hs as [|? ? Hs' Hall]; subst. destruct (key_ltb k s) eqn:E; auto.
  destruct H as [<-|H]; auto. rewrite Forall_forall in Hall.
  assert (Hin : In (fst kv) (map fst l)) by (apply in_map; auto). apply Hall in Hin. unfold olt in Hin. cbn [oltb keyord] in Hin.
  destruct (key_ltb (fst kv) s) eqn:E2; auto. pose proof (otrans keyord k (fst kv) s Hin E2) as E3. cbn [oltb keyord] in E3. congruence.
Qed.

Lemma In_firstn : forall (A : Type) n (l : list A) x, In x (firstn n l) -> In x l.
Proof.
  intros A n. induction n as [|n IH]; intros [|y l] x; cbn; try easy. intros [H|H]; auto.
Qed.

Lemma NoDup_firstn : forall (A : Type) n (l : list A), NoDup l -> NoDup (firstn n l).
Proof.
  intros A n. induction n as [|n IH]; intros [|y l] H; cbn; try constructor.
  - inversion H; subst. intros Hin. apply In_firstn in Hin. auto.
  - inversion H; auto.
Qed.

Lemma NoDup_app_tail : forall (A : Type) (l1 l2 : list A), NoDup (l1 ++ l2) -> NoDup l2.
Proof. intros A l1 l2. induction l1 as [|x l1 IH]; cbn; auto. intros H. inversion H; auto. Qed.

Lemma fold_dec : forall p (ks : list ts_key) m, ksorted zord m -> (forall k, In k ks -> fst (fst k) = p) ->
    fold_left (fun m (k : ts_key) => dec_count m (fst (fst k))) ks m =
    match ks with [] => m | _ => kput zord p (partition_count m p - zlen ks) m end.
Proof.
  intros p ks. induction ks as [|k ks IH]; intros m Hs Hp; [reflexivity|]. cbn [fold_left].
  rewrite (Hp k (or_introl eq_refl)).
  rewrite IH; [|now apply ksorted_kput|intros; apply Hp; now right].
  destruct ks as [|k' ks].
  - unfold dec_count. f_equal.
  - rewrite partition_count_dec, Z.eqb_refl. apply (kext zord).
    + apply ksorted_kput. now apply ksorted_kput.
    + now apply ksorted_kput.
    + intros q. unfold dec_count. rewrite !kget_kput. destruct (oeqb zord q p); auto. f_equal. unfold zlen. cbn [List.length]. lia.
Qed.

Lemma fold_remove_ts : forall ks d, fold_left remove_ts ks d =
    Ldb (db_settings d) (db_ids d) (db_tss d) (db_ref d) (db_latest d) (db_types d)
        (fold_left (fun m k => kdel keyord k m) ks (db_ts d)) (db_parts d)
        (fold_left (fun m (k : ts_key) => dec_count m (fst (fst k))) ks (db_counts d)).
Proof.
  induction ks as [|k ks IH]; intros d; cbn [fold_left]; [now destruct d|]. rewrite IH. reflexivity.
Qed.

Lemma fold_remove_key : forall ks d, fold_left remove_key ks d =
    Ldb (db_settings d) (db_ids d) (db_tss d) (fold_left ref_cleanup_one ks (db_ref d)) (db_latest d) (db_types d)
        (fold_left (fun m k => kdel keyord k m) ks (db_ts d)) (db_parts d)
        (fold_left (fun m (k : ts_key) => dec_count m (fst (fst k))) ks (db_counts d)).
Proof.
  induction ks as [|k ks IH]; intros d; cbn [fold_left]; [now destruct d|]. rewrite IH. reflexivity.
Qed.

Definition ts_wf (d : ldb) : Prop := ksorted keyord (db_ts d) /\ ksorted zord (db_counts d) /\ ts_low d.

Lemma keys_kdel : forall (K V : Type) (o : ord K) k (m : list (K * V)) x, ksorted o m ->
    (In x (keys (kdel o k m)) <-> In x (keys m) /\ x <> k).
Proof.
  intros K V o k m x Hs. split.
  - intros H. split; [eapply keys_ddel_incl; eauto|]. intros ->.
    apply (proj1 (kget_None o k (kdel o k m))); auto. rewrite kget_kdel by auto. now rewrite (eqb_refl' (oeqb_spec o)).
  - intros [H Hne]. destruct (kget o x (kdel o k m)) as [v|] eqn:E.
    + apply kget_Some_In in E. eapply keys_In; eauto.
    + exfalso. rewrite kget_kdel in E by auto. destruct (oeqb o x k) eqn:E2; [apply oeqb_spec in E2; auto|].
      apply (kget_None o) in E. auto.
Qed.

Lemma ts_wf_remove : forall d k, ts_wf d -> ts_wf (remove_ts d k).
Proof.
  intros d k (H1 & H2 & H3). split; [|split].
  - now apply ksorted_kdel.
  - now apply ksorted_kput.
  - intros x Hx. apply H3. cbn [remove_ts db_ts] in Hx. eapply keys_ddel_incl; eauto.
Qed.

Lemma ts_wf_removes : forall ks d, ts_wf d -> ts_wf (fold_left remove_ts ks d).
Proof. induction ks as [|k ks IH]; intros d H; cbn [fold_left]; auto. apply IH. now apply ts_wf_remove. Qed.

Lemma keys_removes : forall ks d x, ts_wf d ->
    (In x (keys (db_ts (fold_left remove_ts ks d))) <-> In x (keys (db_ts d)) /\ ~ In x ks).
Proof.
  induction ks as [|k ks IH]; intros d x H; cbn [fold_left In]; [tauto|].
  rewrite IH by (now apply ts_wf_remove). cbn [remove_ts db_ts]. rewrite keys_kdel by apply H. intuition.
Qed.

Lemma cleanup_partition_spec : forall O now d p lm mr, ts_wf d ->
    let '(d', ks) := cleanup_partition O now d p lm mr in
    d' = fold_left remove_ts ks d /\ NoDup ks /\
    (forall k, In k ks -> In k (keys (db_ts d)) /\ fst (fst k) = p).
Proof.
  intros O now d p lm mr (H1 & H2 & H3). unfold cleanup_partition.
  set (me := min_opt _ _). set (dk := match lm_duration lm with Some _ => _ | None => _ end).
  set (mi := match lm_min lm with Some n => n | None => 0 end).
  set (entries := partition_count (db_counts d) p).
  set (l := dropwhile (fun kv => key_ltb (fst kv) (p, min_timestamp, zero_id)) (db_ts d)).
  set (ks := cleanup_loop mr me mi dk (p + 1, min_timestamp, zero_id) entries 0 l).
  assert (Hks : exists j, ks = firstn j (keys l)) by apply cleanup_loop_firstn.
  destruct Hks as [j Hj].
  assert (Hin : forall k, In k ks -> In k (keys l)). { intros k Hk. rewrite Hj in Hk. eapply In_firstn; eauto. }
  assert (Hin2 : forall k, In k ks -> In k (keys (db_ts d)) /\ fst (fst k) = p).
  { intros k Hk. assert (Hkd : In k (keys (db_ts d))).
    { apply Hin, In_keys_ex in Hk as [e Hk]. apply dropwhile_In in Hk. eapply keys_In; eauto. }
    split; auto. pose proof (H3 _ Hkd) as Hlow.
    pose proof (cleanup_loop_stop _ _ _ _ _ _ _ _ _ Hk) as Hs. rewrite key_low_ltb in Hs by auto.
    apply Hin, In_keys_ex in Hk as [e Hk]. apply dropwhile_sorted in Hk; auto. cbn [fst] in Hk.
    rewrite key_low_ltb in Hk by auto. lia. }
  split; [|split; auto].
  - rewrite fold_remove_ts. f_equal. rewrite (fold_dec p); auto. intros k Hk. now apply Hin2.
  - rewrite Hj. apply NoDup_firstn. pose proof (ksorted_NoDup keyord _ H1) as Hnd. unfold l.
    destruct (dropwhile_suffix _ (fun kv => key_ltb (fst kv) (p, min_timestamp, zero_id)) (db_ts d)) as [q E].
    rewrite E in Hnd. unfold keys in *. rewrite map_app in Hnd. now apply NoDup_app_tail in Hnd.
Qed.

Lemma cleanup_partitions_spec : forall O now mr ps d acc, ts_wf d ->
    let '(d', acc') := cleanup_partitions O now mr d acc ps in
    exists ks, acc' = acc ++ ks /\ d' = fold_left remove_ts ks d /\ NoDup ks /\
               (forall k, In k ks -> In k (keys (db_ts d))).
Proof.
  intros O now mr. induction ps as [|[i p] ps IH]; intros d acc H; cbn [cleanup_partitions].
  - exists []. rewrite app_nil_r. split; [auto|split; [auto|split; [constructor|easy]]].
  - destruct (pt_limit p) as [lm|]; [|now apply IH].
    destruct (match match mr with Some m => Some (m - zlen acc) | None => None end with Some m => m <? 1 | None => false end).
    + exists []. rewrite app_nil_r. split; [auto|split; [auto|split; [constructor|easy]]].
    + pose proof (cleanup_partition_spec O now d i lm (match mr with Some m => Some (m - zlen acc) | None => None end) H) as Hp.
      destruct (cleanup_partition O now d i lm _) as [d1 ks1]. destruct Hp as (E1 & Hn1 & Hi1).
      specialize (IH d1 (acc ++ ks1)). destruct (cleanup_partitions O now mr d1 (acc ++ ks1) ps) as [d2 acc2].
      destruct IH as (ks2 & E2 & E3 & Hn2 & Hi2); [subst d1; now apply ts_wf_removes|].
      exists (ks1 ++ ks2). split; [now rewrite app_assoc|]. split; [now rewrite fold_left_app, <- E1|].
      assert (Hx : forall k, In k ks2 -> In k (keys (db_ts d)) /\ ~ In k ks1).
      { intros k Hk. apply Hi2 in Hk. rewrite E1, keys_removes in Hk by auto. exact Hk. }
      split.
      * apply NoDup_app_intro; auto. intros k Hk1 Hk2. apply Hx in Hk2 as [_ Hk2]. auto.
      * intros k Hk. apply in_app_or in Hk as [Hk|Hk]; [now apply Hi1|now apply Hx].
Qed.

Lemma cleanup_spec : forall O ps now d d' ks, ts_wf d -> cleanup O ps now d = (d', ks) ->
    d' = fold_left remove_key ks d /\ NoDup ks /\ (forall k, In k ks -> In k (keys (db_ts d))).
Proof.
  intros O ps now d d' ks H. unfold cleanup.
  pose proof (cleanup_partitions_spec O now (Some cleanup_max_results) ps d [] H) as Hp.
  destruct (cleanup_partitions O now (Some cleanup_max_results) d [] ps) as [d1 acc].
  destruct Hp as (ks1 & E1 & E2 & Hn & Hi). cbn [app] in E1. subst acc.
  intros E. assert (E' : ks = ks1 /\ d' = fold_left remove_key ks1 d).
  { rewrite fold_remove_key. rewrite E2, fold_remove_ts in E. destruct ks1 as [|k ks1].
    - injection E as <- <-. now destruct d.
    - injection E as <- <-. split; reflexivity. }
  destruct E' as [-> ->]. auto.
Qed.

(** ** Removal in a chain of generations *)

Lemma repr_ts_wf : forall d H K, repr d H K -> ts_wf d.
Proof. intros d H K Hr. split; [apply (rp_base _ _ _ Hr)|]. split; [apply (rp_base _ _ _ Hr)|]. eapply repr_low; eauto. Qed.

Lemma mem_repr_remove : forall m d H cf k, mem_repr m d H cf -> mem_repr m (remove_key d k) H cf.
Proof. intros m d H cf k Hm. destruct Hm. constructor; auto. Qed.

Lemma removes_spec : forall ks d H K cs hs c h pls, repr d H K -> chain d H cs hs ->
    pendH (written d cs) (H ++ concat hs) c h pls ->
    NoDup ks -> (forall k, In k ks -> In k (keys (db_ts d))) ->
    let d' := fold_left remove_key ks d in
    repr d' H (K ++ ks) /\ chain d' H cs hs /\ pendH (written d' cs) (H ++ concat hs) c h pls /\
    flush_write (written d' cs) c = fold_left remove_key ks (flush_write (written d cs) c).
Proof.
  induction ks as [|k ks IH]; intros d H K cs hs c h pls Hr Hc Hp Hnd Hin; cbn [fold_left].
  - cbn zeta. rewrite app_nil_r. auto.
  - inversion Hnd as [|? ? Hni Hnd']; subst.
    assert (Hk : exists e, kget keyord k (db_ts d) = Some e).
    { destruct (kget keyord k (db_ts d)) as [e|] eqn:E; eauto. apply (kget_None keyord) in E. exfalso. apply E, Hin. now left. }
    destruct Hk as [e Hk].
    pose proof (remove_repr _ _ _ _ _ Hr Hk) as Hr'.
    destruct (chain_remove _ _ _ _ _ _ _ Hr Hc Hk) as (Hc' & Ew & Hkw).
    pose proof (chain_repr _ _ _ _ _ Hr Hc) as Hrw.
    destruct (pendH_remove _ _ _ _ _ _ _ _ Hrw Hp Hkw) as (Hp' & Ef & _).
    rewrite <- Ew in Hp', Ef.
    specialize (IH (remove_key d k) H (K ++ [k]) cs hs c h pls Hr' Hc' Hp' Hnd').
    destruct IH as (A & B & C & D).
    { intros x Hx. cbn [remove_key db_ts]. rewrite keys_kdel by apply (rp_base _ _ _ Hr).
      split; [apply Hin; now right|]. intros ->. auto. }
    rewrite <- app_assoc in A. cbn [app] in A. rewrite Ef in D. auto.
Qed.
