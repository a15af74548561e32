(** LMDB backend: numbering of partitions, and one cleanup of a partition. *)
From Coq Require Import String Bool ZArith QArith Lia Sorted List.
From Verif Require Import Base Kv Model_Types Model_Subscription Model_Order Model_Codec Model_Time Keys
  Spec_Order Spec_Codec Proof_Subscription Proof_Subscription2 Proof_Order Model_Lmdb Model_LmdbSys Spec_Lmdb Spec_LmdbContent Spec_LmdbCleanup
  Proof_Lmdb1 Proof_Lmdb2 Proof_Lmdb3 Proof_Lmdb4 Proof_Lmdb5 Proof_Lmdb6 Proof_Lmdb7 Proof_Lmdb8 Proof_Lmdb9 Proof_Lmdb10.
Import ListNotations.
Open Scope list_scope.
Open Scope Z_scope.

(** ** Numbers of partitions *)

Inductive numbered (dp : list (Z * part_data)) : list partition -> list (Z * partition) -> Prop :=
| numbered_nil : numbered dp [] []
| numbered_snoc : forall ps res p pt, numbered dp ps res -> kget zord p dp = Some (part_data_of pt) ->
    numbered dp (ps ++ [pt]) (dset Z.eqb p pt res).

Lemma numbered_mono : forall dp dp' ps res, (forall p x, kget zord p dp = Some x -> kget zord p dp' = Some x) ->
    numbered dp ps res -> numbered dp' ps res.
Proof. intros dp dp' ps res H Hn. induction Hn; constructor; auto. Qed.

Lemma numbered_steps : forall ps db0 done st, parts_inv db0 done st -> numbered (snd (fst st)) done (snd st) ->
    numbered (snd (fst (fold_left init_partition ps st))) (done ++ ps) (snd (fold_left init_partition ps st)).
Proof.
  induction ps as [|p ps IH]; intros db0 done st Hi Hn; cbn [fold_left]; [now rewrite app_nil_r|].
  replace (done ++ p :: ps) with ((done ++ [p]) ++ ps) by (now rewrite <- app_assoc).
  pose proof (part_step db0 done st p Hi) as Hi'. apply (IH db0); auto.
  destruct st as [[[cache next] db] res]. destruct Hi as [I1 I2 I3 I4 I5 I6 I7]. cbn [fst snd] in *.
  unfold init_partition in *. destruct (dget part_data_eqb (part_data_of p) cache) as [i|] eqn:E; cbn [fst snd] in *.
  - apply numbered_snoc; auto. now apply I2.
  - apply numbered_snoc.
    + eapply numbered_mono; [|exact Hn]. intros q x Hq. rewrite kget_kput. cbn [oeqb zord].
      destruct (Z.eqb_spec q next) as [->|]; auto. apply I3 in Hq. lia.
    + rewrite kget_kput. cbn [oeqb zord]. now rewrite Z.eqb_refl.
Qed.

Lemma init_numbered : forall db ps, ksorted zord db ->
    (forall p p' x, kget zord p db = Some x -> kget zord p' db = Some x -> p = p') ->
    numbered (fst (init_partitions db ps)) ps (snd (init_partitions db ps)).
Proof.
  intros db ps Hs Hi. unfold init_partitions.
  set (mx := fold_left _ db 0). set (cache := fold_left _ db []).
  assert (H0 : parts_inv db [] (cache, mx + 1, db, [])).
  { constructor; cbn [fst snd]; auto; try easy.
    - intros x i. unfold cache. rewrite (dget_fold _ _ _ _ part_data_eqb_spec snd fst).
      + rewrite (kget_In zord) by auto. cbn [dget]. split.
        * intros [([k y] & Hx & E1 & E2)|[_ [=]]]. cbn in *. now subst.
        * intros H. left. exists (i, x). auto.
      + apply NoDup_map_inj; [apply NoDup_keys_list; now apply (ksorted_NoDup zord)|].
        intros [r1 t1] [r2 t2] H1 H2 E. cbn in E. subst t2.
        apply (kget_In zord) in H1; auto. apply (kget_In zord) in H2; auto. now rewrite (Hi _ _ _ H1 H2).
    - intros i x Hx. apply (kget_In zord) in Hx; auto. unfold mx.
      destruct (max_key_ge _ db 0) as [_ Hm]. specialize (Hm _ _ Hx). lia.
    - constructor. }
  pose proof (numbered_steps ps db [] _ H0 (numbered_nil _)) as Hn. cbn [app] in Hn.
  destruct (fold_left init_partition ps (cache, mx + 1, db, [])) as [[[c n] db'] res]. exact Hn.
Qed.

Definition one_id (dp : list (Z * part_data)) : Prop :=
  forall p p' x, kget zord p dp = Some x -> kget zord p' dp = Some x -> p = p'.

Lemma numbered_nodup : forall dp ps res, numbered dp ps res -> NoDup (keys res).
Proof. intros dp ps res H. induction H; [constructor|]. now apply (NoDup_dset zeqb_spec). Qed.

Lemma numbered_In : forall dp ps res p pt, one_id dp -> numbered dp ps res -> In (p, pt) res ->
    kget zord p dp = Some (part_data_of pt) /\
    exists a b, ps = a ++ pt :: b /\ forall pt', In pt' b -> part_data_of pt' <> part_data_of pt.
Proof.
  intros dp ps res p pt Ho Hn. revert p pt. induction Hn as [|ps res q qt Hn IH Hq]; intros p pt Hin; [easy|].
  apply (In_dset_iff zeqb_spec) in Hin; [|eapply numbered_nodup; eauto].
  destruct Hin as [[-> ->]|[Hne Hin]].
  - split; auto. exists ps, []. split; auto.
  - apply IH in Hin as (H1 & a & b & -> & Hb). split; auto. exists a, (b ++ [qt]). split; [now rewrite <- app_assoc|].
    intros pt' Hi. apply in_app_or in Hi as [Hi|[<-|[]]]; auto. intros E. apply Hne. rewrite <- E in H1. eauto.
Qed.

Lemma numbered_last : forall dp ps res a pt b p, numbered dp ps res -> ps = a ++ pt :: b ->
    (forall pt', In pt' b -> part_data_of pt' <> part_data_of pt) -> kget zord p dp = Some (part_data_of pt) -> one_id dp ->
    In (p, pt) res.
Proof.
  intros dp ps res a pt b p Hn. revert a pt b p. induction Hn as [|ps res q qt Hn IH Hq]; intros a pt b p E Hb Hp Ho.
  - destruct a; discriminate.
  - apply (In_dset_iff zeqb_spec); [eapply numbered_nodup; eauto|].
    destruct b as [|x b] using rev_ind.
    + apply app_inj_tail in E as [-> ->]. left. split; eauto.
    + clear IHb. assert (E' : ps ++ [qt] = (a ++ pt :: b) ++ [x]) by (rewrite E, <- app_assoc; reflexivity).
      apply app_inj_tail in E' as [-> ->]. right. split.
      * intros ->. apply (Hb x); [apply in_or_app; cbn; auto|]. congruence.
      * eapply IH; eauto. intros pt' Hi. apply Hb. apply in_or_app. auto.
Qed.

(** The table of partitions is fixed by the configuration and the stored
    descriptions. *)
Definition table (s : sys) : Prop := numbered (db_parts (s_disk s)) (cf_parts (s_conf s)) (m_parts (s_mem s)).

Lemma register_mparts : forall cf es m c m' c', register_events cf m c es = Some (m', c') -> m_parts m' = m_parts m.
Proof.
  induction es as [|e es IH]; intros m c m' c'; cbn [register_events]; [now intros [= <- <-]|].
  destruct (register_event cf m c e) as [[m1 c1]|] eqn:E; [|discriminate]. intros H. apply IH in H. rewrite H.
  unfold register_event in E.
  repeat match type of E with
         | (if ?x then _ else _) = _ => destruct x
         | (let '(_, _) := ?x in _) = _ => destruct x
         | match ?x with _ => _ end = _ => destruct x
         end; try discriminate; injection E as <- <-; reflexivity.
Qed.

Lemma open_table : forall cf d d' m H K, repr d H K -> open_db cf d = Some (d', m) ->
    numbered (db_parts d') (cf_parts cf) (m_parts m).
Proof.
  intros cf d d' m H K Hr. unfold open_db. destruct (validate_settings _ _ _); [|discriminate].
  pose proof (init_numbered (db_parts d) (cf_parts cf) (rp_psorted _ _ _ Hr) (rp_pinj _ _ _ Hr)) as Hn.
  destruct (init_partitions _ _) as [ps res]. intros [= <- <-]. exact Hn.
Qed.

Lemma exec_table : forall O s w o x s', sys_inv s w -> table s -> exec O s o = Some (s', x) -> table s'.
Proof.
  intros O s w o x s' Hi Ht He. pose proof (si_repr _ _ Hi) as Hr. unfold table in *.
  destruct o as [es| |now|q|q pr|q pr| |q|c]; cbn [exec] in He.
  - destruct (register_events _ _ _ _) as [[m c]|] eqn:Eg; [|discriminate]. injection He as <- <-.
    cbn [s_disk s_conf s_mem]. now rewrite (register_mparts _ _ _ _ _ _ Eg).
  - injection He as <- <-. exact Ht.
  - injection He as <- <-. exact Ht.
  - injection He as <- <-. exact Ht.
  - destruct (server_query_start pr); injection He as <- <-; exact Ht.
  - unfold ts_query_step in He. destruct (ts_query_start _ _ _ _) as [[[sub mx] [part|]]|]; try (injection He as <- <-; exact Ht).
    destruct (qt_order pr); [|injection He as <- <-; exact Ht]. destruct (query_pending _ _ _ _) as [es f].
    destruct (filter_done f); injection He as <- <-; exact Ht.
  - unfold work in He. destruct (s_jobs s) as [|j js]; [injection He as <- <-; exact Ht|]. destruct j.
    + injection He as <- <-. exact Ht.
    + destruct (cleanup _ _ _ _) as [d' ks] eqn:Ec. injection He as <- <-. cbn [done_ s_disk s_conf s_mem].
      destruct (cleanup_spec _ _ _ _ _ _ (repr_ts_wf _ _ _ Hr) Ec) as (-> & _). now rewrite removes_parts.
    + destruct (query_refs _ _ _ _ _); [|discriminate]. injection He as <- <-. exact Ht.
    + destruct (query_stored _ _ _ _ _ _). injection He as <- <-. exact Ht.
  - destruct (take_ready _ _) as [[r rs]|]; [|discriminate]. injection He as <- <-. exact Ht.
  - destruct (open_db c (s_disk s)) as [[d' m]|] eqn:Eo; [|discriminate]. injection He as <- <-.
    cbn [s_disk s_conf s_mem]. eapply open_table; eauto.
Qed.

Lemma execution_table : forall O cf tr s, execution O cf tr s -> table s.
Proof.
  intros O cf tr. induction tr as [|[o x] tr IH] using rev_ind; intros s H.
  - destruct H as (s0 & H1 & H2 & _). inversion H2; subst. unfold start in H1.
    destruct (open_db cf empty_db) as [[d m]|] eqn:E; [|discriminate]. injection H1 as <-.
    unfold table. cbn [s_disk s_conf s_mem]. eapply open_table; eauto. apply repr_empty.
  - apply execution_snoc in H as (s1 & H1 & H2 & _). eapply exec_table; eauto. eapply execution_inv; eauto.
Qed.

(** ** One partition *)

Lemma zlen_count : forall (A : Type) (l : list A), zlen l = count l.
Proof. reflexivity. Qed.

Lemma count_app : forall (A : Type) (a b : list A), count (a ++ b) = count a + count b.
Proof. intros. unfold count. rewrite app_length. lia. Qed.

Lemma count_nonneg : forall (A : Type) (a : list A), 0 <= count a.
Proof. intros. unfold count. lia. Qed.

(** What stops the loop. *)
Definition stops (mr me : option Z) (mi : Z) (dk : option ts_key) (stop : ts_key) (left n : Z) (k : ts_key) : bool :=
  match mr with Some m => m <=? n | None => false end || (left <=? mi) || negb (key_ltb k stop) ||
  (match me with Some m => left <=? m | None => true end && match dk with Some d => negb (key_ltb k d) | None => true end).

Lemma loop_spec : forall mr me mi dk stop entries l n, exists a b, keys l = a ++ b /\
    cleanup_loop mr me mi dk stop entries n l = a /\
    (forall x k y, a = x ++ k :: y -> stops mr me mi dk stop (entries - (n + count x)) (n + count x) k = false) /\
    (forall k y, b = k :: y -> stops mr me mi dk stop (entries - (n + count a)) (n + count a) k = true).
Proof.
  intros mr me mi dk stop entries. induction l as [|[k e] l IH]; intros n.
  - exists [], []. split; [reflexivity|]. split; [reflexivity|]. split; [intros [|? ?]; discriminate|discriminate].
  - cbn [cleanup_loop].
    assert (Hstop : forall P, stops mr me mi dk stop (entries - n) n k = true -> (P : list ts_key) = [] ->
       exists a b, keys ((k, e) :: l) = a ++ b /\ P = a /\
       (forall x k y, a = x ++ k :: y -> stops mr me mi dk stop (entries - (n + count x)) (n + count x) k = false) /\
       (forall k y, b = k :: y -> stops mr me mi dk stop (entries - (n + count a)) (n + count a) k = true)).
    { intros P Hs ->. exists [], (keys ((k, e) :: l)). split; [reflexivity|]. split; [reflexivity|].
      split; [intros [|? ?]; discriminate|]. intros k' y [= <- <-]. change (count []) with 0. now rewrite Z.add_0_r. }
    unfold stops in Hstop.
    destruct (match mr with Some m => m <=? n | None => false end) eqn:E1; [apply Hstop; reflexivity|].
    destruct (entries - n <=? mi) eqn:E2; [apply Hstop; reflexivity|].
    destruct (negb (key_ltb k stop)) eqn:E3; [apply Hstop; reflexivity|].
    destruct (match me with Some m => entries - n <=? m | None => true end && _) eqn:E4; [apply Hstop; reflexivity|].
    destruct (IH (n + 1)) as (a & b & H1 & H2 & H3 & H4). exists (k :: a), b. unfold keys in *. cbn [map fst app]. rewrite H1, H2.
    split; [reflexivity|]. split; [reflexivity|].
    assert (Hc : forall x, n + count (k :: x) = n + 1 + count x). { intros x. unfold count. cbn [List.length]. lia. }
    split.
    + intros [|x0 x] k' y [= E5 E6].
      * subst. change (count []) with 0. rewrite Z.add_0_r. unfold stops. rewrite E1, E2, E3, E4. reflexivity.
      * subst x0. rewrite Hc. eapply H3; eauto.
    + intros k' y E. rewrite Hc. eapply H4; eauto.
Qed.

(** Counters and entries agree. *)
Definition counts_ok (d : ldb) : Prop := forall p, partition_count (db_counts d) p = count (entries_of d p).

Lemma repr_counts : forall d H K, repr d H K -> counts_ok d.
Proof.
  intros d H K Hr p. rewrite (rp_counts _ _ _ Hr). unfold cnt, count, entries_of. rewrite map_length. reflexivity.
Qed.

(** The entries from the start key on: those of the partition come first. *)
Lemma part_split : forall d p, ts_wf d -> exists P R,
    dropwhile (fun kv => key_ltb (fst kv) (p, min_timestamp, zero_id)) (db_ts d) = P ++ R /\
    keys P = entries_of d p /\ (forall kv, In kv P -> key_ltb (fst kv) (p + 1, min_timestamp, zero_id) = true) /\
    (forall kv, In kv R -> key_ltb (fst kv) (p + 1, min_timestamp, zero_id) = false).
Proof.
  intros d p (Hs & _ & Hl). unfold entries_of, keys.
  assert (Hg : forall m : list (ts_key * event), ksorted keyord m -> (forall k, In k (keys m) -> key_low k) ->
    exists P R, dropwhile (fun kv => key_ltb (fst kv) (p, min_timestamp, zero_id)) m = P ++ R /\
    map fst P = map fst (filter (fun kv => fst (fst (fst kv)) =? p) m) /\
    (forall kv, In kv P -> key_ltb (fst kv) (p + 1, min_timestamp, zero_id) = true) /\
    (forall kv, In kv R -> key_ltb (fst kv) (p + 1, min_timestamp, zero_id) = false)).
  2:{ exact (Hg _ Hs Hl). }
  clear Hs Hl d.
  assert (Hg2 : forall m : list (ts_key * event), ksorted keyord m -> (forall k, In k (keys m) -> key_low k) ->
    (forall k, In k (keys m) -> p <= fst (fst k)) ->
    exists P R, m = P ++ R /\
    map fst P = map fst (filter (fun kv => fst (fst (fst kv)) =? p) m) /\
    (forall kv, In kv P -> key_ltb (fst kv) (p + 1, min_timestamp, zero_id) = true) /\
    (forall kv, In kv R -> key_ltb (fst kv) (p + 1, min_timestamp, zero_id) = false)).
  { induction m as [|[k e] m IH]; intros Hs Hl Hp.
    - exists [], []. repeat split; auto; easy.
    - unfold keys in *. cbn [map fst In] in *. inversion Hs as [|? ? Hs' Hf]; subst.
      destruct (IH Hs' (fun k' H => Hl k' (or_intror H)) (fun k' H => Hp k' (or_intror H))) as (P & R & -> & E & H1 & H2).
      pose proof (Hp k (or_introl eq_refl)) as Hk. pose proof (Hl k (or_introl eq_refl)) as Hlk.
      cbn [filter fst]. destruct (Z.eqb_spec (fst (fst k)) p) as [Ek|Ek].
      + exists ((k, e) :: P), R. split; [reflexivity|]. split; [cbn [map fst]; now rewrite E|]. split; auto.
        intros kv [<-|Hi]; auto. cbn [fst]. rewrite key_low_ltb by auto. apply Z.ltb_lt. lia.
      + destruct P as [|[k1 e1] P].
        * exists [], ((k, e) :: R). split; [reflexivity|]. split; [exact E|]. split; [easy|].
          intros kv [<-|Hi]; auto. cbn [fst]. rewrite key_low_ltb by auto. apply Z.ltb_ge. lia.
        * exfalso. rewrite Forall_forall in Hf. specialize (Hf k1 (or_introl eq_refl)).
          pose proof (H1 (k1, e1) (or_introl eq_refl)) as H3. cbn [fst] in H3.
          rewrite key_low_ltb in H3 by (apply Hl; right; left; reflexivity). apply Z.ltb_lt in H3.
          unfold olt in Hf. cbn [oltb keyord] in Hf. apply key_ltb_spec in Hf. destruct k as [[a b] c], k1 as [[a1 b1] c1].
          unfold key_lt in Hf. cbn [fst snd] in *. destruct Hf as [Hf|[Hf _]]; lia. }
  induction m as [|[k e] m IH]; intros Hs Hl.
  - exists [], []. repeat split; auto; easy.
  - cbn [dropwhile fst]. pose proof (Hl k (or_introl eq_refl)) as Hlk. rewrite key_low_ltb by auto.
    destruct (Z.ltb_spec (fst (fst k)) p) as [Hlt|Hge].
    + unfold keys in *. cbn [map fst In] in *. inversion Hs as [|? ? Hs' Hf]; subst.
      destruct (IH Hs' (fun k' H => Hl k' (or_intror H))) as (P & R & E0 & E & H1 & H2).
      exists P, R. rewrite E0. cbn [filter fst]. destruct (Z.eqb_spec (fst (fst k)) p); [lia|]. auto.
    + apply Hg2; auto. intros k' [<-|Hi]; [exact Hge|]. inversion Hs as [|? ? Hs' Hf]; subst. rewrite Forall_forall in Hf.
      specialize (Hf k' Hi). unfold olt in Hf. cbn [oltb keyord] in Hf. apply key_ltb_spec in Hf.
      destruct k as [[a b] c], k' as [[a1 b1] c1]. unfold key_lt in Hf. cbn [fst snd] in *. destruct Hf as [Hf|[Hf _]]; lia.
Qed.

Lemma SS_ext : forall (K : Type) (o : ord K) l1 l2, StronglySorted (olt o) l1 -> StronglySorted (olt o) l2 ->
    (forall x, In x l1 <-> In x l2) -> l1 = l2.
Proof.
  induction l1 as [|a l1 IH]; intros [|b l2] H1 H2 He; auto.
  - exfalso. apply (He b). now left.
  - exfalso. apply (He a). now left.
  - inversion H1 as [|? ? S1 F1]; subst. inversion H2 as [|? ? S2 F2]; subst. rewrite Forall_forall in F1, F2.
    assert (E : a = b).
    { destruct (proj1 (He a) (or_introl eq_refl)) as [<-|Ha]; auto.
      destruct (proj2 (He b) (or_introl eq_refl)) as [<-|Hb]; auto.
      pose proof (olt_asym o _ _ (F1 _ Hb)) as Hx. pose proof (F2 _ Ha) as Hy. unfold olt in Hy. congruence. }
    subst b. f_equal. apply IH; auto. intros x. split; intros Hx.
    + destruct (proj1 (He x) (or_intror Hx)) as [<-|]; auto. specialize (F1 _ Hx). unfold olt in F1. now rewrite oirrefl in F1.
    + destruct (proj2 (He x) (or_intror Hx)) as [<-|]; auto. specialize (F2 _ Hx). unfold olt in F2. now rewrite oirrefl in F2.
Qed.

Lemma entries_sorted : forall d p, ts_wf d -> StronglySorted (olt keyord) (entries_of d p).
Proof.
  intros d p (Hs & _). unfold ksorted, keys in Hs. unfold entries_of.
  induction (db_ts d) as [|[k e] m IH]; cbn [filter map]; [constructor|].
  cbn [map fst] in *. inversion Hs as [|? ? S F]; subst. destruct (_ =? p); auto. cbn [map fst]. constructor; auto.
  rewrite Forall_forall in *. intros x Hx. apply F. apply in_map_iff in Hx as (y & <- & Hy). apply filter_In in Hy as [Hy _]. now apply in_map.
Qed.

Lemma entries_In : forall d p k, In k (entries_of d p) <-> In k (keys (db_ts d)) /\ fst (fst k) = p.
Proof.
  intros d p k. unfold entries_of, keys. rewrite !in_map_iff. split.
  - intros (x & <- & Hx). apply filter_In in Hx as [Hx E]. apply Z.eqb_eq in E. split; eauto.
  - intros [(x & <- & Hx) E]. exists x. split; auto. apply filter_In. split; auto. now apply Z.eqb_eq.
Qed.

Lemma entries_same : forall d d' p, ts_wf d -> ts_wf d' ->
    (forall k, fst (fst k) = p -> (In k (keys (db_ts d)) <-> In k (keys (db_ts d')))) -> entries_of d p = entries_of d' p.
Proof.
  intros d d' p H1 H2 He. apply (SS_ext _ keyord); try now apply entries_sorted. intros k. rewrite !entries_In.
  split; intros [Ha Hb]; split; auto; apply He; auto.
Qed.

Lemma SS_app_r : forall (A : Type) (R : A -> A -> Prop) a b, StronglySorted R (a ++ b) -> StronglySorted R b.
Proof. induction a as [|x a IH]; intros b H; auto. cbn [app] in H. inversion H; subst. auto. Qed.

Lemma SS_app_lt : forall (A : Type) (R : A -> A -> Prop) a b x y, StronglySorted R (a ++ b) -> In x a -> In y b -> R x y.
Proof.
  induction a as [|z a IH]; intros b x y H Hx Hy; [easy|]. cbn [app] in H. inversion H as [|? ? S F]; subst.
  destruct Hx as [->|Hx]; eauto. rewrite Forall_forall in F. apply F. apply in_or_app. auto.
Qed.

Lemma entries_prefix : forall d p a b, ts_wf d -> entries_of d p = a ++ b ->
    entries_of (fold_left remove_ts a d) p = b /\
    forall q, q <> p -> entries_of (fold_left remove_ts a d) q = entries_of d q.
Proof.
  intros d p a b Hw E. pose proof (ts_wf_removes a d Hw) as Hw'.
  pose proof (entries_sorted d p Hw) as Hs. rewrite E in Hs.
  split.
  - apply (SS_ext _ keyord); [now apply entries_sorted|now apply SS_app_r in Hs|].
    intros k. rewrite entries_In, keys_removes by auto. split.
    + intros [[H1 H2] H3]. assert (Hi : In k (entries_of d p)) by (now apply entries_In).
      rewrite E in Hi. apply in_app_or in Hi as [?|?]; [contradiction|auto].
    + intros Hb. assert (Hi : In k (entries_of d p)) by (rewrite E; apply in_or_app; auto).
      apply entries_In in Hi as [H1 H2]. split; auto. split; auto. intros Ha.
      pose proof (SS_app_lt _ _ _ _ _ _ Hs Ha Hb) as Hx. unfold olt in Hx. now rewrite oirrefl in Hx.
  - intros q Hq. symmetry. apply entries_same; auto. intros k Hk. rewrite keys_removes by auto. split; [|tauto].
    intros Hi. split; auto. intros Ha. assert (Hx : In k (entries_of d p)) by (rewrite E; apply in_or_app; auto).
    apply entries_In in Hx as [_ Hx]. congruence.
Qed.

Lemma prefix_of_app : forall (A : Type) (a b c d : list A) (f : A -> Prop), a ++ b = c ++ d ->
    (forall x, In x a -> f x) -> (forall x, In x d -> ~ f x) -> exists e, c = a ++ e /\ b = e ++ d.
Proof.
  induction a as [|x a IH]; intros b c d f E Ha Hd; [exists c; auto|].
  destruct c as [|y c]; cbn [app] in E.
  - subst d. exfalso. apply (Hd x); [now left|]. apply Ha. now left.
  - injection E as -> E. destruct (IH b c d f E) as (e & -> & ->); auto.
    + intros z Hz. apply Ha. now right.
    + exists e. auto.
Qed.

Lemma key_duration : forall k p t, fst (fst k) = p -> key_low k -> key_ltb k (p, t, zero_id) = ts_ltb (snd (fst k)) t.
Proof.
  intros [[p' u] i] p t Hp [_ Hl]. cbn [fst snd] in *. subst p'. unfold key_ltb. rewrite Z.ltb_irrefl, Z.eqb_refl. cbn [orb andb].
  rewrite (eqb_leb_asym_id _ Hl). now rewrite andb_false_r, orb_false_r.
Qed.

(** The effect on one partition with at most [left] removals. *)
Record part_cleaned (O : oracle) (now : timestamp) (lm : limit) (d d' : ldb) (p : Z) (r : list ts_key) (left : Z) : Prop := {
  pc_split : entries_of d p = r ++ entries_of d' p;
  pc_other : forall q, q <> p -> entries_of d' q = entries_of d q;
  pc_min : r <> [] -> least lm <= count (entries_of d' p);
  pc_over : forall a k b, r = a ++ k :: b -> exceeds O lm now d (count (k :: b ++ entries_of d' p)) k;
  pc_left : 0 <= left -> count r <= left;
  pc_meets : count r < left -> meets O lm now d (entries_of d' p) }.

Lemma min_opt_le : forall a b n,
    match min_opt a b with Some m => n <=? m | None => true end =
    match a with Some m => n <=? m | None => true end && match b with Some m => n <=? m | None => true end.
Proof.
  intros [x|] [y|] n; cbn [min_opt]; auto.
  - destruct (Z.leb_spec n x), (Z.leb_spec n y), (Z.leb_spec n (Z.min x y)); auto; lia.
  - now rewrite andb_true_r.
Qed.

Lemma cleanup_partition_effect : forall O now d p lm left, ts_wf d -> counts_ok d ->
    let '(d', r) := cleanup_partition O now d p lm (Some left) in
    part_cleaned O now lm d d' p r left /\ ts_wf d' /\ counts_ok d'.
Proof.
  intros O now d p lm left Hw Hc. unfold cleanup_partition. rewrite (Hc p).
  set (me := min_opt _ _). set (dk := match lm_duration lm with Some q => Some _ | None => None end).
  destruct (part_split d p Hw) as (P & R & -> & EP & HP & HR).
  set (stop := (p + 1, min_timestamp, zero_id)) in *.
  destruct (loop_spec (Some left) me (match lm_min lm with Some n => n | None => 0 end) dk stop (count (entries_of d p)) (P ++ R) 0)
    as (a & b & E1 & -> & Ha & Hb).
  assert (E1' : a ++ b = keys P ++ keys R) by (rewrite <- E1; unfold keys; apply map_app).
  destruct (prefix_of_app _ a b (keys P) (keys R) (fun k => key_ltb k stop = true) E1') as (e & Ee & Eb).
  { intros k Hk. apply in_split in Hk as (x & y & Ek). specialize (Ha _ _ _ Ek). unfold stops in Ha.
    destruct (key_ltb k stop); auto. rewrite orb_true_r in Ha. discriminate. }
  { intros k Hk. unfold keys in Hk. apply in_map_iff in Hk as (kv & <- & Hk). rewrite (HR _ Hk). discriminate. }
  rewrite EP in Ee.
  set (d' := Ldb _ _ _ _ _ _ _ _ _).
  assert (Ed : d' = fold_left remove_ts a d).
  { unfold d'. rewrite fold_remove_ts. f_equal. rewrite (fold_dec p); [|apply Hw|].
    - rewrite (Hc p). reflexivity.
    - intros k Hk. assert (Hi : In k (entries_of d p)) by (rewrite Ee; apply in_or_app; auto). now apply entries_In in Hi. }
  clearbody d'. subst d'. destruct (entries_prefix d p a e Hw Ee) as [E2 E3].
  assert (Hlow : forall k, In k (entries_of d p) -> fst (fst k) = p /\ key_low k).
  { intros k Hk. apply entries_In in Hk as [H1 H2]. split; auto. now apply (proj2 (proj2 Hw)). }
  split; [|split; [now apply ts_wf_removes|]].
  2:{ assert (Ec : db_counts (fold_left remove_ts a d) =
                match a with [] => db_counts d | _ => kput zord p (partition_count (db_counts d) p - zlen a) (db_counts d) end).
      { rewrite fold_remove_ts. cbn [db_counts]. rewrite (fold_dec p); [reflexivity|apply Hw|].
        intros k Hk. apply Hlow. rewrite Ee. apply in_or_app. auto. }
      intros q. rewrite Ec.
      assert (E4 : count (entries_of d p) = count a + count e) by (rewrite Ee; apply count_app).
      destruct (Z.eq_dec q p) as [->|Hq].
      - rewrite E2. destruct a as [|k0 a]; [rewrite Hc, E4; reflexivity|].
        unfold partition_count at 1. rewrite (kget_kput_same zord). rewrite Hc, E4. change (zlen (k0 :: a)) with (count (k0 :: a)). lia.
      - rewrite (E3 _ Hq). destruct a as [|k0 a]; [apply Hc|].
        unfold partition_count at 1. rewrite (kget_kput_other zord) by auto. apply Hc. }
  assert (E4 : count (entries_of d p) = count a + count e) by (rewrite Ee; apply count_app).
  constructor.
  - now rewrite E2.
  - exact E3.
  - intros Hne. rewrite E2. destruct a as [|x a _] using rev_ind; [contradiction|].
    specialize (Ha a x [] eq_refl). unfold stops in Ha. apply orb_false_iff in Ha as [Ha _]. apply orb_false_iff in Ha as [Ha _].
    apply orb_false_iff in Ha as [_ Ha]. apply Z.leb_gt in Ha. rewrite count_app in E4. change (count [x]) with 1 in E4.
    unfold least. lia.
  - intros x k y Ek. rewrite E2. specialize (Ha _ _ _ Ek). unfold stops in Ha. apply orb_false_iff in Ha as [_ Ha].
    assert (Hk : In k (entries_of d p)) by (rewrite Ee, Ek; apply in_or_app; left; apply in_or_app; right; now left).
    destruct (Hlow _ Hk) as [Hk1 Hk2].
    replace (count (entries_of d p) - (0 + count x)) with (count (k :: y ++ e)) in Ha.
    2:{ rewrite E4, Ek. unfold count. cbn [List.length]. rewrite !app_length. cbn [List.length]. lia. }
    generalize dependent (count (k :: y ++ e)). intros n Ha.
    unfold me in Ha. rewrite min_opt_le in Ha. unfold exceeds. apply andb_false_iff in Ha as [Ha|Ha].
    + apply andb_false_iff in Ha as [Ha|Ha].
      * right. left. destruct (lm_size lm) as [z|]; [|discriminate]. destruct (or_size O z d) as [m|] eqn:Eo; [|discriminate].
        exists z, m. apply Z.leb_gt in Ha. auto.
      * left. destruct (lm_max lm) as [m|]; [|discriminate]. exists m. apply Z.leb_gt in Ha. auto.
    + right. right. unfold dk in Ha. destruct (lm_duration lm) as [q|]; [|discriminate]. exists q. split; auto.
      apply negb_false_iff in Ha. rewrite key_duration in Ha by auto. exact Ha.
  - intros Hl. destruct a as [|x a _] using rev_ind; [exact Hl|]. specialize (Ha a x [] eq_refl).
    unfold stops in Ha. apply orb_false_iff in Ha as [Ha _]. apply orb_false_iff in Ha as [Ha _]. apply orb_false_iff in Ha as [Ha _].
    apply Z.leb_gt in Ha. rewrite count_app. change (count [x]) with 1. lia.
  - intros Hl. rewrite E2. unfold meets.
    destruct e as [|k e']; [now left|]. right.
    specialize (Hb k (e' ++ keys R)). rewrite Eb in Hb. specialize (Hb eq_refl). unfold stops in Hb.
    replace (count (entries_of d p) - (0 + count a)) with (count (k :: e')) in Hb by lia.
    apply orb_true_iff in Hb as [Hb|Hb].
    2:{ right. unfold me in Hb. rewrite min_opt_le in Hb. apply andb_true_iff in Hb as [Hb Hd]. apply andb_true_iff in Hb as [Hs Hm].
        split; [|split].
        - intros m Em. rewrite Em in Hm. now apply Z.leb_le in Hm.
        - intros z m Ez Em. rewrite Ez, Em in Hs. now apply Z.leb_le in Hs.
        - intros q k' Eq Hk'. unfold dk in Hd. rewrite Eq in Hd. apply negb_true_iff in Hd.
          assert (Hk : In k (entries_of d p)) by (rewrite Ee; apply in_or_app; right; now left).
          assert (Hkk : In k' (entries_of d p)) by (rewrite Ee; apply in_or_app; now right).
          destruct (Hlow _ Hk) as [Hk1 Hk2]. rewrite key_duration in Hd by auto.
          pose proof (entries_sorted d p Hw) as Hs'. rewrite Ee in Hs'. apply SS_app_r in Hs'.
          inversion Hs' as [|? ? Hs1 Hf]; subst. rewrite Forall_forall in Hf.
          assert (Hge : ts_leb (snd (fst k)) (snd (fst k')) = true).
          { destruct Hk' as [<-|Hk']; [apply ts_leb_lt; auto|]. specialize (Hf _ Hk'). unfold olt in Hf. cbn [oltb keyord] in Hf.
            apply key_ltb_spec in Hf. destruct (Hlow _ Hkk) as [Hk3 _]. destruct k as [[p1 t1] i1], k' as [[p2 t2] i2].
            unfold key_lt in Hf. cbn [fst snd] in *. apply ts_leb_lt. rewrite ts_ltb_spec.
            destruct Hf as [Hf|[_ [Hf|[Hf _]]]]; auto. lia. }
          unfold entry_ts. eapply ts_leb_trans; [|exact Hge]. rewrite ts_leb_ltb. now rewrite Hd. }
    apply orb_true_iff in Hb as [Hb|Hb].
    2:{ assert (Hk : In k (entries_of d p)) by (rewrite Ee; apply in_or_app; right; now left).
        rewrite <- EP in Hk. unfold keys in Hk. apply in_map_iff in Hk as (kv & <- & Hk). rewrite (HP _ Hk) in Hb. discriminate. }
    apply orb_true_iff in Hb as [Hb|Hb].
    + apply Z.leb_le in Hb. lia.
    + left. apply Z.leb_le in Hb. unfold least. lia.
Qed.
