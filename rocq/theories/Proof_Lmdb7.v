(** LMDB backend: opening a database. *)
From Coq Require Import String Bool ZArith Lia Sorted List.
From Verif Require Import Base Kv Model_Types Model_Subscription Model_Order Model_Codec Keys
  Proof_Subscription Proof_Subscription2 Proof_Order Model_Lmdb Model_LmdbSys Spec_Lmdb
  Proof_Lmdb1 Proof_Lmdb2 Proof_Lmdb3 Proof_Lmdb4 Proof_Lmdb5 Proof_Lmdb6.
Import ListNotations.
Open Scope list_scope.
Open Scope Z_scope.

(** ** Dictionaries made from lists *)

Lemma dget_dset : forall (K V : Type) (eqb : K -> K -> bool) (spec : forall a b, eqb a b = true <-> a = b) k k' (v : V) d,
    dget eqb k (dset eqb k' v d) = if eqb k k' then Some v else dget eqb k d.
Proof.
  intros K V eqb spec k k' v d. destruct (eqb k k') eqn:E.
  - apply spec in E. subst. apply (dget_dset_same spec).
  - apply (dget_dset_other spec). intros ->. rewrite (eqb_refl' spec) in E. discriminate.
Qed.

Lemma dget_fold : forall (K V X : Type) (eqb : K -> K -> bool) (spec : forall a b, eqb a b = true <-> a = b)
    (f : X -> K) (g : X -> V) l d0, NoDup (map f l) -> forall k v,
    dget eqb k (fold_left (fun d x => dset eqb (f x) (g x) d) l d0) = Some v <->
    (exists x, In x l /\ f x = k /\ g x = v) \/ (~ In k (map f l) /\ dget eqb k d0 = Some v).
Proof.
  intros K V X eqb spec f g. induction l as [|x l IH]; intros d0 Hnd k v; cbn [fold_left map In].
  - split; [tauto|]. intros [(x & [] & _)|[_ H]]; auto.
  - inversion Hnd as [|? ? Hni Hnd']; subst. rewrite IH by auto. rewrite (dget_dset _ _ _ spec).
    destruct (eqb k (f x)) eqn:E.
    + apply spec in E. subst k. split.
      * intros [(y & Hy & E1 & E2)|[_ [= <-]]]; [left; exists y; auto|]. left. exists x. auto.
      * intros [(y & [<-|Hy] & E1 & E2)|[Hn _]].
        -- right. split; auto. congruence.
        -- left. exists y. auto.
        -- exfalso. apply Hn. auto.
    + assert (Hne : f x <> k). { intros <-. rewrite (eqb_refl' spec) in E. discriminate. }
      split.
      * intros [(y & Hy & E1 & E2)|[Hn H]]; [left; exists y; auto|]. right. split; auto. intros [H1|H1]; auto.
      * intros [(y & [<-|Hy] & E1 & E2)|[Hn H]].
        -- contradiction.
        -- left. exists y. auto.
        -- right. split; auto.
Qed.

Lemma NoDup_map_inj : forall (A B : Type) (f : A -> B) l, NoDup l ->
    (forall x y, In x l -> In y l -> f x = f y -> x = y) -> NoDup (map f l).
Proof.
  intros A B f. induction l as [|x l IH]; intros Hnd Hi; cbn [map]; constructor.
  - inversion Hnd; subst. intros Hin. apply in_map_iff in Hin as (y & E & Hy).
    assert (y = x) by (apply Hi; cbn; auto). subst. auto.
  - inversion Hnd; subst. apply IH; auto. intros. apply Hi; cbn; auto.
Qed.

Lemma NoDup_keys_list : forall (K V : Type) (l : list (K * V)), NoDup (keys l) -> NoDup l.
Proof. intros K V l. unfold keys. apply NoDup_map_inv. Qed.

Lemma fold_if_filter : forall (A B : Type) (ok : A -> bool) (f : B -> A -> B) l b,
    fold_left (fun d x => if ok x then f d x else d) l b = fold_left f (filter ok l) b.
Proof. intros A B ok f. induction l as [|x l IH]; intros b; cbn [fold_left filter]; auto. destruct (ok x); cbn [fold_left]; auto. Qed.

Lemma NoDup_keys_dsets : forall (K V X : Type) (eqb : K -> K -> bool) (spec : forall a b, eqb a b = true <-> a = b)
    (f : X -> K) (g : X -> V) l d0, NoDup (keys d0) ->
    NoDup (keys (fold_left (fun d x => dset eqb (f x) (g x) d) l d0)).
Proof.
  intros K V X eqb spec f g. induction l as [|x l IH]; intros d0 H; cbn [fold_left]; auto.
  apply IH. now apply (NoDup_dset spec).
Qed.

Lemma load_dict : forall (V : Type) (m : list (Z * V)) s, ksorted zord m ->
    dget Z.eqb s (fold_left (fun d kv => dset Z.eqb (fst kv) (snd kv) d) m []) = kget zord s m.
Proof.
  intros V m s Hs. pose proof (ksorted_NoDup zord _ Hs) as Hnd.
  assert (Hiff : forall v, dget Z.eqb s (fold_left (fun d kv => dset Z.eqb (fst kv) (snd kv) d) m []) = Some v <-> kget zord s m = Some v).
  { intros v. rewrite (dget_fold _ _ _ _ zeqb_spec fst snd) by exact Hnd. rewrite (kget_In zord) by auto. cbn [dget]. split.
    - intros [([k x] & Hx & E1 & E2)|[_ [=]]]. cbn in *. now subst.
    - intros H. left. exists (s, v). auto. }
  destruct (dget _ _ _) as [v|]; [symmetry; now apply Hiff|].
  destruct (kget zord s m) as [v|]; auto. now apply Hiff.
Qed.

Lemma fold_max_ge : forall l b, b <= fold_left Z.max l b /\ forall x, In x l -> x <= fold_left Z.max l b.
Proof.
  induction l as [|y l IH]; intros b; cbn [fold_left In]; [split; [lia|easy]|].
  destruct (IH (Z.max b y)) as [H1 H2]. split; [lia|]. intros x [<-|Hx]; [lia|auto].
Qed.

(** ** Latest events *)

Lemma refs_load : forall d, ksorted zord (db_types d) ->
    (forall r r' t, kget zord r (db_types d) = Some t -> kget zord r' (db_types d) = Some t -> r = r') ->
    forall t r, dget etype_eqb t (fold_left (fun d kv => dset etype_eqb (snd kv) (fst kv) d) (db_types d) []) = Some r <->
                kget zord r (db_types d) = Some t.
Proof.
  intros d Hs Hi t r. rewrite (dget_fold _ _ _ _ etype_eqb_spec snd fst).
  - rewrite (kget_In zord) by auto. cbn [dget]. split.
    + intros [([k x] & Hx & E1 & E2)|[_ [=]]]. cbn in *. now subst.
    + intros H. left. exists (r, t). auto.
  - apply NoDup_map_inj; [apply NoDup_keys_list; now apply (ksorted_NoDup zord)|].
    intros [r1 t1] [r2 t2] H1 H2 E. cbn in E. subst t2.
    apply (kget_In zord) in H1; auto. apply (kget_In zord) in H2; auto. now rewrite (Hi _ _ _ H1 H2).
Qed.

Lemma latest_open_spec : forall d H K cf, repr d H K ->
    let ld := latest_open (cf_cond cf) (cf_latest cf) d in
    (forall t r, dget etype_eqb t (ld_refs ld) = Some r <-> kget zord r (db_types d) = Some t) /\
    (forall t, dget etype_eqb t (ld_events ld) = visible cf H t) /\
    NoDup (keys (ld_events ld)) /\
    (forall r t, kget zord r (db_types d) = Some t -> r < ld_next ld).
Proof.
  intros d H K cf Hr. pose proof (rp_base _ _ _ Hr) as Hb. pose proof (ba_wf _ Hb) as Hw.
  pose proof (refs_load d (dw_types _ Hw) (rp_inj _ _ _ Hr)) as Hrefs.
  unfold latest_open. cbn zeta. cbn [ld_refs ld_events ld_next].
  set (refs := fold_left (fun d kv => dset etype_eqb (snd kv) (fst kv) d) (db_types d) []) in *.
  set (ok := fun kv : Z * event => cf_cond cf (snd kv) && node_matches (cf_latest cf) (ev_type (snd kv))
    && match dget etype_eqb (ev_type (snd kv)) refs with Some r => r =? fst kv | None => false end).
  rewrite (fold_if_filter _ _ ok (fun d (kv : Z * event) => dset etype_eqb (ev_type (snd kv)) (snd kv) d)).
  split; [exact Hrefs|]. split; [|split].
  - intros t.
    assert (Hnd : NoDup (map (fun kv : Z * event => ev_type (snd kv)) (filter ok (db_latest d)))).
    { apply NoDup_map_inj.
      - apply NoDup_filter. apply NoDup_keys_list. apply (ksorted_NoDup zord). apply Hw.
      - intros [r1 e1] [r2 e2] H1 H2 E. cbn [snd] in E. apply filter_In in H1 as [H1 _]. apply filter_In in H2 as [H2 _].
        apply (kget_In zord) in H1; [|apply Hw]. apply (kget_In zord) in H2; [|apply Hw].
        apply (rp_latest _ _ _ Hr) in H1 as [H1 H1']. apply (rp_latest _ _ _ Hr) in H2 as [H2 H2'].
        rewrite E in H1, H1'. rewrite (rp_inj _ _ _ Hr _ _ _ H1 H2). congruence. }
    assert (Hiff : forall e, dget etype_eqb t (fold_left (fun d (kv : Z * event) => dset etype_eqb (ev_type (snd kv)) (snd kv) d)
                                                 (filter ok (db_latest d)) []) = Some e <-> visible cf H t = Some e).
    { intros e. rewrite (dget_fold _ _ _ _ etype_eqb_spec (fun kv : Z * event => ev_type (snd kv)) snd) by exact Hnd.
      unfold visible. split.
      - intros [([r x] & Hx & E1 & E2)|[_ [=]]]. cbn [snd] in *. subst x t. apply filter_In in Hx as [Hx Hok].
        apply (kget_In zord) in Hx; [|apply Hw]. apply (rp_latest _ _ _ Hr) in Hx as [Hx1 Hx2].
        rewrite Hx2. unfold ok in Hok. cbn [fst snd] in Hok. apply andb_prop in Hok as [Hok _]. apply andb_prop in Hok as [Hc Hm].
        unfold covers. now rewrite Hc, Hm.
      - destruct (latest_of H t) as [e'|] eqn:El; [|discriminate].
        destruct (covers cf t && cf_cond cf e') eqn:Ec; [|discriminate]. intros [= <-].
        apply andb_prop in Ec as [Ec1 Ec2]. pose proof El as El'. apply latest_of_In in El' as (en & _ & _ & Et & _).
        assert (Hex : exists r, kget zord r (db_types d) = Some t). { apply (rp_types _ _ _ Hr). congruence. }
        destruct Hex as [r Hrt]. left. exists (r, e'). cbn [snd]. split; [|auto]. apply filter_In. split.
        + apply (kget_In zord); [apply Hw|]. apply (rp_latest _ _ _ Hr). rewrite Et. auto.
        + unfold ok. cbn [fst snd]. rewrite Ec2, Et. unfold covers in Ec1. rewrite Ec1. cbn [andb].
          apply Hrefs in Hrt. rewrite Hrt. apply Z.eqb_refl. }
    destruct (dget _ _ _) as [v|]; [symmetry; now apply Hiff|].
    destruct (visible cf H t) as [v|]; auto. now apply Hiff.
  - apply (NoDup_keys_dsets _ _ _ _ etype_eqb_spec (fun kv : Z * event => ev_type (snd kv)) snd). constructor.
  - intros r t Hrt. apply Hrefs in Hrt. apply (dget_In etype_eqb_spec) in Hrt.
    assert (Hin : In r (vals refs)) by (unfold vals; change r with (snd (t, r)); now apply in_map).
    destruct (fold_max_ge (vals refs) 0) as [_ Hm]. specialize (Hm _ Hin). lia.
Qed.

(** ** Partitions *)

Lemma etypes_eqb_spec : forall a b, etypes_eqb a b = true <-> a = b.
Proof.
  induction a as [|x a IH]; intros [|y b]; cbn [etypes_eqb]; try (split; congruence).
  rewrite andb_true_iff, IH, etype_eqb_spec. split; [intros [-> ->]|intros [= -> ->]]; auto.
Qed.

Lemma part_data_eqb_spec : forall a b, part_data_eqb a b = true <-> a = b.
Proof.
  intros [o1 s1] [o2 s2]. unfold part_data_eqb. cbn [pd_order pd_subs].
  rewrite andb_true_iff, String.eqb_eq, etypes_eqb_spec. split; [intros [-> ->]|intros [= -> ->]]; auto.
Qed.

Record parts_inv (db0 : list (Z * part_data)) (done : list partition)
    (st : list (part_data * Z) * Z * list (Z * part_data) * list (Z * partition)) : Prop := {
  pv_sorted : ksorted zord (snd (fst st));
  pv_cache : forall x i, dget part_data_eqb x (fst (fst (fst st))) = Some i <-> kget zord i (snd (fst st)) = Some x;
  pv_next : forall i x, kget zord i (snd (fst st)) = Some x -> i < snd (fst (fst st));
  pv_ext : forall i x, kget zord i db0 = Some x -> kget zord i (snd (fst st)) = Some x;
  pv_nodup : NoDup (keys (snd st));
  pv_in : forall i p, In (i, p) (snd st) -> In p done /\ kget zord i (snd (fst st)) = Some (part_data_of p);
  pv_all : forall p, In p done -> exists i p', In (i, p') (snd st) /\ kget zord i (snd (fst st)) = Some (part_data_of p) }.

Lemma part_step : forall db0 done st p, parts_inv db0 done st -> parts_inv db0 (done ++ [p]) (init_partition st p).
Proof.
  intros db0 done [[[cache next] db] res] p Hi. destruct Hi as [I1 I2 I3 I4 I5 I6 I7]. cbn [fst snd] in *.
  unfold init_partition. destruct (dget part_data_eqb (part_data_of p) cache) as [i|] eqn:E.
  - assert (Ei : kget zord i db = Some (part_data_of p)) by (now apply I2).
    constructor; cbn [fst snd]; auto.
    + now apply (NoDup_dset zeqb_spec).
    + intros j q Hin. apply (In_dset_iff zeqb_spec) in Hin; auto. rewrite in_app_iff. cbn [In].
      destruct Hin as [[-> ->]|[Hne Hin]]; auto. apply I6 in Hin as [H1 H2]. auto.
    + intros q Hq. apply in_app_or in Hq as [Hq|[<-|[]]].
      * destruct (I7 _ Hq) as (j & p' & H1 & H2). destruct (Z.eqb_spec j i) as [->|Hne].
        -- exists i, p. split; auto. apply (In_dset_iff zeqb_spec); auto.
        -- exists j, p'. split; auto. apply (In_dset_iff zeqb_spec); auto.
      * exists i, p. split; auto. apply (In_dset_iff zeqb_spec); auto.
  - assert (Hn : forall x, kget zord next db <> Some x). { intros x Hx. apply I3 in Hx. lia. }
    assert (Hk : forall j, kget zord j (kput zord next (part_data_of p) db) = if j =? next then Some (part_data_of p) else kget zord j db).
    { intros j. now rewrite kget_kput. }
    constructor; cbn [fst snd].
    + now apply ksorted_kput.
    + intros x j. rewrite Hk, (dget_dset _ _ _ part_data_eqb_spec). destruct (part_data_eqb x (part_data_of p)) eqn:Ex.
      * apply part_data_eqb_spec in Ex. subst x. destruct (Z.eqb_spec j next) as [->|Hne]; [tauto|]. split.
        -- intros [= <-]. congruence.
        -- intros Hj. apply I2 in Hj. congruence.
      * destruct (Z.eqb_spec j next) as [->|Hne]; [|apply I2]. split.
        -- intros Hx. apply I2 in Hx. exfalso. eapply Hn; eauto.
        -- intros [= <-]. rewrite (eqb_refl' part_data_eqb_spec) in Ex. discriminate.
    + intros j x. rewrite Hk. destruct (Z.eqb_spec j next) as [->|Hne]; [lia|]. intros Hj. apply I3 in Hj. lia.
    + intros j x Hj. rewrite Hk. destruct (Z.eqb_spec j next) as [->|Hne]; auto. apply I4 in Hj. exfalso. eapply Hn; eauto.
    + now apply (NoDup_dset zeqb_spec).
    + intros j q Hin. apply (In_dset_iff zeqb_spec) in Hin; auto. rewrite in_app_iff, Hk. cbn [In].
      destruct Hin as [[-> ->]|[Hne Hin]]; [rewrite Z.eqb_refl; auto|].
      apply I6 in Hin as [H1 H2]. destruct (Z.eqb_spec j next) as [->|]; [congruence|auto].
    + intros q Hq. apply in_app_or in Hq as [Hq|[<-|[]]].
      * destruct (I7 _ Hq) as (j & p' & H1 & H2).
        assert (Hne : j <> next) by (intros ->; eapply Hn; eauto).
        exists j, p'. rewrite Hk. destruct (Z.eqb_spec j next); [contradiction|]. split; auto.
        apply (In_dset_iff zeqb_spec); auto.
      * exists next, p. rewrite Hk, Z.eqb_refl. split; auto. apply (In_dset_iff zeqb_spec); auto.
Qed.

Lemma part_steps : forall ps db0 done st, parts_inv db0 done st -> parts_inv db0 (done ++ ps) (fold_left init_partition ps st).
Proof.
  induction ps as [|p ps IH]; intros db0 done st H; cbn [fold_left]; [now rewrite app_nil_r|].
  replace (done ++ p :: ps) with ((done ++ [p]) ++ ps) by (now rewrite <- app_assoc). apply IH. now apply part_step.
Qed.

Lemma max_key_ge : forall (V : Type) (l : list (Z * V)) b,
    b <= fold_left (fun m kv => if m <? fst kv then fst kv else m) l b /\
    forall k v, In (k, v) l -> k <= fold_left (fun m kv => if m <? fst kv then fst kv else m) l b.
Proof.
  induction l as [|[k v] l IH]; intros b; cbn [fold_left In fst]; [split; [lia|easy]|].
  destruct (IH (if b <? k then k else b)) as [H1 H2]. destruct (Z.ltb_spec b k).
  - split; [lia|]. intros k' v' [[= <- <-]|Hx]; [lia|eauto].
  - split; [lia|]. intros k' v' [[= <- <-]|Hx]; [lia|eauto].
Qed.

Lemma init_partitions_spec : forall db ps, ksorted zord db ->
    (forall p p' x, kget zord p db = Some x -> kget zord p' db = Some x -> p = p') ->
    let '(db', res) := init_partitions db ps in
    ksorted zord db' /\
    (forall p p' x, kget zord p db' = Some x -> kget zord p' db' = Some x -> p = p') /\
    (forall p x, kget zord p db = Some x -> kget zord p db' = Some x) /\
    NoDup (keys res) /\
    (forall i p, In (i, p) res -> In p ps /\ kget zord i db' = Some (part_data_of p)) /\
    (forall p, In p ps -> exists i p', In (i, p') res /\ kget zord i db' = Some (part_data_of p)).
Proof.
  intros db ps Hs Hi. unfold init_partitions.
  set (mx := fold_left _ db 0). set (cache := fold_left _ db []).
  assert (H0 : parts_inv db [] (cache, mx + 1, db, [])).
  { constructor; cbn [fst snd]; auto; try easy.
    - intros x i. unfold cache. rewrite (dget_fold _ _ _ _ part_data_eqb_spec snd fst).
      + rewrite (kget_In zord) by auto. cbn [dget]. split.
        * intros [([k y] & Hx & E1 & E2)|[_ [=]]]. cbn in *. now subst.
        * intros H. left. exists (i, x). auto.
      + apply NoDup_map_inj; [apply NoDup_keys_list; now apply (ksorted_NoDup zord)|].
        intros [r1 t1] [r2 t2] H1 H2 E. cbn in E. subst t2.
        apply (kget_In zord) in H1; auto. apply (kget_In zord) in H2; auto. now rewrite (Hi _ _ _ H1 H2).
    - intros i x Hx. apply (kget_In zord) in Hx; auto. unfold mx.
      destruct (max_key_ge _ db 0) as [_ Hm]. specialize (Hm _ _ Hx). lia.
    - constructor. }
  apply (part_steps ps) in H0. cbn [app] in H0.
  destruct (fold_left init_partition ps (cache, mx + 1, db, [])) as [[[c n] db'] res].
  destruct H0 as [I1 I2 I3 I4 I5 I6 I7]. cbn [fst snd] in *.
  split; [auto|]. split; [|auto].
  intros p p' x H1 H2. apply I2 in H1. apply I2 in H2. congruence.
Qed.

(** ** Opening *)

Definition with_parts (d : ldb) (st : list (Z * string)) (ps : list (Z * part_data)) : ldb :=
  Ldb st (db_ids d) (db_tss d) (db_ref d) (db_latest d) (db_types d) (db_ts d) ps (db_counts d).

Lemma repr_parts : forall d H K st ps, repr d H K -> ksorted zord ps ->
    (forall p p' x, kget zord p ps = Some x -> kget zord p' ps = Some x -> p = p') ->
    (forall p x, kget zord p (db_parts d) = Some x -> kget zord p ps = Some x) ->
    repr (with_parts d st ps) H K.
Proof.
  intros d H K st ps Hr Hs Hi He. pose proof Hr as Hr0. destruct Hr0.
  assert (Hkept : forall k e, kept (with_parts d st ps) H k e <-> kept d H k e).
  { intros k e. unfold kept. cbn [with_parts db_parts]. split; intros (cf & pt & H1 & H2 & H3 & H4).
    - exists cf, pt. split; [auto|]. split; [auto|]. split; [|auto].
      destruct (rp_parts _ _ H1 H2) as [p Hp].
      pose proof (He _ _ Hp) as Hp'. now rewrite (Hi _ _ _ H3 Hp').
    - exists cf, pt. auto. }
  constructor; auto.
  - destruct rp_base as [[]]. constructor; auto. constructor; auto.
  - intros en pt H1 H2. destruct (rp_parts en pt H1 H2) as [p Hp]. exists p. cbn [with_parts db_parts]. auto.
  - intros k e. rewrite Hkept. apply rp_ts.
Qed.

Lemma open_spec : forall d H K cf d' m, repr d H K -> open_db cf d = Some (d', m) ->
    repr d' H K /\ mem_repr m d' H cf /\ parts_known d' cf.
Proof.
  intros d H K cf d' m Hr. unfold open_db.
  destruct (validate_settings (db_settings d) (cf_version cf) (cf_ident cf)) as [st|]; [|discriminate].
  pose proof (init_partitions_spec (db_parts d) (cf_parts cf) (rp_psorted _ _ _ Hr) (rp_pinj _ _ _ Hr)) as Hp.
  destruct (init_partitions (db_parts d) (cf_parts cf)) as [ps res]. destruct Hp as (P1 & P2 & P3 & P4 & P5 & P6).
  intros [= <- <-]. fold (with_parts d st ps).
  pose proof (rp_base _ _ _ Hr) as Hb. pose proof (ba_wf _ Hb) as Hw.
  destruct (latest_open_spec d H K cf Hr) as (L1 & L2 & L3 & L4).
  split; [now apply repr_parts|]. split.
  - constructor; cbn [m_sys m_latest m_ref_last m_parts sd_ids sd_tss with_parts db_ids db_tss db_types db_parts]; auto.
    + intros s. apply load_dict, Hw.
    + intros s. apply load_dict, Hw.
    + intros s i Hd. discriminate Hd.
  - intros pt Hpt. destruct (P6 _ Hpt) as (i & p' & _ & Hk). exists i. exact Hk.
Qed.

Lemma repr_empty : repr empty_db [] [].
Proof.
  assert (Hn : forall (K V : Type) (o : ord K) k, kget o k ([] : list (K * V)) = None) by reflexivity.
  constructor; cbn [empty_db db_ids db_tss db_ref db_latest db_types db_ts db_parts db_counts]; try easy.
  - apply hist_ok_nil.
  - constructor; try easy.
    constructor; cbn [empty_db db_ids db_tss db_ref db_latest db_types db_ts db_parts db_counts]; try constructor; try constructor; easy.
  - intros t. split; [easy|]. intros [r Hr]. discriminate.
  - constructor.
  - intros k e. split; [easy|]. intros [(cf & pt & [] & _) _].
  - intros [k|k] i (e & He & _); discriminate.
Qed.
