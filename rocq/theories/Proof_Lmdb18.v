(** LMDB backend: parts of timeseries queries. *)
From Coq Require Import String Bool ZArith Lia Sorted Permutation List.
From Verif Require Import Base Kv Model_Types Model_Subscription Model_Order Model_Codec Keys
  Spec_Order Spec_Codec Spec_Subscription Proof_Subscription Proof_Subscription2 Proof_Order Model_Lmdb Model_LmdbSys Spec_Lmdb Spec_LmdbContent
  Spec_LmdbQuery Spec_LmdbTs
  Proof_Lmdb1 Proof_Lmdb2 Proof_Lmdb3 Proof_Lmdb4 Proof_Lmdb5 Proof_Lmdb6 Proof_Lmdb7 Proof_Lmdb8 Proof_Lmdb9 Proof_Lmdb10 Proof_Lmdb11 Proof_Lmdb12
  Proof_Lmdb13 Proof_Lmdb14 Proof_Lmdb16.
Import ListNotations.
Open Scope list_scope.
Open Scope Z_scope.

(** ** The filter *)

Lemma fp_app : forall p sub a f b, filter_process p sub f (a ++ b) =
    let '(r, f1) := filter_process p sub f a in
    let '(r2, f2) := filter_process p sub f1 b in (r ++ r2, f2).
Proof.
  intros p sub. induction a as [|e a IH]; intros f b; cbn [filter_process app].
  - destruct (filter_process p sub f b). reflexivity.
  - destruct (f_left f <? 1) eqn:E.
    + destruct b as [|x b]; cbn [filter_process]; [reflexivity|]. now rewrite E.
    + destruct (f_last f) as [i|].
      * destruct (eid_eqb (ev_id e) i); apply IH.
      * destruct (filter_test p sub e); [|apply IH]. rewrite IH.
        destruct (filter_process p sub (Flt None (f_left f - 1)) a) as [r f1].
        destruct (filter_process p sub f1 b). reflexivity.
Qed.

Lemma fp_done : forall p sub f b, filter_done f = true -> filter_process p sub f b = ([], f).
Proof. intros p sub f [|e b] H; cbn [filter_process]; auto. unfold filter_done in H. now rewrite H. Qed.

Lemma fp_none : forall p sub es n, fst (filter_process p sub (Flt None n) es) = firstn (Z.to_nat n) (filter (filter_test p sub) es).
Proof.
  intros p sub. induction es as [|e es IH]; intros n; cbn [filter_process filter f_left f_last].
  - cbn [fst]. now rewrite firstn_nil.
  - destruct (Z.ltb_spec n 1) as [H|H].
    + cbn [fst]. replace (Z.to_nat n) with 0%nat by lia. reflexivity.
    + destruct (filter_test p sub e).
      * specialize (IH (n - 1)). destruct (filter_process p sub (Flt None (n - 1)) es) as [r f]. cbn [fst] in *.
        replace (Z.to_nat n) with (S (Z.to_nat (n - 1))) by lia. cbn [firstn]. now rewrite IH.
      * apply IH.
Qed.

Lemma fp_spec : forall p sub es last n,
    fst (filter_process p sub (Flt last n) es) = firstn (Z.to_nat n) (filter (filter_test p sub) (following last es)).
Proof.
  intros p sub es [i|] n; [|apply fp_none]. cbn [following]. induction es as [|e es IH]; cbn [filter_process behind f_left f_last].
  - cbn [fst filter]. now rewrite firstn_nil.
  - destruct (Z.ltb_spec n 1) as [H|H].
    + cbn [fst]. replace (Z.to_nat n) with 0%nat by lia. reflexivity.
    + destruct (eid_eqb (ev_id e) i); [apply fp_none|apply IH].
Qed.

Lemma fp_left : forall p sub es f, f_left (snd (filter_process p sub f es)) = f_left f - zlen (fst (filter_process p sub f es)).
Proof.
  intros p sub. induction es as [|e es IH]; intros f; cbn [filter_process].
  - cbn. lia.
  - destruct (f_left f <? 1); [cbn; lia|]. destruct (f_last f) as [i|].
    + destruct (eid_eqb (ev_id e) i); rewrite IH; reflexivity.
    + destruct (filter_test p sub e); [|apply IH]. specialize (IH (Flt None (f_left f - 1))).
      destruct (filter_process p sub (Flt None (f_left f - 1)) es) as [r f']. cbn [fst snd f_left] in *. rewrite IH.
      unfold zlen. cbn [List.length]. lia.
Qed.

Lemma test_wanted : forall p sub e, match qt_types p with None => sub = None | Some qs => exists n, sub = Some n /\ py_create qs = Some n end ->
    (filter_test p sub e = true <-> wanted p e).
Proof.
  intros p sub e Hs. unfold filter_test, wanted, within, types_asked.
  assert (Hm : match sub with Some n => node_matches n (ev_type e) | None => true end = true <->
               match qt_types p with Some qs => selects qs (ev_type e) | None => True end).
  { destruct (qt_types p) as [qs|]; [|subst sub; tauto]. destruct Hs as (n & -> & Hc).
    exact (proj2 (final_C01 qs) n Hc (ev_type e)). }
  rewrite !andb_true_iff, Hm. unfold opt_test.
  assert (Ha : forall a b, negb (ts_ltb a b) = true <-> ts_leb b a = true).
  { intros a b. now rewrite ts_leb_ltb. }
  destruct (qt_from p), (qt_to p), (qt_sfrom p), (qt_sto p), (ev_src e); rewrite ?andb_true_iff, ?Ha; cbn [negb]; intuition congruence.
Qed.

(** ** Entries in the database *)

Definition key_high (k : ts_key) : Prop :=
  ts_leb (snd (fst k)) max_timestamp = true /\ eid_ltb (snd k) max_id = true.

Lemma repr_high : forall d H K, repr d H K -> forall k, In k (keys (db_ts d)) -> key_high k.
Proof.
  intros d H K Hr k Hk. apply In_keys_ex in Hk as [e Hk].
  apply (kget_In keyord) in Hk; [|apply (rp_base _ _ _ Hr)].
  apply (rp_ts _ _ _ Hr) in Hk as [(cf & pt & Hin & _ & _ & Hpl & Hid) _].
  pose proof (rp_evs _ _ _ Hr _ Hin) as ((Hi1 & Hi2 & Hi3) & Hne & Ht & Hs). cbn [en_ev] in *.
  split.
  - assert (Hok : ts_ok (snd (fst k))).
    { unfold place in Hpl. destruct (node_matches _ _); [|discriminate]. destruct (pt_order pt); [congruence|auto]. }
    destruct Hok as [Ho1 Ho2]. unfold ts_leb, max_timestamp. cbn [ts_s ts_us]. lia.
  - rewrite Hid. unfold eid_ltb, max_id. cbn [eid_server eid_session eid_instance].
    destruct (ev_id e) as [a b c]. cbn [eid_server eid_session eid_instance] in *.
    assert (Hn : a <> 2 ^ 64 - 1 \/ b <> 2 ^ 64 - 1 \/ c <> 2 ^ 64 - 1).
    { destruct (Z.eq_dec a (2 ^ 64 - 1)), (Z.eq_dec b (2 ^ 64 - 1)), (Z.eq_dec c (2 ^ 64 - 1)); auto. subst. now elim Hne. }
    lia.
Qed.

Lemma key_ltb_from : forall k n t, key_low k -> key_ltb k (n, t, zero_id) = ((fst (fst k) <? n) || ((fst (fst k) =? n) && ts_ltb (snd (fst k)) t)).
Proof.
  intros [[p u] i] n t [_ Hl]. cbn [fst snd] in *. unfold key_ltb. rewrite (eqb_leb_asym_id _ Hl), andb_false_r, orb_false_r. reflexivity.
Qed.

Lemma key_ltb_to : forall k n t, key_high k -> key_ltb k (n, t, max_id) = ((fst (fst k) <? n) || ((fst (fst k) =? n) && ts_leb (snd (fst k)) t)).
Proof.
  intros [[p u] i] n t [_ Hl]. cbn [fst snd] in *. unfold key_ltb. rewrite Hl, andb_true_r.
  assert (E : ts_ltb u t || ts_eqb u t = ts_leb u t).
  { apply eq_true_iff_eq. rewrite orb_true_iff, ts_leb_lt, ts_eqb_spec. tauto. }
  now rewrite E.
Qed.

Lemma key_to_ltb : forall k n t, key_high k -> negb (key_ltb (n, t, max_id) k) = key_ltb k (n, t, max_id).
Proof.
  intros k n t Hh. apply eq_true_iff_eq. rewrite negb_true_iff. split; intros H.
  - destruct (key_lt_total k (n, t, max_id)) as [A|[A|A]]; [now apply key_ltb_spec| |].
    + exfalso. subst k. destruct Hh as [_ Hh]. cbn [snd] in Hh. rewrite ltb_irrefl in Hh. discriminate.
    + apply key_ltb_spec in A. congruence.
  - destruct (key_ltb (n, t, max_id) k) eqn:E; auto. apply key_ltb_spec in E, H.
    exfalso. eapply key_lt_irrefl, key_lt_trans; eauto.
Qed.

Lemma range_test : forall k n lo hi, key_low k -> key_high k ->
    negb (key_ltb k (n, match lo with Some t => t | None => min_timestamp end, zero_id)) &&
    key_ltb k (n, match hi with Some t => t | None => max_timestamp end, max_id) =
    (fst (fst k) =? n) && within lo hi (snd (fst k)).
Proof.
  intros k n lo hi Hl Hh. rewrite key_ltb_from, key_ltb_to by auto.
  assert (E1 : negb (ts_ltb (snd (fst k)) match lo with Some t => t | None => min_timestamp end) =
               match lo with Some x => ts_leb x (snd (fst k)) | None => true end).
  { rewrite <- ts_leb_ltb. destruct lo; auto. apply Hl. }
  assert (E2 : ts_leb (snd (fst k)) match hi with Some t => t | None => max_timestamp end =
               match hi with Some x => ts_leb (snd (fst k)) x | None => true end).
  { destruct hi; auto. apply Hh. }
  unfold within. rewrite <- E1, E2.
  destruct (Z.ltb_spec (fst (fst k)) n), (Z.eqb_spec (fst (fst k)) n); try lia; cbn [andb orb negb]; auto.
Qed.

Lemma ksorted_SS : forall (K V : Type) (o : ord K) (m : list (K * V)), ksorted o m ->
    StronglySorted (fun a b => oltb o (fst a) (fst b) = true) m.
Proof.
  intros K V o. induction m as [|[k v] m IH]; intros H; [constructor|].
  unfold ksorted, keys in *. cbn [map] in H. inversion H as [|? ? Ha Hb]; subst. constructor; auto.
  apply Forall_forall. intros x Hx. rewrite Forall_forall in Hb. apply Hb. now apply in_map.
Qed.

Lemma SS_rev : forall (A : Type) (R : A -> A -> Prop) l, StronglySorted R l -> StronglySorted (fun a b => R b a) (rev l).
Proof.
  induction l as [|x l IH]; intros H; cbn [rev]; [constructor|]. inversion H as [|? ? Ha Hb]; subst.
  apply SS_app; auto; [repeat constructor|]. intros a b Hi [<-|[]]. apply in_rev in Hi. rewrite Forall_forall in Hb. auto.
Qed.

Lemma filter_rev : forall (A : Type) (f : A -> bool) l, filter f (rev l) = rev (filter f l).
Proof.
  induction l as [|x l IH]; cbn [rev filter]; auto. rewrite filter_app, IH. cbn [filter].
  destruct (f x); cbn [rev]; auto. now rewrite app_nil_r.
Qed.

Lemma map_filter : forall (A B : Type) (f : A -> B) (g : B -> bool) l, filter g (map f l) = map f (filter (fun x => g (f x)) l).
Proof. induction l as [|x l IH]; cbn; auto. destruct (g (f x)); cbn; now rewrite IH. Qed.

Definition in_range (p : query_timeseries) (l : list (timestamp * event)) : list event :=
  map snd (filter (fun x => within (order_from p) (order_to p) (fst x)) l).

Lemma query_range_spec : forall d H K n lo hi o, repr d H K ->
    query_range d n lo hi o =
    let l := map snd (filter (fun x => within lo hi (fst x)) (stored_in d n)) in
    match o with ASCENDING => l | DESCENDING => rev l end.
Proof.
  intros d H K n lo hi o Hr. cbn zeta.
  set (from := (n, match lo with Some t => t | None => min_timestamp end, zero_id)).
  set (to := (n, match hi with Some t => t | None => max_timestamp end, max_id)).
  assert (Hs : StronglySorted (fun a b : ts_key * event => key_ltb (fst a) (fst b) = true) (db_ts d)).
  { apply (ksorted_SS _ _ keyord). apply (rp_base _ _ _ Hr). }
  assert (Ht : forall a b c, key_ltb a b = true -> key_ltb b c = true -> key_ltb a c = true).
  { intros a b c. rewrite !key_ltb_spec. apply key_lt_trans. }
  assert (Hok : forall kv, In kv (db_ts d) -> key_low (fst kv) /\ key_high (fst kv)).
  { intros kv Hi. split; [eapply repr_low; eauto|eapply repr_high; eauto]; now apply in_map. }
  assert (E : map snd (filter (fun x => within lo hi (fst x)) (stored_in d n)) =
              vals (filter (fun kv => negb (key_ltb (fst kv) from) && key_ltb (fst kv) to) (db_ts d))).
  { unfold stored_in. rewrite map_filter, map_map, filter_filter'. unfold vals. cbn [fst snd].
    apply (f_equal (map snd)). apply filter_ext_in'. intros kv Hi. destruct (Hok _ Hi). unfold from, to. now rewrite range_test. }
  rewrite E. unfold query_range. fold from to. destruct o.
  - f_equal. rewrite (takewhile_filter _ (fun a b => key_ltb (fst b) (fst a) = true)).
    + rewrite (takewhile_filter _ (fun a b => key_ltb (fst a) (fst b) = true)); [|exact Hs|intros a b; apply Ht].
      rewrite filter_rev, filter_filter'. unfold vals. rewrite <- map_rev. do 2 f_equal. apply filter_ext. intros. apply andb_comm.
    + apply SS_rev. rewrite (takewhile_filter _ (fun a b => key_ltb (fst a) (fst b) = true)); [now apply SS_filter|exact Hs|intros a b; apply Ht].
    + intros a b Hab. rewrite !negb_true_iff. intros Hb. destruct (key_ltb (fst a) from) eqn:Ea; auto. rewrite (Ht _ _ _ Hab Ea) in Hb. discriminate.
  - f_equal. rewrite (dropwhile_filter _ (fun a b => key_ltb (fst a) (fst b) = true)); [|exact Hs|intros a b; apply Ht].
    rewrite (takewhile_filter _ (fun a b => key_ltb (fst a) (fst b) = true)).
    + rewrite filter_filter'. apply filter_ext_in'. intros kv Hi. f_equal. apply key_to_ltb. now apply Hok.
    + now apply SS_filter.
    + intros a b Hab. rewrite !negb_true_iff. intros Hb. destruct (key_ltb to (fst a)) eqn:Ea; auto. rewrite (Ht _ _ _ Ea Hab) in Hb. discriminate.
Qed.

Definition arranged (p : query_timeseries) (l : list event) : list event :=
  match qt_order p with ASCENDING => l | DESCENDING => rev l end.

Lemma query_stored_spec : forall d H K cond n p sub f, repr d H K ->
    query_stored cond d n p sub f = filter_process p sub f (arranged p (in_range p (seen cond (stored_in d n)))).
Proof.
  intros d H K cond n p sub f Hr. unfold query_stored. f_equal.
  assert (E : match qt_order_by p with
              | TIMESTAMP => query_range d n (qt_from p) (qt_to p) (qt_order p)
              | SOURCE_TIMESTAMP => query_range d n (qt_sfrom p) (qt_sto p) (qt_order p)
              end = query_range d n (order_from p) (order_to p) (qt_order p)).
  { unfold order_from, order_to. destruct (qt_order_by p); reflexivity. }
  rewrite E, (query_range_spec _ _ _ _ _ _ _ Hr). cbn zeta. unfold arranged, in_range, seen.
  assert (E2 : filter cond (map snd (filter (fun x => within (order_from p) (order_to p) (fst x)) (stored_in d n))) =
               map snd (filter (fun x => within (order_from p) (order_to p) (fst x)) (filter (fun x => cond (snd x)) (stored_in d n)))).
  { rewrite map_filter. f_equal. rewrite !filter_filter'. apply filter_ext. intros. apply andb_comm. }
  destruct (qt_order p); [rewrite filter_rev|]; now rewrite E2.
Qed.

(** ** Pending entries *)

Lemma dropwhile_map : forall (A B : Type) (f : A -> B) (g : B -> bool) l, dropwhile g (map f l) = map f (dropwhile (fun x => g (f x)) l).
Proof. induction l as [|x l IH]; cbn; auto. destruct (g (f x)); auto. Qed.
Lemma takewhile_map : forall (A B : Type) (f : A -> B) (g : B -> bool) l, takewhile g (map f l) = map f (takewhile (fun x => g (f x)) l).
Proof. induction l as [|x l IH]; cbn; auto. destruct (g (f x)); cbn; auto. now rewrite IH. Qed.

(** Cutting a sorted list at both ends. *)
Lemma cut : forall (A : Type) (R : A -> A -> Prop) (f g : A -> bool) l, StronglySorted R l ->
    (forall a b, R a b -> f b = true -> f a = true) -> (forall a b, R a b -> g b = true -> g a = true) ->
    takewhile g (dropwhile f l) = filter (fun x => negb (f x) && g x) l.
Proof.
  intros A R f g l Hs Hf Hg. rewrite (dropwhile_filter _ R f l Hs Hf), (takewhile_filter _ R g); auto; [|now apply SS_filter].
  now rewrite filter_filter'.
Qed.

Lemma dropwhile_none : forall (A : Type) (l : list A), dropwhile (fun _ => false) l = l.
Proof. destruct l; reflexivity. Qed.
Lemma takewhile_all : forall (A : Type) (l : list A), takewhile (fun _ => true) l = l.
Proof. induction l as [|x l IH]; cbn; auto. now rewrite IH. Qed.

Lemma from_first_eq : forall (A : Type) (f : A -> bool) l, from_first f l = dropwhile (fun x => negb (f x)) l.
Proof. induction l as [|x l IH]; cbn; auto. now destruct (f x). Qed.
Lemma as_long_as_eq : forall (A : Type) (f : A -> bool) l, as_long_as f l = takewhile f l.
Proof. reflexivity. Qed.

Lemma query_pending_spec : forall l p sub f, (forall x, In x l -> by_ts (qt_order_by p) (snd x) = fst x) ->
    query_pending l p sub f = filter_process p sub f (scanned p l).
Proof.
  intros l p sub f Hb. unfold query_pending. f_equal. fold (order_from p). fold (order_to p). unfold scanned.
  set (t := by_ts (qt_order_by p)) in *. cbn zeta.
  assert (Hn : forall a b, negb (ts_leb a b) = ts_ltb b a) by (intros; rewrite ts_leb_ltb; apply negb_involutive).
  assert (Hdt : forall (F F' G G' : timestamp -> bool) k, (forall x, F x = F' x) -> (forall x, G x = G' x) -> (forall x, In x k -> In x l) ->
            takewhile (fun e => G (t e)) (dropwhile (fun e => F (t e)) (map snd k)) =
            map snd (takewhile (fun x => G' (fst x)) (dropwhile (fun x => F' (fst x)) k))).
  { intros F F' G G' k HF HG. rewrite dropwhile_map, takewhile_map. intros Hk. f_equal.
    assert (Hs : dropwhile (fun x : timestamp * event => F (t (snd x))) k = dropwhile (fun x => F' (fst x)) k /\
                 forall x, In x (dropwhile (fun x => F' (fst x)) k) -> In x l).
    { induction k as [|x k IH]; cbn; [easy|]. rewrite Hb, HF by (apply Hk; now left).
      destruct (F' (fst x)); [apply IH; intros y Hy; apply Hk; now right|]. split; auto. }
    destruct Hs as [-> Hs]. revert Hs. generalize (dropwhile (fun x => F' (fst x)) k). clear - Hb HG. intros k.
    induction k as [|x k IH]; intros Hk; cbn; auto. rewrite Hb, HG by (apply Hk; now left). destruct (G' (fst x)); auto. f_equal.
    apply IH. intros y Hy. apply Hk. now right. }
  destruct (qt_order p); rewrite from_first_eq, as_long_as_eq.
  - rewrite <- map_rev. etransitivity; [|apply (Hdt (fun x => match order_to p with Some y => ts_ltb y x | None => false end)
      (fun x => negb (within None (order_to p) x))
      (fun x => match order_from p with Some y => ts_leb y x | None => true end) (within (order_from p) None))].
    + destruct (order_from p), (order_to p); rewrite ?dropwhile_none, ?takewhile_all; reflexivity.
    + intros x. unfold within. cbn [andb]. destruct (order_to p); rewrite ?Hn; reflexivity.
    + intros x. unfold within. now rewrite andb_true_r.
    + intros x Hx. now apply in_rev.
  - etransitivity; [|apply (Hdt (fun x => match order_from p with Some y => ts_ltb x y | None => false end)
      (fun x => negb (within (order_from p) None x))
      (fun x => match order_to p with Some y => ts_leb x y | None => true end) (within None (order_to p)))].
    + destruct (order_from p), (order_to p); rewrite ?dropwhile_none, ?takewhile_all; reflexivity.
    + intros x. unfold within. rewrite andb_true_r. destruct (order_from p); rewrite ?Hn; reflexivity.
    + intros x. reflexivity.
    + auto.
Qed.

Lemma scanned_cut : forall p l, cuttable p l -> scanned p l = in_sequence p l.
Proof.
  intros p l [Ho|[E1 E2]].
  - unfold scanned, in_sequence. cbn zeta.
    assert (Hle : forall a b c, ts_leb a b = true -> ts_leb b c = true -> ts_leb a c = true).
    { intros a b c. rewrite !ts_leb_spec. apply ts_le_trans. }
    assert (Hl : forall a b, ts_leb a b = true -> within (order_from p) None a = true -> within (order_from p) None b = true).
    { intros a b Hab. unfold within. rewrite !andb_true_r. destruct (order_from p); eauto. }
    assert (Hu : forall a b, ts_leb a b = true -> within None (order_to p) b = true -> within None (order_to p) a = true).
    { intros a b Hab. unfold within. cbn [andb]. destruct (order_to p); eauto. }
    destruct (qt_order p); rewrite from_first_eq, as_long_as_eq.
    + rewrite (cut _ (fun a b => ts_leb (fst b) (fst a) = true)); [|now apply SS_rev| |].
      * rewrite <- map_rev, <- filter_rev. f_equal. apply filter_ext. intros x. rewrite negb_involutive. unfold within.
        rewrite andb_true_r. cbn [andb]. apply andb_comm.
      * intros a b Hab. rewrite !negb_true_iff. intros Hb. destruct (within None (order_to p) (fst a)) eqn:E; auto. rewrite (Hu _ _ Hab E) in Hb. discriminate.
      * intros a b. apply Hl.
    + rewrite (cut _ (fun a b => ts_leb (fst a) (fst b) = true)); [|exact Ho| |].
      * f_equal. apply filter_ext. intros x. rewrite negb_involutive. unfold within. rewrite andb_true_r. reflexivity.
      * intros a b Hab. rewrite !negb_true_iff. intros Hb. destruct (within (order_from p) None (fst a)) eqn:E; auto. rewrite (Hl _ _ Hab E) in Hb. discriminate.
      * intros a b. apply Hu.
  - unfold scanned, in_sequence, within. rewrite E1, E2. cbn zeta. cbn [andb]. rewrite filter_true.
    assert (Hf : forall k : list (timestamp * event), from_first (fun _ => true) k = k) by (now intros []).
    rewrite !Hf, !as_long_as_eq, !takewhile_all. destruct (qt_order p); auto. apply map_rev.
Qed.

(** Without assumptions: what is looked at is a part of the entries. *)
Inductive sub {A : Type} : list A -> list A -> Prop :=
| sub_nil : sub [] []
| sub_skip : forall x a b, sub a b -> sub a (x :: b)
| sub_keep : forall x a b, sub a b -> sub (x :: a) (x :: b).

Local Hint Constructors sub : core.

Lemma sub_refl : forall (A : Type) (l : list A), sub l l.
Proof. induction l; auto. Qed.
Lemma sub_In : forall (A : Type) (a b : list A) x, sub a b -> In x a -> In x b.
Proof. intros A a b x H. induction H; cbn; intuition. Qed.
Lemma sub_map : forall (A B : Type) (f : A -> B) a b, sub a b -> sub (map f a) (map f b).
Proof. intros A B f a b H. induction H; cbn; auto. Qed.
Lemma sub_NoDup : forall (A : Type) (a b : list A), sub a b -> NoDup b -> NoDup a.
Proof.
  intros A a b H. induction H; intros Hn; auto; inversion Hn as [|? ? Hi Hn']; subst; auto.
  constructor; auto. intros Hx. apply Hi. eapply sub_In; eauto.
Qed.
Lemma sub_trans : forall (A : Type) (b c : list A), sub b c -> forall a, sub a b -> sub a c.
Proof.
  intros A b c H. induction H as [|x b c H IH|x b c H IH]; intros a Ha; auto.
  - inversion Ha; subst; auto.
Qed.
Lemma sub_dropwhile : forall (A : Type) (f : A -> bool) l, sub (dropwhile f l) l.
Proof. induction l as [|x l IH]; cbn; [constructor|]. destruct (f x); [auto|apply sub_refl]. Qed.
Lemma sub_takewhile : forall (A : Type) (f : A -> bool) l, sub (takewhile f l) l.
Proof.
  induction l as [|x l IH]; cbn; [constructor|]. destruct (f x); [now apply sub_keep|].
  apply sub_skip. clear. induction l; auto.
Qed.
Lemma sub_none : forall (A : Type) (l : list A), sub [] l.
Proof. induction l; auto. Qed.
Lemma sub_filter : forall (A : Type) (f : A -> bool) l, sub (filter f l) l.
Proof. induction l as [|x l IH]; cbn; [constructor|]. destruct (f x); auto. Qed.
Lemma sub_app : forall (A : Type) (a b c d : list A), sub a b -> sub c d -> sub (a ++ c) (b ++ d).
Proof. intros A a b c d H1 H2. induction H1; cbn; auto. Qed.
Lemma sub_firstn : forall (A : Type) n (l : list A), sub (firstn n l) l.
Proof. induction n as [|n IH]; intros [|x l]; cbn; try apply sub_none; auto. Qed.

Lemma scanned_sub : forall p l, sub (scanned p l) (arranged p (map snd l)).
Proof.
  intros p l. unfold scanned, arranged. destruct (qt_order p); rewrite from_first_eq, as_long_as_eq; [rewrite <- map_rev|];
    apply sub_map; (eapply sub_trans; [apply sub_dropwhile|apply sub_takewhile]).
Qed.

Lemma part_changes_add : forall e pts c n, part_changes (fold_left (ts_add1 e) pts c) n =
    part_changes c n ++ map (fun x => (snd x, e)) (filter (fun x => fst x =? n) pts).
Proof.
  intros e. induction pts as [|x pts IH]; intros c n; cbn [fold_left filter map]; [now rewrite app_nil_r|].
  rewrite IH. unfold ts_add1, part_changes at 1. destruct (Z.eqb_spec (fst x) n) as [<-|Hne].
  - rewrite (dget_dset_same zeqb_spec). cbn [map]. now rewrite <- app_assoc.
  - rewrite (dget_dset_other zeqb_spec) by auto. reflexivity.
Qed.

Lemma single : forall (A : Type) (l : list A) x, NoDup l -> (forall y, In y l <-> y = x) -> l = [x].
Proof.
  intros A [|a l] x Hn H. { destruct (proj2 (H x) eq_refl). }
  assert (a = x) by (apply H; now left). subst a. destruct l as [|b l]; auto.
  assert (b = x) by (apply H; right; now left). subst b. inversion Hn as [|? ? Hi _]. elim Hi. now left.
Qed.

Lemma part_changes_pending : forall d H c h pls cf n pt, pendH d H c h pls -> Forall (fun en => en_conf en = cf) h ->
    conf_ok cf -> In pt (cf_parts cf) -> kget zord n (db_parts d) = Some (part_data_of pt) ->
    part_changes (ch_ts c) n = pending_in pt h.
Proof.
  intros d H c h pls cf n pt Hp Hc Hok Hpt Hn. induction Hp as [|c h pls en pl Hp IH Ha Hco Hev Hpf Hk]; [reflexivity|].
  apply Forall_app in Hc as [Hc1 Hc2]. inversion Hc2 as [|? ? Ec _]; subst.
  unfold pending_in. rewrite flat_map_app. fold (pending_in pt h). rewrite <- IH by auto. unfold apply_plan. cbn [ch_ts].
  rewrite part_changes_add. f_equal. cbn [flat_map]. rewrite app_nil_r, (pf_ev _ _ _ _ Hpf).
  assert (Hin : forall p t, In (p, t) (filter (fun x => fst x =? n) (pl_places pl)) <-> p = n /\ place pt (en_ev en) = Some t).
  { intros p t. rewrite filter_In, (pf_places _ _ _ _ Hpf), flush_parts. cbn [fst]. rewrite Z.eqb_eq. split.
    - intros [(pt' & H1 & H2 & H3) ->]. split; auto. rewrite <- H3. apply part_data_place.
      + eapply nth_wf; eauto.
      + eapply nth_wf; eauto.
      + congruence.
    - intros [-> Ht]. split; auto. exists pt. auto. }
  assert (Hnd : NoDup (filter (fun x => fst x =? n) (pl_places pl))).
  { apply NoDup_filter. eapply NoDup_map_inv. apply (pf_nodup _ _ _ _ Hpf). }
  destruct (place pt (en_ev en)) as [t|] eqn:Ep.
  - rewrite (single _ _ (n, t) Hnd); [reflexivity|]. intros [p u]. rewrite Hin. split; [intros [-> [= ->]]; auto|intros [= -> ->]; auto].
  - destruct (filter (fun x => fst x =? n) (pl_places pl)) as [|[p t] l] eqn:Ef; auto.
    assert (In (p, t) ((p, t) :: l)) as Hi by now left. apply Hin in Hi as [_ Hi]. discriminate.
Qed.

(** ** The partition *)

Lemma find_dset : forall (V : Type) (f : V -> bool) k v (l : list (Z * V)), (forall v', In (k, v') l -> f v' = f v) ->
    option_map fst (find (fun x => f (snd x)) (dset Z.eqb k v l)) =
    match option_map fst (find (fun x => f (snd x)) l) with
    | Some i => Some i
    | None => if dmem Z.eqb k l then None else if f v then Some k else None
    end.
Proof.
  intros V f k v. induction l as [|[k' v'] l IH]; intros H; cbn [dset find snd option_map].
  - unfold dmem. cbn. destruct (f v); reflexivity.
  - destruct (Z.eqb_spec k k') as [<-|Hne]; cbn [find snd].
    + rewrite <- (H v') by now left. destruct (f v'); cbn [option_map fst]; auto.
      unfold dmem. cbn [dget]. rewrite Z.eqb_refl. destruct (find _ l); reflexivity.
    + destruct (f v'); cbn [option_map fst]; auto. rewrite IH by (intros w Hw; apply H; now right).
      unfold dmem. cbn [dget]. destruct (Z.eqb_spec k k'); [congruence|]. reflexivity.
Qed.

Lemma find_numbered : forall (f : partition -> bool) dp ps res, one_id dp -> numbered dp ps res ->
    (forall a b, In a ps -> In b ps -> part_data_of a = part_data_of b -> f a = f b) ->
    match option_map fst (find (fun x => f (snd x)) res) with
    | Some n => exists a pt b, ps = a ++ pt :: b /\ f pt = true /\ (forall x, In x a -> f x = false) /\
                               kget zord n dp = Some (part_data_of pt)
    | None => forall x, In x ps -> f x = false
    end.
Proof.
  intros f dp ps0 res0 H1 Hn0. induction Hn0 as [|ps res n pt Hn IH Hk]; intros Hf; [cbn; intros x []|].
  assert (Hf' : forall a b, In a ps -> In b ps -> part_data_of a = part_data_of b -> f a = f b).
  { intros a b Ha Hb. apply Hf; apply in_or_app; auto. }
  specialize (IH Hf'). rewrite find_dset.
  2: { intros v Hi. destruct (numbered_In _ _ _ _ _ H1 Hn Hi) as (A & a & b & -> & _). apply Hf.
       - apply in_or_app; left; apply in_or_app; right; now left.
       - apply in_or_app; right; now left.
       - congruence. }
  destruct (option_map fst (find (fun x => f (snd x)) res)) as [i|].
  - destruct IH as (a & q & b & -> & A & B & C). exists a, q, (b ++ [pt]). rewrite <- app_assoc. auto.
  - destruct (dmem Z.eqb n res) eqn:Em.
    + intros x Hx. apply in_app_or in Hx as [Hx|[<-|[]]]; auto.
      apply (dmem_In zeqb_spec) in Em. apply In_keys_ex in Em as [v Hv].
      destruct (numbered_In _ _ _ _ _ H1 Hn Hv) as (A & a & b & E & _).
      rewrite (Hf pt v). { apply IH. rewrite E. apply in_or_app; right; now left. }
      { apply in_or_app; right; now left. } { apply in_or_app; left. rewrite E. apply in_or_app; right; now left. } congruence.
    + destruct (f pt) eqn:Ef.
      * exists ps, pt, []. auto.
      * intros x Hx. apply in_app_or in Hx as [Hx|[<-|[]]]; auto.
Qed.
