From Coq Require Import List String Bool ZArith Lia.
From Verif Require Import Model_Types Model_Codec Spec_Order Spec_Codec Proof_Order.
Import ListNotations.
Open Scope Z_scope.

Lemma pow256_pos : forall n, 0 < 256 ^ Z.of_nat n.
Proof. intros. apply Z.pow_pos_nonneg; lia. Qed.

Lemma pow256_S : forall n, 256 ^ Z.of_nat (S n) = 256 * 256 ^ Z.of_nat n.
Proof. intros. rewrite Nat2Z.inj_succ, Z.pow_succ_r; lia. Qed.

Lemma be_length : forall n v, List.length (be n v) = n.
Proof. induction n; intros; cbn [be List.length]; auto. Qed.

Lemma be_bytes : forall n v, 0 <= v < 256 ^ Z.of_nat n -> is_bytes (be n v).
Proof.
  induction n as [|n IH]; intros v Hv; cbn [be]; constructor.
  - rewrite pow256_S in Hv. pose proof (pow256_pos n). split.
    + apply Z.div_pos; lia. + apply Z.div_lt_upper_bound; lia.
  - apply IH. apply Z.mod_pos_bound. apply pow256_pos.
Qed.

Lemma unbe_acc : forall bs acc, fold_left (fun acc b => acc * 256 + b) bs acc =
    acc * 256 ^ Z.of_nat (List.length bs) + unbe bs.
Proof.
  unfold unbe. induction bs as [|b bs IH]; intros acc; cbn [fold_left List.length].
  - cbn. lia.
  - rewrite IH, (IH (0 * 256 + b)), pow256_S. lia.
Qed.

Lemma unbe_cons : forall b bs, unbe (b :: bs) = b * 256 ^ Z.of_nat (List.length bs) + unbe bs.
Proof. intros. unfold unbe at 1. cbn [fold_left]. rewrite unbe_acc. lia. Qed.

Lemma unbe_be : forall n v, 0 <= v < 256 ^ Z.of_nat n -> unbe (be n v) = v.
Proof.
  induction n as [|n IH]; intros v Hv; cbn [be].
  - cbn in Hv. unfold unbe. cbn. lia.
  - rewrite unbe_cons, be_length, IH by (apply Z.mod_pos_bound, pow256_pos).
    pose proof (pow256_pos n). rewrite (Z.div_mod v (256 ^ Z.of_nat n)) at 3 by lia. lia.
Qed.

Lemma unbe_range : forall bs, is_bytes bs -> 0 <= unbe bs < 256 ^ Z.of_nat (List.length bs).
Proof.
  induction bs as [|b bs IH]; intros H.
  - cbn. unfold unbe; cbn. lia.
  - inversion H; subst. rewrite unbe_cons. cbn [List.length]. rewrite pow256_S.
    specialize (IH H3). nia.
Qed.

Lemma be_unbe : forall bs, is_bytes bs -> be (List.length bs) (unbe bs) = bs.
Proof.
  induction bs as [|b bs IH]; intros H; cbn [List.length be]; auto.
  inversion H; subst. pose proof (unbe_range bs H3) as Hr. rewrite unbe_cons.
  pose proof (pow256_pos (List.length bs)). f_equal.
  - rewrite Z.div_add_l by lia. rewrite (Z.div_small (unbe bs)) by lia. lia.
  - rewrite Z.add_comm, Z.mod_add by lia. rewrite Z.mod_small by lia. auto.
Qed.

Lemma bytes_lt_irrefl : forall x, ~ bytes_lt x x.
Proof.
  induction x as [|a x IH]; intros H; inversion H; subst; [lia|auto].
Qed.

Lemma bytes_lt_cons : forall a b x y, bytes_lt (a :: x) (b :: y) <-> a < b \/ a = b /\ bytes_lt x y.
Proof.
  intros. split.
  - intros H. inversion H; subst; auto.
  - intros [H|[-> H]]; [now constructor|now apply bl_next].
Qed.

Lemma be_lt : forall n a b x y, 0 <= a < 256 ^ Z.of_nat n -> 0 <= b < 256 ^ Z.of_nat n ->
    (bytes_lt (be n a ++ x) (be n b ++ y) <-> a < b \/ a = b /\ bytes_lt x y).
Proof.
  induction n as [|n IH]; intros a b x y Ha Hb; cbn [be].
  - cbn in Ha, Hb. replace b with a by lia. cbn. intuition lia.
  - set (m := 256 ^ Z.of_nat n). pose proof (pow256_pos n) as Hm. fold m in Hm.
    rewrite <- !app_comm_cons, bytes_lt_cons, IH by (apply Z.mod_pos_bound; exact Hm).
    pose proof (Z.div_mod a m ltac:(lia)) as Da. pose proof (Z.div_mod b m ltac:(lia)) as Db.
    pose proof (Z.mod_pos_bound a m Hm). pose proof (Z.mod_pos_bound b m Hm).
    assert (forall p q, p < q -> m * p + m <= m * q) by nia.
    split.
    + intros [Hl|[E [Hl|[E' Hl]]]].
      * left. apply H1 in Hl. lia.
      * left. rewrite E in Da. lia.
      * right. split; auto. rewrite E, E' in Da. lia.
    + intros [Hl|[<- Hl]]; auto.
      destruct (Z.lt_trichotomy (a / m) (b / m)) as [Hd|[Hd|Hd]]; auto.
      * right. split; auto. left. rewrite Hd in Da. lia.
      * apply H1 in Hd. lia.
Qed.

Lemma pack_Some : forall n v bs, pack n v = Some bs <-> 0 <= v < 256 ^ Z.of_nat n /\ bs = be n v.
Proof.
  intros. unfold pack. destruct ((0 <=? v) && (v <? 256 ^ Z.of_nat n)) eqn:E.
  - apply andb_true_iff in E as [E1 E2]. split; [intros [= <-]; split; [lia|reflexivity]|intros [_ ->]; auto].
  - split; [discriminate|]. intros [H ->]. apply andb_false_iff in E. lia.
Qed.

Lemma pack_ok : forall n v, 0 <= v < 256 ^ Z.of_nat n -> pack n v = Some (be n v).
Proof. intros. now apply pack_Some. Qed.

Lemma unpack_be : forall n v, 0 <= v < 256 ^ Z.of_nat n -> unpack n (be n v) = Some v.
Proof. intros. unfold unpack. rewrite be_length, Nat.eqb_refl, unbe_be; auto. Qed.

Lemma unpack_Some : forall n bs v, unpack n bs = Some v -> is_bytes bs -> 0 <= v < 256 ^ Z.of_nat n /\ be n v = bs.
Proof.
  unfold unpack. intros n bs v. destruct (Nat.eqb (List.length bs) n) eqn:E; [|discriminate].
  apply Nat.eqb_eq in E. subst. intros [= <-] H. split; [now apply unbe_range|now apply be_unbe].
Qed.

Lemma unpack_len : forall n bs, List.length bs = n -> exists v, unpack n bs = Some v.
Proof. intros. unfold unpack. rewrite H, Nat.eqb_refl. eauto. Qed.

Lemma firstn_be : forall n v x, firstn n (be n v ++ x) = be n v.
Proof.
  intros. rewrite firstn_app, be_length, Nat.sub_diag. cbn. rewrite app_nil_r.
  apply firstn_all2. now rewrite be_length.
Qed.

Lemma skipn_be : forall n v x, skipn n (be n v ++ x) = x.
Proof.
  intros. rewrite skipn_app, be_length, Nat.sub_diag. cbn.
  rewrite skipn_all2; auto. now rewrite be_length.
Qed.

Definition P8 : 256 ^ Z.of_nat 8 = 2 ^ 64 := eq_refl.
Definition P4 : 256 ^ Z.of_nat 4 = 2 ^ 32 := eq_refl.

(** Closed forms on the encodable range. *)
Definition ts_be (t : timestamp) : bytes := be 8 (ts_s t + 2 ^ 63) ++ be 4 (ts_us t).
Definition eid_be (i : event_id) : bytes :=
  be 8 (eid_server i) ++ be 8 (eid_session i) ++ be 8 (eid_instance i).
Definition key_be (k : ts_key) : bytes := let '(p, t, i) := k in be 8 p ++ ts_be t ++ eid_be i.

Lemma ts_fits_8 : forall t, ts_fits t -> 0 <= ts_s t + 2 ^ 63 < 256 ^ Z.of_nat 8.
Proof. intros t [H _]. rewrite P8. lia. Qed.
Lemma ts_fits_4 : forall t, ts_fits t -> 0 <= ts_us t < 256 ^ Z.of_nat 4.
Proof. intros t [_ H]. rewrite P4. lia. Qed.

Lemma ts_enc : forall t bs, timestamp_to_bytes t = Some bs <-> ts_fits t /\ bs = ts_be t.
Proof.
  intros t bs. unfold timestamp_to_bytes, obind. destruct (pack 8 _) eqn:E1.
  - apply pack_Some in E1 as [H1 ->]. destruct (pack 4 _) eqn:E2.
    + apply pack_Some in E2 as [H2 ->]. rewrite P8 in H1. rewrite P4 in H2. split.
      * intros [= <-]. split; [unfold ts_fits; lia|reflexivity].
      * intros [_ ->]. reflexivity.
    + split; [discriminate|]. intros [H ->]. rewrite pack_ok in E2 by now apply ts_fits_4. discriminate.
  - split; [discriminate|]. intros [H ->]. rewrite pack_ok in E1 by now apply ts_fits_8. discriminate.
Qed.

Lemma ts_be_length : forall t, List.length (ts_be t) = 12%nat.
Proof. intros. unfold ts_be. now rewrite app_length, !be_length. Qed.

Lemma ts_dec_enc : forall t, ts_fits t -> timestamp_from_bytes (ts_be t) = Some t.
Proof.
  intros t H. unfold timestamp_from_bytes. rewrite ts_be_length. cbn [Nat.eqb].
  unfold ts_be. rewrite firstn_be, skipn_be, !unpack_be by auto using ts_fits_8, ts_fits_4.
  cbn [obind]. destruct t; cbn. do 2 f_equal. lia.
Qed.

Lemma ts_be_lt : forall a b x y, ts_fits a -> ts_fits b ->
    (bytes_lt (ts_be a ++ x) (ts_be b ++ y) <-> ts_lt a b \/ a = b /\ bytes_lt x y).
Proof.
  intros a b x y Ha Hb. unfold ts_be. rewrite <- !app_assoc, !be_lt by auto using ts_fits_8, ts_fits_4.
  unfold ts_lt. destruct a as [s u], b as [s' u']; cbn. split.
  - intros [H|[H [H'|[H' Hx]]]].
    + left. lia. + left. lia. + right. split; auto. f_equal; lia.
  - intros [H|[[= -> ->] H]]; [|auto]. destruct H as [H|[H H']]; [left; lia|right; split; [lia|auto]].
Qed.

Lemma eid_enc : forall i bs, encode_event_id i = Some bs <-> eid_fits i /\ bs = eid_be i.
Proof.
  intros i bs. unfold encode_event_id, obind, eid_fits, u64, eid_be. rewrite <- P8.
  destruct (pack 8 (eid_server i)) eqn:E1.
  - apply pack_Some in E1 as [H1 ->]. destruct (pack 8 (eid_session i)) eqn:E2.
    + apply pack_Some in E2 as [H2 ->]. destruct (pack 8 (eid_instance i)) eqn:E3.
      * apply pack_Some in E3 as [H3 ->]. split; [intros [= <-]; auto|intros [_ ->]; auto].
      * split; [discriminate|]. intros [(_ & _ & H) ->]. rewrite pack_ok in E3 by auto. discriminate.
    + split; [discriminate|]. intros [(_ & H & _) ->]. rewrite pack_ok in E2 by auto. discriminate.
  - split; [discriminate|]. intros [(H & _ & _) ->]. rewrite pack_ok in E1 by auto. discriminate.
Qed.

Lemma eid_be_length : forall i, List.length (eid_be i) = 24%nat.
Proof. intros. unfold eid_be. now rewrite !app_length, !be_length. Qed.

Lemma eid_dec_enc : forall i, eid_fits i -> decode_event_id (eid_be i) = Some i.
Proof.
  intros i (H1 & H2 & H3). unfold u64 in *. rewrite <- P8 in *.
  unfold decode_event_id. rewrite eid_be_length. cbn [Nat.eqb]. unfold eid_be.
  rewrite firstn_be, skipn_be, firstn_be.
  change (skipn 16 ?l) with (skipn 8 (skipn 8 l)) at 1.
  replace (skipn 16 (be 8 (eid_server i) ++ be 8 (eid_session i) ++ be 8 (eid_instance i)))
    with (skipn 8 (skipn 8 (be 8 (eid_server i) ++ be 8 (eid_session i) ++ be 8 (eid_instance i))))
    by reflexivity.
  rewrite !skipn_be, !unpack_be by auto. destruct i; reflexivity.
Qed.

Lemma eid_be_lt : forall a b x y, eid_fits a -> eid_fits b ->
    (bytes_lt (eid_be a ++ x) (eid_be b ++ y) <-> eid_lt a b \/ a = b /\ bytes_lt x y).
Proof.
  intros a b x y (A1 & A2 & A3) (B1 & B2 & B3). unfold u64 in *. rewrite <- P8 in *.
  unfold eid_be. rewrite <- !app_assoc, !be_lt by auto.
  unfold eid_lt. destruct a as [s u i], b as [s' u' i']; cbn. split.
  - intros [H|[-> [H|[-> [H|[-> H]]]]]]; auto; left; lia.
  - intros [H|[[= -> -> ->] H]]; [|tauto]. destruct H as [H|[H [H'|[H' H'']]]]; tauto.
Qed.

Lemma key_enc : forall k bs, encode_ts_key k = Some bs <-> key_fits k /\ bs = key_be k.
Proof.
  intros [[p t] i] bs. unfold encode_ts_key, encode_uint, encode_timestamp, obind, key_fits, u64.
  destruct (pack 8 p) eqn:E1.
  - apply pack_Some in E1 as [H1 ->]. rewrite P8 in H1. destruct (timestamp_to_bytes t) eqn:E2.
    + apply ts_enc in E2 as [H2 ->]. destruct (encode_event_id i) eqn:E3.
      * apply eid_enc in E3 as [H3 ->]. split; [intros [= <-]; auto|intros [_ ->]; auto].
      * split; [discriminate|]. intros [(_ & _ & H) ->].
        rewrite (proj2 (eid_enc i _) (conj H eq_refl)) in E3. discriminate.
    + split; [discriminate|]. intros [(_ & H & _) ->].
      rewrite (proj2 (ts_enc t _) (conj H eq_refl)) in E2. discriminate.
  - split; [discriminate|]. intros [(H & _ & _) ->]. rewrite pack_ok in E1 by (rewrite P8; auto). discriminate.
Qed.

Lemma key_be_length : forall k, List.length (key_be k) = 44%nat.
Proof. intros [[p t] i]. unfold key_be. now rewrite !app_length, be_length, ts_be_length, eid_be_length. Qed.

Lemma skipn_app_len : forall (A : Type) n (x y : list A), List.length x = n -> skipn n (x ++ y) = y.
Proof. intros. subst. rewrite skipn_app, Nat.sub_diag, skipn_all. reflexivity. Qed.
Lemma firstn_app_len : forall (A : Type) n (x y : list A), List.length x = n -> firstn n (x ++ y) = x.
Proof. intros. subst. rewrite firstn_app, Nat.sub_diag, firstn_all. cbn. now rewrite app_nil_r. Qed.

Lemma key_dec_enc : forall k, key_fits k -> decode_ts_key (key_be k) = Some k.
Proof.
  intros [[p t] i] (H1 & H2 & H3). unfold decode_ts_key, key_be, decode_uint, decode_timestamp.
  rewrite firstn_be, skipn_be, (firstn_app_len _ 12) by apply ts_be_length.
  rewrite app_assoc, (skipn_app_len _ 20) by now rewrite app_length, be_length, ts_be_length.
  rewrite unpack_be by (rewrite P8; auto). cbn [obind].
  rewrite ts_dec_enc by auto. cbn [obind]. rewrite eid_dec_enc by auto. reflexivity.
Qed.

Lemma key_be_lt : forall a b, key_fits a -> key_fits b -> (bytes_lt (key_be a) (key_be b) <-> key_lt a b).
Proof.
  intros [[p t] i] [[q u] j] (A1 & A2 & A3) (B1 & B2 & B3). unfold key_be, key_lt.
  rewrite be_lt by (rewrite P8; auto). rewrite ts_be_lt by auto.
  rewrite <- (app_nil_r (eid_be i)), <- (app_nil_r (eid_be j)), eid_be_lt by auto.
  assert (~ bytes_lt [] []) by apply bytes_lt_irrefl. intuition.
Qed.

(** * Final lemmas *)

Lemma final_C09_bytes :
  (forall t, ts_fits t -> exists bs, timestamp_to_bytes t = Some bs /\ List.length bs = 12%nat /\ is_bytes bs /\
     timestamp_from_bytes bs = Some t) /\
  (forall t, ~ ts_fits t -> timestamp_to_bytes t = None) /\
  (forall t u x y, timestamp_to_bytes t = Some x -> timestamp_to_bytes u = Some y ->
     (x = y <-> t = u) /\ (bytes_lt x y <-> ts_lt t u)).
Proof.
  split; [|split].
  - intros t H. exists (ts_be t). split; [|split; [|split]].
    + now apply ts_enc. + apply ts_be_length.
    + unfold ts_be, is_bytes. apply Forall_app. split; apply be_bytes; auto using ts_fits_8, ts_fits_4.
    + now apply ts_dec_enc.
  - intros t H. destruct (timestamp_to_bytes t) eqn:E; auto. apply ts_enc in E as [E _]. easy.
  - intros t u x y H1 H2. apply ts_enc in H1 as [H1 ->]. apply ts_enc in H2 as [H2 ->]. split.
    + split; [|now intros ->]. intros E. apply (f_equal timestamp_from_bytes) in E.
      rewrite !ts_dec_enc in E by auto. congruence.
    + rewrite <- (app_nil_r (ts_be t)), <- (app_nil_r (ts_be u)), ts_be_lt by auto.
      assert (~ bytes_lt [] []) by apply bytes_lt_irrefl. intuition.
Qed.

Lemma is_bytes_split : forall n bs, is_bytes bs -> is_bytes (firstn n bs) /\ is_bytes (skipn n bs).
Proof. intros n bs H. unfold is_bytes in *. rewrite <- (firstn_skipn n bs) in H. now apply Forall_app in H. Qed.

Lemma ts_dec_total : forall bs, List.length bs = 12%nat -> is_bytes bs ->
    exists t, timestamp_from_bytes bs = Some t /\ timestamp_to_bytes t = Some bs.
Proof.
  intros bs Hl Hb. unfold timestamp_from_bytes. rewrite Hl. cbn [Nat.eqb].
  destruct (is_bytes_split 8 _ Hb) as [Hb1 Hb2].
  destruct (unpack_len 8 (firstn 8 bs)) as [s Hs]; [rewrite firstn_length; lia|].
  destruct (unpack_len 4 (skipn 8 bs)) as [u Hu]; [rewrite skipn_length; lia|].
  rewrite Hs, Hu. cbn [obind]. exists (Ts (s - 2 ^ 63) u). split; auto.
  apply unpack_Some in Hs as [Hs Hs']; auto. apply unpack_Some in Hu as [Hu Hu']; auto.
  rewrite P8 in Hs. rewrite P4 in Hu.
  apply ts_enc. split; [unfold ts_fits; cbn; lia|]. unfold ts_be. cbn [ts_s ts_us].
  replace (s - 2 ^ 63 + 2 ^ 63) with s by lia. rewrite Hs', Hu'. symmetry. apply firstn_skipn.
Qed.

Lemma ts_dec_len : forall bs t, timestamp_from_bytes bs = Some t -> List.length bs = 12%nat.
Proof. intros bs t. unfold timestamp_from_bytes. destruct (Nat.eqb _ 12) eqn:E; [|discriminate]. intros _. now apply Nat.eqb_eq. Qed.

Lemma final_C12_uint :
  (forall v, u64 v -> exists bs, encode_uint v = Some bs /\ List.length bs = 8%nat /\ decode_uint bs = Some v) /\
  (forall v, ~ u64 v -> encode_uint v = None) /\
  (forall v w x y, encode_uint v = Some x -> encode_uint w = Some y -> (x = y <-> v = w) /\ (bytes_lt x y <-> v < w)).
Proof.
  unfold u64, encode_uint, decode_uint. rewrite <- P8. split; [|split].
  - intros v H. exists (be 8 v). rewrite pack_ok, be_length, unpack_be; auto.
  - intros v H. destruct (pack 8 v) eqn:E; auto. apply pack_Some in E as [E _]. easy.
  - intros v w x y H1 H2. apply pack_Some in H1 as [H1 ->]. apply pack_Some in H2 as [H2 ->]. split.
    + split; [|now intros ->]. intros E. apply (f_equal unbe) in E. rewrite !unbe_be in E; auto.
    + rewrite <- (app_nil_r (be 8 v)), <- (app_nil_r (be 8 w)), be_lt by auto.
      assert (~ bytes_lt [] []) by apply bytes_lt_irrefl. intuition.
Qed.

Lemma final_C12_event_id :
  (forall i, eid_fits i -> exists bs, encode_event_id i = Some bs /\ List.length bs = 24%nat /\ decode_event_id bs = Some i) /\
  (forall i, ~ eid_fits i -> encode_event_id i = None) /\
  (forall i j x y, encode_event_id i = Some x -> encode_event_id j = Some y -> (x = y <-> i = j) /\ (bytes_lt x y <-> eid_lt i j)).
Proof.
  split; [|split].
  - intros i H. exists (eid_be i). split; [|split]; [now apply eid_enc|apply eid_be_length|now apply eid_dec_enc].
  - intros i H. destruct (encode_event_id i) eqn:E; auto. apply eid_enc in E as [E _]. easy.
  - intros i j x y H1 H2. apply eid_enc in H1 as [H1 ->]. apply eid_enc in H2 as [H2 ->]. split.
    + split; [|now intros ->]. intros E. apply (f_equal decode_event_id) in E. rewrite !eid_dec_enc in E by auto. congruence.
    + rewrite <- (app_nil_r (eid_be i)), <- (app_nil_r (eid_be j)), eid_be_lt by auto.
      assert (~ bytes_lt [] []) by apply bytes_lt_irrefl. intuition.
Qed.

Lemma final_C12_ts_key :
  (forall k, key_fits k -> exists bs, encode_ts_key k = Some bs /\ List.length bs = 44%nat /\ decode_ts_key bs = Some k) /\
  (forall k, ~ key_fits k -> encode_ts_key k = None) /\
  (forall k l x y, encode_ts_key k = Some x -> encode_ts_key l = Some y -> (x = y <-> k = l) /\ (bytes_lt x y <-> key_lt k l)).
Proof.
  split; [|split].
  - intros k H. exists (key_be k). split; [|split]; [now apply key_enc|apply key_be_length|now apply key_dec_enc].
  - intros k H. destruct (encode_ts_key k) eqn:E; auto. apply key_enc in E as [E _]. easy.
  - intros k l x y H1 H2. apply key_enc in H1 as [H1 ->]. apply key_enc in H2 as [H2 ->]. split.
    + split; [|now intros ->]. intros E. apply (f_equal decode_ts_key) in E. rewrite !key_dec_enc in E by auto. congruence.
    + now apply key_be_lt.
Qed.

Definition ref_be (r : event_ref) : bytes :=
  match r with LatestRef k => 4 :: be 8 k | TimeseriesRef k => 6 :: key_be k end.

Lemma ref_enc : forall r bs, encode_event_ref r = Some bs <-> ref_fits r /\ bs = ref_be r.
Proof.
  intros [k|k] bs; unfold encode_event_ref, ref_fits, ref_be, obind.
  - unfold encode_uint, u64. rewrite <- P8. destruct (pack 8 k) eqn:E.
    + apply pack_Some in E as [E ->]. split; [intros [= <-]; auto|intros [_ ->]; auto].
    + split; [discriminate|]. intros [H ->]. rewrite pack_ok in E by auto. discriminate.
  - destruct (encode_ts_key k) eqn:E.
    + apply key_enc in E as [E ->]. split; [intros [= <-]; auto|intros [_ ->]; auto].
    + split; [discriminate|]. intros [H ->]. rewrite (proj2 (key_enc k _) (conj H eq_refl)) in E. discriminate.
Qed.

Lemma refs_dec_step : forall r rest fuel, ref_fits r ->
    decode_event_refs_loop (S fuel) (ref_be r ++ rest) =
    do rs <- decode_event_refs_loop fuel rest; Some (r :: rs).
Proof.
  intros [k|k] rest fuel H; unfold ref_be; rewrite <- app_comm_cons; cbn [decode_event_refs_loop];
    unfold db_latest_data, db_timeseries_data.
  - change (4 =? 4) with true. cbv iota. cbn [obind].
    change (firstn (8 + 1) (4 :: be 8 k ++ rest)) with (4 :: firstn 8 (be 8 k ++ rest)).
    change (skipn (8 + 1) (4 :: be 8 k ++ rest)) with (skipn 8 (be 8 k ++ rest)).
    rewrite firstn_be, skipn_be. unfold decode_event_ref, db_latest_data. change (4 =? 4) with true. cbv iota.
    unfold decode_uint. rewrite unpack_be by (rewrite P8; exact H). reflexivity.
  - change (6 =? 4) with false. change (6 =? 6) with true. cbv iota. cbn [obind].
    change (firstn (44 + 1) (6 :: key_be k ++ rest)) with (6 :: firstn 44 (key_be k ++ rest)).
    change (skipn (44 + 1) (6 :: key_be k ++ rest)) with (skipn 44 (key_be k ++ rest)).
    rewrite firstn_app_len, skipn_app_len by apply key_be_length.
    unfold decode_event_ref, db_latest_data, db_timeseries_data.
    change (6 =? 4) with false. change (6 =? 6) with true. cbv iota.
    rewrite key_dec_enc by exact H. reflexivity.
Qed.

Lemma final_C13 :
  (forall rs, Forall ref_fits rs -> exists bs, encode_event_refs rs = Some bs /\ decode_event_refs bs = Some rs) /\
  (forall rs, ~ Forall ref_fits rs -> encode_event_refs rs = None).
Proof.
  assert (Henc : forall rs bs, encode_event_refs rs = Some bs <-> Forall ref_fits rs /\ bs = flat_map ref_be rs).
  { induction rs as [|r rs IH]; intros bs; cbn [encode_event_refs flat_map].
    - split; [intros [= <-]; auto|intros [_ ->]; auto].
    - unfold obind. destruct (encode_event_ref r) eqn:E.
      + apply ref_enc in E as [E ->]. destruct (encode_event_refs rs) eqn:E2.
        * destruct (proj1 (IH _) eq_refl) as [F2 ->]. split; [intros [= <-]; auto|intros [_ ->]; auto].
        * split; [discriminate|]. intros [H ->]. inversion H; subst.
          pose proof (proj2 (IH _) (conj H3 eq_refl)) as F2. discriminate.
      + split; [discriminate|]. intros [H ->]. inversion H; subst.
        rewrite (proj2 (ref_enc r _) (conj H2 eq_refl)) in E. discriminate. }
  split.
  - intros rs H. exists (flat_map ref_be rs). split; [now apply Henc|].
    unfold decode_event_refs.
    assert (Hf : forall rs fuel, Forall ref_fits rs -> (List.length rs <= fuel)%nat ->
                decode_event_refs_loop fuel (flat_map ref_be rs) = Some rs).
    { clear. induction rs as [|r rs IH]; intros fuel H Hf.
      - now destruct fuel.
      - inversion H; subst. cbn [flat_map]. cbn [List.length] in Hf. destruct fuel as [|fuel]; [lia|].
        rewrite refs_dec_step by auto. rewrite IH by (auto; lia). reflexivity. }
    apply Hf; auto. clear. induction rs as [|r rs IH]; cbn [flat_map]; [auto|].
    rewrite app_length. cbn [List.length]. destruct r; cbn [ref_be List.length]; lia.
  - intros rs H. destruct (encode_event_refs rs) eqn:E; auto. apply Henc in E as [E _]. easy.
Qed.
