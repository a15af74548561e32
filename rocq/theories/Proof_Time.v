From Coq Require Import Bool ZArith QArith Qpower Qabs Lia Lqa List.
From Verif Require Import Model_Types Model_Time Spec_Order.
Open Scope Q_scope.

Lemma Qabs_le : forall x y, Qabs x <= y <-> - y <= x /\ x <= y.
Proof. intros. apply Qabs_Qle_condition. Qed.
Lemma Qabs_lt : forall x y, Qabs x < y <-> - y < x /\ x < y.
Proof. intros. apply Qabs_Qlt_condition. Qed.

(** x = num / den as an integer inequality *)
Lemma Q_num_den : forall x : Q, x == inject_Z (Qnum x) / inject_Z (QDen x).
Proof. intros [n d]. cbn. rewrite Qmake_Qdiv. reflexivity. Qed.

Lemma inject_le : forall a b, inject_Z a <= inject_Z b <-> (a <= b)%Z.
Proof. intros. rewrite Zle_Qle. reflexivity. Qed.
Lemma inject_lt : forall a b, inject_Z a < inject_Z b <-> (a < b)%Z.
Proof. intros. rewrite Zlt_Qlt. reflexivity. Qed.

Lemma Qle_int : forall x z, x <= inject_Z z <-> (Qnum x <= z * QDen x)%Z.
Proof. intros [n d] z. unfold Qle. cbn. rewrite Z.mul_1_r. reflexivity. Qed.
Lemma Qge_int : forall x z, inject_Z z <= x <-> (z * QDen x <= Qnum x)%Z.
Proof. intros [n d] z. unfold Qle. cbn. rewrite Z.mul_1_r. reflexivity. Qed.
Lemma Qlt_int : forall x z, x < inject_Z z <-> (Qnum x < z * QDen x)%Z.
Proof. intros [n d] z. unfold Qlt. cbn. rewrite Z.mul_1_r. reflexivity. Qed.
Lemma Qgt_int : forall x z, inject_Z z < x <-> (z * QDen x < Qnum x)%Z.
Proof. intros [n d] z. unfold Qlt. cbn. rewrite Z.mul_1_r. reflexivity. Qed.

Lemma Qhalf_le : forall x z, x <= inject_Z z + (1 # 2) <-> (2 * Qnum x <= (2 * z + 1) * QDen x)%Z.
Proof. intros [n d] z. unfold Qle, Qplus, inject_Z. cbn [Qnum Qden]. change (QDen (n # d)) with (Z.pos d). change (Z.pos (1 * 2)) with 2%Z. lia. Qed.
Lemma Qhalf_ge : forall x z, inject_Z z - (1 # 2) <= x <-> ((2 * z - 1) * QDen x <= 2 * Qnum x)%Z.
Proof. intros [n d] z. unfold Qle, Qminus, Qplus, Qopp, inject_Z. cbn [Qnum Qden]. change (QDen (n # d)) with (Z.pos d). change (Z.pos (1 * 2)) with 2%Z. lia. Qed.

Lemma rne_err : forall x, Qabs (inject_Z (rneQ x) - x) <= 1 # 2.
Proof.
  intros x. apply Qabs_le.
  assert (H : (2 * Qnum x <= (2 * rneQ x + 1) * QDen x)%Z /\ ((2 * rneQ x - 1) * QDen x <= 2 * Qnum x)%Z).
  { unfold rneQ, rne. pose proof (Z.div_mod (Qnum x) (QDen x) ltac:(lia)) as D.
    pose proof (Z.mod_pos_bound (Qnum x) (QDen x) ltac:(lia)) as M.
    set (q := (Qnum x / QDen x)%Z) in *. set (r := (Qnum x mod QDen x)%Z) in *.
    destruct (2 * r <? QDen x)%Z eqn:E1; [apply Z.ltb_lt in E1; nia|].
    destruct (QDen x <? 2 * r)%Z eqn:E2; [apply Z.ltb_lt in E2; nia|].
    apply Z.ltb_ge in E1, E2. destruct (Z.even q); nia. }
  destruct H as [H1 H2]. apply Qhalf_le in H1. apply Qhalf_ge in H2. lra.
Qed.

(** An integer closer than 1/2 is the rounding. *)
Lemma rne_unique : forall x z, Qabs (x - inject_Z z) < 1 # 2 -> rneQ x = z.
Proof.
  intros x z H. pose proof (rne_err x) as E. apply Qabs_lt in H. apply Qabs_le in E.
  assert (H1 : inject_Z (rneQ x) < inject_Z (z + 1)) by (rewrite inject_Z_plus; change (inject_Z 1) with 1; lra).
  assert (H2 : inject_Z (z - 1) < inject_Z (rneQ x)).
  { unfold Z.sub. rewrite inject_Z_plus, inject_Z_opp. change (inject_Z 1) with 1. lra. }
  apply (proj1 (inject_lt _ _)) in H1, H2. lia.
Qed.

Lemma trunc_nonneg : forall x z, (0 <= z)%Z -> inject_Z z <= x -> x < inject_Z (z + 1) -> truncQ x = z.
Proof.
  intros x z Hz H1 H2. apply Qge_int in H1. apply Qlt_int in H2. unfold truncQ.
  replace (0 <=? Qnum x)%Z with true by (symmetry; apply Z.leb_le; nia).
  symmetry. apply Z.div_unique with (Qnum x - z * QDen x)%Z; lia.
Qed.

Lemma trunc_neg : forall x z, (z <= 0)%Z -> inject_Z (z - 1) < x -> x <= inject_Z z -> truncQ x = z.
Proof.
  intros x z Hz H1 H2. apply Qgt_int in H1. apply Qle_int in H2. unfold truncQ.
  destruct (0 <=? Qnum x)%Z eqn:E.
  - apply Z.leb_le in E. assert (z = 0%Z) by nia. subst. assert (Qnum x = 0%Z) by lia. rewrite H. reflexivity.
  - apply Z.leb_gt in E. assert ((- Qnum x / QDen x)%Z = (- z)%Z); [|lia].
    symmetry. apply Z.div_unique with (- Qnum x + z * QDen x)%Z; lia.
Qed.

Lemma trunc_bounds : forall x,
    (0 <= Qnum x)%Z /\ inject_Z (truncQ x) <= x < inject_Z (truncQ x + 1) /\ (0 <= truncQ x)%Z \/
    (Qnum x < 0)%Z /\ inject_Z (truncQ x - 1) < x <= inject_Z (truncQ x) /\ (truncQ x <= 0)%Z.
Proof.
  intros x. unfold truncQ. destruct (0 <=? Qnum x)%Z eqn:E.
  - apply Z.leb_le in E. left. split; auto.
    pose proof (Z.div_mod (Qnum x) (QDen x) ltac:(lia)). pose proof (Z.mod_pos_bound (Qnum x) (QDen x) ltac:(lia)).
    rewrite Qge_int, Qlt_int. split; [split; nia|]. apply Z.div_pos; lia.
  - apply Z.leb_gt in E. right. split; auto.
    pose proof (Z.div_mod (- Qnum x) (QDen x) ltac:(lia)). pose proof (Z.mod_pos_bound (- Qnum x) (QDen x) ltac:(lia)).
    rewrite Qgt_int, Qle_int. assert (0 <= - Qnum x / QDen x)%Z by (apply Z.div_pos; lia). split; [split; nia|]. lia.
Qed.

Lemma Qnum_neg : forall x, (Qnum x <? 0)%Z = true <-> x < 0.
Proof. intros [n d]. unfold Qlt. cbn. rewrite Z.ltb_lt. lia. Qed.
Lemma Qnum_nonneg : forall x, (0 <= Qnum x)%Z <-> 0 <= x.
Proof. intros [n d]. unfold Qle. cbn. lia. Qed.

(** * Powers of two *)
Lemma p2_pos : forall n, 0 < 2 ^ n.
Proof. intros. apply Qpower_0_lt. reflexivity. Qed.
Lemma p2_plus : forall n m, 2 ^ (n + m) == 2 ^ n * 2 ^ m.
Proof. intros. apply Qpower_plus. discriminate. Qed.
Lemma p2_le : forall n m, (n <= m)%Z -> 2 ^ n <= 2 ^ m.
Proof. intros. apply Qpower_le_compat_l; auto. discriminate. Qed.
Lemma p2_lt_inv : forall n m, 2 ^ n < 2 ^ m -> (n < m)%Z.
Proof. intros. apply Qpower_lt_compat_l_inv with 2; auto. reflexivity. Qed.
Lemma p2_Z : forall n, (0 <= n)%Z -> 2 ^ n == inject_Z (2 ^ n).
Proof. intros n H. change 2 with (inject_Z 2). rewrite Qpower_decomp_positive || idtac. symmetry. apply Zpower_Qpower; auto. Qed.

Lemma log2_Q : forall z, (0 < z)%Z -> 2 ^ Z.log2 z <= inject_Z z /\ inject_Z z < 2 ^ (Z.log2 z + 1).
Proof.
  intros z H. pose proof (Z.log2_nonneg z). pose proof (Z.log2_spec z H) as [H1 H2].
  rewrite !p2_Z by lia. rewrite inject_le, inject_lt. unfold Z.succ in H2. auto.
Qed.

Lemma Qabs_num_den : forall x, Qabs x * inject_Z (QDen x) == inject_Z (Z.abs (Qnum x)).
Proof. intros [n d]. unfold Qabs, Qeq, inject_Z. cbn. rewrite Pos2Z.inj_mul. lia. Qed.

Lemma ilog2_spec : forall x, Qnum x <> 0%Z -> 2 ^ ilog2 x <= Qabs x /\ Qabs x < 2 ^ (ilog2 x + 1).
Proof.
  intros x Hx. unfold ilog2. set (a := Z.log2 (Z.abs (Qnum x))). set (b := Z.log2 (QDen x)).
  destruct (log2_Q (Z.abs (Qnum x)) ltac:(lia)) as [A1 A2]. fold a in A1, A2.
  destruct (log2_Q (QDen x) ltac:(lia)) as [B1 B2]. fold b in B1, B2.
  pose proof (Qabs_num_den x) as E. rewrite <- E in A1, A2.
  assert (Hd : 0 < inject_Z (QDen x)) by (change 0 with (inject_Z 0); apply inject_lt; lia).
  assert (Hp := p2_pos b). assert (H0 := Qabs_nonneg x).
  assert (Hup : Qabs x < 2 ^ (a - b + 1)).
  { setoid_replace (2 ^ (a + 1)) with (2 ^ (a - b + 1) * 2 ^ b) in A2
      by (rewrite <- p2_plus; replace (a - b + 1 + b)%Z with (a + 1)%Z by lia; reflexivity).
    pose proof (p2_pos (a - b + 1)). nra. }
  assert (Hlo : 2 ^ (a - b - 1) <= Qabs x).
  { setoid_replace (2 ^ a) with (2 ^ (a - b - 1) * 2 ^ (b + 1)) in A1
      by (rewrite <- p2_plus; replace (a - b - 1 + (b + 1))%Z with a by lia; reflexivity).
    pose proof (p2_pos (a - b - 1)). pose proof (p2_pos (b + 1)).
    apply Qmult_lt_0_le_reg_r with (2 ^ (b + 1)); auto.
    apply Qle_trans with (Qabs x * inject_Z (QDen x)); auto.
    rewrite (Qmult_comm (Qabs x)), (Qmult_comm (Qabs x)). apply Qmult_le_compat_r; lra. }
  destruct (Qle_bool (2 ^ (a - b)) (Qabs x)) eqn:Eb.
  - apply Qle_bool_iff in Eb. auto.
  - assert (~ 2 ^ (a - b) <= Qabs x) by (rewrite <- Qle_bool_iff; congruence).
    replace (a - b - 1 + 1)%Z with (a - b)%Z by lia. split; auto. lra.
Qed.

Lemma fl_err : forall n x, Qabs x < 2 ^ n -> Qabs (fl x - x) <= 2 ^ (n - 54).
Proof.
  intros n x Hx. unfold fl. destruct (Qnum x =? 0)%Z eqn:E.
  - apply Z.eqb_eq in E. assert (x == 0) by (destruct x as [a d]; cbn in *; subst; reflexivity).
    setoid_replace (0 - x) with 0 by lra. pose proof (p2_pos (n - 54)). cbn. lra.
  - apply Z.eqb_neq in E. destruct (ilog2_spec x E) as [H1 H2].
    assert (Hk : (ilog2 x < n)%Z) by (apply p2_lt_inv; lra).
    set (u := 2 ^ (ilog2 x - 52)). cbv zeta. pose proof (p2_pos (ilog2 x - 52)) as Hu. fold u in Hu.
    pose proof (rne_err (x / u)) as R.
    assert (Ex : x == x / u * u) by (field; lra).
    setoid_replace (inject_Z (rneQ (x / u)) * u - x) with ((inject_Z (rneQ (x / u)) - x / u) * u)
      by (rewrite Ex at 2; ring).
    rewrite Qabs_Qmult, (Qabs_pos u) by lra.
    apply Qle_trans with ((1 # 2) * u); [apply Qmult_le_compat_r; lra|].
    apply Qle_trans with (2 ^ (ilog2 x - 53)).
    + unfold u. replace (ilog2 x - 52)%Z with (1 + (ilog2 x - 53))%Z by lia. rewrite p2_plus.
      change (2 ^ 1) with 2. pose proof (p2_pos (ilog2 x - 53)). lra.
    + apply p2_le. lia.
Qed.

Lemma fl_int : forall x z, x == inject_Z z -> (Z.abs z < 2 ^ 53)%Z -> fl x == x.
Proof.
  intros x z Hxz Hz. unfold fl. destruct (Qnum x =? 0)%Z eqn:E.
  - apply Z.eqb_eq in E. destruct x as [a d]; cbn in *; subst; reflexivity.
  - apply Z.eqb_neq in E. destruct (ilog2_spec x E) as [H1 H2].
    assert (Hk : (ilog2 x < 53)%Z).
    { apply p2_lt_inv. apply Qle_lt_trans with (Qabs x); [exact H1|]. apply Qle_lt_trans with (Qabs (inject_Z z));
        [rewrite (Qabs_wd _ _ Hxz); apply Qle_refl|].
      rewrite p2_Z by lia. change (Qabs (inject_Z z)) with (inject_Z (Z.abs z)). now apply inject_lt. }
    set (u := 2 ^ (ilog2 x - 52)). cbv zeta. pose proof (p2_pos (ilog2 x - 52)) as Hu. fold u in Hu.
    assert (Eu : x / u == inject_Z (z * 2 ^ (52 - ilog2 x))).
    { rewrite inject_Z_mult, <- p2_Z by lia.
      assert (u * 2 ^ (52 - ilog2 x) == 1).
      { unfold u. rewrite <- p2_plus. replace (ilog2 x - 52 + (52 - ilog2 x))%Z with 0%Z by lia. reflexivity. }
      assert (2 ^ (52 - ilog2 x) == / u) by (apply Qmult_inj_r with u; [lra|]; rewrite (Qmult_comm (/ u)), Qmult_inv_r by lra; rewrite Qmult_comm; assumption).
      rewrite H0, <- Hxz. reflexivity. }
    rewrite (rne_unique (x / u) (z * 2 ^ (52 - ilog2 x))).
    + rewrite <- Eu. field. lra.
    + rewrite Eu. setoid_replace (inject_Z (z * 2 ^ (52 - ilog2 x)) - inject_Z (z * 2 ^ (52 - ilog2 x))) with 0 by lra.
      reflexivity.
Qed.

(** * Concrete error bounds *)
Lemma fl_err_0 : forall x, -1 < x < 1 -> - (1 # 18014398509481984) <= fl x - x <= 1 # 18014398509481984.
Proof. intros x H. apply Qabs_le. exact (fl_err 0 x (proj2 (Qabs_lt x (2 ^ 0)) H)). Qed.
Lemma fl_err_1 : forall x, -(2) < x < 2 -> - (1 # 9007199254740992) <= fl x - x <= 1 # 9007199254740992.
Proof. intros x H. apply Qabs_le. exact (fl_err 1 x (proj2 (Qabs_lt x (2 ^ 1)) H)). Qed.
Lemma fl_err_20 : forall x, -(1048576) < x < 1048576 -> - (1 # 17179869184) <= fl x - x <= 1 # 17179869184.
Proof. intros x H. apply Qabs_le. exact (fl_err 20 x (proj2 (Qabs_lt x (2 ^ 20)) H)). Qed.
Lemma fl_err_33 : forall x, -(8589934592) < x < 8589934592 -> - (1 # 2097152) <= fl x - x <= 1 # 2097152.
Proof. intros x H. apply Qabs_le. exact (fl_err 33 x (proj2 (Qabs_lt x (2 ^ 33)) H)). Qed.
Lemma fl_err_34 : forall x, -(17179869184) < x < 17179869184 -> - (1 # 1048576) <= fl x - x <= 1 # 1048576.
Proof. intros x H. apply Qabs_le. exact (fl_err 34 x (proj2 (Qabs_lt x (2 ^ 34)) H)). Qed.
Lemma fl_err_m19 : - (1 # 9444732965739290427392) <= fl (1 # 1000000) - (1 # 1000000) <= 1 # 9444732965739290427392.
Proof. apply Qabs_le. apply (fl_err (-19)). reflexivity. Qed.

Lemma inject_sub : forall a b, inject_Z (a - b) == inject_Z a - inject_Z b.
Proof. intros. unfold Z.sub. rewrite inject_Z_plus, inject_Z_opp. reflexivity. Qed.

Lemma rne_near : forall x, - (1 # 2) <= inject_Z (rneQ x) - x <= 1 # 2.
Proof. intros. apply Qabs_le. apply rne_err. Qed.
Lemma rne_is : forall x z, - (1 # 2) < x - inject_Z z < 1 # 2 -> rneQ x = z.
Proof. intros. apply rne_unique. now apply Qabs_lt. Qed.

Lemma million_Q : inject_Z million == 1000000.
Proof. reflexivity. Qed.

(** Rounded number of microseconds of a fraction. *)
Definition frac_us (f : Q) : Q := fl (fl f * inject_Z million).

Lemma frac_us_err : forall f, -1 < f < 1 ->
    - (1 # 8589934592) <= frac_us f - f * 1000000 <= 1 # 8589934592.
Proof.
  intros f Hf. unfold frac_us. pose proof (fl_err_0 f Hf) as E1. set (f1 := fl f) in *. clearbody f1.
  assert (Hm := million_Q). set (m := inject_Z million) in *. clearbody m.
  assert (Ep : f1 * m == f1 * 1000000) by (rewrite Hm; reflexivity).
  assert (Hp : - (1048576) < f1 * m < 1048576) by (rewrite Ep; lra).
  pose proof (fl_err_20 _ Hp) as E2. rewrite Ep in E2 at 2. rewrite Ep in E2 at 3. lra.
Qed.

Lemma trunc_frac : forall s, -1 < s - inject_Z (truncQ s) < 1.
Proof.
  intros s. destruct (trunc_bounds s) as [(_ & [H1 H2] & _)|(_ & [H1 H2] & _)].
  - rewrite inject_Z_plus in H2. change (inject_Z 1) with 1 in H2. lra.
  - rewrite inject_sub in H1. change (inject_Z 1) with 1 in H1. lra.
Qed.

Lemma ts_add_total : forall t s,
    ts_total (ts_add t s) = (ts_total t + truncQ s * million + rneQ (frac_us (s - inject_Z (truncQ s))))%Z.
Proof.
  intros t s. unfold ts_add, ts_total. cbn [ts_s ts_us]. fold (frac_us (s - inject_Z (truncQ s))).
  set (us := (ts_us t + rneQ _)%Z).
  change 1000000%Z with million. pose proof (Z.div_mod us million ltac:(discriminate)). unfold us in *. lia.
Qed.

Lemma ts_add_normal : forall t s, ts_normal (ts_add t s).
Proof. intros. unfold ts_add, ts_normal. cbn [ts_us]. apply Z.mod_pos_bound. reflexivity. Qed.

Lemma ts_add_near : forall t s,
    Qabs (inject_Z (ts_total (ts_add t s) - ts_total t) - s * 1000000) <= (1 # 2) + (1 # 8589934592).
Proof.
  intros t s. apply Qabs_le. rewrite ts_add_total.
  replace (ts_total t + truncQ s * million + rneQ (frac_us (s - inject_Z (truncQ s))) - ts_total t)%Z
    with (truncQ s * million + rneQ (frac_us (s - inject_Z (truncQ s))))%Z by lia.
  rewrite inject_Z_plus, inject_Z_mult, million_Q.
  pose proof (frac_us_err _ (trunc_frac s)) as E. pose proof (rne_near (frac_us (s - inject_Z (truncQ s)))) as R. lra.
Qed.

Lemma ts_add_exact : forall t s k, - (1 # 2) + (1 # 8589934592) < s * 1000000 - inject_Z k < (1 # 2) - (1 # 8589934592) ->
    ts_total (ts_add t s) = (ts_total t + k)%Z.
Proof.
  intros t s k H. rewrite ts_add_total.
  rewrite (rne_is _ (k - truncQ s * million)); [lia|].
  rewrite inject_sub, inject_Z_mult, million_Q.
  pose proof (frac_us_err _ (trunc_frac s)) as E. lra.
Qed.

(** ** Durations half way between two microseconds *)
Definition half_check (r : Z) : bool :=
  (negb (Z.odd r) || (let k := ((15625 * r - 1) / 2)%Z in (15625 * r =? 2 * k + 1)%Z && (rneQ (frac_us (r # 128)) =? (if Z.even k then k else k + 1))%Z))%bool.
Lemma half_checked : forall r, (-128 < r < 128)%Z -> half_check r = true.
Proof.
  intros r Hr. assert (A : forallb half_check (map (fun n => Z.of_nat n - 127)%Z (seq 0 255)) = true) by (vm_compute; reflexivity).
  rewrite forallb_forall in A. apply A. apply in_map_iff. exists (Z.to_nat (r + 127)). split; [lia|]. apply in_seq. lia.
Qed.

Lemma trunc_128 : forall m, truncQ (m # 128) = Z.quot m 128.
Proof.
  intros m. unfold truncQ. cbn [Qnum Qden]. destruct (Z.leb_spec 0 m).
  - rewrite Z.quot_div_nonneg by lia. reflexivity.
  - rewrite <- (Z.opp_involutive m) at 2. rewrite Z.quot_opp_l by lia. rewrite Z.quot_div_nonneg by lia. reflexivity.
Qed.

Lemma final_C10_half : forall t m, Z.odd m = true ->
    exists k, (15625 * m = 2 * k + 1)%Z /\ ts_total (ts_add t (m # 128)) = (ts_total t + (if Z.even k then k else k + 1))%Z.
Proof.
  intros t m Hm. rewrite ts_add_total, trunc_128. set (q := Z.quot m 128). set (r := Z.rem m 128).
  assert (Em : (m = 128 * q + r)%Z) by apply Z.quot_rem'.
  assert (Hr : (-128 < r < 128)%Z) by (pose proof (Z.rem_bound_abs m 128 ltac:(lia)); fold r in H; lia).
  assert (Ef : ((m # 128) - inject_Z q = r # 128)%Q).
  { unfold Qminus, Qplus, Qopp, inject_Z. cbn [Qnum Qden]. change (128 * 1)%positive with 128%positive. f_equal. lia. }
  rewrite Ef. pose proof (half_checked r Hr) as C. unfold half_check in C.
  assert (Ho : Z.odd r = true).
  { rewrite Em in Hm. rewrite Z.odd_add, Z.odd_mul in Hm. change (Z.odd 128) with false in Hm. cbn [andb] in Hm. destruct (Z.odd r); [reflexivity|discriminate Hm]. }
  rewrite Ho in C. cbn [negb orb] in C. apply andb_prop in C as [C1 C2]. apply Z.eqb_eq in C1, C2. cbv zeta in C1, C2. rewrite C2. set (k := ((15625 * r - 1) / 2)%Z) in *.
  exists (1000000 * q + k)%Z. split; [lia|]. rewrite Z.even_add, Z.even_mul. cbn [Z.even orb]. unfold million. destruct (Z.even k); cbn [Bool.eqb]; lia.
Qed.

Lemma million_div : forall k, (k # 1000000) * 1000000 == inject_Z k.
Proof. intros. unfold Qeq, inject_Z. cbn -[Z.mul]. lia. Qed.

Lemma final_C10_add_us : forall t k, (Z.abs k < 2 ^ 33 * 1000000)%Z ->
    ts_normal (ts_add t (fl (k # 1000000))) /\ ts_total (ts_add t (fl (k # 1000000))) = (ts_total t + k)%Z.
Proof.
  intros t k Hk. split; [apply ts_add_normal|]. apply ts_add_exact.
  assert (H : - (8589934592) < (k # 1000000) < 8589934592).
  { unfold Qlt. cbn -[Z.mul]. split; lia. }
  pose proof (fl_err_33 _ H) as E. pose proof (million_div k). lra.
Qed.

(** * Datetime *)
Lemma final_C10_datetime_partial : forall t, ts_normal t -> (- 2 ^ 34 < ts_s t < 2 ^ 34)%Z ->
    (0 <= ts_s t \/ ts_us t <> 0)%Z ->
    exists d, timestamp_to_datetime t = Some d /\ timestamp_from_datetime d = t.
Proof.
  intros [s us] [Hu1 Hu2] Hs Hc. cbn [ts_s ts_us] in *.
  exists (Dt s us). split.
  { unfold timestamp_to_datetime, dt_min, dt_max, million. cbn [ts_s ts_us].
    replace ((-62135596800 <=? s) && (s <=? 253402300799) && (0 <=? us) && (us <? 1000000))%Z with true; auto.
    symmetry. repeat (apply andb_true_iff; split); lia. }
  unfold timestamp_from_datetime, dt_timestamp. cbn [dt_s dt_us].
  set (v := (s * million + us) # 1000000).
  assert (Hv : v * 1000000 == inject_Z s * 1000000 + inject_Z us).
  { unfold v. rewrite million_div, inject_Z_plus, inject_Z_mult, million_Q. reflexivity. }
  assert (Hus : 0 <= inject_Z us <= 999999).
  { change 0 with (inject_Z 0). change 999999 with (inject_Z 999999). rewrite !inject_le. lia. }
  assert (Hss : -(17179869183) <= inject_Z s <= 17179869183).
  { change (-(17179869183)) with (inject_Z (-17179869183)). change 17179869183 with (inject_Z 17179869183).
    rewrite !inject_le. lia. }
  assert (Hvr : - (17179869184) < v < 17179869184) by lra.
  pose proof (fl_err_34 v Hvr) as E. set (x := fl v) in *.
  destruct (Z.eq_dec us 0) as [E0|Hne].
  - (* whole seconds *)
    subst us. assert (Hs0 : (0 <= s)%Z) by lia.
    assert (Hx : x == inject_Z s).
    { unfold x. rewrite (fl_int v s); [|change (inject_Z 0) with 0 in Hv; lra|lia].
      change (inject_Z 0) with 0 in Hv. lra. }
    clearbody x. assert (H0 : 0 <= inject_Z s) by (change 0 with (inject_Z 0); now apply inject_le).
    assert (T : truncQ x = s).
    { apply trunc_nonneg; auto; [lra|]. rewrite inject_Z_plus. change (inject_Z 1) with 1. lra. }
    destruct (Qnum x <? 0)%Z eqn:En; [apply Qnum_neg in En; lra|]. now rewrite T.
  - assert (Hus' : 1 <= inject_Z us) by (change 1 with (inject_Z 1); apply inject_le; lia).
    clearbody x. destruct (Z.leb 0 s) eqn:E0.
    + apply Z.leb_le in E0. assert (H0 : 0 <= inject_Z s) by (change 0 with (inject_Z 0); now apply inject_le).
      assert (T : truncQ x = s).
      { apply trunc_nonneg; auto; [lra|]. rewrite inject_Z_plus. change (inject_Z 1) with 1. lra. }
      destruct (Qnum x <? 0)%Z eqn:En; [apply Qnum_neg in En; lra|]. now rewrite T.
    + apply Z.leb_gt in E0. assert (H0 : inject_Z s <= -(1)).
      { change (-(1)) with (inject_Z (-1)). apply inject_le. lia. }
      assert (T : truncQ x = (s + 1)%Z).
      { apply trunc_neg; [lia| |].
        - replace (s + 1 - 1)%Z with s by lia. lra.
        - rewrite inject_Z_plus. change (inject_Z 1) with 1. lra. }
      replace (Qnum x <? 0)%Z with true by (symmetry; apply Qnum_neg; lra).
      rewrite T. f_equal. lia.
Qed.

(** * Float *)
Lemma total_unique : forall t u, ts_normal t -> ts_normal u -> ts_total t = ts_total u -> t = u.
Proof.
  intros [s a] [s' a'] H1 H2 H. unfold ts_normal, ts_total in *. cbn in *. f_equal; lia.
Qed.

Lemma final_C49 : forall t, ts_normal t -> (- 2 ^ 33 < ts_s t < 2 ^ 33 - 1)%Z ->
    timestamp_from_float (timestamp_to_float t) = t.
Proof.
  intros t Ht Hs.
  assert (Hus : 0 <= inject_Z (ts_us t) <= 999999).
  { change 0 with (inject_Z 0). change 999999 with (inject_Z 999999). rewrite !inject_le. unfold ts_normal in Ht. lia. }
  assert (Hss : -(8589934591) <= inject_Z (ts_s t) <= 8589934590).
  { change (-(8589934591)) with (inject_Z (-8589934591)). change 8589934590 with (inject_Z 8589934590).
    rewrite !inject_le. lia. }
  assert (Htot : inject_Z (ts_total t) == inject_Z (ts_s t) * 1000000 + inject_Z (ts_us t)).
  { unfold ts_total. rewrite inject_Z_plus, inject_Z_mult. reflexivity. }
  (* conversion to float *)
  assert (Hx : - (1 # 2097152) - (1 # 2251799813685248) <= timestamp_to_float t - inject_Z (ts_total t) * (1 # 1000000)
               <= (1 # 2097152) + (1 # 2251799813685248)).
  { unfold timestamp_to_float. pose proof fl_err_m19 as E1. set (c := fl (1 # 1000000)) in *. clearbody c.
    set (U := inject_Z (ts_us t)) in *. set (S := inject_Z (ts_s t)) in *.
    assert (Hp : - (1 # 9007199254740992) <= U * c - U * (1 # 1000000) <= 1 # 9007199254740992).
    { assert (- (1 # 9444732965739290427392) * U <= U * c - U * (1 # 1000000)) by nra.
      assert (U * c - U * (1 # 1000000) <= (1 # 9444732965739290427392) * U) by nra. lra. }
    assert (Hr : - (2) < U * c < 2) by lra.
    pose proof (fl_err_1 _ Hr) as E2. set (d := fl (U * c)) in *. clearbody d.
    assert (Hr2 : - (8589934592) < S + d < 8589934592) by lra.
    pose proof (fl_err_33 _ Hr2) as E3. set (x := fl (S + d)) in *. clearbody x. rewrite Htot. lra. }
  set (x := timestamp_to_float t) in *. clearbody x.
  set (s := if (Qnum x <? 0)%Z then (truncQ x - 1)%Z else truncQ x).
  assert (Hf : 0 <= x - inject_Z s <= 1 /\ (x - inject_Z s < 1 \/ x - inject_Z s == 1)).
  { unfold s. destruct (trunc_bounds x) as [(H0 & [H1 H2] & _)|(H0 & [H1 H2] & _)].
    - replace (Qnum x <? 0)%Z with false by (symmetry; apply Z.ltb_ge; auto).
      rewrite inject_Z_plus in H2. change (inject_Z 1) with 1 in H2. split; [lra|left; lra].
    - replace (Qnum x <? 0)%Z with true by (symmetry; apply Z.ltb_lt; auto).
      rewrite inject_sub in *. change (inject_Z 1) with 1 in *. split; [lra|].
      destruct (Qlt_le_dec (x - (inject_Z (truncQ x) - 1)) 1); [left; auto|right; lra]. }
  destruct Hf as [Hf1 Hf2].
  assert (HF : - (1 # 4294967296) <= frac_us (x - inject_Z s) - (x - inject_Z s) * 1000000 <= 1 # 4294967296).
  { unfold frac_us. assert (Hr : - (2) < x - inject_Z s < 2) by lra.
    pose proof (fl_err_1 _ Hr) as E1. set (f1 := fl (x - inject_Z s)) in *. clearbody f1.
    assert (Hm := million_Q). set (m := inject_Z million) in *. clearbody m.
    assert (Ep : f1 * m == f1 * 1000000) by (rewrite Hm; reflexivity).
    assert (Hp : - (1048576) < f1 * m < 1048576) by (rewrite Ep; lra).
    pose proof (fl_err_20 _ Hp) as E2. rewrite Ep in E2 at 2. rewrite Ep in E2 at 3. lra. }
  assert (Hr : rneQ (frac_us (x - inject_Z s)) = (ts_total t - s * million)%Z).
  { apply rne_is. rewrite inject_sub, inject_Z_mult, million_Q. lra. }
  assert (Hn : (0 <= ts_total t - s * million <= million)%Z).
  { rewrite <- Hr. pose proof (rne_near (frac_us (x - inject_Z s))) as N. split.
    - assert (inject_Z (-1) < inject_Z (rneQ (frac_us (x - inject_Z s)))) as H
        by (change (inject_Z (-1)) with (-(1)); lra).
      apply (proj1 (inject_lt _ _)) in H. lia.
    - assert (inject_Z (rneQ (frac_us (x - inject_Z s))) < inject_Z (million + 1)) as H
        by (rewrite inject_Z_plus, million_Q; change (inject_Z 1) with 1; lra).
      apply (proj1 (inject_lt _ _)) in H. lia. }
  unfold timestamp_from_float. fold s. fold (frac_us (x - inject_Z s)). cbv zeta. rewrite Hr.
  apply total_unique; auto.
  - destruct (_ =? million)%Z eqn:E; unfold ts_normal; cbn [ts_us]; [lia|].
    apply Z.eqb_neq in E. change 1000000%Z with million. lia.
  - destruct (_ =? million)%Z eqn:E; unfold ts_total at 1; cbn [ts_s ts_us].
    + apply Z.eqb_eq in E. unfold million in *. lia.
    + unfold million in *. lia.
Qed.
