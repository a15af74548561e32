(** Proofs about the memory of the C subscription: accounting of the references
    to Python objects. *)
From Coq Require Import String Bool Arith ZArith Lia List.
From Verif Require Import Base Model_Types Model_Subscription Model_SHeap Spec_SHeap Proof_Subscription.
Import ListNotations.
Open Scope string_scope.
Open Scope list_scope.
Local Open Scope Z_scope.

(** One occurrence. *)
Definition one (o x : addr) : Z := if Nat.eqb x o then 1 else 0.

Lemma one_same : forall o, one o o = 1.
Proof. intros. unfold one. now rewrite Nat.eqb_refl. Qed.
Lemma one_other : forall o x, x <> o -> one o x = 0.
Proof. intros o x N. unfold one. apply Nat.eqb_neq in N. now rewrite N. Qed.
Lemma one_pos : forall o x, 0 <= one o x <= 1.
Proof. intros. unfold one. destruct (Nat.eqb x o); lia. Qed.
Lemma cntl_pos : forall o l, 0 <= cntl o l.
Proof. induction l as [|x l IH]; cbn [cntl]; [lia|]. destruct (Nat.eqb x o); lia. Qed.
Lemma cntl_cons : forall o x l, cntl o (x :: l) = one x o + cntl o l.
Proof. intros. cbn [cntl]. unfold one. rewrite Nat.eqb_sym. reflexivity. Qed.
Lemma cntl_app : forall o l l', cntl o (l ++ l') = cntl o l + cntl o l'.
Proof. induction l as [|x l IH]; intros; cbn [app cntl]; [lia|]. rewrite IH. lia. Qed.
Lemma cntl_in : forall o l, In o l -> 1 <= cntl o l.
Proof.
  induction l as [|x l IH]; intros I; [destruct I|]. cbn [cntl]. assert (P := cntl_pos o l). destruct I as [->|I].
  - rewrite Nat.eqb_refl. lia.
  - specialize (IH I). destruct (Nat.eqb x o); lia.
Qed.
Lemma cntl_notin : forall o l, ~ In o l -> cntl o l = 0.
Proof.
  induction l as [|x l IH]; intros I; cbn [cntl]; [reflexivity|]. rewrite IH by (intros H; apply I; now right).
  destruct (Nat.eqb x o) eqn:E; [|lia]. apply Nat.eqb_eq in E. exfalso. apply I. now left.
Qed.

Lemma held_pos : forall p o, 0 <= held p o.
Proof. intros [p|] o; cbn [held]; [apply cntl_pos|lia]. Qed.
Lemma occ_pos : forall ob n o, 0 <= occ ob n o.
Proof. induction n as [|n IH]; intros o; cbn [occ]; [lia|]. specialize (IH o). assert (H := held_pos (ob n) o). lia. Qed.
Lemma occ_in : forall ob n o x p, (x < n)%nat -> ob x = Some p -> In o (o_items p) -> 1 <= occ ob n o.
Proof.
  induction n as [|n IH]; intros o x p L E I; [lia|]. cbn [occ]. assert (P := occ_pos ob n o). assert (P' := held_pos (ob n) o).
  destruct (Nat.eq_dec x n) as [->|N].
  - rewrite E. cbn [held]. assert (C := cntl_in _ _ I). lia.
  - specialize (IH o x p ltac:(lia) E I). lia.
Qed.
Lemma occ_ex : forall ob n o, 1 <= occ ob n o -> exists x p, (x < n)%nat /\ ob x = Some p /\ In o (o_items p).
Proof.
  induction n as [|n IH]; intros o H; cbn [occ] in H; [lia|].
  destruct (Z_le_gt_dec 1 (occ ob n o)) as [L|G].
  - destruct (IH o L) as (x & p & Lx & E & I). exists x, p. repeat split; auto.
  - assert (P := occ_pos ob n o). destruct (ob n) as [p|] eqn:E; cbn [held] in H; [|lia].
    exists n, p. repeat split; auto. destruct (in_dec Nat.eq_dec o (o_items p)); auto.
    rewrite cntl_notin in H by auto. lia.
Qed.
Lemma occ_ext : forall (ob ob' : objs) n o, (forall x, (x < n)%nat -> held (ob' x) o = held (ob x) o) -> occ ob' n o = occ ob n o.
Proof. induction n as [|n IH]; intros o H; cbn [occ]; [reflexivity|]. rewrite IH, H by auto. reflexivity. Qed.
Lemma upd_same : forall A (h : addr -> option A) a c, upd h a c a = c.
Proof. intros. unfold upd. now rewrite Nat.eqb_refl. Qed.
Lemma upd_other : forall A (h : addr -> option A) a c x, x <> a -> upd h a c x = h x.
Proof. intros A h a c x H. unfold upd. apply Nat.eqb_neq in H. now rewrite H. Qed.
Lemma occ_upd : forall (ob : objs) a c n o, (a < n)%nat -> occ (upd ob a c) n o = occ ob n o - held (ob a) o + held c o.
Proof.
  induction n as [|n IH]; intros o H; [lia|]. cbn [occ]. destruct (Nat.eq_dec a n) as [->|N].
  - rewrite upd_same. rewrite (occ_ext ob) by (intros; rewrite upd_other by lia; reflexivity). lia.
  - rewrite IH by lia. rewrite upd_other by auto. lia.
Qed.

(** ** The invariant *)

Lemma acc_eq : forall ob n ext ext', acc ob n ext -> (forall x, ext' x = ext x) -> acc ob n ext'.
Proof.
  intros ob n ext ext' [A B C D E F] H. constructor; auto; intros.
  - rewrite H. auto.
  - rewrite H. auto.
  - rewrite H. auto.
Qed.

Lemma acc_live : forall ob n ext x, acc ob n ext -> 1 <= ext x -> exists p, ob x = Some p.
Proof. intros ob n ext x A H. destruct (ob x) as [p|] eqn:E; [eauto|]. rewrite (a_none _ _ _ A _ E) in H. lia. Qed.

Lemma acc_level : forall ob n ext x p, acc ob n ext -> ob x = Some p -> ~ In x (o_items p).
Proof. intros ob n ext x p A E I. destruct (a_item _ _ _ A _ _ _ E I) as (q & E' & L). rewrite E in E'. injection E' as <-. lia. Qed.

(** A new object. *)
Lemma acc_new : forall ob n ext k, acc ob n ext -> acc (upd ob n (Some (PObj k [] 1))) (S n) (fun x => ext x + one n x).
Proof.
  intros ob n ext k A.
  assert (N : ob n = None). { destruct (ob n) eqn:E; auto. assert (L : (n < n)%nat) by (apply (a_lt _ _ _ A); congruence). lia. }
  assert (O : forall o, occ (upd ob n (Some (PObj k [] 1))) (S n) o = occ ob n o).
  { intros o. rewrite occ_upd by lia. cbn [occ]. rewrite N. cbn [held o_items cntl]. lia. }
  constructor.
  - intros x H. destruct (Nat.eq_dec x n) as [->|Nx]; [lia|]. rewrite upd_other in H by auto. assert (L := a_lt _ _ _ A _ H). lia.
  - intros x p E. rewrite O. destruct (Nat.eq_dec x n) as [->|Nx].
    + rewrite upd_same in E. injection E as <-. cbn [o_rc]. rewrite one_same, (a_none _ _ _ A _ N).
      destruct (Z_le_gt_dec 1 (occ ob n n)) as [L|G].
      * destruct (occ_ex _ _ _ L) as (y & q & _ & Ey & I). destruct (a_item _ _ _ A _ _ _ Ey I) as (r & Er & _). congruence.
      * assert (P := occ_pos ob n n). lia.
    + rewrite upd_other in E by auto. rewrite one_other by auto. rewrite (a_rc _ _ _ A _ _ E). lia.
  - intros x p E. destruct (Nat.eq_dec x n) as [->|Nx].
    + rewrite upd_same in E. injection E as <-. cbn. lia.
    + rewrite upd_other in E by auto. exact (a_pos _ _ _ A _ _ E).
  - intros x p y E I. destruct (Nat.eq_dec x n) as [->|Nx].
    + rewrite upd_same in E. injection E as <-. destruct I.
    + rewrite upd_other in E by auto. destruct (a_item _ _ _ A _ _ _ E I) as (q & Eq & L). exists q. split; auto.
      rewrite upd_other; auto. intros ->. congruence.
  - intros x E. destruct (Nat.eq_dec x n) as [->|Nx]; [rewrite upd_same in E; discriminate|].
    rewrite upd_other in E by auto. rewrite one_other by auto. rewrite (a_none _ _ _ A _ E). lia.
  - intros x. assert (P := a_ext _ _ _ A x). assert (P' := one_pos n x). lia.
Qed.

(** Another count. *)
Lemma acc_count : forall ob n ext o p d, acc ob n ext -> ob o = Some p -> 0 < o_rc p + d -> 0 <= ext o + d ->
  acc (upd ob o (Some (PObj (o_kind p) (o_items p) (o_rc p + d)))) n (fun x => ext x + d * one o x).
Proof.
  intros ob n ext o p d A E P1 P2.
  assert (L : (o < n)%nat) by (apply (a_lt _ _ _ A); congruence).
  assert (O : forall x, occ (upd ob o (Some (PObj (o_kind p) (o_items p) (o_rc p + d)))) n x = occ ob n x).
  { intros x. rewrite occ_upd by auto. rewrite E. cbn [held o_items]. lia. }
  constructor.
  - intros x H. destruct (Nat.eq_dec x o) as [->|Nx]; [auto|]. rewrite upd_other in H by auto. exact (a_lt _ _ _ A _ H).
  - intros x q H. rewrite O. destruct (Nat.eq_dec x o) as [->|Nx].
    + rewrite upd_same in H. injection H as <-. cbn [o_rc]. rewrite one_same, (a_rc _ _ _ A _ _ E). lia.
    + rewrite upd_other in H by auto. rewrite one_other, (a_rc _ _ _ A _ _ H) by auto. lia.
  - intros x q H. destruct (Nat.eq_dec x o) as [->|Nx].
    + rewrite upd_same in H. injection H as <-. exact P1.
    + rewrite upd_other in H by auto. exact (a_pos _ _ _ A _ _ H).
  - intros x q y H I.
    assert (K : exists q', ob x = Some q' /\ o_kind q' = o_kind q /\ o_items q' = o_items q).
    { destruct (Nat.eq_dec x o) as [->|Nx].
      - rewrite upd_same in H. injection H as <-. exists p. auto.
      - rewrite upd_other in H by auto. exists q. auto. }
    destruct K as (q' & E' & K1 & K2). rewrite <- K2 in I. destruct (a_item _ _ _ A _ _ _ E' I) as (r & Er & Lr).
    rewrite K1 in Lr. destruct (Nat.eq_dec y o) as [->|Ny].
    + rewrite upd_same. rewrite E in Er. injection Er as <-. eexists. split; [reflexivity|]. exact Lr.
    + rewrite upd_other by auto. eauto.
  - intros x H. destruct (Nat.eq_dec x o) as [->|Nx]; [rewrite upd_same in H; discriminate|].
    rewrite upd_other in H by auto. rewrite one_other, (a_none _ _ _ A _ H) by auto. lia.
  - intros x. destruct (Nat.eq_dec x o) as [->|Nx]; [rewrite one_same; lia|]. rewrite one_other by auto.
    assert (P := a_ext _ _ _ A x). lia.
Qed.

(** The last reference is given back. *)
Lemma acc_remove : forall ob n ext o p, acc ob n ext -> ob o = Some p -> o_rc p = 1 -> 1 <= ext o ->
  acc (upd ob o None) n (fun x => ext x - one o x + cntl x (o_items p)).
Proof.
  intros ob n ext o p A E R P.
  assert (L : (o < n)%nat) by (apply (a_lt _ _ _ A); congruence).
  assert (RC := a_rc _ _ _ A _ _ E). assert (OP := occ_pos ob n o).
  assert (E1 : ext o = 1) by lia. assert (O0 : occ ob n o = 0) by lia.
  assert (NI : forall x q, ob x = Some q -> ~ In o (o_items q)).
  { intros x q Ex I. assert (H := occ_in ob n o x q (a_lt _ _ _ A x ltac:(congruence)) Ex I). lia. }
  assert (O : forall x, occ (upd ob o None) n x = occ ob n x - cntl x (o_items p)).
  { intros x. rewrite occ_upd by auto. rewrite E. cbn [held]. lia. }
  constructor.
  - intros x H. destruct (Nat.eq_dec x o) as [->|Nx]; [auto|]. rewrite upd_other in H by auto. exact (a_lt _ _ _ A _ H).
  - intros x q H. destruct (Nat.eq_dec x o) as [->|Nx]; [rewrite upd_same in H; discriminate|].
    rewrite upd_other in H by auto. rewrite O, one_other, (a_rc _ _ _ A _ _ H) by auto. lia.
  - intros x q H. destruct (Nat.eq_dec x o) as [->|Nx]; [rewrite upd_same in H; discriminate|].
    rewrite upd_other in H by auto. exact (a_pos _ _ _ A _ _ H).
  - intros x q y H I. destruct (Nat.eq_dec x o) as [->|Nx]; [rewrite upd_same in H; discriminate|].
    rewrite upd_other in H by auto. destruct (a_item _ _ _ A _ _ _ H I) as (r & Er & Lr). exists r. split; auto.
    rewrite upd_other; auto. intros ->. exact (NI _ _ H I).
  - intros x H. destruct (Nat.eq_dec x o) as [->|Nx].
    + rewrite one_same, cntl_notin by exact (NI _ _ E). lia.
    + rewrite upd_other in H by auto. rewrite one_other, (a_none _ _ _ A _ H) by auto.
      rewrite cntl_notin; [lia|]. intros I. destruct (a_item _ _ _ A _ _ _ E I) as (r & Er & _). congruence.
  - intros x. assert (Q := cntl_pos x (o_items p)). destruct (Nat.eq_dec x o) as [->|Nx]; [rewrite one_same; lia|].
    rewrite one_other by auto. assert (P' := a_ext _ _ _ A x). lia.
Qed.

(** A container takes over a reference. *)
Lemma acc_set : forall ob n ext o p y q, acc ob n ext -> ob o = Some p -> ob y = Some q ->
  (level (o_kind q) < level (o_kind p))%nat -> 1 <= ext y ->
  acc (upd ob o (Some (PObj (o_kind p) (o_items p ++ [y]) (o_rc p)))) n (fun x => ext x - one y x).
Proof.
  intros ob n ext o p y q A E Ey Lv P.
  assert (L : (o < n)%nat) by (apply (a_lt _ _ _ A); congruence).
  assert (O : forall x, occ (upd ob o (Some (PObj (o_kind p) (o_items p ++ [y]) (o_rc p)))) n x = occ ob n x + one y x).
  { intros x. rewrite occ_upd by auto. rewrite E. cbn [held o_items]. rewrite cntl_app, cntl_cons. cbn [cntl]. lia. }
  assert (Noy : o <> y). { intros ->. rewrite E in Ey. injection Ey as <-. lia. }
  constructor.
  - intros x H. destruct (Nat.eq_dec x o) as [->|Nx]; [auto|]. rewrite upd_other in H by auto. exact (a_lt _ _ _ A _ H).
  - intros x r H. rewrite O. destruct (Nat.eq_dec x o) as [->|Nx].
    + rewrite upd_same in H. injection H as <-. cbn [o_rc]. rewrite (a_rc _ _ _ A _ _ E). lia.
    + rewrite upd_other in H by auto. rewrite (a_rc _ _ _ A _ _ H). lia.
  - intros x r H. destruct (Nat.eq_dec x o) as [->|Nx].
    + rewrite upd_same in H. injection H as <-. exact (a_pos _ _ _ A _ _ E).
    + rewrite upd_other in H by auto. exact (a_pos _ _ _ A _ _ H).
  - intros x r z H I.
    assert (K : exists q', ob z = Some q' /\ (level (o_kind q') < level (o_kind r))%nat).
    { destruct (Nat.eq_dec x o) as [->|Nx].
      - rewrite upd_same in H. injection H as <-. cbn [o_items o_kind] in *. apply in_app_iff in I. destruct I as [I|[<-|[]]].
        + exact (a_item _ _ _ A _ _ _ E I).
        + eauto.
      - rewrite upd_other in H by auto. exact (a_item _ _ _ A _ _ _ H I). }
    destruct K as (q' & Ez & Lz). destruct (Nat.eq_dec z o) as [->|Nz].
    + rewrite upd_same. rewrite E in Ez. injection Ez as <-. eexists. split; [reflexivity|]. exact Lz.
    + rewrite upd_other by auto. eauto.
  - intros x H. destruct (Nat.eq_dec x o) as [->|Nx]; [rewrite upd_same in H; discriminate|].
    rewrite upd_other in H by auto. rewrite one_other, (a_none _ _ _ A _ H) by congruence. lia.
  - intros x. destruct (Nat.eq_dec x y) as [->|Nx]; [rewrite one_same; lia|]. rewrite one_other by auto.
    assert (P' := a_ext _ _ _ A x). lia.
Qed.

(** ** Statements on objects *)

(** What does not change. *)
Definition rest_same (s s' : sst) : Prop :=
  s_heap s' = s_heap s /\ s_next s' = s_next s /\ s_tries s' = s_tries s /\ s_stars s' = s_stars s.
Lemma rest_refl : forall s, rest_same s s.
Proof. intros. unfold rest_same. auto. Qed.
Lemma rest_trans : forall a b c, rest_same a b -> rest_same b c -> rest_same a c.
Proof. intros a b c (A & B & C & D) (E & F & G & H). unfold rest_same. intuition congruence. Qed.

(** Objects that are left have what they had. *)
Definition shrinks (ob ob' : objs) : Prop :=
  forall x p', ob' x = Some p' -> exists p, ob x = Some p /\ o_kind p = o_kind p' /\ o_items p = o_items p'.
Lemma shrinks_refl : forall ob, shrinks ob ob.
Proof. intros ob x p E. eauto. Qed.
Lemma shrinks_trans : forall a b c, shrinks a b -> shrinks b c -> shrinks a c.
Proof.
  intros a b c H H' x p E. destruct (H' x p E) as (q & Eq & K & I). destruct (H x q Eq) as (r & Er & K' & I').
  exists r. split; auto. split; congruence.
Qed.

Lemma sacc_eq : forall s ext ext', sacc s ext -> (forall x, ext' x = ext x) -> sacc s ext'.
Proof. intros s ext ext' A H. exact (acc_eq _ _ _ _ A H). Qed.

Lemma sacc_next : forall s s' ext, sacc s ext -> s_objs s' = s_objs s -> (s_next s <= s_next s')%nat -> sacc s' ext.
Proof.
  intros s s' ext A E L. unfold sacc in *. rewrite E.
  assert (O : forall m o, (s_next s <= m)%nat -> occ (s_objs s) m o = occ (s_objs s) (s_next s) o).
  { induction m as [|m IH]; intros o Lm.
    - replace (s_next s) with 0%nat by lia. reflexivity.
    - destruct (Nat.eq_dec (s_next s) (S m)) as [->|N]; auto. cbn [occ]. rewrite IH by lia.
      destruct (s_objs s m) eqn:Em; cbn [held]; [|lia]. assert (m < s_next s)%nat by (apply (a_lt _ _ _ A); congruence). lia. }
  destruct A as [A B C D F G]. constructor; auto.
  - intros x H. specialize (A x H). lia.
  - intros x p H. rewrite O by auto. auto.
Qed.

Lemma incref_spec : forall s ext o p, sacc s ext -> s_objs s o = Some p ->
  exists s', incref o s = Some (tt, s') /\ rest_same s s' /\ shrinks (s_objs s) (s_objs s') /\ sacc s' (fun x => ext x + one o x).
Proof.
  intros s ext o p A E. unfold incref, bind, load_obj, store_obj. rewrite E. eexists. split; [reflexivity|].
  split; [unfold rest_same; cbn; auto|]. cbn [set_objs s_objs s_next]. split.
  - intros x q H. destruct (Nat.eq_dec x o) as [->|N].
    + rewrite upd_same in H. injection H as <-. exists p. auto.
    + rewrite upd_other in H by auto. exists q. auto.
  - unfold sacc. cbn [set_objs s_objs s_next].
    assert (P := a_pos _ _ _ A _ _ E). assert (X := a_ext _ _ _ A o).
    eapply acc_eq; [exact (acc_count _ _ _ _ _ 1 A E ltac:(lia) ltac:(lia))|]. intros x. cbn beta. lia.
Qed.

Lemma decref_spec : forall f o s ext p, sacc s ext -> s_objs s o = Some p -> (level (o_kind p) < f)%nat -> 1 <= ext o ->
  exists s', decref_to f o s = Some (tt, s') /\ rest_same s s' /\ shrinks (s_objs s) (s_objs s') /\ sacc s' (fun x => ext x - one o x).
Proof.
  induction f as [|f IH]; intros o s ext p A E L P; [lia|]. cbn [decref_to]. unfold bind at 1, load_obj. rewrite E.
  destruct (o_rc p =? 1)%Z eqn:R.
  - apply Z.eqb_eq in R. unfold bind, store_obj.
    assert (A1 := acc_remove _ _ _ _ _ A E R P).
    set (s1 := set_objs (upd (s_objs s) o None) s).
    assert (S1 : shrinks (s_objs s) (s_objs s1)).
    { intros x q H. cbn [s1 set_objs s_objs] in H. destruct (Nat.eq_dec x o) as [->|N].
      - rewrite upd_same in H. discriminate.
      - rewrite upd_other in H by auto. exists q. auto. }
    assert (K : forall l s2 ext2, sacc s2 (fun x => ext2 x + cntl x l) -> (forall x, 0 <= ext2 x) ->
      (forall y q, In y l -> s_objs s2 y = Some q -> (level (o_kind q) < f)%nat) ->
      exists s', each (decref_to f) l s2 = Some (tt, s') /\ rest_same s2 s' /\ shrinks (s_objs s2) (s_objs s') /\ sacc s' ext2).
    { induction l as [|y l IHl]; intros s2 ext2 A2 X2 Q2; cbn [each].
      - exists s2. split; [reflexivity|]. split; [apply rest_refl|]. split; [apply shrinks_refl|].
        eapply sacc_eq; [exact A2|]. intros x. cbn [cntl]. lia.
      - assert (Py : 1 <= ext2 y + cntl y (y :: l)).
        { specialize (X2 y). assert (H := cntl_in y (y :: l) (or_introl eq_refl)). lia. }
        destruct (acc_live _ _ _ y A2 Py) as (q & Ey).
        destruct (IH y s2 _ q A2 Ey (Q2 y q (or_introl eq_refl) Ey) Py) as (s3 & E3 & R3 & H3 & A3).
        unfold bind. rewrite E3.
        destruct (IHl s3 ext2) as (s4 & E4 & R4 & H4 & A4); auto.
        + eapply sacc_eq; [exact A3|]. intros x. cbn beta. rewrite cntl_cons. lia.
        + intros z r I Ez. destruct (H3 z r Ez) as (r' & Er & Kr & _). rewrite <- Kr. eapply Q2; [right; exact I|exact Er].
        + exists s4. split; [exact E4|]. split; [eapply rest_trans; eauto|]. split; [eapply shrinks_trans; eauto|auto]. }
    destruct (K (o_items p) s1 (fun x => ext x - one o x)) as (s' & E' & R' & H' & A').
    + exact A1.
    + intros x. assert (X := a_ext _ _ _ A x). destruct (Nat.eq_dec x o) as [->|N]; [rewrite one_same; lia|].
      rewrite one_other by auto. lia.
    + intros y q I Ey. destruct (S1 y q Ey) as (q' & Eq & Kq & _). rewrite <- Kq.
      destruct (a_item _ _ _ A _ _ _ E I) as (r & Er & Lr). rewrite Eq in Er. injection Er as <-. lia.
    + exists s'. split; [exact E'|]. split.
      * eapply rest_trans; [|exact R']. unfold rest_same; cbn; auto.
      * split; [eapply shrinks_trans; eauto|exact A'].
  - apply Z.eqb_neq in R. unfold store_obj. eexists. split; [reflexivity|].
    split; [unfold rest_same; cbn; auto|]. cbn [set_objs s_objs]. split.
    + intros x q H. destruct (Nat.eq_dec x o) as [->|N].
      * rewrite upd_same in H. injection H as <-. exists p. auto.
      * rewrite upd_other in H by auto. exists q. auto.
    + unfold sacc. cbn [set_objs s_objs s_next]. assert (P' := a_pos _ _ _ A _ _ E).
      eapply acc_eq; [exact (acc_count _ _ _ _ _ (-1) A E ltac:(lia) ltac:(lia))|]. intros x. cbn beta. lia.
Qed.

Lemma decref_ok : forall o s ext, sacc s ext -> 1 <= ext o ->
  exists s', decref o s = Some (tt, s') /\ rest_same s s' /\ shrinks (s_objs s) (s_objs s') /\ sacc s' (fun x => ext x - one o x).
Proof.
  intros o s ext A P. destruct (acc_live _ _ _ o A P) as (p & E). eapply decref_spec; eauto. destruct (o_kind p); cbn; lia.
Qed.

(** The objects of two moments with the same references from outside. *)
Lemma acc_root : forall ob n ext m x p, acc ob n ext -> ob x = Some p -> (3 - level (o_kind p) <= m)%nat ->
  forall (Q : addr -> Prop), (forall y, 1 <= ext y -> Q y) ->
  (forall y q z, Q y -> ob y = Some q -> In z (o_items q) -> Q z) -> Q x.
Proof.
  intros ob n ext m. induction m as [|m IH]; intros x p A E L Q Q0 Q1;
    (destruct (Z_le_gt_dec 1 (ext x)) as [H|G]; [auto|]);
    assert (R := a_rc _ _ _ A _ _ E); assert (P := a_pos _ _ _ A _ _ E);
    destruct (occ_ex ob n x ltac:(lia)) as (y & q & Ly & Ey & I);
    destruct (a_item _ _ _ A _ _ _ Ey I) as (p' & E' & Lv); rewrite E in E'; injection E' as <-.
  - exfalso. destruct (o_kind p); destruct (o_kind q); cbn in *; lia.
  - eapply Q1; [|exact Ey|exact I]. eapply (IH y q); eauto. lia.
Qed.

Lemma acc_unique : forall ob n ext ob' n' d, acc ob n ext -> acc ob' n' (fun x => ext x + d x) -> (n <= n')%nat ->
  (forall x, 0 <= d x) -> (forall x, ob x = None -> d x = 0) ->
  (forall x p p', ob x = Some p -> ob' x = Some p' -> o_kind p' = o_kind p /\ o_items p' = o_items p) ->
  forall x, ob' x = match ob x with Some p => Some (PObj (o_kind p) (o_items p) (o_rc p + d x)) | None => None end.
Proof.
  intros ob n ext ob' n' d A A' Ln Dp D0 K.
  assert (D1 : forall x p, ob x = Some p -> exists p', ob' x = Some p').
  { intros x p E.
    assert (H : exists p0, ob x = Some p0 /\ exists p', ob' x = Some p').
    { eapply (acc_root ob n ext 3 x p A E); [lia| |].
      - intros y P. destruct (acc_live _ _ _ y A P) as (q & Eq). exists q. split; auto.
        eapply acc_live; [exact A'|]. specialize (Dp y). cbn beta. lia.
      - intros y q z (q0 & Eq & q' & Eq') Eq2 I. rewrite Eq in Eq2. injection Eq2 as <-. destruct (K _ _ _ Eq Eq') as (_ & Ki).
        destruct (a_item _ _ _ A _ _ _ Eq I) as (r & Er & _). exists r. split; auto. rewrite <- Ki in I.
        destruct (a_item _ _ _ A' _ _ _ Eq' I) as (r' & Er' & _). eauto. }
    destruct H as (_ & _ & H). exact H. }
  assert (D2 : forall x p', ob' x = Some p' -> exists p, ob x = Some p).
  { intros x p' E.
    assert (H : (exists p, ob x = Some p) /\ exists p0, ob' x = Some p0).
    { eapply (acc_root ob' n' (fun x => ext x + d x) 3 x p' A' E); [lia| |].
      - intros y P. cbn beta in P. destruct (ob y) as [q|] eqn:Ey.
        + split; [eauto|]. eapply D1; eauto.
        + rewrite (D0 y Ey), (a_none _ _ _ A y Ey) in P. lia.
      - intros y q' z ((q & Eq) & _) Eq' I. destruct (K _ _ _ Eq Eq') as (_ & Ki). rewrite Ki in I.
        destruct (a_item _ _ _ A _ _ _ Eq I) as (r & Er & _). split; [eauto|]. eapply D1; eauto. }
    exact (proj1 H). }
  assert (O : forall m o, (m <= n')%nat -> (n <= m)%nat -> occ ob' m o = occ ob n o).
  { assert (Os : forall m o, (m <= n)%nat -> occ ob' m o = occ ob m o).
    { induction m as [|m IH]; intros o Lm; cbn [occ]; [reflexivity|]. rewrite IH by lia. f_equal.
      destruct (ob m) as [p|] eqn:E.
      - destruct (D1 m p E) as (p' & E'). rewrite E'. cbn [held]. destruct (K _ _ _ E E') as (_ & ->). reflexivity.
      - destruct (ob' m) as [p'|] eqn:E'; auto. destruct (D2 m p' E') as (p & E2). congruence. }
    induction m as [|m IH]; intros o L1 L2.
    - assert (n = 0%nat) by lia. subst n. apply Os. lia.
    - destruct (Nat.eq_dec n (S m)) as [->|N]; [apply Os; lia|]. cbn [occ]. rewrite IH by lia.
      destruct (ob' m) as [p'|] eqn:E'; cbn [held]; [|lia]. destruct (D2 m p' E') as (p & E2).
      assert (m < n)%nat by (apply (a_lt _ _ _ A); congruence). lia. }
  intros x. destruct (ob x) as [p|] eqn:E.
  - destruct (D1 x p E) as (p' & E'). rewrite E'. destruct (K _ _ _ E E') as (Kk & Ki). f_equal.
    assert (R := a_rc _ _ _ A _ _ E). assert (R' := a_rc _ _ _ A' _ _ E'). cbn beta in R'. rewrite O in R' by lia.
    destruct p' as [k' i' r']. cbn [o_kind o_items o_rc] in *. subst k' i'. f_equal. lia.
  - destruct (ob' x) as [p'|] eqn:E'; auto. destruct (D2 x p' E') as (p & E2). congruence.
Qed.
