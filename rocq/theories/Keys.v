(** Orders of the keys used by the LMDB backend.  That these are the bytewise
    orders of the encoded keys is C12.  The order of references only gives
    sets of references a canonical form. *)
From Coq Require Import Bool ZArith Lia List.
From Verif Require Import Base Kv Model_Types Spec_Order Model_Codec Spec_Codec Proof_Order.
Import ListNotations.
Open Scope Z_scope.

Lemma eid_leb_lt : forall a b, eid_leb a b = true <-> eid_ltb a b = true \/ a = b.
Proof. intros. rewrite eid_leb_spec, eid_ltb_spec. reflexivity. Qed.

Lemma ts_leb_lt : forall a b, ts_leb a b = true <-> ts_ltb a b = true \/ a = b.
Proof. intros. rewrite ts_leb_spec, ts_ltb_spec. reflexivity. Qed.

Definition eidord : ord event_id.
Proof.
  refine (Ord eid_eqb eid_ltb eid_eqb_spec _ _ _).
  - intros a. destruct (eid_ltb a a) eqn:E; auto. apply eid_ltb_spec in E. now apply eid_lt_irrefl in E.
  - intros a b c. rewrite !eid_ltb_spec. apply eid_lt_trans.
  - intros a b. rewrite !eid_ltb_spec. apply eid_lt_total.
Defined.

Definition key_eqb (a b : ts_key) : bool :=
  let '(p, t, i) := a in
  let '(q, u, j) := b in (p =? q) && ts_eqb t u && eid_eqb i j.

Definition key_ltb (a b : ts_key) : bool :=
  let '(p, t, i) := a in
  let '(q, u, j) := b in
  (p <? q) || ((p =? q) && (ts_ltb t u || (ts_eqb t u && eid_ltb i j))).

Lemma key_eqb_spec : forall a b, key_eqb a b = true <-> a = b.
Proof.
  intros [[p t] i] [[q u] j]. cbn. rewrite !andb_true_iff, Z.eqb_eq, ts_eqb_spec, eid_eqb_spec.
  split; [intros [[-> ->] ->]; auto|intros [= -> -> ->]; auto].
Qed.

Lemma key_ltb_spec : forall a b, key_ltb a b = true <-> key_lt a b.
Proof.
  intros [[p t] i] [[q u] j]. unfold key_lt, key_ltb.
  rewrite !orb_true_iff, !andb_true_iff, !orb_true_iff, !andb_true_iff,
    Z.eqb_eq, Z.ltb_lt, ts_eqb_spec, ts_ltb_spec, eid_ltb_spec. tauto.
Qed.

Lemma key_lt_irrefl : forall a, ~ key_lt a a.
Proof.
  intros [[p t] i]. unfold key_lt. intros [H|[_ [H|[_ H]]]]; [lia|now apply ts_lt_irrefl in H|now apply eid_lt_irrefl in H].
Qed.

Lemma key_lt_trans : forall a b c, key_lt a b -> key_lt b c -> key_lt a c.
Proof.
  intros [[p t] i] [[q u] j] [[r v] k]. unfold key_lt.
  intros [H|[-> [H|[-> H]]]] [H'|[-> [H'|[-> H']]]]; try (left; lia); right; split; auto.
  - left. eapply ts_lt_trans; eauto.
  - right. split; auto. eapply eid_lt_trans; eauto.
Qed.

Lemma key_lt_total : forall a b, key_lt a b \/ a = b \/ key_lt b a.
Proof.
  intros [[p t] i] [[q u] j]. unfold key_lt.
  destruct (Z.lt_total p q) as [H|[->|H]]; [now left; left| |now right; right; left].
  destruct (ts_lt_total t u) as [H|[->|H]]; [left; right; auto| |right; right; right; auto].
  destruct (eid_lt_total i j) as [H|[->|H]]; [left; right; auto|auto|right; right; right; auto].
Qed.

Definition keyord : ord ts_key.
Proof.
  refine (Ord key_eqb key_ltb key_eqb_spec _ _ _).
  - intros a. destruct (key_ltb a a) eqn:E; auto. apply key_ltb_spec in E. now apply key_lt_irrefl in E.
  - intros a b c. rewrite !key_ltb_spec. apply key_lt_trans.
  - intros a b. rewrite !key_ltb_spec. apply key_lt_total.
Defined.

Definition ref_eqb (a b : event_ref) : bool :=
  match a, b with
  | LatestRef k, LatestRef l => k =? l
  | TimeseriesRef k, TimeseriesRef l => key_eqb k l
  | _, _ => false
  end.

Definition ref_ltb (a b : event_ref) : bool :=
  match a, b with
  | LatestRef k, LatestRef l => k <? l
  | TimeseriesRef k, TimeseriesRef l => key_ltb k l
  | LatestRef _, TimeseriesRef _ => true
  | TimeseriesRef _, LatestRef _ => false
  end.

Definition reford : ord event_ref.
Proof.
  refine (Ord ref_eqb ref_ltb _ _ _ _).
  - intros [k|k] [l|l]; cbn; try (split; discriminate).
    + rewrite Z.eqb_eq. split; [intros ->|intros [= ->]]; auto.
    + rewrite key_eqb_spec. split; [intros ->|intros [= ->]]; auto.
  - intros [k|k]; cbn; [apply Z.ltb_irrefl|apply (oirrefl keyord)].
  - intros [k|k] [l|l] [m|m]; cbn; try discriminate; auto.
    + rewrite !Z.ltb_lt. lia.
    + apply (otrans keyord).
  - intros [k|k] [l|l]; cbn; auto.
    + rewrite !Z.ltb_lt. destruct (Z.lt_total k l) as [|[->|]]; auto.
    + destruct (ototal keyord k l) as [|[->|]]; auto.
Defined.

Lemma etype_eqb_spec : forall a b, etype_eqb a b = true <-> a = b.
Proof.
  induction a as [|x a IH]; intros [|y b]; cbn; try (split; [discriminate|discriminate]); try tauto.
  rewrite andb_true_iff, IH, String.eqb_eq. split; [intros [-> ->]|intros [= -> ->]]; auto.
Qed.
