From Coq Require Import List String Bool ZArith Lia.
From Verif Require Import Model_Types Model_Order Spec_Order.
Open Scope Z_scope.

Lemma ts_eqb_spec : forall a b, ts_eqb a b = true <-> a = b.
Proof.
  intros [s u] [s' u']. unfold ts_eqb. cbn. rewrite andb_true_iff, !Z.eqb_eq. split.
  - intros [-> ->]; auto. - intros [= -> ->]; auto.
Qed.

Lemma ts_ltb_spec : forall a b, ts_ltb a b = true <-> ts_lt a b.
Proof. intros a b. unfold ts_ltb, ts_lt. rewrite orb_true_iff, andb_true_iff, !Z.ltb_lt, Z.eqb_eq. reflexivity. Qed.

Lemma ts_leb_spec : forall a b, ts_leb a b = true <-> ts_le a b.
Proof.
  intros [s u] [s' u']. unfold ts_leb, ts_le, ts_lt. cbn.
  rewrite orb_true_iff, andb_true_iff, Z.ltb_lt, Z.leb_le, Z.eqb_eq. split.
  - intros [H|[-> H]]; auto. destruct (Z.eq_dec u u'); [subst; auto|]. left. right. lia.
  - intros [H|[= -> ->]]; lia.
Qed.

Lemma eid_eqb_spec : forall a b, eid_eqb a b = true <-> a = b.
Proof.
  intros [s u i] [s' u' i']. unfold eid_eqb. cbn. rewrite !andb_true_iff, !Z.eqb_eq. split.
  - intros [[-> ->] ->]; auto. - intros [= -> -> ->]; auto.
Qed.

Lemma eid_ltb_spec : forall a b, eid_ltb a b = true <-> eid_lt a b.
Proof.
  intros a b. unfold eid_ltb, eid_lt.
  repeat rewrite ?orb_true_iff, ?andb_true_iff, ?Z.ltb_lt, ?Z.eqb_eq. reflexivity.
Qed.

Lemma eid_leb_spec : forall a b, eid_leb a b = true <-> eid_le a b.
Proof.
  intros [s u i] [s' u' i']. unfold eid_leb, eid_le, eid_lt. cbn.
  repeat rewrite ?orb_true_iff, ?andb_true_iff, ?Z.ltb_lt, ?Z.eqb_eq, ?Z.leb_le. split.
  - intros [H|[-> [H|[-> H]]]]; auto. destruct (Z.eq_dec i i'); [subst; auto|]. left. lia.
  - intros [H|[= -> -> ->]]; lia.
Qed.

Lemma eid_dec : forall a b : event_id, {a = b} + {a <> b}.
Proof.
  intros a b. destruct (eid_eqb a b) eqn:E; [left; now apply eid_eqb_spec|right].
  intros H. apply eid_eqb_spec in H. congruence.
Qed.

Lemma ts_dec : forall a b : timestamp, {a = b} + {a <> b}.
Proof.
  intros a b. destruct (ts_eqb a b) eqn:E; [left; now apply ts_eqb_spec|right].
  intros H. apply ts_eqb_spec in H. congruence.
Qed.

Lemma eid_lt_irrefl : forall a, ~ eid_lt a a.
Proof. intros a. unfold eid_lt. lia. Qed.
Lemma eid_lt_trans : forall a b c, eid_lt a b -> eid_lt b c -> eid_lt a c.
Proof. intros a b c. unfold eid_lt. lia. Qed.
Lemma eid_lt_total : forall a b, eid_lt a b \/ a = b \/ eid_lt b a.
Proof.
  intros [s u i] [s' u' i']. unfold eid_lt. cbn.
  destruct (Z.lt_trichotomy s s') as [|[->|]], (Z.lt_trichotomy u u') as [|[->|]],
    (Z.lt_trichotomy i i') as [|[->|]]; auto; lia.
Qed.
Lemma ts_lt_irrefl : forall a, ~ ts_lt a a.
Proof. intros a. unfold ts_lt. lia. Qed.
Lemma ts_lt_trans : forall a b c, ts_lt a b -> ts_lt b c -> ts_lt a c.
Proof. intros a b c. unfold ts_lt. lia. Qed.
Lemma ts_lt_total : forall a b, ts_lt a b \/ a = b \/ ts_lt b a.
Proof.
  intros [s u] [s' u']. unfold ts_lt. cbn.
  destruct (Z.lt_trichotomy s s') as [|[->|]], (Z.lt_trichotomy u u') as [|[->|]]; auto; lia.
Qed.
Lemma ts_le_lt_trans : forall a b c, ts_le a b -> ts_lt b c -> ts_lt a c.
Proof. intros a b c [H|<-] H'; eauto using ts_lt_trans. Qed.
Lemma ts_lt_le_trans : forall a b c, ts_lt a b -> ts_le b c -> ts_lt a c.
Proof. intros a b c H [H'|<-]; eauto using ts_lt_trans. Qed.
Lemma ts_le_trans : forall a b c, ts_le a b -> ts_le b c -> ts_le a c.
Proof. intros a b c [H|<-] [H'|<-]; unfold ts_le; eauto using ts_lt_trans. Qed.
Lemma ts_le_refl : forall a, ts_le a a.
Proof. intros; right; auto. Qed.
Lemma ts_le_antisym : forall a b, ts_le a b -> ts_le b a -> a = b.
Proof. intros a b [H|H] [H'|H']; auto. exfalso. eapply ts_lt_irrefl, ts_lt_trans; eauto. Qed.
Lemma ts_not_lt_le : forall a b, ~ ts_lt a b <-> ts_le b a.
Proof.
  intros a b. split.
  - intros H. destruct (ts_lt_total a b) as [|[|]]; [easy|right; auto|left; auto].
  - intros [H|H] H'; [eapply ts_lt_irrefl, ts_lt_trans; eauto|subst; eapply ts_lt_irrefl; eauto].
Qed.

Lemma ev_lt_spec : forall a b, ev_lt a b = true <->
    ev_id a <> ev_id b /\
    (server_of a = server_of b /\ eid_lt (ev_id a) (ev_id b) \/
     server_of a <> server_of b /\ (ts_lt (ev_ts a) (ev_ts b) \/ ev_ts a = ev_ts b)).
Proof.
  intros a b. unfold ev_lt. destruct (eid_eqb (ev_id a) (ev_id b)) eqn:E1.
  - apply eid_eqb_spec in E1. split; [discriminate|]. intuition.
  - assert (ev_id a <> ev_id b) by (intros H; apply eid_eqb_spec in H; congruence).
    fold (server_of a) (server_of b). destruct (server_of a =? server_of b) eqn:E2.
    + apply Z.eqb_eq in E2. rewrite eid_ltb_spec. intuition.
    + apply Z.eqb_neq in E2. destruct (ts_eqb (ev_ts a) (ev_ts b)) eqn:E3; cbn.
      * apply ts_eqb_spec in E3. intuition.
      * assert (ev_ts a <> ev_ts b) by (intros H'; apply ts_eqb_spec in H'; congruence).
        rewrite ts_ltb_spec. intuition.
Qed.

Lemma ev_gt_spec : forall a b, ev_gt a b = true <->
    ev_id a <> ev_id b /\
    (server_of a = server_of b /\ eid_lt (ev_id b) (ev_id a) \/
     server_of a <> server_of b /\ ts_lt (ev_ts b) (ev_ts a)).
Proof.
  intros a b. unfold ev_gt. destruct (eid_eqb (ev_id a) (ev_id b)) eqn:E1.
  - apply eid_eqb_spec in E1. split; [discriminate|]. intuition.
  - assert (ev_id a <> ev_id b) by (intros H; apply eid_eqb_spec in H; congruence).
    fold (server_of a) (server_of b). destruct (server_of a =? server_of b) eqn:E2.
    + apply Z.eqb_eq in E2. rewrite eid_ltb_spec. intuition.
    + apply Z.eqb_neq in E2. destruct (ts_eqb (ev_ts a) (ev_ts b)) eqn:E3; cbn.
      * apply ts_eqb_spec in E3. rewrite E3. split; [discriminate|].
        intros [_ [[]|[_ H']]]; [easy|]. exfalso. eapply ts_lt_irrefl; eauto.
      * rewrite ts_ltb_spec. intuition.
Qed.

Lemma final_C08_order : forall S, grow_together S -> distinct_instants S ->
    (forall a, ev_lt a a = false) /\
    (forall a b c, S a -> S b -> S c -> ev_lt a b = true -> ev_lt b c = true -> ev_lt a c = true) /\
    (forall a b, S a -> S b -> ev_lt a b = true -> ev_lt b a = false) /\
    (forall a b, ev_id a <> ev_id b -> ev_lt a b = true \/ ev_lt b a = true) /\
    (forall a b, S a -> S b -> ev_gt a b = ev_lt b a).
Proof.
  intros S Hg Hd.
  assert (Hlt : forall a b, S a -> S b -> (ev_lt a b = true <->
     (server_of a = server_of b /\ eid_lt (ev_id a) (ev_id b) \/
      server_of a <> server_of b /\ ts_lt (ev_ts a) (ev_ts b)))).
  { intros a b Ha Hb. rewrite ev_lt_spec. split.
    - intros [_ [H|[H [H'|H']]]]; auto. exfalso. auto.
    - intros [[H H']|[H H']]; split; auto.
      + intros E. rewrite E in H'. eapply eid_lt_irrefl; eauto.
      + intros E. apply H. unfold server_of. now rewrite E. }
  assert (Hle : forall a b, S a -> S b -> ev_lt a b = true -> ts_le (ev_ts a) (ev_ts b)).
  { intros a b Ha Hb H. apply Hlt in H as [[H1 H2]|[H1 H2]]; auto; [apply Hg; auto|]; now left. }
  assert (Hidts : forall a b, S a -> S b -> server_of a = server_of b -> ts_lt (ev_ts a) (ev_ts b) -> eid_lt (ev_id a) (ev_id b)).
  { intros a b Ha Hb Hs Ht. destruct (eid_lt_total (ev_id b) (ev_id a)) as [H|[E|H]]; auto; exfalso.
    - eapply ts_lt_irrefl, ts_lt_le_trans; [exact Ht|]. apply Hg; auto. now left.
    - eapply ts_lt_irrefl, ts_lt_le_trans; [exact Ht|]. apply Hg; auto. now right. }
  assert (Hasym : forall a b, S a -> S b -> ev_lt a b = true -> ev_lt b a = false).
  { intros a b Ha Hb H. destruct (ev_lt b a) eqn:E; auto. exfalso.
    apply Hlt in H; auto. apply Hlt in E; auto.
    destruct H as [[H1 H2]|[H1 H2]], E as [[H3 H4]|[H3 H4]]; try congruence.
    - eapply eid_lt_irrefl, eid_lt_trans; eauto.
    - eapply ts_lt_irrefl, ts_lt_trans; eauto. }
  assert (Htot : forall a b, ev_id a <> ev_id b -> ev_lt a b = true \/ ev_lt b a = true).
  { intros a b Hn. rewrite !ev_lt_spec. destruct (Z.eq_dec (server_of a) (server_of b)) as [E|E].
    - destruct (eid_lt_total (ev_id a) (ev_id b)) as [H|[H|H]]; [left; auto|easy|right; split; auto].
    - destruct (ts_lt_total (ev_ts a) (ev_ts b)) as [H|[H|H]]; [left; auto|left; auto|right; split; auto]. }
  split; [|split; [|split; [|split]]]; auto.
  - intros a. unfold ev_lt. now rewrite (proj2 (eid_eqb_spec _ _) eq_refl).
  - intros a b c Ha Hb Hc H1 H2.
    pose proof (Hle _ _ Ha Hb H1) as L1. pose proof (Hle _ _ Hb Hc H2) as L2.
    apply Hlt in H1; auto. apply Hlt in H2; auto. apply Hlt; auto.
    destruct H1 as [[H1 H1']|[H1 H1']], H2 as [[H2 H2']|[H2 H2']].
    + left. split; [congruence|]. eapply eid_lt_trans; eauto.
    + right. split; [congruence|]. eapply ts_le_lt_trans; eauto.
    + right. split; [congruence|]. eapply ts_lt_le_trans; eauto.
    + pose proof (ts_lt_trans _ _ _ H1' H2') as Ht.
      destruct (Z.eq_dec (server_of a) (server_of c)); [left|right]; auto.
  - intros a b Ha Hb. apply eq_true_iff_eq. rewrite ev_gt_spec, (Hlt b a Hb Ha).
    split.
    + intros [_ [[H H']|[H H']]]; [left|right]; split; auto.
    + intros [[H H']|[H H']]; split; auto.
      * intros E. rewrite E in H'. eapply eid_lt_irrefl; eauto.
      * intros E. apply H. unfold server_of. now rewrite E.
Qed.

Lemma final_C08_ties : forall a b, server_of a <> server_of b -> ev_ts a = ev_ts b ->
    ev_lt a b = true /\ ev_lt b a = true /\ ev_gt a b = false /\ ev_gt b a = false.
Proof.
  assert (H : forall a b, server_of a <> server_of b -> ev_ts a = ev_ts b -> ev_lt a b = true /\ ev_gt a b = false).
  { intros a b H1 H2. split.
    - apply ev_lt_spec. split; auto. intros E. apply H1. unfold server_of. now rewrite E.
    - destruct (ev_gt a b) eqn:E; auto. apply ev_gt_spec in E as [_ [[]|[_ E]]]; [easy|].
      rewrite H2 in E. exfalso. eapply ts_lt_irrefl; eauto. }
  intros a b H1 H2. destruct (H a b H1 H2), (H b a); auto.
Qed.

(** Whatever the events: newer-than implies the converse older-than. *)
Lemma final_C08_gt : forall a b, ev_gt a b = true -> ev_lt b a = true /\ ev_gt b a = false.
Proof.
  intros a b H. apply ev_gt_spec in H as [Hn H]. split.
  - apply ev_lt_spec. split; [auto|]. destruct H as [[H1 H2]|[H1 H2]]; [left|right]; auto.
  - destruct (ev_gt b a) eqn:E; auto. apply ev_gt_spec in E as [_ E]. exfalso.
    destruct H as [[H1 H2]|[H1 H2]], E as [[H3 H4]|[H3 H4]]; try congruence.
    + eapply eid_lt_irrefl, eid_lt_trans; eauto.
    + eapply ts_lt_irrefl, ts_lt_trans; eauto.
Qed.
