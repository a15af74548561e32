(** Generic helper: ordered key-value stores (an LMDB database as seen through
    decoded keys: entries sorted by key, one value per key) and finite sets
    kept as sorted lists.  Nothing here models a particular source line. *)
From Coq Require Import Bool Arith ZArith Lia Sorted List.
From Verif Require Import Base.
Import ListNotations.

(** A decidable strict total order. *)
Record ord (K : Type) := Ord {
  oeqb : K -> K -> bool;
  oltb : K -> K -> bool;
  oeqb_spec : forall a b, oeqb a b = true <-> a = b;
  oirrefl : forall a, oltb a a = false;
  otrans : forall a b c, oltb a b = true -> oltb b c = true -> oltb a c = true;
  ototal : forall a b, oltb a b = true \/ a = b \/ oltb b a = true }.
Arguments Ord {K}.
Arguments oeqb {K}.
Arguments oltb {K}.
Arguments oeqb_spec {K}.
Arguments oirrefl {K}.
Arguments otrans {K}.
Arguments ototal {K}.

Section Kv.
  Variables K V : Type.
  Variable o : ord K.

  (** [cursor.get(key)] *)
  Definition kget (k : K) (m : list (K * V)) : option V := dget (oeqb o) k m.

  (** [cursor.put(key, value)] *)
  Fixpoint kput (k : K) (v : V) (m : list (K * V)) : list (K * V) :=
    match m with
    | [] => [(k, v)]
    | (k', v') :: m' =>
        if oltb o k k' then (k, v) :: m
        else if oltb o k' k then (k', v') :: kput k v m'
        else (k, v) :: m'
    end.

  (** [cursor.delete()] / [cursor.pop(key)] *)
  Definition kdel (k : K) (m : list (K * V)) : list (K * V) := ddel (oeqb o) k m.

  (** [for k, v in items: cursor.put(k, v)] *)
  Definition kputs (items : list (K * V)) (m : list (K * V)) : list (K * V) :=
    fold_left (fun m kv => kput (fst kv) (snd kv) m) items m.

  Definition olt (a b : K) : Prop := oltb o a b = true.
  Definition ksorted (m : list (K * V)) : Prop := StronglySorted olt (keys m).

  Lemma oltb_false : forall a b, oltb o a b = false -> a = b \/ oltb o b a = true.
  Proof. intros a b H. destruct (ototal o a b) as [H1|[H1|H1]]; auto. congruence. Qed.

  Lemma olt_neq : forall a b, olt a b -> a <> b.
  Proof. intros a b H ->. unfold olt in H. rewrite oirrefl in H. discriminate. Qed.

  Lemma olt_asym : forall a b, olt a b -> oltb o b a = false.
  Proof.
    intros a b H. destruct (oltb o b a) eqn:E; auto.
    assert (oltb o a a = true) by (eapply otrans; eauto). rewrite oirrefl in *. discriminate.
  Qed.

  Lemma kget_kput_same : forall k v m, kget k (kput k v m) = Some v.
  Proof.
    unfold kget. induction m as [|[k' v'] m IH]; cbn.
    - now rewrite (eqb_refl' (oeqb_spec o)).
    - destruct (oltb o k k') eqn:E1; cbn.
      + now rewrite (eqb_refl' (oeqb_spec o)).
      + destruct (oltb o k' k) eqn:E2; cbn.
        * rewrite (eqb_neq (oeqb_spec o)); auto. intros ->. rewrite oirrefl in E2. discriminate.
        * now rewrite (eqb_refl' (oeqb_spec o)).
  Qed.

  Lemma kget_kput_other : forall k k' v m, k <> k' -> kget k (kput k' v m) = kget k m.
  Proof.
    unfold kget. induction m as [|[k2 v2] m IH]; cbn; intros Hn.
    - now rewrite (eqb_neq (oeqb_spec o)).
    - destruct (oltb o k' k2) eqn:E1; cbn.
      + now rewrite (eqb_neq (oeqb_spec o) _ _ Hn).
      + destruct (oltb o k2 k') eqn:E2; cbn.
        * now rewrite IH.
        * destruct (oltb_false _ _ E1) as [->|E3]; [|congruence].
          now rewrite (eqb_neq (oeqb_spec o) _ _ Hn).
  Qed.

  Lemma kget_kput : forall k k' v m, kget k (kput k' v m) = if oeqb o k k' then Some v else kget k m.
  Proof.
    intros. destruct (oeqb o k k') eqn:E.
    - apply oeqb_spec in E. subst. apply kget_kput_same.
    - apply kget_kput_other. intros ->. rewrite (eqb_refl' (oeqb_spec o)) in E. discriminate.
  Qed.

  Lemma In_kput_key : forall k k' v m, In k (keys (kput k' v m)) -> k = k' \/ In k (keys m).
  Proof.
    unfold keys. induction m as [|[k2 v2] m IH]; cbn; intros H.
    - intuition.
    - destruct (oltb o k' k2); cbn in H; [intuition|].
      destruct (oltb o k2 k'); cbn in H; intuition.
  Qed.

  Lemma ksorted_kput : forall k v m, ksorted m -> ksorted (kput k v m).
  Proof.
    unfold ksorted. induction m as [|[k' v'] m IH]; cbn; intros Hs.
    - constructor; constructor.
    - inversion Hs as [|? ? Hs' Hall]; subst.
      destruct (oltb o k k') eqn:E1; cbn.
      + constructor; auto. constructor; auto.
        eapply Forall_impl; [|apply Hall]. intros a Ha. eapply otrans; eauto.
      + destruct (oltb o k' k) eqn:E2; cbn.
        * constructor; auto. apply Forall_forall. intros x Hx.
          apply In_kput_key in Hx as [->|Hx]; auto. rewrite Forall_forall in Hall. auto.
        * destruct (oltb_false _ _ E1) as [->|E3]; [|congruence]. constructor; auto.
  Qed.

  Lemma ksorted_NoDup : forall m, ksorted m -> NoDup (keys m).
  Proof.
    unfold ksorted. induction m as [|[k v] m IH]; cbn; intros H; constructor.
    - inversion H; subst. rewrite Forall_forall in H3. intros Hin. apply H3 in Hin.
      apply olt_neq in Hin. auto.
    - inversion H; auto.
  Qed.

  Lemma kget_In : forall k v m, ksorted m -> (kget k m = Some v <-> In (k, v) m).
  Proof.
    intros. split.
    - apply (dget_In (oeqb_spec o)).
    - apply (In_dget (oeqb_spec o)). now apply ksorted_NoDup.
  Qed.

  Lemma kget_Some_In : forall k v m, kget k m = Some v -> In (k, v) m.
  Proof. intros. now apply (dget_In (oeqb_spec o)). Qed.

  Lemma kget_None : forall k m, kget k m = None <-> ~ In k (keys m).
  Proof. intros. apply (dget_None (oeqb_spec o)). Qed.

  Lemma ksorted_kdel : forall k m, ksorted m -> ksorted (kdel k m).
  Proof.
    unfold ksorted, kdel. induction m as [|[k' v'] m IH]; cbn; intros H; auto.
    inversion H; subst. destruct (oeqb o k k'); auto. cbn. constructor; auto.
    apply Forall_forall. intros x Hx. rewrite Forall_forall in H3. apply H3.
    eapply keys_ddel_incl; eauto.
  Qed.

  Lemma kget_kdel : forall k k' m, ksorted m -> kget k (kdel k' m) = if oeqb o k k' then None else kget k m.
  Proof.
    intros k k' m H. unfold kget, kdel. destruct (oeqb o k k') eqn:E.
    - apply oeqb_spec in E. subst. apply (dget_ddel_same (oeqb_spec o)). now apply ksorted_NoDup.
    - apply (dget_ddel_other (oeqb_spec o)). intros ->. rewrite (eqb_refl' (oeqb_spec o)) in E. discriminate.
  Qed.

  Lemma kget_head : forall k v m, ksorted ((k, v) :: m) -> forall k', oltb o k' k = true -> kget k' ((k, v) :: m) = None.
  Proof.
    intros k v m H k' Hlt. apply kget_None. cbn. inversion H; subst.
    intros [->|Hin].
    - rewrite oirrefl in Hlt. discriminate.
    - rewrite Forall_forall in H3. apply H3 in Hin. apply olt_asym in Hin. congruence.
  Qed.

  (** Two stores with the same lookups are the same. *)
  Lemma kext : forall m1 m2, ksorted m1 -> ksorted m2 -> (forall k, kget k m1 = kget k m2) -> m1 = m2.
  Proof.
    induction m1 as [|[k1 v1] m1 IH]; intros m2 H1 H2 H.
    - destruct m2 as [|[k2 v2] m2]; auto. specialize (H k2). unfold kget in H. cbn in H.
      rewrite (eqb_refl' (oeqb_spec o)) in H. discriminate.
    - destruct m2 as [|[k2 v2] m2].
      + specialize (H k1). unfold kget in H. cbn in H. rewrite (eqb_refl' (oeqb_spec o)) in H. discriminate.
      + destruct (ototal o k1 k2) as [Hlt|[->|Hlt]].
        * pose proof (H k1) as Hk. rewrite (kget_head k2 v2 m2 H2 k1 Hlt) in Hk.
          unfold kget in Hk. cbn in Hk. rewrite (eqb_refl' (oeqb_spec o)) in Hk. discriminate.
        * pose proof (H k2) as Hk. unfold kget in Hk. cbn in Hk. rewrite (eqb_refl' (oeqb_spec o)) in Hk.
          injection Hk as ->. f_equal. inversion H1 as [|? ? Hs1 Hf1]; inversion H2 as [|? ? Hs2 Hf2]; subst. apply IH; auto.
          intros k. specialize (H k). unfold kget in *. cbn in H.
          destruct (oeqb o k k2) eqn:E; auto. apply oeqb_spec in E. subst.
          assert (Hn1 : kget k2 m1 = None).
          { apply kget_None. intros Hin. rewrite Forall_forall in *. specialize (Hf1 _ Hin). eapply olt_neq; eauto. }
          assert (Hn2 : kget k2 m2 = None).
          { apply kget_None. intros Hin. rewrite Forall_forall in *. specialize (Hf2 _ Hin). eapply olt_neq; eauto. }
          unfold kget in *. congruence.
        * pose proof (H k2) as Hk. rewrite (kget_head k1 v1 m1 H1 k2 Hlt) in Hk.
          unfold kget in Hk. cbn in Hk. rewrite (eqb_refl' (oeqb_spec o)) in Hk. discriminate.
  Qed.

  Lemma ksorted_kputs : forall items m, ksorted m -> ksorted (kputs items m).
  Proof.
    unfold kputs. induction items as [|[k v] items IH]; cbn; intros m H; auto.
    apply IH. now apply ksorted_kput.
  Qed.

  Lemma kget_kputs : forall items m k, NoDup (keys items) ->
      kget k (kputs items m) = match dget (oeqb o) k items with Some v => Some v | None => kget k m end.
  Proof.
    unfold kputs. induction items as [|[k' v'] items IH]; cbn; intros m k Hnd; auto.
    inversion Hnd; subst. rewrite IH by auto. rewrite kget_kput.
    destruct (oeqb o k k') eqn:E; auto. apply oeqb_spec in E. subst.
    destruct (dget (oeqb o) k' items) eqn:E2; auto.
    exfalso. apply (dget_In (oeqb_spec o)) in E2. apply H1. apply in_map_iff. eexists; split; [|eauto]. reflexivity.
  Qed.

  Lemma kputs_app : forall a b m, kputs (a ++ b) m = kputs b (kputs a m).
  Proof. intros. unfold kputs. apply fold_left_app. Qed.

  (** The store after writing a dictionary that got one more assignment. *)
  Lemma kputs_dset : forall k v d m, NoDup (keys d) -> ksorted m ->
      kputs (dset (oeqb o) k v d) m = kput k v (kputs d m).
  Proof.
    intros k v d m Hnd Hs. apply kext.
    - now apply ksorted_kputs.
    - apply ksorted_kput. now apply ksorted_kputs.
    - intros x. rewrite kget_kput, !kget_kputs; auto.
      + destruct (oeqb o x k) eqn:E.
        * apply oeqb_spec in E. subst. now rewrite (dget_dset_same (oeqb_spec o)).
        * rewrite (dget_dset_other (oeqb_spec o)); auto. intros ->. rewrite (eqb_refl' (oeqb_spec o)) in E. discriminate.
      + apply (NoDup_dset (oeqb_spec o)). auto.
  Qed.

  Lemma kdel_kput_comm : forall k k' v m, ksorted m -> k <> k' ->
      kdel k (kput k' v m) = kput k' v (kdel k m).
  Proof.
    intros k k' v m Hs Hn. apply kext.
    - apply ksorted_kdel. now apply ksorted_kput.
    - apply ksorted_kput. now apply ksorted_kdel.
    - intros x. rewrite kget_kdel, !kget_kput, kget_kdel by auto using ksorted_kput.
      destruct (oeqb o x k) eqn:E1; destruct (oeqb o x k') eqn:E2; auto.
      apply oeqb_spec in E1. apply oeqb_spec in E2. congruence.
  Qed.
End Kv.
Arguments kget {K V}.
Arguments kput {K V}.
Arguments kdel {K V}.
Arguments kputs {K V}.
Arguments olt {K}.
Arguments ksorted {K V}.
Arguments oltb_false {K}.
Arguments olt_neq {K}.
Arguments olt_asym {K}.
Arguments kget_kput_same {K V}.
Arguments kget_kput_other {K V}.
Arguments kget_kput {K V}.
Arguments In_kput_key {K V}.
Arguments ksorted_kput {K V}.
Arguments ksorted_NoDup {K V}.
Arguments kget_In {K V}.
Arguments kget_Some_In {K V}.
Arguments kget_None {K V}.
Arguments ksorted_kdel {K V}.
Arguments kget_kdel {K V}.
Arguments kext {K V}.
Arguments ksorted_kputs {K V}.
Arguments kget_kputs {K V}.
Arguments kputs_app {K V}.
Arguments kputs_dset {K V}.
Arguments kdel_kput_comm {K V}.

(** ** Sets *)
Section Set_.
  Variable K : Type.
  Variable o : ord K.

  Fixpoint sadd (k : K) (s : list K) : list K :=
    match s with
    | [] => [k]
    | k' :: s' =>
        if oltb o k k' then k :: s
        else if oltb o k' k then k' :: sadd k s'
        else s
    end.

  (** [set(l)] *)
  Definition sof (l : list K) : list K := fold_left (fun s k => sadd k s) l [].

  (** [a.update(b)] *)
  Definition sunion (a b : list K) : list K := fold_left (fun s k => sadd k s) b a.

  Definition shas (k : K) (s : list K) : bool := existsb (oeqb o k) s.

  (** [a.discard(k)] *)
  Definition sdel (k : K) (s : list K) : list K := filter (fun x => negb (oeqb o k x)) s.

  (** [a.difference_update(b)] *)
  Definition sdiff (a b : list K) : list K := filter (fun x => negb (shas x b)) a.

  Definition ssorted (s : list K) : Prop := StronglySorted (olt o) s.

  Lemma shas_In : forall k s, shas k s = true <-> In k s.
  Proof.
    intros. unfold shas. rewrite existsb_exists. split.
    - intros [x [H1 H2]]. apply oeqb_spec in H2. now subst.
    - intros H. exists k. split; auto. now apply (oeqb_spec o).
  Qed.

  Lemma In_sadd : forall x k s, In x (sadd k s) <-> x = k \/ In x s.
  Proof.
    induction s as [|k' s IH]; cbn; [intuition|].
    destruct (oltb o k k') eqn:E1; cbn; [intuition|].
    destruct (oltb o k' k) eqn:E2; cbn.
    - rewrite IH. intuition.
    - destruct (oltb_false o _ _ E1) as [->|]; [|congruence]. intuition.
  Qed.

  Lemma ssorted_sadd : forall k s, ssorted s -> ssorted (sadd k s).
  Proof.
    unfold ssorted. induction s as [|k' s IH]; cbn; intros H.
    - constructor; constructor.
    - inversion H as [|? ? Hs Hall]; subst. destruct (oltb o k k') eqn:E1; [|destruct (oltb o k' k) eqn:E2].
      + constructor; auto. constructor; auto. eapply Forall_impl; [|apply Hall]. intros a Ha. eapply otrans; eauto.
      + constructor; auto. apply Forall_forall. intros x Hx. apply In_sadd in Hx as [->|Hx]; auto.
        rewrite Forall_forall in Hall; auto.
      + auto.
  Qed.

  Lemma In_sunion : forall b a x, In x (sunion a b) <-> In x a \/ In x b.
  Proof.
    unfold sunion. induction b as [|k b IH]; cbn; intros a x; [intuition|].
    rewrite IH, In_sadd. intuition.
  Qed.

  Lemma ssorted_sunion : forall b a, ssorted a -> ssorted (sunion a b).
  Proof. unfold sunion. induction b; cbn; intros; auto. apply IHb. now apply ssorted_sadd. Qed.

  Lemma In_sof : forall l x, In x (sof l) <-> In x l.
  Proof. intros. unfold sof. rewrite (In_sunion l []). cbn. intuition. Qed.

  Lemma ssorted_sof : forall l, ssorted (sof l).
  Proof. intros. apply (ssorted_sunion l []). constructor. Qed.

  Lemma ssorted_filter : forall f s, ssorted s -> ssorted (filter f s).
  Proof.
    unfold ssorted. induction s as [|k s IH]; cbn; intros H; auto.
    inversion H; subst. destruct (f k); auto. constructor; auto.
    apply Forall_forall. intros x Hx. apply filter_In in Hx as [Hx _]. rewrite Forall_forall in H3; auto.
  Qed.

  Lemma In_sdel : forall x k s, In x (sdel k s) <-> x <> k /\ In x s.
  Proof.
    intros. unfold sdel. rewrite filter_In, negb_true_iff. split.
    - intros [H1 H2]. split; auto. intros ->. rewrite (eqb_refl' (oeqb_spec o)) in H2. discriminate.
    - intros [H1 H2]. split; auto. apply (eqb_neq (oeqb_spec o)). auto.
  Qed.

  Lemma In_sdiff : forall x a b, In x (sdiff a b) <-> In x a /\ ~ In x b.
  Proof.
    intros. unfold sdiff. rewrite filter_In, negb_true_iff.
    pose proof (shas_In x b) as H. destruct (shas x b); intuition congruence.
  Qed.

  Lemma ssorted_sdel : forall k s, ssorted s -> ssorted (sdel k s).
  Proof. intros. now apply ssorted_filter. Qed.

  Lemma ssorted_sdiff : forall a b, ssorted a -> ssorted (sdiff a b).
  Proof. intros. now apply ssorted_filter. Qed.

  Lemma sext : forall a b, ssorted a -> ssorted b -> (forall x, In x a <-> In x b) -> a = b.
  Proof.
    unfold ssorted. induction a as [|x a IH]; intros b Ha Hb H.
    - destruct b as [|y b]; auto. exfalso. apply (H y). now left.
    - destruct b as [|y b]; [exfalso; apply (H x); now left|].
      inversion Ha as [|? ? Ha1 Ha2]; inversion Hb as [|? ? Hb1 Hb2]; subst.
      rewrite Forall_forall in *.
      assert (x = y).
      { destruct (proj1 (H x) (or_introl eq_refl)) as [->|Hx]; auto.
        destruct (proj2 (H y) (or_introl eq_refl)) as [->|Hy]; auto.
        apply Hb2 in Hx. apply Ha2 in Hy. apply olt_asym in Hx. unfold olt in Hy. congruence. }
      subst. f_equal. apply IH; auto. intros z. specialize (H z). cbn in H. split; intros Hz.
      + destruct (proj1 H (or_intror Hz)) as [->|]; auto. apply Ha2 in Hz. apply olt_neq in Hz. congruence.
      + destruct (proj2 H (or_intror Hz)) as [->|]; auto. apply Hb2 in Hz. apply olt_neq in Hz. congruence.
  Qed.

  Lemma ssorted_NoDup : forall s, ssorted s -> NoDup s.
  Proof.
    unfold ssorted. induction s as [|k s IH]; cbn; intros H; constructor.
    - inversion H; subst. rewrite Forall_forall in H3. intros Hin. apply H3 in Hin. apply olt_neq in Hin. auto.
    - inversion H; auto.
  Qed.
End Set_.
Arguments sadd {K}.
Arguments sof {K}.
Arguments sunion {K}.
Arguments shas {K}.
Arguments sdel {K}.
Arguments sdiff {K}.
Arguments ssorted {K}.
Arguments shas_In {K}.
Arguments In_sadd {K}.
Arguments ssorted_sadd {K}.
Arguments In_sunion {K}.
Arguments ssorted_sunion {K}.
Arguments In_sof {K}.
Arguments ssorted_sof {K}.
Arguments ssorted_filter {K}.
Arguments In_sdel {K}.
Arguments In_sdiff {K}.
Arguments ssorted_sdel {K}.
Arguments ssorted_sdiff {K}.
Arguments sext {K}.
Arguments ssorted_NoDup {K}.

(** Integer keys. *)
Definition zord : ord Z.
Proof.
  refine (Ord Z.eqb Z.ltb Z.eqb_eq Z.ltb_irrefl _ _).
  - intros a b c. rewrite !Z.ltb_lt. lia.
  - intros a b. rewrite !Z.ltb_lt. lia.
Defined.
