(** Generic helpers shared by the model: insertion ordered dictionaries
    (Python [dict]).  Nothing here models a particular source line. *)
From Coq Require Import List String Bool Arith Lia.
Import ListNotations.

Section Dict.
  Variables K V : Type.
  Variable eqb : K -> K -> bool.

  (** [d.get(k)] *)
  Fixpoint dget (k : K) (d : list (K * V)) : option V :=
    match d with
    | [] => None
    | (k', v) :: d' => if eqb k k' then Some v else dget k d'
    end.

  (** [k in d] *)
  Definition dmem (k : K) (d : list (K * V)) : bool :=
    match dget k d with Some _ => true | None => false end.

  (** [d[k] = v]: an existing key keeps its position, a new key is appended. *)
  Fixpoint dset (k : K) (v : V) (d : list (K * V)) : list (K * V) :=
    match d with
    | [] => [(k, v)]
    | (k', v') :: d' =>
        if eqb k k' then (k', v) :: d' else (k', v') :: dset k v d'
    end.

  (** [d.pop(k, None)] *)
  Fixpoint ddel (k : K) (d : list (K * V)) : list (K * V) :=
    match d with
    | [] => []
    | (k', v') :: d' =>
        if eqb k k' then d' else (k', v') :: ddel k d'
    end.

  Definition keys (d : list (K * V)) : list K := map fst d.
  Definition vals (d : list (K * V)) : list V := map snd d.

  Hypothesis eqb_spec : forall a b, eqb a b = true <-> a = b.

  Lemma eqb_refl' : forall a, eqb a a = true.
  Proof. intros; apply eqb_spec; reflexivity. Qed.

  Lemma eqb_neq : forall a b, a <> b -> eqb a b = false.
  Proof.
    intros a b H. destruct (eqb a b) eqn:E; auto.
    apply eqb_spec in E; contradiction.
  Qed.

  Lemma eqb_false : forall a b, eqb a b = false -> a <> b.
  Proof. intros a b H ->. rewrite eqb_refl' in H. discriminate. Qed.

  Lemma dget_dset_same : forall k v d, dget k (dset k v d) = Some v.
  Proof.
    induction d as [|[k' v'] d IH]; cbn.
    - now rewrite eqb_refl'.
    - destruct (eqb k k') eqn:E; cbn; rewrite E; auto.
  Qed.

  Lemma dget_dset_other : forall k k' v d, k <> k' -> dget k (dset k' v d) = dget k d.
  Proof.
    induction d as [|[k2 v2] d IH]; cbn; intros Hn.
    - now rewrite eqb_neq.
    - destruct (eqb k' k2) eqn:E; cbn.
      + apply eqb_spec in E. subst. now rewrite (eqb_neq _ _ Hn).
      + destruct (eqb k k2); auto.
  Qed.

  Lemma dget_In : forall k v d, dget k d = Some v -> In (k, v) d.
  Proof.
    induction d as [|[k' v'] d IH]; cbn; [discriminate|].
    destruct (eqb k k') eqn:E.
    - apply eqb_spec in E. intros [= ->]. subst. auto.
    - auto.
  Qed.

  Lemma In_dget : forall k v d, NoDup (keys d) -> In (k, v) d -> dget k d = Some v.
  Proof.
    induction d as [|[k' v'] d IH]; cbn; intros Hnd Hin; [easy|].
    inversion Hnd; subst.
    destruct Hin as [[= -> ->]|Hin].
    - now rewrite eqb_refl'.
    - rewrite eqb_neq; auto. intros ->. apply H1.
      apply in_map_iff. exists (k', v); auto.
  Qed.

  Lemma dget_None : forall k d, dget k d = None <-> ~ In k (keys d).
  Proof.
    induction d as [|[k' v'] d IH]; cbn.
    - intuition.
    - destruct (eqb k k') eqn:E.
      + apply eqb_spec in E. subst. intuition discriminate.
      + apply eqb_false in E. rewrite IH. intuition.
  Qed.

  Lemma dmem_In : forall k d, dmem k d = true <-> In k (keys d).
  Proof.
    intros. unfold dmem. destruct (dget k d) eqn:E.
    - split; auto. intros _. apply dget_In in E.
      apply in_map_iff. exists (k, v); auto.
    - apply dget_None in E. intuition discriminate.
  Qed.

  Lemma keys_dset : forall k v d,
      keys (dset k v d) = if dmem k d then keys d else keys d ++ [k].
  Proof.
    unfold dmem, keys. induction d as [|[k' v'] d IH]; cbn; auto.
    destruct (eqb k k') eqn:E; cbn; auto.
    rewrite IH. destruct (dget k d); auto.
  Qed.

  Lemma NoDup_snoc : forall (l : list K) k, NoDup l -> ~ In k l -> NoDup (l ++ [k]).
  Proof.
    induction l as [|a l IH]; cbn; intros k Hnd Hn.
    - constructor; auto.
    - inversion Hnd; subst. constructor.
      + rewrite in_app_iff; cbn. intuition.
      + apply IH; intuition.
  Qed.

  Lemma NoDup_dset : forall k v d, NoDup (keys d) -> NoDup (keys (dset k v d)).
  Proof.
    intros. rewrite keys_dset. destruct (dmem k d) eqn:E; auto.
    apply NoDup_snoc; auto. rewrite <- dmem_In. congruence.
  Qed.

  Lemma In_dset : forall k v k' v' d, In (k', v') (dset k v d) ->
      (k' = k /\ v' = v) \/ (k' <> k \/ True) /\ In (k', v') d.
  Proof.
    induction d as [|[k2 v2] d IH]; cbn; intros H.
    - destruct H as [[= <- <-]|[]]; auto.
    - destruct (eqb k k2) eqn:E; cbn in H.
      + apply eqb_spec in E; subst. destruct H as [[= <- <-]|H]; auto.
      + destruct H as [[= <- <-]|H]; auto.
        destruct (IH H) as [|[]]; auto.
  Qed.

  Lemma In_dset_iff : forall k v k' v' d, NoDup (keys d) ->
      (In (k', v') (dset k v d) <-> (k' = k /\ v' = v) \/ (k' <> k /\ In (k', v') d)).
  Proof.
    intros k v k' v' d Hnd. split.
    - intros H. apply In_dget in H; [|now apply NoDup_dset].
      destruct (eqb k' k) eqn:E.
      + apply eqb_spec in E; subst. rewrite dget_dset_same in H.
        inversion H; auto.
      + apply eqb_false in E. rewrite dget_dset_other in H by auto.
        apply dget_In in H. auto.
    - intros [[-> ->]|[Hn Hin]].
      + apply dget_In. apply dget_dset_same.
      + apply dget_In. rewrite dget_dset_other by auto. apply In_dget; auto.
  Qed.

  Lemma dget_ddel_other : forall k k' d, k <> k' -> dget k (ddel k' d) = dget k d.
  Proof.
    induction d as [|[k2 v2] d IH]; cbn; intros Hn; auto.
    destruct (eqb k' k2) eqn:E; cbn.
    - apply eqb_spec in E. subst. now rewrite (eqb_neq _ _ Hn).
    - destruct (eqb k k2); auto.
  Qed.

  Lemma In_ddel : forall k x d, In x (ddel k d) -> In x d.
  Proof.
    induction d as [|[k2 v2] d IH]; cbn; auto.
    destruct (eqb k k2); cbn; intuition.
  Qed.

  Lemma keys_ddel_incl : forall k x d, In x (keys (ddel k d)) -> In x (keys d).
  Proof.
    unfold keys. intros k x d H. apply in_map_iff in H as [y [<- H]].
    apply in_map. eapply In_ddel; eauto.
  Qed.

  Lemma NoDup_ddel : forall k d, NoDup (keys d) -> NoDup (keys (ddel k d)).
  Proof.
    induction d as [|[k2 v2] d IH]; cbn; auto; intros H.
    inversion H; subst. destruct (eqb k k2); auto.
    cbn. constructor; auto. intros Hc. apply keys_ddel_incl in Hc. auto.
  Qed.

  Lemma dget_ddel_same : forall k d, NoDup (keys d) -> dget k (ddel k d) = None.
  Proof.
    induction d as [|[k2 v2] d IH]; cbn; auto; intros H.
    inversion H; subst. destruct (eqb k k2) eqn:E; cbn.
    - apply eqb_spec in E; subst. now apply dget_None.
    - rewrite E. auto.
  Qed.

  Lemma In_ddel_iff : forall k k' v d, NoDup (keys d) ->
      (In (k', v) (ddel k d) <-> k' <> k /\ In (k', v) d).
  Proof.
    intros k k' v d Hnd. split.
    - intros H. split.
      + intros ->. apply In_dget in H; [|now apply NoDup_ddel].
        rewrite dget_ddel_same in H by auto. discriminate.
      + eapply In_ddel; eauto.
    - intros [Hn Hin]. apply dget_In. rewrite dget_ddel_other by auto.
      apply In_dget; auto.
  Qed.
End Dict.
Arguments dget {K V}.
Arguments dmem {K V}.
Arguments dset {K V}.
Arguments ddel {K V}.
Arguments keys {K V}.
Arguments vals {K V}.
Arguments eqb_refl' {K eqb}.
Arguments eqb_neq {K eqb}.
Arguments eqb_false {K eqb}.
Arguments dget_dset_same {K V eqb}.
Arguments dget_dset_other {K V eqb}.
Arguments dget_In {K V eqb}.
Arguments In_dget {K V eqb}.
Arguments dget_None {K V eqb}.
Arguments dmem_In {K V eqb}.
Arguments keys_dset {K V eqb}.
Arguments NoDup_snoc {K}.
Arguments NoDup_dset {K V eqb}.
Arguments In_dset {K V eqb}.
Arguments In_dset_iff {K V eqb}.
Arguments dget_ddel_other {K V eqb}.
Arguments In_ddel {K V eqb}.
Arguments keys_ddel_incl {K V eqb}.
Arguments NoDup_ddel {K V eqb}.
Arguments dget_ddel_same {K V eqb}.
Arguments In_ddel_iff {K V eqb}.


(** Small list lemmas. *)

Lemma existsb_app' : forall (A : Type) (f : A -> bool) l1 l2,
    existsb f (l1 ++ l2) = existsb f l1 || existsb f l2.
Proof. intros. apply existsb_app. Qed.

Lemma existsb_map : forall (A B : Type) (f : B -> bool) (g : A -> B) l,
    existsb f (map g l) = existsb (fun x => f (g x)) l.
Proof. induction l; cbn; auto. now rewrite IHl. Qed.

Lemma existsb_ext_in : forall (A : Type) (f g : A -> bool) l,
    (forall x, In x l -> f x = g x) -> existsb f l = existsb g l.
Proof.
  induction l; cbn; auto; intros H. rewrite H, IHl; auto.
Qed.

Lemma existsb_flat_map : forall (A B : Type) (f : B -> bool) (g : A -> list B) l,
    existsb f (flat_map g l) = existsb (fun x => existsb f (g x)) l.
Proof. induction l; cbn; auto. now rewrite existsb_app, IHl. Qed.

Lemma NoDup_app_intro : forall (A : Type) (l1 l2 : list A),
    NoDup l1 -> NoDup l2 -> (forall x, In x l1 -> ~ In x l2) -> NoDup (l1 ++ l2).
Proof.
  induction l1 as [|a l1 IH]; cbn; intros l2 H1 H2 H; auto.
  inversion H1; subst. constructor.
  - rewrite in_app_iff. intros [Hin|Hin]; [auto|]. apply (H a); auto.
  - apply IH; auto.
Qed.
