(** Published data are read as specified. *)
From Coq Require Import String Bool ZArith Lia List.
From Verif Require Import Base Model_Types Model_Conditions Model_Monitor Spec_Conditions Spec_Monitor Proof_Conditions.
Import ListNotations.
Open Scope string_scope.
Open Scope list_scope.
Open Scope Z_scope.

Lemma jwf_member : forall k j v, jwf j -> member k j v -> jwf v.
Proof. intros k j v W (l & -> & H). inversion W; subst. rewrite Forall_forall in *. match goal with H1 : forall x, In x l -> _ |- _ => exact (H1 _ H) end. Qed.

Lemma jfield_member : forall k j v, jwf j -> v <> JNull -> (jfield k j = v <-> member k j v).
Proof.
  intros k j v W N. unfold jfield, member. split.
  - intros H. destruct j; try congruence. destruct (dget String.eqb k l) eqn:E; [|congruence]. subst.
    exists l. split; auto. eapply dget_In in E; eauto. apply String.eqb_eq.
  - intros (l & -> & H). inversion W; subst. erewrite In_dget; eauto. apply String.eqb_eq.
Qed.

Lemma member_unique : forall k j v w, jwf j -> member k j v -> member k j w -> v = w.
Proof.
  intros k j v w W (l & -> & H) (l' & E & H'). injection E as <-. inversion W; subst.
  eapply (In_dget String.eqb_eq) in H; eauto. eapply (In_dget String.eqb_eq) in H'; eauto. congruence.
Qed.

Lemma jfield_null : forall k j, jwf j -> (jfield k j = JNull <-> member k j JNull \/ forall v, ~ member k j v).
Proof.
  intros k j W. unfold jfield, member. split.
  - intros H. destruct j; try (right; intros v (l' & E & _); discriminate). destruct (dget String.eqb k l) eqn:E.
    + subst. left. exists l. split; auto. eapply dget_In in E; eauto. apply String.eqb_eq.
    + right. intros v (l' & E' & H'). injection E' as <-. apply (dget_None String.eqb_eq) in E. apply E. unfold keys. change k with (fst (k, v)). now apply in_map.
  - intros [(l & -> & H) | H].
    + inversion W; subst. erewrite In_dget; eauto. apply String.eqb_eq.
    + destruct j; auto. destruct (dget String.eqb k l) eqn:E; auto. exfalso. apply (H j). exists l. split; auto.
      eapply dget_In in E; eauto. apply String.eqb_eq.
Qed.

Lemma as_int_spec : forall j n, as_int j = Some n <-> int_value j n.
Proof.
  intros j n. split.
  - destruct j; cbn; try discriminate; intros [= <-]; [destruct b|]; constructor.
  - intros H. inversion H; reflexivity.
Qed.
Lemma as_int_field : forall k j n, jwf j -> (as_int (jfield k j) = Some n <-> exists v, member k j v /\ int_value v n).
Proof.
  intros k j n W. rewrite as_int_spec. split.
  - intros H. exists (jfield k j). split; auto. apply jfield_member; auto. intros E. rewrite E in H. inversion H.
  - intros (v & M & H). apply jfield_member in M; auto; [congruence|]. intros ->. inversion H.
Qed.
Lemma as_str_field : forall k j s, jwf j -> (as_str (jfield k j) = Some s <-> member k j (JStr s)).
Proof.
  intros k j s W. rewrite <- jfield_member; auto; [|discriminate]. split.
  - destruct (jfield k j); try discriminate. cbn. congruence.
  - intros ->. reflexivity.
Qed.
Lemma as_token_field : forall k j t, jwf j -> (as_token (jfield k j) = Some t <-> token_value k j t).
Proof.
  intros k j t W. split.
  - destruct (jfield k j) eqn:E; try discriminate; cbn; intros [= <-].
    + apply jfield_null in E; auto. destruct E; [now apply tv_null|now apply tv_none].
    + apply tv_some. apply jfield_member; auto. discriminate.
  - intros [s M|M|M].
    + apply jfield_member in M; auto; [|discriminate]. now rewrite M.
    + assert (E : jfield k j = JNull) by (apply jfield_null; auto). now rewrite E.
    + assert (E : jfield k j = JNull) by (apply jfield_null; auto). now rewrite E.
Qed.

Lemma jfield_jwf : forall k j, jwf j -> jwf (jfield k j).
Proof.
  intros k j W. unfold jfield. destruct j; try constructor. destruct (dget String.eqb k l) eqn:E; [|constructor].
  eapply jwf_member; eauto. exists l. split; eauto. eapply dget_In in E; eauto. apply String.eqb_eq.
Qed.

Lemma address_spec : forall j h p, jwf j ->
  (as_str (jfield "host" (jfield "eventer_server" j)) = Some h /\ as_int (jfield "port" (jfield "eventer_server" j)) = Some p <-> address j h p).
Proof.
  intros j h p W. pose proof (jfield_jwf "eventer_server" _ W) as W1. rewrite as_str_field, as_int_field by auto. unfold address. split.
  - intros [H (v & M & I)]. exists (jfield "eventer_server" j), v. repeat split; auto. apply jfield_member; auto.
    destruct M as (l & E & _). rewrite E. discriminate.
  - intros (es & v & M & H & P & I). apply jfield_member in M; auto.
    + rewrite M. eauto.
    + destruct H as (l & -> & _). discriminate.
Qed.

Lemma opt_eqb_spec : forall A (eqb : A -> A -> bool), (forall a b, eqb a b = true <-> a = b) -> forall a b, opt_eqb eqb a b = true <-> a = b.
Proof.
  intros A eqb H [a|] [b|]; cbn; split; try congruence.
  - intros E. apply H in E. congruence.
  - intros [= ->]. now apply H.
Qed.

Lemma minfo_eqb_spec : forall a b, jwf (mi_data a) -> jwf (mi_data b) -> (minfo_eqb a b = true <-> same_entry a b).
Proof.
  intros a b Wa Wb. unfold minfo_eqb, same_entry. rewrite !andb_true_iff, !Z.eqb_eq, !(opt_eqb_spec _ _ String.eqb_eq), !(opt_eqb_spec _ _ Z.eqb_eq), (py_eqb_spec _ _ Wa Wb). tauto.
Qed.
