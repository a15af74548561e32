(** Validation accepts exactly the documented forms. *)
From Coq Require Import String Bool ZArith QArith Qpower Lia List.
From Verif Require Import Base Model_Types Model_Schema Model_Conf Spec_Conf.
Import ListNotations.
Open Scope string_scope.
Open Scope list_scope.
Open Scope nat_scope.

Section Decides.
  Variable ext : string -> json -> bool.
  Notation V := (valid repo ext).

  Definition decides (n : nat) (s : schema) (P : json -> Prop) (j : json) : Prop :=
    exists b, V n s j = Some b /\ (b = true <-> P j).

  Lemma all_opt_bools : forall l, all_opt (map Some l) = Some (forallb (fun b => b) l).
  Proof.
    induction l as [|b l IH]; [reflexivity|]. cbn [map all_opt fold_right forallb]. unfold all_opt in IH. rewrite IH. reflexivity.
  Qed.

  (** Keywords one after the other. *)
  Definition kdec (n : nat) (k : keyword) (P : Prop) (j : json) : Prop :=
    exists b, keyword_ok repo ext (V n) j k = Some b /\ (b = true <-> P).

  Lemma dec_nil : forall n j (P : json -> Prop), P j -> decides (S n) (Sch []) P j.
  Proof. intros n j P H. exists true. split; [reflexivity|tauto]. Qed.

  Lemma dec_cons : forall n k l j (P : Prop) (Q R : json -> Prop), kdec n k P j -> decides (S n) (Sch l) Q j ->
      (R j <-> P /\ Q j) -> decides (S n) (Sch (k :: l)) R j.
  Proof.
    intros n k l j P Q R (b & E & B) (c & F & C) H. exists (b && c). split.
    - cbn [valid keywords map all_opt fold_right]. cbn [valid keywords] in F. unfold all_opt in F. rewrite E, F. reflexivity.
    - rewrite andb_true_iff, B, C, H. tauto.
  Qed.

  Lemma dec_iff : forall n s (P Q : json -> Prop) j, decides n s P j -> (P j <-> Q j) -> decides n s Q j.
  Proof. intros n s P Q j (b & E & B) H. exists b. rewrite <- H. auto. Qed.

  Lemma k_type : forall n ts j, kdec n (KType ts) (exists t, In t ts /\ has_type j t = true) j.
  Proof. intros. eexists. split; [reflexivity|]. apply existsb_exists. Qed.

  Lemma k_enum : forall n vs j, kdec n (KEnum vs) (exists s, j = JStr s /\ In s vs) j.
  Proof.
    intros n vs j. eexists. split; [reflexivity|]. destruct j; try (split; [discriminate|intros (x & E & _); discriminate]).
    rewrite existsb_exists. split.
    - intros (x & I & E). apply String.eqb_eq in E. subst. eauto.
    - intros (x & E & I). injection E as <-. exists s. split; [exact I|apply String.eqb_refl].
  Qed.

  Lemma k_ref : forall n r s P j, repo r = Some s -> decides n s P j -> kdec n (KRef r) (P j) j.
  Proof. intros n r s P j E (b & F & B). exists b. cbn [keyword_ok]. rewrite E. auto. Qed.

  Lemma dec_ref : forall n r s P j, repo r = Some s -> decides n s P j -> decides (S n) (ref r) P j.
  Proof.
    intros n r s P j E D. unfold ref. eapply dec_cons with (Q := fun _ => True).
    - eapply k_ref; eauto.
    - now apply dec_nil.
    - tauto.
  Qed.

  Lemma k_required : forall n ks j, kdec n (KRequired ks) (forall o, j = JObj o -> forall k, In k ks -> exists v, dget String.eqb k o = Some v) j.
  Proof.
    intros n ks j. eexists. split; [reflexivity|]. destruct j; try (split; [intros _ o E; discriminate|reflexivity]).
    rewrite forallb_forall. split.
    - intros H o E k I. injection E as <-. specialize (H k I). unfold dmem in H. destruct (dget String.eqb k l); [eauto|discriminate].
    - intros H k I. destruct (H l eq_refl k I) as (v & E). unfold dmem. now rewrite E.
  Qed.

  Lemma all_dec : forall {A} (l : list A) (f : A -> option bool) (P : A -> Prop),
      (forall x, In x l -> exists b, f x = Some b /\ (b = true <-> P x)) ->
      exists b, all_opt (map f l) = Some b /\ (b = true <-> Forall P l).
  Proof.
    induction l as [|x l IH]; intros f P H.
    - exists true. split; [reflexivity|]. split; [constructor|reflexivity].
    - destruct (H x (or_introl eq_refl)) as (b & E & B). destruct (IH f P) as (c & F & C); [intros y I; apply H; now right|].
      exists (b && c). cbn [map all_opt fold_right]. unfold all_opt in F. rewrite E, F. split; [reflexivity|].
      rewrite andb_true_iff, B, C. split; [intros (U & W); constructor; auto|]. intros U. inversion U; auto.
  Qed.

  Lemma k_props : forall n ps j (P : string -> json -> Prop),
      (forall k s v, In (k, s) ps -> member j k v -> decides n s (P k) v) ->
      kdec n (KProps ps) (Forall (fun p => may j (fst p) (P (fst p))) ps) j.
  Proof.
    intros n ps j P H. destruct j; try (exists true; split; [reflexivity|split; [|reflexivity]]; intros _; apply Forall_forall;
      intros p _ v (o & E & _); discriminate).
    cbn [keyword_ok]. unfold kdec. cbn [keyword_ok].
    apply all_dec with (P := fun p => may (JObj l) (fst p) (P (fst p))). intros [k s] I. cbn [fst snd].
    destruct (dget String.eqb k l) as [x|] eqn:E.
    - destruct (H k s x I) as (b & F & B); [exists l; auto|]. exists b. split; [exact F|]. rewrite B. unfold may, member. split.
      + intros U v (o & Eo & G). injection Eo as <-. rewrite E in G. injection G as <-. exact U.
      + intros U. apply U. exists l. auto.
    - exists true. split; [reflexivity|]. split; [|reflexivity]. intros _ v (o & Eo & G). injection Eo as <-. rewrite E in G. discriminate.
  Qed.

  Lemma k_items : forall n s j P, (forall l x, j = JArr l -> In x l -> decides n s P x) ->
      kdec n (KItems s) (forall l, j = JArr l -> Forall P l) j.
  Proof.
    intros n s j P H. destruct j; try (exists true; split; [reflexivity|split; [|reflexivity]]; intros _ l0 E; discriminate).
    unfold kdec. cbn [keyword_ok]. destruct (all_dec l (V n s) P) as (b & E & B).
    - intros x I. exact (H l x eq_refl I).
    - exists b. split; [exact E|]. rewrite B. split; [intros U l0 G; injection G as <-; exact U|auto].
  Qed.

  Lemma k_one3 : forall n a b c (P Q R : json -> Prop) j, decides n a P j -> decides n b Q j -> decides n c R j ->
      ~ (P j /\ Q j) -> ~ (P j /\ R j) -> ~ (Q j /\ R j) -> kdec n (KOneOf [a; b; c]) (P j \/ Q j \/ R j) j.
  Proof.
    intros n a b c P Q R j (x & E & X) (y & F & Y) (z & G & Z) N1 N2 N3. unfold kdec. cbn [keyword_ok map count_opt fold_right].
    rewrite E, F, G. eexists. split; [reflexivity|]. rewrite <- X, <- Y, <- Z in *. destruct x, y, z; cbn; intuition congruence.
  Qed.

  (** Types. *)
  Lemma t_string : forall j, has_type j "string" = true <-> is_string j.
  Proof.
    intros j. unfold is_string. destruct j; cbn; split; intros H; try discriminate; try (destruct H as (x & E); discriminate); eauto.
  Qed.

  Lemma t_object : forall j, has_type j "object" = true <-> is_object j.
  Proof.
    intros j. unfold is_object. destruct j; cbn; split; intros H; try discriminate; try (destruct H as (x & E); discriminate); eauto.
  Qed.

  Lemma t_array : forall j, has_type j "array" = true <-> exists l, j = JArr l.
  Proof. intros j. destruct j; cbn; split; intros H; try discriminate; try (destruct H as (x & E); discriminate); eauto. Qed.

  Lemma t_null : forall j, has_type j "null" = true <-> j = JNull.
  Proof. intros j. destruct j; cbn; split; intros H; try discriminate; auto. Qed.

  Lemma t_number : forall j, has_type j "number" = true <-> is_number j.
  Proof.
    intros j. destruct j; cbn; split; intros H; try discriminate; try reflexivity;
      try (destruct H as (q & [(z' & E & _)|(m' & e' & E & _)]); discriminate).
    - exists (inject_Z z). left. exists z. split; reflexivity.
    - exists (inject_Z m * Qpower 2 e)%Q. right. exists m, e. split; reflexivity.
  Qed.
End Decides.

(** ** Numbers *)

Lemma pow2_pos : forall n, (0 <= n)%Z -> (0 < 2 ^ n)%Z.
Proof. intros n H. apply Z.pow_pos_nonneg; lia. Qed.

Lemma qpow_pos : forall e, (0 <= e)%Z -> (Qpower 2 e == inject_Z (2 ^ e))%Q.
Proof. intros e H. symmetry. exact (Zpower_Qpower 2 e H). Qed.

Lemma qpow_neg : forall e, (e < 0)%Z -> (Qpower 2 e == / inject_Z (2 ^ (- e)))%Q.
Proof.
  intros e H. replace e with (- - e)%Z at 1 by lia. rewrite Qpower_opp. rewrite qpow_pos by lia. reflexivity.
Qed.

Lemma inj_neq0 : forall z, (z <> 0)%Z -> ~ (inject_Z z == 0)%Q.
Proof. intros z H E. apply H. change 0%Q with (inject_Z 0) in E. exact (proj1 (inject_Z_injective z 0) E). Qed.

(** A float as an integer. *)
Lemma float_whole : forall m e z, (inject_Z z == inject_Z m * Qpower 2 e)%Q <->
    ((0 <= e)%Z /\ z = (m * 2 ^ e)%Z) \/ ((e < 0)%Z /\ m = (z * 2 ^ (- e))%Z).
Proof.
  intros m e z. destruct (Z.le_gt_cases 0 e) as [H|H].
  - rewrite qpow_pos by exact H. rewrite <- inject_Z_mult. split.
    + intros E. apply (proj1 (inject_Z_injective z (m * 2 ^ e))) in E. auto.
    + intros [[_ E]|[F _]]; [now rewrite E|lia].
  - rewrite qpow_neg by exact H. pose proof (pow2_pos (- e) ltac:(lia)) as P.
    assert (N : ~ (inject_Z (2 ^ (- e)) == 0)%Q) by (apply inj_neq0; lia). split.
    + intros E. right. split; [exact H|]. apply inject_Z_injective. rewrite inject_Z_mult, E. field. exact N.
    + intros [[F _]|[_ E]]; [lia|]. rewrite E, inject_Z_mult. field. exact N.
Qed.

Lemma float_is_int_iff : forall m e, float_is_int m e = true <-> exists z, (inject_Z z == inject_Z m * Qpower 2 e)%Q.
Proof.
  intros m e. unfold float_is_int. rewrite orb_true_iff, Z.leb_le, Z.eqb_eq. split.
  - intros H. destruct (Z.le_gt_cases 0 e) as [L|L].
    + exists (m * 2 ^ e)%Z. apply float_whole. auto.
    + destruct H as [H|H]; [lia|]. pose proof (pow2_pos (- e) ltac:(lia)) as P.
      apply Z.mod_divide in H; [|lia]. destruct H as (z & E). exists z. apply float_whole. auto.
  - intros (z & E). apply float_whole in E. destruct E as [[L _]|[L E]]; [auto|]. right. subst m.
    apply Z.mod_mul. pose proof (pow2_pos (- e) ltac:(lia)). lia.
Qed.

Lemma t_integer : forall j, has_type j "integer" = true <-> is_integer j.
Proof.
  intros j. unfold is_integer, whole, number. destruct j; cbn; split; intros H; try discriminate; try reflexivity;
    try (destruct H as (q & [(z' & E & _)|(m' & e' & E & _)]); discriminate).
  - exists z. left. exists z. split; reflexivity.
  - apply float_is_int_iff in H. destruct H as (z & E). exists z. right. exists m, e. auto.
  - destruct H as (q & [(z' & E & _)|(m' & e' & E & F)]); [discriminate|]. injection E as <- <-. apply float_is_int_iff. eauto.
Qed.

Section Forms.
  Variable ext : string -> json -> bool.

  Lemma dec_typed : forall n t P j, (has_type j t = true <-> P j) -> decides ext (S n) (typed t) P j.
  Proof.
    intros n t P j H. unfold typed. eapply dec_cons with (Q := fun _ => True).
    - apply k_type.
    - now apply dec_nil.
    - cbn beta. split.
      + intros U. split; [|exact I]. exists t. split; [now left|tauto].
      + intros ((t' & [<-|[]] & U) & _). tauto.
  Qed.

  Lemma dec_typed2 : forall n t u (P Q : json -> Prop) j, (has_type j t = true <-> P j) -> (has_type j u = true <-> Q j) ->
      decides ext (S n) (Sch [KType [t; u]]) (fun j => P j \/ Q j) j.
  Proof.
    intros n t u P Q j H G. eapply dec_cons with (Q := fun _ => True).
    - apply k_type.
    - now apply dec_nil.
    - cbn beta. split.
      + intros [U|U]; (split; [|exact I]); [exists t|exists u]; cbn; tauto.
      + intros ((t' & [<-|[<-|[]]] & U) & _); tauto.
  Qed.

  Lemma dec_enum : forall n vs j, decides ext (S n) (Sch [KEnum vs]) (fun j => exists s, j = JStr s /\ In s vs) j.
  Proof.
    intros n vs j. eapply dec_cons with (Q := fun _ => True); [apply k_enum|now apply dec_nil|]. cbn beta. tauto.
  Qed.

  Lemma dec_array : forall n s P j, (forall l x, j = JArr l -> In x l -> decides ext n s P x) -> decides ext (S n) (array s) (list_of P) j.
  Proof.
    intros n s P j H. unfold array. eapply dec_cons with (Q := fun j => forall l, j = JArr l -> Forall P l).
    - apply k_type.
    - eapply dec_cons with (Q := fun _ => True); [apply k_items; exact H|now apply dec_nil|]. cbn beta. tauto.
    - cbn beta. unfold list_of. split.
      + intros (l & E & F). split.
        * exists "array". split; [now left|]. apply t_array. eauto.
        * intros l' E'. rewrite E in E'. injection E' as <-. exact F.
      + intros ((t & [<-|[]] & U) & W). apply t_array in U. destruct U as (l & ->). eauto.
  Qed.

  Lemma dec_object : forall n req ps P j, (forall k s v, In (k, s) ps -> member j k v -> decides ext n s (P k) v) ->
      decides ext (S n) (object req ps)
        (fun j => is_object j /\ (forall k, In k req -> exists v, member j k v) /\ Forall (fun p => may j (fst p) (P (fst p))) ps) j.
  Proof.
    intros n req ps P j H. unfold object.
    eapply dec_cons with (Q := fun j => (forall o, j = JObj o -> forall k, In k req -> exists v, dget String.eqb k o = Some v) /\
        Forall (fun p => may j (fst p) (P (fst p))) ps).
    - apply k_type.
    - eapply dec_cons with (Q := fun j => Forall (fun p => may j (fst p) (P (fst p))) ps).
      + apply k_required.
      + eapply dec_cons with (Q := fun _ => True); [apply k_props; exact H|now apply dec_nil|]. cbn beta. tauto.
      + cbn beta. tauto.
    - cbn beta. split.
      + intros (U & R & F). split; [exists "object"; split; [now left|now apply t_object]|]. split; [|exact F].
        intros o E k I. destruct (R k I) as (v & o' & E' & G). rewrite E in E'. injection E' as <-. eauto.
      + intros ((t & [<-|[]] & U) & R & F). apply t_object in U. split; [exact U|]. split; [|exact F].
        destruct U as (o & E). intros k I. destruct (R o E k I) as (v & G). exists v, o. auto.
  Qed.
End Forms.

(** ** Depth *)

Lemma depth_arr : forall l x, In x l -> jdepth x < jdepth (JArr l).
Proof.
  intros l x I. cbn [jdepth]. induction l as [|y l IH]; [destruct I|]. cbn [fold_right].
  destruct I as [->|I]; [lia|]. specialize (IH I). lia.
Qed.

Lemma depth_obj : forall j k v, member j k v -> jdepth v < jdepth j.
Proof.
  intros j k v (o & -> & E). cbn [jdepth]. induction o as [|[k' y] o IH]; [discriminate|]. cbn [dget] in E. cbn [fold_right snd].
  destruct (String.eqb k k'); [injection E as ->; lia|]. specialize (IH E). lia.
Qed.
