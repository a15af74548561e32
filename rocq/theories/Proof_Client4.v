(** Eventer client and server together (C37, C40). *)
From Coq Require Import String Bool ZArith Arith Lia List.
From Verif Require Import Base Model_Types Model_Eventer Spec_Eventer Proof_Eventer Proof_Eventer2 Proof_Eventer3 Proof_Eventer6 Proof_Eventer8
  Model_Client Spec_Client Proof_Client Proof_Client2 Proof_Client3.
Import ListNotations.
Open Scope string_scope.
Open Scope list_scope.
Open Scope nat_scope.

Lemma final_C37_together : forall sv tk str ss ctr cs c, server_run sv tk str ss -> client_run ctr cs -> received ctr = sent_to c str ->
    connected ctr -> shut ctr = false -> gone c str = false -> (forall n, snd (status_at str) = Some n -> returned n str) ->
    c_status cs = fst (status_at str).
Proof.
  intros sv tk str ss ctr cs c Hs Hc Hr Hco Hsh Hg Hret. pose proof (final_C37_client _ _ Hc Hco Hsh) as H1.
  assert (Hw : welcomed c str = true).
  { unfold welcomed. rewrite <- Hr. clear - Hc Hco. unfold client_run in Hc. remember cstart as s0 eqn:E0. revert Hco. induction Hc; intros Hco; subst; [destruct Hco|].
    specialize (IHHc eq_refl). unfold connected in *. rewrite couts_snoc in Hco. rewrite received_snoc, existsb_app. apply orb_true_iff.
    apply in_app_or in Hco as [Hco|Hco]; [left; auto|right].
    cstepd H; cbn in Hco; try tauto; try (destruct Hco as [Hco|Hco]; try discriminate; try tauto).
    all: try (destruct Hco as [Hco|Hco]; try discriminate; tauto). }
  pose proof (final_C37_server _ _ _ _ _ Hs Hw Hg Hret) as H2. rewrite <- Hr in H2. congruence.
Qed.

(** What the server answers. *)
Lemma server_sent : forall c m str, In m (sent_to c str) -> exists a o l b, str = a ++ (o, l) :: b /\ In (Sent c m) l.
Proof.
  intros c m str H. unfold sent_to, sent_in in H. apply in_flat_map in H as (x & Hx & Hm). destruct x; try destruct Hm.
  destruct (Nat.eqb_spec c0 c) as [->|]; [|destruct Hm]. destruct Hm as [<-|[]]. apply In_vouts in Hx as (a & o & l & b & E & Hl). eauto 6.
Qed.

Lemma answer_register : forall sv tk str s c conv r, server_run sv tk str s -> In (MRegisterRes conv r) (sent_to c str) ->
    exists rs, served_register c conv rs r str.
Proof.
  intros sv tk str s c conv r H Hin. apply server_sent in Hin as (a & o & l & b & -> & Hl). pose proof H as H'.
  apply run_at in H' as (s1 & s2 & H1 & Hx & _). unfold served_register.
  destruct o; vstep Hx; cbn in Hl; try tauto; try (destruct Hl as [Hl|Hl]; try discriminate; try tauto);
    try (unfold send in Hl; destruct (is_up s1 _); cbn in Hl; try (destruct Hl as [Hl|Hl]; try discriminate); tauto).
  - injection Hl as -> -> <-. eexists _, a, _, b. eauto.
  - injection Hl as -> -> <-. apply final_C52_register in H as (a1 & cv & la & rs & a2 & -> & Hq & Hg).
    pose proof (ao_open _ _ (aopen_run _ _ _ _ H1) c) as Ho. rewrite E in Ho. cbn [open_ask] in Ho. destruct Ho as (_ & a' & rs' & b' & Ea & Hb').
    exists rs', a', [EngineCall c rs'], (b' ++ (VRegistered c r0, [Sent c (MRegisterRes conv r0)]) :: b). split; [rewrite Ea, <- app_assoc; reflexivity|].
    right. split; auto. eauto 6.
Qed.

Lemma answer_query : forall sv tk str s c conv r, server_run sv tk str s -> In (MQueryRes conv r) (sent_to c str) ->
    exists p, served_query c conv p r str.
Proof.
  intros sv tk str s c conv r H Hin. apply server_sent in Hin as (a & o & l & b & -> & Hl). pose proof H as H'.
  apply run_at in H' as (s1 & s2 & H1 & Hx & _). unfold served_query.
  destruct o; vstep Hx; cbn in Hl; try tauto; try (destruct Hl as [Hl|Hl]; try discriminate; try tauto);
    try (unfold send in Hl; destruct (is_up s1 _); cbn in Hl; try (destruct Hl as [Hl|Hl]; try discriminate); tauto).
  injection Hl as -> -> <-.
  pose proof (ao_open _ _ (aopen_run _ _ _ _ H1) c) as Ho. rewrite E in Ho. cbn [open_ask] in Ho. destruct Ho as (_ & a' & p & b' & Ea & Hb').
  exists p, a', b', [Sent c (MQueryRes conv r0)], b. split; auto. rewrite Ea, <- app_assoc. reflexivity.
Qed.

Lemma got_in : forall c o l a b m, (match o with
                     | VInit k conv req _ => if Nat.eqb k c then [QInit conv req] else []
                     | VAck k conv => if Nat.eqb k c then [QAck conv] else []
                     | VRegister k conv last rs => if Nat.eqb k c then [QRegister conv last rs] else []
                     | VQuery k conv p => if Nat.eqb k c then [QQuery conv p] else []
                     | _ => []
                     end) = [m] -> In m (got c (a ++ (o, l) :: b)).
Proof. intros c o l a b m H. unfold got. apply in_flat_map. exists (o, l). split; [apply in_or_app; right; now left|]. cbn [fst]. rewrite H. now left. Qed.

Lemma prefix_in : forall (A : Type) (l l' : list A) x, prefix l l' -> In x l -> In x l'.
Proof. intros A l l' x [r ->] H. apply in_or_app. auto. Qed.

Lemma conv_inj : forall l m m', NoDup (map conv_of (filter is_request l)) -> In m l -> In m' l -> is_request m = true -> is_request m' = true -> conv_of m = conv_of m' -> m = m'.
Proof.
  intros l m m' H H1 H2 R1 R2 E. assert (I1 : In m (filter is_request l)) by now apply filter_In. assert (I2 : In m' (filter is_request l)) by now apply filter_In.
  revert H I1 I2. generalize (filter is_request l) as k. clear - E. induction k as [|x k IH]; cbn; intros H I1 I2; [destruct I1|]. inversion_clear H as [|? ? N1 N2].
  destruct I1 as [->|I1], I2 as [->|I2]; auto; exfalso; apply N1.
  - rewrite E. now apply in_map.
  - rewrite <- E. now apply in_map.
Qed.

Lemma final_C40_together : forall sv tk str ss ctr cs c req n r, server_run sv tk str ss -> client_run ctr cs -> linked c req str ctr ->
    In (CAnswer n r) (couts ctr) ->
    exists conv q, In (CRequest n q, [CSent (request_msg conv q)]) ctr /\
      match q with
      | RRegister resp rs => resp = true /\ exists x, r = ARegister x /\ served_register c conv rs x str
      | RQuery p => exists x, r = AQuery x /\ served_query c conv p x str
      end.
Proof.
  intros sv tk str ss ctr cs c req n r Hs Hc [L1 L2] Hin. unfold couts in Hin. apply in_flat_map in Hin as ([o l] & Hi & Hl). cbn in Hl.
  apply in_split in Hi as (a & b & ->). pose proof (final_C40_own _ _ _ _ _ _ _ Hc Hl) as (a1 & q & conv & a2 & a3 & m & k & a4 & E & Hw & Hr & _).
  set (ctr := a ++ (o, l) :: b) in *.
  assert (Hreq : In (CRequest n q, [CSent (request_msg conv q)]) ctr). { unfold ctr. rewrite E. apply in_or_app. left. apply in_or_app. right. now left. }
  assert (Hm : In m (received ctr)).
  { unfold received. apply in_flat_map. exists (CMsg m, k). split; [|now left]. unfold ctr. rewrite E. apply in_or_app. left. apply in_or_app. right. right.
    apply in_or_app. right. right. apply in_or_app. right. now left. }
  assert (Hsent : In (request_msg conv q) (csent ctr)).
  { unfold csent, csent_in. apply in_flat_map. exists (CSent (request_msg conv q)). split; [|now left]. unfold couts. apply in_flat_map. exists (CRequest n q, [CSent (request_msg conv q)]).
    split; auto. now left. }
  assert (Hsame : forall m', In m' (csent ctr) -> is_request m' = true -> conv_of m' = conv -> m' = request_msg conv q).
  { intros m' H1 H2 H3. apply (conv_inj (csent ctr)); auto; [eapply final_C40_convs; eauto|now destruct q|destruct q; auto]. }
  pose proof (prefix_in _ _ _ _ L1 Hm) as Hm'. exists conv, q. split; auto. destruct m; try discriminate; injection Hr as -> <-.
  - apply (answer_register _ _ _ _ _ _ _ Hs) in Hm' as [rs Hsr]. pose proof Hsr as (sa & sl & sb & -> & _).
    assert (Hg : In (QRegister conv false rs) (got c (sa ++ (VRegister c conv false rs, sl) :: sb))). { apply got_in. now rewrite Nat.eqb_refl. }
    apply (prefix_in _ _ _ _ L2) in Hg. destruct Hg as [Hg|Hg]; [discriminate|]. apply Hsame in Hg; auto. destruct q; cbn in Hg; [|discriminate].
    injection Hg as E1 E2. subst rs0. split; [now destruct resp|]. eauto.
  - apply (answer_query _ _ _ _ _ _ _ Hs) in Hm' as [p Hsq]. pose proof Hsq as (sa & sb1 & sk & sb2 & -> & _).
    assert (Hg : In (QQuery conv p) (got c (sa ++ (VQuery c conv p, [QueryCall c p]) :: sb1 ++ (VQueried c r0, sk) :: sb2))). { apply got_in. now rewrite Nat.eqb_refl. }
    apply (prefix_in _ _ _ _ L2) in Hg. destruct Hg as [Hg|Hg]; [discriminate|]. apply Hsame in Hg; auto. destruct q; cbn in Hg; [discriminate|].
    injection Hg as <-. eauto.
Qed.
