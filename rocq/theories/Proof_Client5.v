(** Eventer client: a request that never ends (C40). *)
From Coq Require Import String Bool ZArith Arith Lia List.
From Verif Require Import Base Model_Types Model_Eventer Spec_Eventer Proof_Eventer Proof_Eventer2 Model_Client Spec_Client Proof_Client Proof_Client2.
Import ListNotations.
Open Scope string_scope.
Open Scope list_scope.
Open Scope nat_scope.

Definition stuck (n : nat) (s : cstate) : Prop :=
  c_loop s = LEnd /\ c_open s = false /\ nmem n (c_used s) = true /\ forall x, In x (c_reqs s) -> p_call x = n -> p_state x = RWait.

Lemma stuck_step : forall n s o s' l, stuck n s -> cexec s o = Some (s', l) -> stuck n s' /\ ~ In (CError n) l /\ forall r, ~ In (CAnswer n r) l.
Proof.
  intros n s o s' l (H1 & H2 & H3 & H4) H. unfold cexec in H. rewrite ?H1, ?H2 in H. destruct o; try discriminate.
  - injection H as <- <-. split; [repeat split; auto|]. cbn. auto.
  - destruct (nmem n0 (c_used s)) eqn:E; [discriminate|]. injection H as <- <-. split.
    + repeat split; auto. cbn [c_used]. unfold nmem in *. rewrite existsb_app, H3. reflexivity.
    + split; [|intros r [Hx|[]]; discriminate]. intros [Hx|[]]. injection Hx as ->. congruence.
  - destruct (find_req n0 (c_reqs s)) as [[k c [| |r|]]|] eqn:E; try discriminate. injection H as <- <-. apply find_some in E as [E1 E2]. cbn in E2. apply Nat.eqb_eq in E2. subst k.
    assert (n0 <> n) by (intros ->; specialize (H4 _ E1 eq_refl); discriminate). split.
    + repeat split; auto. cbn [c_reqs c_with_reqs]. intros x Hx. apply filter_In in Hx as [Hx _]. auto.
    + split; [|intros r [Hx|[]]; discriminate]. intros [Hx|[]]. congruence.
  - destruct (find_req n0 (c_reqs s)) as [[k c [| |r|]]|] eqn:E; try discriminate; injection H as <- <-; apply find_some in E as [E1 E2]; cbn in E2; apply Nat.eqb_eq in E2; subst k;
      (assert (n0 <> n) by (intros ->; specialize (H4 _ E1 eq_refl); discriminate)).
    all: split; [repeat split; auto; cbn [c_reqs c_with_reqs]; intros x Hx; apply filter_In in Hx as [Hx _]; auto|].
    all: split; [intros [Hx|[]]; congruence|intros r' [Hx|[]]; congruence].
  - destruct (find_req n0 (c_reqs s)) as [x|] eqn:E; try discriminate. injection H as <- <-. split; [|cbn; auto].
    repeat split; auto. cbn [c_reqs c_with_reqs]. intros y Hy. apply filter_In in Hy as [Hy _]. auto.
Qed.

Lemma stuck_run : forall n s tr s', cruns s tr s' -> stuck n s -> stuck n s' /\ ~ In (CError n) (couts tr) /\ forall r, ~ In (CAnswer n r) (couts tr).
Proof.
  intros n s tr s' H Hs. induction H; [cbn; auto|]. destruct (IHcruns Hs) as (I1 & I2 & I3). destruct (stuck_step _ _ _ _ _ I1 H0) as (J1 & J2 & J3).
  split; auto. split; [|intros r]; intros Hi; rewrite couts_snoc in Hi; apply in_app_or in Hi as [Hi|Hi]; [now apply I2|now apply J2|now apply (I3 r)|now apply (J3 r)].
Qed.

Lemma cruns_fun : forall s tr s1, cruns s tr s1 -> forall s2, cruns s tr s2 -> s1 = s2.
Proof.
  intros s tr s1 H. induction H; intros s' H'.
  - remember [] as t eqn:E. destruct H'; auto. now destruct tr.
  - remember (tr ++ [(o, l)]) as t eqn:E. destruct H' as [|? ? ? ? ? ? H1 H2]; [now destruct tr|].
    apply app_inj_tail in E as [-> E]. injection E as -> ->. specialize (IHcruns _ H1). subst. congruence.
Qed.
