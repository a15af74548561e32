(** Two servers that are left alone: they come to rest. *)
From Coq Require Import String Bool ZArith Arith Lia Sorted Permutation List.
From Verif Require Import Base Kv Model_Types Model_Codec Keys Spec_Order Proof_Order Model_Lmdb Model_LmdbSys Spec_Lmdb Spec_LmdbContent Spec_LmdbQuery
  Proof_Lmdb3 Proof_Lmdb4 Proof_Lmdb7 Proof_Lmdb8 Proof_Lmdb9 Proof_Lmdb10 Proof_Lmdb12 Proof_Lmdb13 Proof_Lmdb14 Proof_Lmdb15 Model_LmdbFlush Spec_LmdbFlush Proof_LmdbFlush Proof_LmdbFlush4
  Model_Sync Spec_Sync Proof_Sync Proof_Sync2 Proof_Sync3 Proof_Sync4 Proof_Sync5 Proof_Sync6 Model_Replica Spec_Replica Proof_Replica Proof_Replica2 Proof_Replica3 Proof_Replica4 Proof_Replica5
  Model_Pair Spec_Pair Proof_Pair Proof_Pair2 Proof_Pair3 Proof_Pair4 Proof_Pair5 Proof_Pair6 Proof_Pair7 Proof_Pair8 Spec_Converge Proof_Converge Proof_Converge2.
Import ListNotations.
Open Scope list_scope.
Open Scope nat_scope.

Lemma runs_fun : forall O s xs s1, runs O s xs s1 -> forall s2, runs O s xs s2 -> s1 = s2.
Proof.
  intros O s xs s1 H. induction H as [s|s o x s1 xs s2 He H IH]; intros s3 H3; inversion H3; subst; [reflexivity|].
  match goal with E : exec O s o = Some (?a, x) |- _ => assert (s1 = a) by congruence; subst; auto end.
Qed.

Lemma pair_fun : forall OA OB cfA cfB sv tr st1, pair OA OB cfA cfB sv tr st1 -> forall st2, pair OA OB cfA cfB sv tr st2 -> st1 = st2.
Proof.
  intros * H. induction H as [a b Ha Hb|tr F top q us c s o xs l F' c' q' H IH He Hu Hr|tr F top us c s last q y H IH Hq Hn He
    |tr F top q us c s o l c' xs s' H IH Ho Hy Hr Hm|tr F top q us c s o y s' H IH He Hb Hr|tr F top q us c s H IH|tr F top q us c s cf y r H IH He];
    intros st2 H2; inversion H2; subst;
    try (match goal with E : [] = _ ++ [_] |- _ => destruct (app_cons_not_nil _ _ _ E) end); try (match goal with E : _ ++ [_] = [] |- _ => symmetry in E; destruct (app_cons_not_nil _ _ _ E) end);
    try (match goal with E : _ ++ [_] = _ ++ [_] |- _ => apply app_inj_tail in E as [E1 E2]; try discriminate; subst tr; match goal with H : pair _ _ _ _ _ _ _ |- _ => apply IH in H; injection H; clear H; intros; subst end;
      try (injection E2; clear E2; intros; subst) end); try congruence.
  - match goal with A : runs _ _ _ ?p, B : runs _ _ _ ?q |- PState _ _ _ _ _ ?p = PState _ _ _ _ _ ?q => rewrite (runs_fun _ _ _ _ A _ B) end. congruence.
Qed.

Lemma many_end : forall OA OB cfA cfB sv tr st, paired OA OB cfA cfB sv tr st -> restarts_ok cfA sv tr -> forall D st', paired OA OB cfA cfB sv (tr ++ D) st' -> undisturbed OA OB cfA cfB sv tr D ->
    taken_own sv (remote_part (tr ++ D)) = taken_own sv (remote_part tr) /\ length D + todo sv (tr ++ D) st' <= todo sv tr st.
Proof.
  intros * HP0 RO D. induction D as [|x D IH] using rev_ind; intros st' HP HU.
  - rewrite app_nil_r in *. split; [reflexivity|]. destruct HP as (HP & _), HP0 as (HP0 & _). now rewrite (pair_fun _ _ _ _ _ _ _ HP _ HP0).
  - pose proof (many_less _ _ _ _ _ _ _ RO (proj1 HP0) _ _ HP HU) as RO'. rewrite app_assoc in *. pose proof HP as (HP1 & _). destruct (pair_snoc _ _ _ _ _ _ _ _ HP1) as (s1 & H1 & HG).
    assert (HX : of_itself s1 x) by (eapply HU; [reflexivity|exact H1]). destruct (step_less _ _ _ _ _ _ _ _ _ HP RO' H1 HG HX) as [E L].
    destruct (IH s1) as [E1 L1]; [eapply paired_pre; eauto| |split; [congruence|rewrite app_length; cbn [length]; lia]].
    intros a' x' b' st1 E' H'. apply (HU a' x' (b' ++ [x]) st1); [|exact H']. now rewrite E', <- app_assoc.
Qed.

Lemma final_C76_ends : forall OA OB cfA cfB sv tr st, paired OA OB cfA cfB sv tr st -> restarts_ok cfA sv tr ->
    exists n, forall D st', paired OA OB cfA cfB sv (tr ++ D) st' -> undisturbed OA OB cfA cfB sv tr D -> length D <= n.
Proof. intros * HP RO. exists (todo sv tr st). intros D st' H' HU. destruct (many_end _ _ _ _ _ _ _ HP RO _ _ H' HU). lia. Qed.
