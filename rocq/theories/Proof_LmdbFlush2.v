(** Flush loop of the LMDB backend: futures and notifications (C24, C25). *)
From Coq Require Import String Bool ZArith Arith Lia List.
From Verif Require Import Base Model_Types Model_Lmdb Model_LmdbSys Spec_Lmdb Spec_LmdbContent Spec_LmdbQuery
  Proof_Lmdb8 Proof_Lmdb9 Proof_Lmdb10 Proof_Lmdb13 Model_LmdbFlush Spec_LmdbFlush Proof_LmdbFlush.
Import ListNotations.
Open Scope list_scope.
Open Scope nat_scope.

Definition futs_of (l : loop) : list (option nat) :=
  match l with LGo f _ | LWrite f _ _ | LNotify f _ _ => f | _ => [] end.
Definition bs_of (l : loop) : list (list event) :=
  match l with LWrite _ b _ | LNotify _ b _ => b | _ => [] end.
Definition sentb (l : loop) : bool := match l with LWrite _ _ _ | LNotify _ _ _ => true | _ => false end.
Definition finb (l : loop) : bool := match l with LGo _ f | LWrite _ _ f | LNotify _ _ f => f | LDone => true | LWait => false end.

Definition ids (l : list (option nat)) : list nat := flat_map (fun f => match f with Some n => [n] | None => [] end) l.
Definition cnt (n : nat) (l : list nat) : nat := count_occ Nat.eq_dec l n.
Definition aids (l : list fout) : list nat := flat_map (fun x => match x with Answered n _ => [n] | _ => [] end) l.

Lemma ids_app : forall a b, ids (a ++ b) = ids a ++ ids b.
Proof. intros. apply flat_map_app. Qed.
Lemma aids_app : forall a b, aids (a ++ b) = aids a ++ aids b.
Proof. intros. apply flat_map_app. Qed.
Lemma In_ids : forall n l, In n (ids l) <-> In (Some n) l.
Proof.
  intros n l. unfold ids. rewrite in_flat_map. split.
  - intros ([m|] & H1 & H2); [destruct H2 as [->|[]]; auto|destruct H2].
  - intros H. exists (Some n). split; auto. now left.
Qed.
Lemma cnt_app : forall n a b, cnt n (a ++ b) = cnt n a + cnt n b.
Proof. intros. apply count_occ_app. Qed.
Lemma cnt_In : forall n l, In n l <-> cnt n l > 0.
Proof. intros. apply count_occ_In. Qed.

Lemma memn_In : forall n l, memn n l = true <-> In n l.
Proof.
  intros n l. unfold memn. rewrite existsb_exists. split.
  - intros (x & H1 & H2). apply Nat.eqb_eq in H2. now subst.
  - intros H. exists n. split; auto. apply Nat.eqb_refl.
Qed.
Lemma memn_app : forall n a b, memn n (a ++ b) = memn n a || memn n b.
Proof. intros. unfold memn. apply existsb_app. Qed.
Lemma memn_one : forall n m, memn n [m] = Nat.eqb n m.
Proof. intros. unfold memn. cbn. apply orb_false_r. Qed.

Lemma cnt_remn : forall n m l, cnt m (remn n l) = if Nat.eqb n m then 0 else cnt m l.
Proof.
  intros n m l. unfold remn, cnt. induction l as [|x l IH]; cbn [filter].
  - destruct (Nat.eqb n m); reflexivity.
  - destruct (Nat.eqb n x) eqn:E; cbn [negb count_occ].
    + apply Nat.eqb_eq in E. subst x. rewrite IH. destruct (Nat.eqb n m) eqn:E; [reflexivity|].
      apply Nat.eqb_neq in E. destruct (Nat.eq_dec n m); [congruence|reflexivity].
    + apply Nat.eqb_neq in E. cbn [count_occ]. destruct (Nat.eq_dec x m) as [->|Hn]; [|exact IH].
      rewrite IH. destruct (Nat.eqb n m) eqn:E2; [apply Nat.eqb_eq in E2; congruence|reflexivity].
Qed.

Lemma In_remn : forall n m l, In m (remn n l) <-> In m l /\ m <> n.
Proof.
  intros. unfold remn. rewrite filter_In, negb_true_iff, Nat.eqb_neq. intuition congruence.
Qed.

Lemma answers_cnt : forall gone ok n l, cnt n (aids (answers gone ok l)) = if memn n gone then 0 else cnt n (ids l).
Proof.
  intros gone ok n l. unfold answers. induction l as [|[m|] l IH]; cbn [flat_map ids app].
  - destruct (memn n gone); reflexivity.
  - rewrite aids_app, cnt_app, IH. fold (ids l). destruct (memn m gone) eqn:E; cbn [aids flat_map app cnt count_occ].
    + destruct (memn n gone) eqn:E2; [reflexivity|]. destruct (Nat.eq_dec m n); [congruence|reflexivity].
    + unfold cnt. destruct (Nat.eq_dec m n) as [->|Hn].
      * rewrite E. reflexivity.
      * destruct (memn n gone); reflexivity.
  - exact IH.
Qed.

Lemma In_answers : forall gone ok n ok' l, In (Answered n ok') (answers gone ok l) <->
    In (Some n) l /\ memn n gone = false /\ ok' = ok.
Proof.
  intros. unfold answers. rewrite in_flat_map. split.
  - intros ([m|] & H1 & H2); [|destruct H2]. destruct (memn m gone) eqn:E; [destruct H2|]. destruct H2 as [H2|[]]. injection H2 as -> ->. auto.
  - intros (H1 & H2 & ->). exists (Some n). split; auto. rewrite H2. now left.
Qed.

Lemma answers_flushed : forall gone ok l es, ~ In (Flushed es) (answers gone ok l).
Proof.
  intros gone ok l es. unfold answers. rewrite in_flat_map. intros ([m|] & H1 & H2); [|destruct H2].
  destruct (memn m gone); [destruct H2|]. destruct H2 as [H2|[]]. discriminate.
Qed.

(** ** Every future is somewhere, once *)

Record fids (tr : list fitem) (s : fstate) : Prop := {
  fi_once : forall n, cnt n (f_put s) + cnt n (ids (f_queue s)) + cnt n (ids (futs_of (f_loop s))) + cnt n (answered tr)
                      <= if memn n (f_used s) then 1 else 0;
  fi_some : forall n, memn n (f_used s) = true -> memn n (f_gone s) = false ->
              0 < cnt n (f_put s) + cnt n (ids (f_queue s)) + cnt n (ids (futs_of (f_loop s))) + cnt n (answered tr);
  fi_used : forall n, memn n (f_gone s) = true -> memn n (f_used s) = true;
  fi_fin : finb (f_loop s) = true -> f_open s = false /\ f_qopen s = false /\ f_queue s = [] /\ futs_of (f_loop s) = [];
  fi_open : finb (f_loop s) = false -> f_qopen s = true }.

Lemma answered_snoc : forall tr o xs l, answered (tr ++ [(o, xs, l)]) = answered tr ++ aids l.
Proof. intros. rewrite answered_app. f_equal. unfold answered, seen_of. cbn [flat_map snd]. now rewrite app_nil_r. Qed.

Lemma cnt_one : forall n m, cnt n [m] = if Nat.eqb m n then 1 else 0.
Proof. intros. unfold cnt. cbn [count_occ]. destruct (Nat.eq_dec m n) as [->|H]; [now rewrite Nat.eqb_refl|]. now apply Nat.eqb_neq in H as ->. Qed.
Lemma cnt_none : forall n, cnt n [] = 0.
Proof. reflexivity. Qed.
Lemma ids_one : forall n, ids [Some n] = [n].
Proof. reflexivity. Qed.
Lemma ids_none : ids [None] = [].
Proof. reflexivity. Qed.
Lemma ids_nil : ids [] = [].
Proof. reflexivity. Qed.
Lemma aids_one : forall n ok, aids [Answered n ok] = [n].
Proof. reflexivity. Qed.
Lemma aids_nil : aids [] = [].
Proof. reflexivity. Qed.
Lemma aids_flushed : forall b l, aids (Flushed b :: l) = aids l.
Proof. reflexivity. Qed.
Lemma memn_cnt : forall n l, memn n l = true -> 0 < cnt n l.
Proof. intros n l H. apply memn_In in H. now apply cnt_In in H. Qed.

Ltac ids_rw :=
  rewrite ?cnt_app, ?ids_app, ?ids_one, ?ids_none, ?ids_nil, ?aids_flushed, ?aids_one, ?aids_nil, ?answers_cnt, ?cnt_app, ?ids_app, ?cnt_remn, ?cnt_one, ?cnt_none,
    ?memn_app, ?memn_one, ?cnt_app.
Ltac ids_solve I1 I2 I3 :=
  let m := fresh "m" in
  intros m; specialize (I1 m); specialize (I2 m); specialize (I3 m);
  revert I1 I2 I3; ids_rw;
  repeat match goal with E : memn _ (f_put _) = true |- _ => apply memn_cnt in E end;
  repeat match goal with
         | |- context [Nat.eqb ?a ?b] => destruct (Nat.eqb a b) eqn:?
         end;
  repeat match goal with
         | E : Nat.eqb _ _ = true |- _ => apply Nat.eqb_eq in E; subst
         | E : Nat.eqb _ _ = false |- _ => apply Nat.eqb_neq in E
         end;
  repeat match goal with E : memn _ _ = _ |- _ => rewrite E in *; clear E end;
  repeat match goal with |- context [memn ?a ?b] => destruct (memn a b) end;
  cbn [orb]; intros I1 I2 I3;
  try specialize (I3 eq_refl); try specialize (I2 eq_refl eq_refl);
  intros; first [lia | discriminate | congruence].

Lemma fids_step : forall O tr s o xs l s2, fids tr s -> fexec O s o = Some (s2, xs, l) -> fids (tr ++ [(o, xs, l)]) s2.
Proof.
  intros O tr s o xs l s2 [I1 I2 I3 I4 I5] H.
  destruct o; finv H;
    repeat match goal with
           | E : f_loop s = _ |- _ => rewrite E in *; clear E
           | E : exec _ _ _ = _ |- _ => clear E
           | E : Nat.ltb _ _ = _ |- _ => clear E
           end;
    constructor; rewrite ?answered_snoc;
    cbn [f_sys f_open f_qopen f_put f_queue f_gone f_used f_reg f_loop set_loop set_sys futs_of finb] in *.
  all: try assumption; try discriminate.
  all: try (intros _; repeat split; reflexivity).
  all: try (intros Hfin; destruct (I4 Hfin) as (J1 & J2 & J3 & J4); repeat split; congruence).
  all: try (intros Hfin; specialize (I5 Hfin); congruence).
  all: try (destruct (I4 eq_refl) as (J1 & J2 & J3 & ->)).
  all: try (ids_solve I1 I2 I3; fail).
Qed.

Lemma fids_run : forall O s0 tr s, fruns O (fstart s0) tr s -> fids tr s.
Proof.
  intros O s0 tr s H. remember (fstart s0) as st eqn:Es. induction H as [|st tr s1 o xs l s2 H IH Hx]; subst.
  - constructor; cbn; auto; try discriminate. 
  - eapply fids_step; eauto.
Qed.

Lemma lifetime_fids : forall O cf tr0 tr s, lifetime O cf tr0 tr s -> fids tr s.
Proof. intros O cf tr0 tr s (s0 & _ & _ & H & _). eapply fids_run; eauto. Qed.

(** ** What a normal answer means *)

Lemma split_snoc : forall (A : Type) (tr a b : list A) (i x : A), tr ++ [i] = a ++ x :: b ->
    (b = [] /\ a = tr /\ x = i) \/ exists b', b = b' ++ [i] /\ tr = a ++ x :: b'.
Proof.
  intros A tr a b i x E. destruct (@exists_last _ (x :: b)) as (y & z & Ey); [discriminate|].
  rewrite Ey, app_assoc in E. apply app_inj_tail in E as [-> ->].
  destruct y as [|w y]; cbn [app] in Ey; injection Ey as -> ->.
  - left. now rewrite app_nil_r.
  - right. exists y. auto.
Qed.

Lemma watched_mono : forall O cf tr0 B A s, lifetime O cf tr0 (A ++ B) s -> writes_ok (A ++ B) ->
    prefix (w_all (watched cf tr0 A)) (w_all (watched cf tr0 (A ++ B))) /\
    prefix (w_disk (watched cf tr0 A)) (w_disk (watched cf tr0 (A ++ B))) /\
    prefix (w_sent (watched cf tr0 A)) (w_sent (watched cf tr0 (A ++ B))).
Proof.
  intros O cf tr0 B. induction B as [|i B IH] using rev_ind; intros A s H Hw.
  - rewrite app_nil_r. split; [|split]; apply prefix_refl.
  - rewrite app_assoc in *. apply lifetime_snoc in H as (s1 & o & xs & l & -> & H & Hx & _).
    apply writes_ok_app in Hw as [Hw1 Hw2]. destruct (IH _ _ H Hw1) as (A1 & A2 & A3).
    assert (Hf : o <> FFailed) by (intros ->; apply Hw2; now left).
    destruct (watched_step _ _ _ _ _ _ _ _ _ (lifetime_flink _ _ _ _ _ H Hw1) Hx Hf) as (B1 & B2 & B3 & _).
    split; [|split]; eapply prefix_trans; eauto.
Qed.

Lemma no_queue_sent : forall w, w_queue w = [] -> w_sent w = w_disk w.
Proof. intros w E. unfold w_sent. rewrite E. cbn. apply app_nil_r. Qed.

Lemma seen_snoc : forall tr o xs l, seen_of (tr ++ [(o, xs, l)]) = seen_of tr ++ l.
Proof. intros. rewrite seen_app. f_equal. unfold seen_of. cbn [flat_map snd]. now rewrite app_nil_r. Qed.
Lemma flushed_snoc : forall tr o xs l, flushed (tr ++ [(o, xs, l)]) =
    flushed tr ++ flat_map (fun x => match x with Flushed es => [es] | _ => [] end) l.
Proof. intros. rewrite flushed_app. f_equal. unfold flushed, seen_of. cbn [flat_map snd]. now rewrite app_nil_r. Qed.
Lemma registered_snoc : forall tr o xs l, registered (tr ++ [(o, xs, l)]) =
    registered tr ++ match o with FRegister es => [es] | _ => [] end.
Proof. intros. rewrite registered_app. f_equal. unfold registered. cbn [done_of map flat_map fst]. now rewrite app_nil_r. Qed.

Lemma In_answered : forall n ok tr, In (Answered n ok) (seen_of tr) -> In n (answered tr).
Proof. intros n ok tr H. unfold answered. apply in_flat_map. exists (Answered n ok). split; [auto|now left]. Qed.

Lemma covered : forall O cf tr0 tr s, lifetime O cf tr0 tr s -> writes_ok tr ->
    forall A n xs l B, tr = A ++ (FCall n, xs, l) :: B ->
    (sentb (f_loop s) = true -> In (Some n) (futs_of (f_loop s)) -> prefix (w_all (watched cf tr0 A)) (w_sent (watched cf tr0 tr))) /\
    (In (Answered n true) (seen_of tr) -> prefix (w_all (watched cf tr0 A)) (w_disk (watched cf tr0 tr))).
Proof.
  intros O cf tr0 tr. induction tr as [|i tr IH] using rev_ind; intros s H Hw A n xs l B E; [destruct A; discriminate|].
  pose proof H as Hl. apply lifetime_snoc in H as (s1 & o & ys & k & -> & H & Hx & _).
  apply writes_ok_app in Hw as [Hw1 Hw2]. assert (Hf : o <> FFailed) by (intros ->; apply Hw2; now left).
  pose proof (lifetime_flink _ _ _ _ _ H Hw1) as Lk.
  destruct (watched_step _ _ _ _ _ _ _ _ _ Lk Hx Hf) as (B1 & B2 & B3 & B4 & _).
  pose proof (lifetime_fids _ _ _ _ _ H) as [I1 _ _ _ _].
  apply split_snoc in E as [(-> & <- & E)|(B' & -> & E)].
  - (* the call itself *)
    injection E as <- <- <-. specialize (I1 n). finv Hx. split.
    + intros _ Hin. cbn [f_loop] in Hin. apply In_ids, cnt_In in Hin. lia.
    + intros Hin. rewrite seen_snoc, app_nil_r in Hin. apply In_answered, cnt_In in Hin. lia.
  - destruct (IH _ H Hw1 A n xs l B' E) as [C1 C2].
    assert (Ha : prefix (w_all (watched cf tr0 A)) (w_all (watched cf tr0 tr))).
    { rewrite E. rewrite E in H, Hw1. now apply (watched_mono O _ _ _ _ s1). }
    split.
    + intros Hs Hin. destruct o; try congruence; finv Hx; cbn [f_loop set_loop set_sys sentb futs_of] in *;
        repeat match goal with L : f_loop s1 = _ |- _ => rewrite L in *; clear L end; try discriminate; cbn [sentb futs_of] in *;
        try (eapply prefix_trans; [apply C1; auto; fail|exact B3]).
      * eapply prefix_trans; [exact Ha|]. exists []. rewrite app_nil_r. exact (B4 eq_refl).
    + rewrite seen_snoc, in_app_iff. intros [Hin|Hin]; [eapply prefix_trans; [apply C2; auto|exact B2]|].
      destruct o; try congruence; finv Hx; try (destruct Hin as [Hin|[]]; discriminate); try (destruct Hin; fail).
      all: try (apply In_answers in Hin as (_ & _ & Hb); discriminate).
      * destruct Hin as [Hin|Hin]; [discriminate|]. apply In_answers in Hin as (_ & _ & Hb); discriminate.
      * apply In_answers in Hin as (Hin & _ & _).
        match goal with L : f_loop s1 = _ |- _ => pose proof (fl_queue _ _ _ _ _ Lk) as Hq; rewrite L in * end.
        eapply prefix_trans; [|exact B2]. rewrite <- (no_queue_sent _ Hq). apply C1; auto.
Qed.

Lemma writes_ok_mid : forall a b, writes_ok (a ++ b) -> writes_ok a.
Proof. intros a b H. now apply writes_ok_app in H. Qed.

(** As long as the loop goes round, nothing failed. *)
Lemma going_ok : forall O s0 tr s, fruns O (fstart s0) tr s -> finb (f_loop s) = false -> writes_ok tr /\ callbacks_ok tr.
Proof.
  intros O s0 tr s H. remember (fstart s0) as st eqn:Es. induction H as [|st tr s1 o xs l s2 H IH Hx]; subst; intros Hf.
  - split; intros [].
  - assert (Hf1 : finb (f_loop s1) = false /\ o <> FFailed /\ o <> FNotify false).
    { destruct o; finv Hx; cbn [f_loop set_loop set_sys finb] in *;
        repeat match goal with E : f_loop s1 = _ |- _ => rewrite E; clear E end; cbn [finb];
        (split; [first [assumption | reflexivity | discriminate]|split; first [discriminate | congruence]]). }
    destruct Hf1 as (F1 & F2 & F3). destruct (IH eq_refl F1) as [W C].
    split; intros Hin; rewrite done_app, in_app_iff in Hin; destruct Hin as [Hin|[Hin|[]]]; cbn in Hin; subst; auto.
Qed.

Lemma lifetime_going : forall O cf tr0 tr s, lifetime O cf tr0 tr s -> finb (f_loop s) = false -> writes_ok tr /\ callbacks_ok tr.
Proof. intros O cf tr0 tr s (s0 & _ & _ & H & _) Hf. eapply going_ok; eauto. Qed.

Lemma final_C24_flush : forall O cf tr0 tr1 n xs l tr2 o ys k s,
    let tr := tr1 ++ (FCall n, xs, l) :: tr2 ++ [(o, ys, k)] in
    lifetime O cf tr0 tr s -> In (Answered n true) k ->
    let w := watched cf tr0 tr in
    prefix (w_all (watched cf tr0 tr1)) (w_disk w) /\ content (s_disk (f_sys s)) (w_disk w) (w_gone w).
Proof.
  intros O cf tr0 tr1 n xs l tr2 o ys k s tr H Ha w.
  assert (Hw : writes_ok tr).
  { assert (E : tr = (tr1 ++ (FCall n, xs, l) :: tr2) ++ [(o, ys, k)]) by (unfold tr; now rewrite <- app_assoc).
    rewrite E in H. apply lifetime_snoc in H as (s1 & o' & xs' & l' & Ei & H & Hx & _). injection Ei as <- <- <-.
    rewrite E. assert (Hf : finb (f_loop s1) = false /\ o = FAnswer).
    { destruct o; finv Hx; try (destruct Ha as [Ha|[]]; discriminate); try (destruct Ha; fail);
        try (apply In_answers in Ha as (_ & _ & Hb); discriminate).
      - destruct Ha as [Ha|Ha]; [discriminate|]. apply In_answers in Ha as (_ & _ & Hb); discriminate.
      - split; reflexivity. }
    destruct Hf as [Hf ->]. destruct (lifetime_going _ _ _ _ _ H Hf) as [Hw _].
    intros Hin. rewrite done_app, in_app_iff in Hin. destruct Hin as [Hin|[Hin|[]]]; [auto|discriminate]. }
  split.
  - apply (proj2 (covered _ _ _ _ _ H Hw tr1 n xs l (tr2 ++ [(o, ys, k)]) eq_refl)).
    unfold tr. rewrite app_comm_cons, app_assoc, seen_snoc. apply in_app_iff. now right.
  - exact (proj1 (final_C23 _ _ _ _ (fl_exec _ _ _ _ _ (lifetime_flink _ _ _ _ _ H Hw)))).
Qed.
