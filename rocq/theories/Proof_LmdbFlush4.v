(** Flush loop of the LMDB backend: notifications of flushed batches (C25). *)
From Coq Require Import String Bool ZArith Arith Lia List.
From Verif Require Import Base Model_Types Model_Lmdb Model_LmdbSys Spec_Lmdb Spec_LmdbContent Spec_LmdbQuery
  Proof_Lmdb8 Proof_Lmdb9 Proof_Lmdb10 Proof_Lmdb13 Model_LmdbFlush Spec_LmdbFlush Proof_LmdbFlush Proof_LmdbFlush2 Proof_LmdbFlush3.
Import ListNotations.
Open Scope list_scope.
Open Scope nat_scope.

Lemma subseq_refl : forall (A : Type) (a : list A), subseq a a.
Proof. induction a; constructor; auto. Qed.
Lemma subseq_none : forall (A : Type) (a : list A), subseq [] a.
Proof. induction a; constructor; auto. Qed.
Lemma subseq_app : forall (A : Type) (a b c d : list A), subseq a b -> subseq c d -> subseq (a ++ c) (b ++ d).
Proof. intros A a b c d H. induction H; cbn; intros; auto; constructor; auto. Qed.
Lemma subseq_trans : forall (A : Type) (b c : list A), subseq b c -> forall a, subseq a b -> subseq a c.
Proof.
  intros A b c H. induction H as [|x b c H IH|x b c H IH]; intros a Ha; auto.
  - inversion Ha; subst; constructor; auto.
  - constructor; auto.
Qed.
(** The middle or the end of the smaller list can go. *)
Lemma subseq_cut : forall (A : Type) (a b c x : list A), subseq (a ++ b ++ c) x -> subseq (a ++ c) x.
Proof.
  intros A a b c x H. apply (subseq_trans _ _ _ H). apply subseq_app; [apply subseq_refl|].
  apply (subseq_app _ [] b c c); [apply subseq_none|apply subseq_refl].
Qed.

Definition left_of (s : fstate) : list (list event) := bs_of (f_loop s) ++ f_reg s.

Lemma flushed_answers : forall gone ok l, flat_map (fun x => match x with Flushed es => [es] | Answered _ _ => [] end) (answers gone ok l) = [].
Proof.
  intros gone ok l. unfold answers. induction l as [|[n|] l IH]; cbn [flat_map app]; auto. rewrite flat_map_app, IH, app_nil_r.
  destruct (memn n gone); reflexivity.
Qed.

Lemma regs_from_app : forall cf tr0 b a tr, regs_from cf tr0 a (tr ++ b) = regs_from cf tr0 a tr ++ regs_from cf tr0 (a ++ tr) b.
Proof.
  intros cf tr0 b a tr. revert a. induction tr as [|i tr IH]; intros a; cbn [regs_from app].
  - now rewrite app_nil_r.
  - rewrite IH, <- !app_assoc. reflexivity.
Qed.
Lemma regs_snoc : forall cf tr0 tr i, regs cf tr0 (tr ++ [i]) =
    regs cf tr0 tr ++ match fst (fst i) with FRegister es => [(es, w_all (watched cf tr0 (tr ++ [i])))] | _ => [] end.
Proof. intros. unfold regs. rewrite regs_from_app. cbn [regs_from app]. now rewrite app_nil_r. Qed.
Lemma regs_fst : forall cf tr0 tr, map fst (regs cf tr0 tr) = registered tr.
Proof.
  intros cf tr0 tr. induction tr as [|i tr IH] using rev_ind; [reflexivity|]. rewrite regs_snoc, map_app, IH.
  destruct i as [[o xs] l]. rewrite registered_snoc. f_equal. destruct o; reflexivity.
Qed.

(** ** Nothing twice, nothing out of order *)

Lemma left_step : forall O tr s o xs l s2, fexec O s o = Some (s2, xs, l) ->
    subseq (flushed tr ++ left_of s) (registered tr) ->
    subseq (flushed (tr ++ [(o, xs, l)]) ++ left_of s2) (registered (tr ++ [(o, xs, l)])).
Proof.
  intros O tr s o xs l s2 H IH. rewrite registered_snoc, flushed_snoc. unfold left_of in *.
  destruct o; finv H; cbn [f_loop f_reg set_loop set_sys bs_of flat_map app] in *; rewrite ?app_nil_r; auto;
    repeat match goal with E : f_loop s = _ |- _ => rewrite E in *; clear E end; cbn [bs_of app] in *; rewrite ?app_nil_r, ?flushed_answers, ?app_nil_r; auto.
  - rewrite !app_assoc in *. apply subseq_app; [exact IH|apply subseq_refl].
  - now apply subseq_cut in IH.
  - now apply subseq_cut in IH.
  - now rewrite <- app_assoc.
  - match type of IH with subseq (_ ++ ?b :: ?bs ++ _) _ => apply (subseq_cut _ (flushed tr ++ [b]) bs); now rewrite <- app_assoc end.
  - match type of IH with subseq (_ ++ ?b :: ?bs ++ _) _ => apply (subseq_cut _ (flushed tr ++ [b]) bs); now rewrite <- app_assoc end.
Qed.

Lemma final_C25_once : forall O cf tr0 tr s, lifetime O cf tr0 tr s -> subseq (flushed tr) (registered tr).
Proof.
  intros O cf tr0 tr s H. cut (subseq (flushed tr ++ left_of s) (registered tr)).
  { intros Hs. apply (subseq_trans _ _ _ Hs). rewrite <- (app_nil_r (flushed tr)) at 1. apply subseq_app; [apply subseq_refl|apply subseq_none]. }
  revert s H. induction tr as [|i tr IH] using rev_ind; intros s H.
  - destruct H as (s0 & _ & _ & H & _). inversion H as [|? ? ? ? ? ? ? ? ? E0]; subst; [constructor|]. destruct tr; discriminate.
  - apply lifetime_snoc in H as (s1 & o & xs & l & -> & H & Hx & _). eapply left_step; eauto.
Qed.

(** ** Everything, unless something raises *)

Lemma left_eq : forall O tr s o xs l s2, fexec O s o = Some (s2, xs, l) -> o <> FFailed -> o <> FNotify false ->
    registered tr = flushed tr ++ left_of s ->
    registered (tr ++ [(o, xs, l)]) = flushed (tr ++ [(o, xs, l)]) ++ left_of s2.
Proof.
  intros O tr s o xs l s2 H F1 F2 IH. rewrite registered_snoc, flushed_snoc, IH. unfold left_of in *.
  destruct o; try congruence; finv H; try congruence; cbn [f_loop f_reg set_loop set_sys bs_of flat_map app] in *; rewrite ?app_nil_r; auto;
    repeat match goal with E : f_loop s = _ |- _ => rewrite E in *; clear E end; cbn [bs_of app] in *; rewrite ?app_nil_r, ?flushed_answers, ?app_nil_r; auto.
  - now rewrite !app_assoc.
  - now rewrite <- app_assoc.
Qed.

Lemma lifetime_left : forall O cf tr0 tr s, lifetime O cf tr0 tr s -> writes_ok tr -> callbacks_ok tr ->
    registered tr = flushed tr ++ left_of s.
Proof.
  intros O cf tr0 tr. induction tr as [|i tr IH] using rev_ind; intros s H Hw Hc.
  - destruct H as (s0 & _ & _ & H & _). inversion H as [|? ? ? ? ? ? ? ? ? E0]; subst; [reflexivity|]. destruct tr; discriminate.
  - apply lifetime_snoc in H as (s1 & o & xs & l & -> & H & Hx & _).
    apply writes_ok_app in Hw as [Hw1 Hw2]. apply callbacks_ok_app in Hc as [Hc1 Hc2].
    eapply left_eq; eauto; intros ->; [apply Hw2|apply Hc2]; now left.
Qed.

(** Nothing is registered once the last flush began. *)
Lemma last_flush : forall O cf tr0 tr s, lifetime O cf tr0 tr s -> f_loop s = LDone \/ (sentb (f_loop s) = true /\ finb (f_loop s) = true) -> f_reg s = [].
Proof.
  intros O cf tr0 tr. induction tr as [|i tr IH] using rev_ind; intros s H E.
  - destruct H as (s0 & _ & _ & H & _). inversion H as [|? ? ? ? ? ? ? ? ? E0]; subst; [reflexivity|]. destruct tr; discriminate.
  - apply lifetime_snoc in H as (s1 & o & xs & l & -> & H & Hx & _). specialize (IH _ H).
    pose proof (lifetime_fids _ _ _ _ _ H) as [_ _ _ I4 _].
    destruct o; finv Hx; cbn [f_loop f_reg set_loop set_sys sentb finb] in *; auto;
      repeat match goal with L : f_loop s1 = _ |- _ => rewrite L in *; clear L end; cbn [sentb finb] in *;
      try (destruct E as [E|[E1 E2]]; discriminate); try (apply IH; right; auto; destruct E as [E|[E1 E2]]; auto; discriminate).
    exfalso. destruct E as [E|[E1 E2]].
    + rewrite E in I4. destruct (I4 eq_refl) as (J & _). congruence.
    + destruct (I4 E2) as (J & _). congruence.
Qed.

Lemma lifetime_end : forall O cf tr0 tr s, lifetime O cf tr0 tr s -> f_loop s = LDone -> left_of s = [].
Proof. intros O cf tr0 tr s H E. unfold left_of. rewrite (last_flush _ _ _ _ _ H) by auto. rewrite E. reflexivity. Qed.

Lemma final_C25_all : forall O cf tr0 tr s, lifetime O cf tr0 tr s -> writes_ok tr -> callbacks_ok tr ->
    prefix (flushed tr) (registered tr) /\ (In FEnd (done_of tr) -> flushed tr = registered tr).
Proof.
  intros O cf tr0 tr s H Hw Hc. pose proof (lifetime_left _ _ _ _ _ H Hw Hc) as E. split.
  - exists (left_of s). exact E.
  - intros He. apply (ended_done _ _ _ _ _ H) in He. rewrite (lifetime_end _ _ _ _ _ H He), app_nil_r in E. auto.
Qed.

(** ** After two rounds *)

Definition rplace (k j : nat) (tr : list fitem) (s : fstate) : Prop :=
  j <= List.length (flushed tr) \/
  (j <= List.length (flushed tr) + List.length (bs_of (f_loop s)) /\ k <= 1) \/
  (match f_loop s with LWait | LGo _ _ => True | _ => False end /\ k <= 1) \/ k = 0.

Lemma rounds_app : forall a b, rounds (a ++ b) = rounds a + rounds b.
Proof. intros. unfold rounds. rewrite done_app, filter_app, app_length. reflexivity. Qed.

Lemma rplace_step : forall O k j tr s o xs l s2, fexec O s o = Some (s2, xs, l) -> o <> FFailed -> o <> FNotify false ->
    registered tr = flushed tr ++ left_of s -> j <= List.length (registered tr) ->
    rplace k j tr s -> rplace (k + rounds [(o, xs, l)]) j (tr ++ [(o, xs, l)]) s2.
Proof.
  intros O k j tr s o xs l s2 H F1 F2 HE Hj P. unfold rplace in *. rewrite flushed_snoc, app_length. rewrite HE in Hj. unfold left_of in Hj.
  rewrite !app_length in Hj. clear HE.
  destruct o; try congruence; finv H; try congruence;
    cbn [rounds done_of map filter List.length fst f_loop f_reg set_loop set_sys bs_of flat_map app] in *;
    repeat match goal with L : f_loop s = _ |- _ => rewrite L in *; clear L end;
    rewrite ?flushed_answers; cbn [bs_of List.length] in *; rewrite ?Nat.add_0_r in *; try tauto; try lia.
Qed.

Lemma final_C25_rounds : forall O cf tr0 tr1 es xs l tr2 s,
    let tr := tr1 ++ (FRegister es, xs, l) :: tr2 in
    lifetime O cf tr0 tr s -> 2 <= rounds tr2 ->
    exists r, flushed tr = registered tr1 ++ es :: r.
Proof.
  intros O cf tr0 tr1 es xs l tr2 s tr H Hr.
  set (h := tr1 ++ [(FRegister es, xs, l)]). assert (E : tr = h ++ tr2) by (unfold tr, h; now rewrite <- app_assoc).
  assert (Eh : registered h = registered tr1 ++ [es]) by (unfold h; apply registered_snoc).
  (* up to the last round nothing raised *)
  assert (Hg : forall a b s', lifetime O cf tr0 (a ++ b) s' -> exists sa, lifetime O cf tr0 a sa).
  { intros a b. induction b as [|i b IHb] using rev_ind; intros s' H'; [rewrite app_nil_r in H'; eauto|].
    rewrite app_assoc in H'. apply lifetime_snoc in H' as (s1 & _ & _ & _ & _ & H' & _). eauto. }
  assert (P : forall t s', lifetime O cf tr0 (h ++ t) s' -> 2 <= rounds t -> exists r, flushed (h ++ t) = registered h ++ r).
  { intros t. induction t as [|i t IH] using rev_ind; intros s' H' Ht; [cbn in Ht; lia|].
    rewrite app_assoc in *. pose proof H' as H2. apply lifetime_snoc in H2 as (s1 & o & ys & k & -> & H1 & Hx & _).
    rewrite rounds_app in Ht. destruct (le_lt_dec 2 (rounds t)) as [Hl|Hl].
    { destruct (IH _ H1 Hl) as (r & Er). rewrite flushed_snoc, Er, <- app_assoc. eauto. }
    assert (Ho : o = FAnswer) by (destruct o; cbn in Ht; try lia; reflexivity). subst o.
    assert (Hf : finb (f_loop s1) = false) by (clear - Hx; finv Hx; reflexivity).
    destruct (lifetime_going _ _ _ _ _ H1 Hf) as [Hw Hc].
    assert (Hw' : writes_ok ((h ++ t) ++ [(FAnswer, ys, k)])) by (apply writes_ok_snoc; auto).
    assert (Hc' : callbacks_ok ((h ++ t) ++ [(FAnswer, ys, k)])).
    { intros Hin. rewrite done_app, in_app_iff in Hin. destruct Hin as [Hin|[Hin|[]]]; [auto|discriminate]. }
    pose proof (lifetime_left _ _ _ _ _ H' Hw' Hc') as El.
    assert (Hq : rplace (rounds (t ++ [(FAnswer, ys, k)])) (List.length (registered h)) ((h ++ t) ++ [(FAnswer, ys, k)]) s').
    { clear Ht Hl Hf Hx IH El. revert s' H' Hw' Hc'. rewrite <- app_assoc. generalize (t ++ [(FAnswer, ys, k)]). clear.
      intros t. induction t as [|i t IH] using rev_ind; intros s' H Hw Hc; [right; right; right; reflexivity|].
      rewrite app_assoc in *. apply lifetime_snoc in H as (s1 & o & zs & l3 & -> & H & Hx & _).
      apply writes_ok_app in Hw as [Hw1 Hw2]. apply callbacks_ok_app in Hc as [Hc1 Hc2]. rewrite rounds_app.
      eapply rplace_step; eauto.
      - intros ->; apply Hw2; now left.
      - intros ->; apply Hc2; now left.
      - now apply (lifetime_left O cf tr0).
      - rewrite registered_app, app_length. lia. }
    rewrite rounds_app in Hq. change (rounds [(FAnswer, ys, k)]) with 1 in *.
    assert (Hlen : List.length (registered h) <= List.length (flushed ((h ++ t) ++ [(FAnswer, ys, k)]))) by (unfold rplace in Hq; lia).
    rewrite registered_app, registered_app, <- app_assoc in El. 
    generalize (registered t ++ registered [(FAnswer, ys, k)]), (left_of s'), (flushed ((h ++ t) ++ [(FAnswer, ys, k)])), (registered h), El, Hlen. clear.
    intros A B C D E. revert D E. induction C as [|c C IH]; intros [|d D] E L; cbn in *; try lia; eauto.
    injection E as -> E. destruct (IH D E) as (r & ->); [lia|]. exists r. reflexivity. }
  destruct (P tr2 s) as (r & Er); [now rewrite <- E|auto|]. exists r. rewrite E, Er, Eh, <- app_assoc. reflexivity.
Qed.

(** ** Only after being written *)

Record notif (cf : conf) (tr0 : list (op * out)) (tr : list fitem) (s : fstate) (R1 R2 R3 : list (list event * history)) : Prop := {
  no_sub : subseq (R1 ++ R2 ++ R3) (regs cf tr0 tr);
  no_1 : map fst R1 = flushed tr;
  no_2 : map fst R2 = bs_of (f_loop s);
  no_3 : map fst R3 = f_reg s;
  no_disk : Forall (fun r => prefix (snd r) (w_disk (watched cf tr0 tr))) R1;
  no_sent : Forall (fun r => prefix (snd r) (w_sent (watched cf tr0 tr))) R2;
  no_all : Forall (fun r => prefix (snd r) (w_all (watched cf tr0 tr))) R3 }.

Lemma Forall_prefix : forall (R : list (list event * history)) (a b : history), prefix a b ->
    Forall (fun r => prefix (snd r) a) R -> Forall (fun r => prefix (snd r) b) R.
Proof. intros R a b H. apply Forall_impl. intros r Hr. eapply prefix_trans; eauto. Qed.

Lemma notif_step : forall O cf tr0 tr s o xs l s2 R1 R2 R3, lifetime O cf tr0 tr s -> writes_ok tr -> fexec O s o = Some (s2, xs, l) -> o <> FFailed ->
    notif cf tr0 tr s R1 R2 R3 -> exists Q1 Q2 Q3, notif cf tr0 (tr ++ [(o, xs, l)]) s2 Q1 Q2 Q3.
Proof.
  intros O cf tr0 tr s o xs l s2 R1 R2 R3 H Hw Hx Hf [N0 N1 N2 N3 N4 N5 N6].
  pose proof (lifetime_flink _ _ _ _ _ H Hw) as Lk.
  destruct (watched_step _ _ _ _ _ _ _ _ _ Lk Hx Hf) as (B1 & B2 & B3 & B4 & B5). cbv zeta in *.
  assert (Hsame : flushed (tr ++ [(o, xs, l)]) = flushed tr -> regs cf tr0 (tr ++ [(o, xs, l)]) = regs cf tr0 tr ->
                  bs_of (f_loop s2) = bs_of (f_loop s) -> f_reg s2 = f_reg s -> exists Q1 Q2 Q3, notif cf tr0 (tr ++ [(o, xs, l)]) s2 Q1 Q2 Q3).
  { intros E1 E2 E3 E4. exists R1, R2, R3. constructor; rewrite ?E1, ?E2, ?E3, ?E4; auto; eapply Forall_prefix; eauto. }
  assert (Hdrop : flushed (tr ++ [(o, xs, l)]) = flushed tr -> regs cf tr0 (tr ++ [(o, xs, l)]) = regs cf tr0 tr ->
                  bs_of (f_loop s2) = [] -> f_reg s2 = f_reg s -> exists Q1 Q2 Q3, notif cf tr0 (tr ++ [(o, xs, l)]) s2 Q1 Q2 Q3).
  { intros E1 E2 E3 E4. exists R1, [], R3. constructor; rewrite ?E1, ?E2, ?E3, ?E4; auto; try (eapply Forall_prefix; eauto; fail).
    cbn [app]. eapply subseq_cut; eauto. }
  destruct o; try congruence; finv Hx; cbn [f_loop f_reg set_loop set_sys] in *;
    repeat match goal with L : f_loop s = _ |- _ => rewrite L in *; clear L end; cbn [bs_of] in *;
    try (apply Hsame; rewrite ?regs_snoc, ?flushed_snoc, ?flushed_answers; cbn [fst flat_map]; rewrite ?app_nil_r; reflexivity);
    try (apply Hdrop; rewrite ?regs_snoc, ?flushed_snoc, ?flushed_answers; cbn [fst flat_map]; rewrite ?app_nil_r; reflexivity).
  - (* FRegister *)
    eexists R1, R2, (R3 ++ [(es, _)]). constructor; cbn [f_loop f_reg]; auto; try (eapply Forall_prefix; eauto; fail).
    + rewrite regs_snoc. cbn [fst]. rewrite !app_assoc. apply subseq_app; [now rewrite <- app_assoc|apply subseq_refl].
    + rewrite flushed_snoc. cbn [flat_map]. now rewrite app_nil_r.
    + rewrite map_app, N3. reflexivity.
    + apply Forall_app. split; [eapply Forall_prefix; eauto|]. constructor; [apply prefix_refl|constructor].
  - (* FStart *)
    destruct R2; [|discriminate]. exists R1, R3, []. constructor; cbn [f_loop f_reg bs_of]; auto; try (eapply Forall_prefix; eauto; fail).
    + rewrite regs_snoc. cbn [fst]. rewrite !app_nil_r. exact N0.
    + rewrite flushed_snoc. cbn [flat_map]. now rewrite app_nil_r.
    + eapply Forall_prefix; [|exact N6]. rewrite B4 by reflexivity. apply prefix_refl.
  - (* FNotify true *)
    destruct R2 as [|r R2]; [discriminate|]. cbn [map] in N2. injection N2 as N2 N2'. inversion N5 as [|? ? N5a N5b]; subst.
    exists (R1 ++ [r]), R2, R3. constructor; cbn [f_loop f_reg bs_of set_loop]; auto; try (eapply Forall_prefix; eauto; fail).
    + rewrite regs_snoc. cbn [fst]. rewrite !app_nil_r, <- app_assoc. exact N0.
    + rewrite map_app, N1, flushed_snoc. reflexivity.
    + apply Forall_app. split; [eapply Forall_prefix; eauto|]. constructor; [|constructor].
      pose proof (fl_queue _ _ _ _ _ Lk) as Hq. rewrite Heql0 in Hq. rewrite (no_queue_sent _ Hq) in N5a. eapply prefix_trans; eauto.
  - destruct R2 as [|r R2]; [discriminate|]. cbn [map] in N2. injection N2 as N2 N2'. inversion N5 as [|? ? N5a N5b]; subst.
    exists (R1 ++ [r]), [], R3. constructor; cbn [f_loop f_reg bs_of set_loop map]; auto; try (eapply Forall_prefix; eauto; fail).
    + rewrite regs_snoc. cbn [fst]. rewrite !app_nil_r, <- app_assoc. cbn [app].
      apply (subseq_trans _ _ _ N0). apply subseq_app; [apply subseq_refl|]. apply subseq_keep. apply (subseq_app _ [] R2 R3 R3); [apply subseq_none|apply subseq_refl].
    + rewrite map_app, N1, flushed_snoc. cbn [flat_map]. rewrite ?flushed_answers. reflexivity.
    + apply Forall_app. split; [eapply Forall_prefix; eauto|]. constructor; [|constructor].
      pose proof (fl_queue _ _ _ _ _ Lk) as Hq. rewrite Heql0 in Hq. rewrite (no_queue_sent _ Hq) in N5a. eapply prefix_trans; eauto.
  - destruct R2 as [|r R2]; [discriminate|]. cbn [map] in N2. injection N2 as N2 N2'. inversion N5 as [|? ? N5a N5b]; subst.
    exists (R1 ++ [r]), [], R3. constructor; cbn [f_loop f_reg bs_of set_loop map]; auto; try (eapply Forall_prefix; eauto; fail).
    + rewrite regs_snoc. cbn [fst]. rewrite !app_nil_r, <- app_assoc. cbn [app].
      apply (subseq_trans _ _ _ N0). apply subseq_app; [apply subseq_refl|]. apply subseq_keep. apply (subseq_app _ [] R2 R3 R3); [apply subseq_none|apply subseq_refl].
    + rewrite map_app, N1, flushed_snoc. cbn [flat_map]. rewrite ?flushed_answers. reflexivity.
    + apply Forall_app. split; [eapply Forall_prefix; eauto|]. constructor; [|constructor].
      pose proof (fl_queue _ _ _ _ _ Lk) as Hq. rewrite Heql0 in Hq. rewrite (no_queue_sent _ Hq) in N5a. eapply prefix_trans; eauto.
Qed.

Lemma final_C25_written : forall O cf tr0 tr s, lifetime O cf tr0 tr s -> writes_ok tr ->
    exists R, subseq R (regs cf tr0 tr) /\ map fst R = flushed tr /\
              Forall (fun r => prefix (snd r) (w_disk (watched cf tr0 tr))) R /\
              content (s_disk (f_sys s)) (w_disk (watched cf tr0 tr)) (w_gone (watched cf tr0 tr)).
Proof.
  intros O cf tr0 tr s H Hw.
  assert (N : exists R1 R2 R3, notif cf tr0 tr s R1 R2 R3).
  { revert s H Hw. induction tr as [|i tr IH] using rev_ind; intros s H Hw.
    - exists [], [], []. destruct H as (s0 & _ & _ & H & _). inversion H as [|? ? ? ? ? ? ? ? ? E0]; subst; [|destruct tr; discriminate].
      constructor; cbn; constructor.
    - apply lifetime_snoc in H as (s1 & o & xs & l & -> & H & Hx & _). apply writes_ok_app in Hw as [Hw1 Hw2].
      destruct (IH _ H Hw1) as (R1 & R2 & R3 & N). eapply notif_step; eauto. intros ->; apply Hw2; now left. }
  destruct N as (R1 & R2 & R3 & [N0 N1 N2 N3 N4 N5 N6]). exists R1. split; [|split; [|split]]; auto.
  - apply (subseq_trans _ _ _ N0). rewrite <- (app_nil_r R1) at 1. apply subseq_app; [apply subseq_refl|apply subseq_none].
  - exact (proj1 (final_C23 _ _ _ _ (fl_exec _ _ _ _ _ (lifetime_flink _ _ _ _ _ H Hw)))).
Qed.

(** ** Closing *)

Lemma all_same : forall O cf tr0 tr s o xs l s2, flink cf tr0 tr s O -> fexec O s o = Some (s2, xs, l) ->
    o <> FFailed -> o <> FStart -> (forall es, o <> FRegister es) ->
    w_all (watched cf tr0 (tr ++ [(o, xs, l)])) = w_all (watched cf tr0 tr) /\
    w_sent (watched cf tr0 (tr ++ [(o, xs, l)])) = w_sent (watched cf tr0 tr).
Proof.
  intros O cf tr0 tr s o xs l s2 Lk Hx F1 F2 F3.
  destruct (fexec_inner _ _ _ _ _ _ Hx F1) as [[-> _]|(p & x & -> & Hp & [(es & E & _)|[[E _]|[E Ho]]])].
  - rewrite watched_snoc. auto.
  - exfalso. apply (F3 _ E).
  - congruence.
  - rewrite watched_snoc. cbn [fold_left].
    destruct (other_step _ _ _ _ _ _ (execution_inv _ _ _ _ (fl_exec _ _ _ _ _ Lk)) Hp Ho) as (A & B & _). auto.
Qed.

Lemma closing_sent : forall O cf tr0 tr s, lifetime O cf tr0 tr s -> writes_ok tr ->
    f_loop s = LDone \/ (sentb (f_loop s) = true /\ finb (f_loop s) = true) ->
    w_sent (watched cf tr0 tr) = w_all (watched cf tr0 tr).
Proof.
  intros O cf tr0 tr. induction tr as [|i tr IH] using rev_ind; intros s H Hw E.
  - destruct H as (s0 & _ & _ & H & _). inversion H as [|? ? ? ? ? ? ? ? ? E0]; subst; [|destruct tr; discriminate].
    cbn in E. destruct E as [E|[E _]]; discriminate.
  - apply lifetime_snoc in H as (s1 & o & xs & l & -> & H & Hx & _). apply writes_ok_app in Hw as [Hw1 Hw2].
    assert (Hf : o <> FFailed) by (intros ->; apply Hw2; now left). specialize (IH _ H Hw1).
    pose proof (lifetime_flink _ _ _ _ _ H Hw1) as Lk.
    destruct (watched_step _ _ _ _ _ _ _ _ _ Lk Hx Hf) as (_ & _ & _ & B4 & _). cbv zeta in *.
    assert (Hc : o = FStart \/ (o <> FStart /\ (forall es, o <> FRegister es) /\ (f_loop s1 = LDone \/ (sentb (f_loop s1) = true /\ finb (f_loop s1) = true)))).
    { pose proof (lifetime_fids _ _ _ _ _ H) as [_ _ _ I4 _].
      destruct o; try congruence; try (left; reflexivity); right; (split; [discriminate|]);
        finv Hx; cbn [f_loop set_loop set_sys sentb finb] in *;
        repeat match goal with L : f_loop s1 = _ |- _ => rewrite L in *; clear L end; cbn [sentb finb] in *;
        try (destruct E as [E|[E1 E2]]; discriminate); try (split; [discriminate|]); auto;
        try (right; split; [reflexivity|]; destruct E as [E|[E1 E2]]; [discriminate|auto; fail]); try (right; split; reflexivity).
      exfalso. destruct E as [E|[E1 E2]].
      - rewrite E in I4. destruct (I4 eq_refl) as (J & _). congruence.
      - destruct (I4 E2) as (J & _). congruence. }
    destruct Hc as [->|(F2 & F3 & Hc)].
    + etransitivity; [exact (B4 eq_refl)|]. finv Hx. rewrite watched_snoc. cbn [fold_left].
      unfold w_all. cbn [watch_step w_disk w_queue w_cur]. rewrite concat_app. cbn [concat]. now rewrite !app_nil_r.
    + destruct (all_same _ _ _ _ _ _ _ _ _ Lk Hx Hf F2 F3) as [A1 A2]. etransitivity; [exact A2|]. etransitivity; [exact (IH Hc)|]. symmetry. exact A1.
Qed.

Lemma final_C50 : forall O cf tr0 tr s, lifetime O cf tr0 tr s -> writes_ok tr -> In FEnd (done_of tr) ->
    let w := watched cf tr0 tr in
    w_disk w = w_all w /\ content (s_disk (f_sys s)) (w_all w) (w_gone w).
Proof.
  intros O cf tr0 tr s H Hw He w. apply (ended_done _ _ _ _ _ H) in He.
  pose proof (lifetime_flink _ _ _ _ _ H Hw) as Lk. pose proof (fl_queue _ _ _ _ _ Lk) as Hq. rewrite He in Hq.
  assert (E : w_disk w = w_all w).
  { unfold w. rewrite <- (closing_sent _ _ _ _ _ H Hw) by auto. now rewrite (no_queue_sent _ Hq). }
  split; [exact E|]. rewrite <- E. exact (proj1 (final_C23 _ _ _ _ (fl_exec _ _ _ _ _ Lk))).
Qed.

Lemma final_C51 : forall O cf tr0 tr s, lifetime O cf tr0 tr s -> writes_ok tr ->
    let w := watched cf tr0 tr in
    prefix (w_disk w) (w_all w) /\ content (s_disk (f_sys s)) (w_disk w) (w_gone w).
Proof.
  intros O cf tr0 tr s H Hw w. pose proof (lifetime_flink _ _ _ _ _ H Hw) as Lk. split.
  - unfold w_all. exists (concat (w_queue w) ++ w_cur w). reflexivity.
  - exact (proj1 (final_C23 _ _ _ _ (fl_exec _ _ _ _ _ Lk))).
Qed.
