(** Flush loop of the LMDB backend: what is written (C24, C25). *)
From Coq Require Import String Bool ZArith Arith Lia List.
From Verif Require Import Base Model_Types Model_Lmdb Model_LmdbSys Spec_Lmdb Spec_LmdbContent Spec_LmdbQuery
  Proof_Lmdb8 Proof_Lmdb9 Proof_Lmdb10 Proof_Lmdb13 Model_LmdbFlush Spec_LmdbFlush.
Import ListNotations.
Open Scope list_scope.
Open Scope nat_scope.

(** ** Steps *)

Ltac finv H :=
  unfold fexec, finalise in H; cbv beta zeta in H;
  repeat match type of H with
         | None = Some _ => discriminate H
         | (if ?b then _ else _) = Some _ => destruct b eqn:?; try discriminate H
         | match ?x with _ => _ end = Some _ => destruct x eqn:?; try discriminate H
         end;
  try (first [injection H as <- <- <- | injection H as <- <- | injection H as <-]).

Lemma fruns_app : forall O s tr1 s1, fruns O s tr1 s1 -> forall tr2 s2, fruns O s1 tr2 s2 -> fruns O s (tr1 ++ tr2) s2.
Proof.
  intros O s tr1 s1 H1 tr2 s2 H2. induction H2 as [|s1 tr s3 o xs l s4 H IH He].
  - now rewrite app_nil_r.
  - rewrite app_assoc. econstructor; eauto.
Qed.

Lemma fruns_inv : forall O s tr i s2, fruns O s (tr ++ [i]) s2 ->
    exists s1 o xs l, i = (o, xs, l) /\ fruns O s tr s1 /\ fexec O s1 o = Some (s2, xs, l).
Proof.
  intros O s tr i s2 H. remember (tr ++ [i]) as t eqn:E. destruct H as [|s tr' s1 o xs l s2 H1 H2].
  - destruct tr; discriminate.
  - apply app_inj_tail in E as [-> <-]. exists s1, o, xs, l. auto.
Qed.

Lemma fruns_split : forall O tr2 s tr1 s2, fruns O s (tr1 ++ tr2) s2 -> exists s1, fruns O s tr1 s1 /\ fruns O s1 tr2 s2.
Proof.
  intros O tr2. induction tr2 as [|i tr2 IH] using rev_ind; intros s tr1 s2 H.
  - rewrite app_nil_r in H. exists s2. split; [auto|constructor].
  - rewrite app_assoc in H. apply fruns_inv in H as (s3 & o & xs & l & -> & H1 & H2).
    destruct (IH _ _ _ H1) as (s1 & A & B). exists s1. split; auto. econstructor; eauto.
Qed.

Lemma done_app : forall a b, done_of (a ++ b) = done_of a ++ done_of b.
Proof. intros. apply map_app. Qed.
Lemma inner_app : forall a b, inner (a ++ b) = inner a ++ inner b.
Proof. intros. apply flat_map_app. Qed.
Lemma seen_app : forall a b, seen_of (a ++ b) = seen_of a ++ seen_of b.
Proof. intros. apply flat_map_app. Qed.
Lemma registered_app : forall a b, registered (a ++ b) = registered a ++ registered b.
Proof. intros. unfold registered. now rewrite done_app, flat_map_app. Qed.
Lemma flushed_app : forall a b, flushed (a ++ b) = flushed a ++ flushed b.
Proof. intros. unfold flushed. now rewrite seen_app, flat_map_app. Qed.
Lemma answered_app : forall a b, answered (a ++ b) = answered a ++ answered b.
Proof. intros. unfold answered. now rewrite seen_app, flat_map_app. Qed.
Lemma turns_app : forall a b, turns (a ++ b) = turns a + turns b.
Proof. intros. unfold turns. now rewrite done_app, filter_app, app_length. Qed.

(** What a step contains of the database model. *)
Lemma fexec_inner : forall O s o s2 xs l, fexec O s o = Some (s2, xs, l) -> o <> FFailed ->
    (xs = [] /\ f_sys s2 = f_sys s) \/
    exists p x, xs = [(p, x)] /\ exec O (f_sys s) p = Some (f_sys s2, x) /\
      ((exists es, o = FRegister es /\ p = ORegister es) \/
       (o = FStart /\ p = OFlush) \/
       (o = FOther p /\ other p = true)).
Proof.
  intros O s o s2 xs l H Hn. destruct o; try congruence; finv H; try (left; split; reflexivity).
  - right. eexists _, _. split; [reflexivity|]. cbn [f_sys]. split; [eassumption|]. left. eauto.
  - right. eexists _, _. split; [reflexivity|]. cbn [f_sys set_sys]. split; [eassumption|]. auto.
  - right. eexists _, _. split; [reflexivity|]. cbn [f_sys]. split; [eassumption|]. auto.
Qed.

(** ** The executions contained *)

Lemma prefix_refl : forall (A : Type) (a : list A), prefix a a.
Proof. intros. exists []. now rewrite app_nil_r. Qed.
Lemma prefix_trans : forall (A : Type) (a b c : list A), prefix a b -> prefix b c -> prefix a c.
Proof. intros A a b c (x & ->) (y & ->). exists (x ++ y). now rewrite app_assoc. Qed.
Lemma prefix_app : forall (A : Type) (a b : list A), prefix a (a ++ b).
Proof. intros. now exists b. Qed.

(** The part of a history that is written or being written. *)
Definition w_sent (w : watch) : history := w_disk w ++ concat (w_queue w).

Lemma flush_done_flushes : forall s, flush_done s = true -> flushes (s_jobs s) = [].
Proof.
  intros s. unfold flush_done, flushes. induction (s_jobs s) as [|j js IH]; [reflexivity|]. cbn [forallb flat_map]. intros H.
  apply andb_prop in H as [H1 H2]. rewrite IH by auto. destruct j; [discriminate|reflexivity..].
Qed.

Lemma queue_of_flushes : forall s w, sys_inv s w -> List.length (w_queue w) = List.length (flushes (s_jobs s)).
Proof. intros s w H. pose proof (chain_length _ _ _ _ (si_chain _ _ H)). lia. Qed.

Lemma other_step : forall O s w o x s', sys_inv s w -> exec O s o = Some (s', x) -> other o = true ->
    let w' := watch_step w (o, x) in
    w_all w' = w_all w /\ w_sent w' = w_sent w /\ prefix (w_disk w) (w_disk w') /\
    List.length (w_queue w') <= List.length (w_queue w).
Proof.
  intros O s w o x s' Hi He Ho w'. subst w'.
  assert (Hq : o = OWork -> x = Wrote -> w_queue w <> []) by (intros -> ->; eapply wrote_queue; eauto).
  destruct w as [wc wd wq wu wg]. unfold w_all, w_sent.
  destruct o; try discriminate Ho; cbn [watch_step w_disk w_queue w_cur];
    try (split; [reflexivity|]; split; [reflexivity|]; split; [apply prefix_refl|lia]).
  destruct x; cbn [w_disk w_queue w_cur] in *; try (split; [reflexivity|]; split; [reflexivity|]; split; [apply prefix_refl|lia]).
  specialize (Hq eq_refl eq_refl). destruct wq as [|h wq]; [congruence|]. cbn [hd tl concat List.length]. rewrite <- !app_assoc.
  split; [reflexivity|]. split; [reflexivity|]. split; [apply prefix_app|lia].
Qed.

Record flink (cf : conf) (tr0 : list (op * out)) (tr : list fitem) (s : fstate) (O : oracle) : Prop := {
  fl_exec : execution O cf (tr0 ++ inner tr) (f_sys s);
  fl_queue : match f_loop s with
             | LWrite _ _ _ => List.length (w_queue (watched cf tr0 tr)) <= 1
             | _ => w_queue (watched cf tr0 tr) = []
             end }.

Lemma inner_snoc : forall tr o xs l, inner (tr ++ [(o, xs, l)]) = inner tr ++ xs.
Proof. intros. rewrite inner_app. unfold inner at 2. cbn [flat_map fst snd]. now rewrite app_nil_r. Qed.

Lemma watched_snoc : forall cf tr0 tr o xs l, watched cf tr0 (tr ++ [(o, xs, l)]) = fold_left watch_step xs (watched cf tr0 tr).
Proof. intros. unfold watched, watch_run. rewrite inner_snoc, app_assoc, fold_left_app. reflexivity. Qed.

Lemma start_queue : forall O cf tr0 s0, execution O cf tr0 s0 ->
    (tr0 = [] \/ exists tr1 c x, tr0 = tr1 ++ [(OReopen c, x)]) -> w_queue (watch_run cf tr0) = [].
Proof.
  intros O cf tr0 s0 H [->|(tr1 & c & x & ->)]; [reflexivity|]. rewrite watch_run_snoc. reflexivity.
Qed.

Definition batches_ok (o : fop) : Prop := forall es, o = FRegister es -> Forall event_ok es.

Lemma len_nil : forall (A B : Type) (a : list A) (b : list B), List.length a <= List.length b -> b = [] -> a = [].
Proof. intros A B [|x a] b H ->; [reflexivity|cbn in H; lia]. Qed.

Lemma flink_step : forall cf tr0 tr s O o xs l s2, flink cf tr0 tr s O -> fexec O s o = Some (s2, xs, l) ->
    o <> FFailed -> batches_ok o -> flink cf tr0 (tr ++ [(o, xs, l)]) s2 O.
Proof.
  intros cf tr0 tr s O o xs l s2 [He Hq] H Hf Hb.
  pose proof (execution_inv _ _ _ _ He) as Hi.
  constructor.
  - rewrite inner_snoc, app_assoc. destruct (fexec_inner _ _ _ _ _ _ H Hf) as [[-> ->]|(p & x & -> & Hx & Hp)].
    + now rewrite app_nil_r.
    + apply execution_snoc. exists (f_sys s). split; [exact He|]. split; [exact Hx|].
      destruct Hp as [(es & -> & ->)|[[_ ->]|[_ Hp]]].
      * cbn. split; [constructor|]. rewrite app_nil_r. now apply Hb.
      * split; constructor.
      * destruct p; try discriminate Hp; split; constructor.
  - rewrite watched_snoc. set (w := watched cf tr0 tr) in *. change (sys_inv (f_sys s) w) in Hi.
    destruct (fexec_inner _ _ _ _ _ _ H Hf) as [[-> Es]|(p & x & -> & Hx & Hp)].
    + cbn [fold_left]. destruct o; try congruence; finv H; cbn [f_loop set_loop set_sys f_sys] in *;
        repeat match goal with E : f_loop _ = _ |- _ => rewrite ?E in *; clear E end; try exact Hq; auto; try (rewrite Hq; cbn; lia).
      pose proof (queue_of_flushes _ _ Hi) as Hl.
      match goal with E : flush_done _ = true |- _ => rewrite (flush_done_flushes _ E) in Hl end.
      now destruct (w_queue w).
    + cbn [fold_left]. destruct Hp as [(es & -> & ->)|[[-> ->]|[-> Hp]]].
      * finv H. cbn [f_loop watch_step w_queue]. exact Hq.
      * finv H. cbn [f_loop watch_step w_queue] in *. rewrite Hq. cbn. lia.
      * pose proof (other_step _ _ _ _ _ _ Hi Hx Hp) as (_ & _ & _ & Hl). finv H. cbn [f_loop set_sys].
        destruct (f_loop s); try (now apply (len_nil _ _ _ _ Hl)). lia.
Qed.

Lemma fruns_flink : forall O cf tr0 s0 tr s, execution O cf tr0 s0 ->
    (tr0 = [] \/ exists tr1 c x, tr0 = tr1 ++ [(OReopen c, x)]) -> fruns O (fstart s0) tr s ->
    Forall (Forall event_ok) (registered tr) -> writes_ok tr -> flink cf tr0 tr s O.
Proof.
  intros O cf tr0 s0 tr s He Hr H. remember (fstart s0) as st eqn:Es. induction H as [|st tr s1 o xs l s2 H IH Hx]; intros Hb Hw; subst.
  - constructor.
    + cbn [inner flat_map fstart f_sys]. now rewrite app_nil_r.
    + cbn [fstart f_loop]. unfold watched. cbn [inner flat_map]. rewrite app_nil_r. eapply start_queue; eauto.
  - rewrite registered_app, Forall_app in Hb. destruct Hb as [Hb1 Hb2].
    unfold writes_ok in *. rewrite done_app, in_app_iff in Hw.
    eapply flink_step; eauto.
    + intros ->. apply Hw. right. now left.
    + intros es ->. unfold registered in Hb2. cbn in Hb2. now inversion Hb2.
Qed.

Lemma lifetime_flink : forall O cf tr0 tr s, lifetime O cf tr0 tr s -> writes_ok tr -> flink cf tr0 tr s O.
Proof. intros O cf tr0 tr s (s0 & H1 & H2 & H3 & H4) Hw. eapply fruns_flink; eauto. Qed.

Lemma lifetime_snoc : forall O cf tr0 tr i s, lifetime O cf tr0 (tr ++ [i]) s ->
    exists s1 o xs l, i = (o, xs, l) /\ lifetime O cf tr0 tr s1 /\ fexec O s1 o = Some (s, xs, l) /\ batches_ok o.
Proof.
  intros O cf tr0 tr i s (s0 & H1 & H2 & H3 & H4). apply fruns_inv in H3 as (s1 & o & xs & l & -> & H3 & H5).
  rewrite registered_app, Forall_app in H4. destruct H4 as [H4 H6].
  exists s1, o, xs, l. split; auto. split; [exists s0; auto|]. split; auto.
  intros es ->. unfold registered in H6. cbn in H6. now inversion H6.
Qed.

Lemma writes_ok_app : forall a b, writes_ok (a ++ b) -> writes_ok a /\ writes_ok b.
Proof. unfold writes_ok. intros a b H. rewrite done_app, in_app_iff in H. tauto. Qed.
Lemma callbacks_ok_app : forall a b, callbacks_ok (a ++ b) -> callbacks_ok a /\ callbacks_ok b.
Proof. unfold callbacks_ok. intros a b H. rewrite done_app, in_app_iff in H. tauto. Qed.

(** How what is known changes by a step of the flush loop. *)
Lemma watched_step : forall O cf tr0 tr s o xs l s2, flink cf tr0 tr s O -> fexec O s o = Some (s2, xs, l) -> o <> FFailed ->
    let w := watched cf tr0 tr in let w' := watched cf tr0 (tr ++ [(o, xs, l)]) in
    prefix (w_all w) (w_all w') /\ prefix (w_disk w) (w_disk w') /\ prefix (w_sent w) (w_sent w') /\
    (o = FStart -> w_sent w' = w_all w) /\ prefix (w_sent w) (w_all w).
Proof.
  intros O cf tr0 tr s o xs l s2 [He Hq] H Hf w w'. subst w'. rewrite watched_snoc. fold w.
  pose proof (execution_inv _ _ _ _ He) as Hi. change (sys_inv (f_sys s) w) in Hi.
  assert (Hsa : prefix (w_sent w) (w_all w)) by (exists (w_cur w); unfold w_sent, w_all; now rewrite app_assoc).
  destruct (fexec_inner _ _ _ _ _ _ H Hf) as [[-> Es]|(p & x & -> & Hx & Hp)].
  - cbn [fold_left]. do 3 (split; [apply prefix_refl|]). split; [|exact Hsa].
    intros ->. finv H. 
  - cbn [fold_left]. destruct Hp as [(es & -> & ->)|[[-> ->]|[-> Hp]]].
    + split; [|split; [|split; [|split; [discriminate|exact Hsa]]]].
      * unfold w_all at 2. cbn [watch_step w_disk w_queue w_cur]. unfold w_all at 1. rewrite !app_assoc. apply prefix_app.
      * apply prefix_refl.
      * apply prefix_refl.
    + assert (E : w_sent (watch_step w (OFlush, x)) = w_all w).
      { unfold w_sent, w_all. cbn [watch_step w_disk w_queue]. rewrite concat_app. cbn [concat]. now rewrite app_nil_r. }
      split; [|split; [|split; [|split; [auto|exact Hsa]]]].
      * unfold w_all at 2. cbn [watch_step w_disk w_queue w_cur]. rewrite app_nil_r. rewrite concat_app. cbn [concat]. rewrite app_nil_r. apply prefix_refl.
      * apply prefix_refl.
      * rewrite E. exact Hsa.
    + pose proof (other_step _ _ _ _ _ _ Hi Hx Hp) as (A & B & C & D). rewrite A, B.
      split; [apply prefix_refl|]. split; [exact C|]. split; [apply prefix_refl|]. split; [discriminate|exact Hsa].
Qed.
