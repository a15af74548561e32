(** LMDB backend: restart, references, counters, partitions, settings. *)
From Coq Require Import String Bool ZArith Lia Sorted Permutation List.
From Verif Require Import Base Kv Model_Types Model_Subscription Model_Order Model_Codec Keys
  Spec_Subscription Proof_Subscription Proof_Subscription2 Proof_Order Model_Lmdb Model_LmdbSys Spec_Lmdb Spec_LmdbContent
  Proof_Lmdb1 Proof_Lmdb2 Proof_Lmdb3 Proof_Lmdb4 Proof_Lmdb5 Proof_Lmdb6 Proof_Lmdb7 Proof_Lmdb8 Proof_Lmdb9.
Import ListNotations.
Open Scope list_scope.
Open Scope Z_scope.

(** ** Configurations of a history *)

Lemma step_conf : forall w o x, w_conf (watch_step w (o, x)) = match o with OReopen c => c | _ => w_conf w end.
Proof. intros w o x. destruct o; auto. destruct x; auto. Qed.

Lemma confs_snoc : forall tr o x, confs_of (tr ++ [(o, x)]) = confs_of tr ++ match o with OReopen c => [c] | _ => [] end.
Proof. intros. rewrite confs_of_app. f_equal. unfold confs_of. cbn [flat_map fst]. now rewrite app_nil_r. Qed.

(** A step: what is known grows, or a restart drops its end. *)
Lemma step_all : forall O s w o x s', sys_inv s w -> exec O s o = Some (s', x) ->
    (exists h, w_all (watch_step w (o, x)) = w_all w ++ h /\ Forall (fun en => en_conf en = w_conf w) h /\
       w_conf (watch_step w (o, x)) = w_conf w /\ ((forall es, o <> ORegister es) -> h = []) /\ (forall c, o <> OReopen c)) \/
    (exists c, o = OReopen c /\ w_all (watch_step w (o, x)) = w_disk w).
Proof.
  intros O s w o x s' Hi He.
  assert (Hq : o = OWork -> x = Wrote -> w_queue w <> []) by (intros -> ->; eapply wrote_queue; eauto).
  destruct w as [wc wd wq wu wg]. unfold w_all.
  destruct o as [es| |now|p|q p|q p| |q|c]; cbn [watch_step]; si_fields;
    try (left; exists []; rewrite app_nil_r; split; [reflexivity|]; split; [constructor|]; split; [reflexivity|]; split; [auto|discriminate]).
  - left. exists (take_events wc (wd ++ concat wq ++ wu) es). unfold w_all. si_fields. rewrite <- !app_assoc.
    split; [reflexivity|]. split; [apply accepts_take|]. split; [reflexivity|]. split; [|discriminate]. intros Hn. exfalso. eapply Hn; eauto.
  - left. exists []. rewrite concat_snoc, !app_nil_r. split; [reflexivity|]. split; [constructor|]. split; [auto|]. split; [auto|discriminate].
  - left. exists []. rewrite app_nil_r.
    destruct x; si_fields; try (split; [reflexivity|]; split; [constructor|]; split; [reflexivity|]; split; [auto|discriminate]).
    specialize (Hq eq_refl eq_refl). destruct wq as [|h wq]; [congruence|]. cbn [hd tl concat]. rewrite <- !app_assoc.
    split; [reflexivity|]. split; [constructor|]. split; [reflexivity|]. split; [auto|discriminate].
  - right. exists c. split; auto. cbn [concat]. now rewrite !app_nil_r.
Qed.

Lemma watch_confs : forall O cf tr s, execution O cf tr s -> In (w_conf (watch_run cf tr)) (cf :: confs_of tr) /\
    forall en, In en (w_all (watch_run cf tr)) -> In (en_conf en) (cf :: confs_of tr).
Proof.
  intros O cf tr. induction tr as [|[o x] tr IH] using rev_ind; intros s H.
  - split; [now left|easy].
  - apply execution_snoc in H as (s1 & H1 & H2 & _). destruct (IH _ H1) as [I1 I2].
    rewrite watch_run_snoc, confs_snoc, app_comm_cons, step_conf. split.
    + apply in_or_app. destruct o; auto. right. now left.
    + intros en Hen. apply in_or_app. left.
      destruct (step_all _ _ _ _ _ _ (execution_inv _ _ _ _ H1) H2) as [(h & E & Hf & _)|(c & _ & E)]; rewrite E in Hen.
      * apply in_app_or in Hen as [Hen|Hen]; auto. rewrite Forall_forall in Hf. now rewrite (Hf _ Hen).
      * apply I2. unfold w_all. apply in_or_app. auto.
Qed.

Lemma FOP_app : forall (A : Type) (R : A -> A -> Prop) l x, ForallOrdPairs R (l ++ [x]) ->
    ForallOrdPairs R l /\ forall y, In y l -> R y x.
Proof.
  intros A R l x. induction l as [|a l IH]; cbn [app]; intros H.
  - split; [constructor|easy].
  - inversion H as [|? ? Ha Hl]; subst. destruct (IH Hl) as [I1 I2]. apply Forall_app in Ha as [Ha Hx].
    split; [constructor; auto|]. intros y [<-|Hy]; auto. inversion Hx; auto.
Qed.

Lemma hist_cond : forall H en, hist_ok H -> In en H -> cf_cond (en_conf en) (en_ev en) = true.
Proof.
  intros H en Hk Hin. apply in_split in Hin as (A & B & ->). specialize (Hk A en B eq_refl). unfold goes_on in Hk.
  now apply andb_prop in Hk.
Qed.

Lemma split_prefix : forall (A : Type) (l y a b : list A) x, l ++ y = a ++ x :: b ->
    (exists b', l = a ++ x :: b') \/ (exists a', a = l ++ a' /\ y = a' ++ x :: b).
Proof.
  intros A l. induction l as [|z l IH]; intros y a b x E; cbn [app] in E.
  - right. exists a. auto.
  - destruct a as [|z' a]; cbn [app] in E; injection E as E1 E2.
    + subst. left. exists l. auto.
    + subst z'. destruct (IH _ _ _ _ E2) as [(b' & ->)|(a' & -> & ->)]; [left; exists b'; reflexivity|right; exists a'; auto].
Qed.

Definition weaker (a b : conf) : Prop := forall e, cf_cond a e = true -> cf_cond b e = true.
Definition weakening (H : history) : Prop :=
  forall A en B, H = A ++ en :: B -> forall x, In x A -> weaker (en_conf x) (en_conf en).

Lemma weakening_app : forall H h c, weakening H -> (forall x, In x H -> weaker (en_conf x) c) ->
    Forall (fun en => en_conf en = c) h -> weakening (H ++ h).
Proof.
  intros H h c Hw Hx Hh A en B E x Hin. apply split_prefix in E as [(b' & E)|(a' & -> & E)].
  - eapply Hw; eauto.
  - rewrite Forall_forall in Hh. assert (Hen : en_conf en = c). { apply Hh. rewrite E. apply in_or_app. right. now left. }
    rewrite Hen. apply in_app_or in Hin as [Hin|Hin]; auto. assert (Ex : en_conf x = c). { apply Hh. rewrite E. apply in_or_app. auto. }
    rewrite Ex. intros e. auto.
Qed.

Lemma weakening_hidden : forall H, hist_ok H -> weakening H -> no_hidden H.
Proof.
  intros H Hk Hw A en B -> p Hp _. apply latest_of_In in Hp as (x & Hx & <- & _).
  eapply Hw; eauto. eapply hist_cond; eauto. apply in_or_app. auto.
Qed.

Lemma no_hidden_app : forall H1 H2, no_hidden (H1 ++ H2) -> no_hidden H1.
Proof. intros H1 H2 Hn A en B ->. apply (Hn A en (B ++ H2)). now rewrite <- app_assoc. Qed.

(** Conditions in force accept what they accepted before. *)
Lemma kept_inv : forall O cf tr s, execution O cf tr s -> conditions_kept (cf :: confs_of tr) ->
    weakening (w_all (watch_run cf tr)) /\
    forall en, In en (w_all (watch_run cf tr)) -> weaker (en_conf en) (w_conf (watch_run cf tr)).
Proof.
  intros O cf tr. induction tr as [|[o x] tr IH] using rev_ind; intros s H Hc.
  - split; [|easy]. intros [|? ?] ? ? [=].
  - apply execution_snoc in H as (s1 & H1 & H2 & _). pose proof (execution_inv _ _ _ _ H1) as Hi.
    rewrite confs_snoc, app_comm_cons in Hc. rewrite watch_run_snoc.
    assert (Hc' : conditions_kept (cf :: confs_of tr)).
    { destruct o; try (now rewrite app_nil_r in Hc). unfold conditions_kept in *. now apply FOP_app in Hc. }
    destruct (IH _ H1 Hc') as [I1 I2]. destruct (watch_confs _ _ _ _ H1) as [W1 W2].
    destruct (step_all _ _ _ _ _ _ Hi H2) as [(h & E & Hf & Ec & _)|(c & -> & E)].
    + rewrite E, Ec. split.
      * eapply weakening_app; eauto.
      * intros en Hen. apply in_app_or in Hen as [Hen|Hen]; auto. rewrite Forall_forall in Hf. rewrite (Hf _ Hen). intros e. auto.
    + rewrite E, step_conf. unfold conditions_kept in Hc. apply FOP_app in Hc as [_ Hc]. split.
      * intros A en B Ed. apply (I1 A en (B ++ concat (w_queue (watch_run cf tr)) ++ w_cur (watch_run cf tr))).
        unfold w_all. now rewrite Ed, <- app_assoc.
      * intros en Hen. unfold weaker. apply (Hc (en_conf en)), W2. unfold w_all. apply in_or_app. auto.
Qed.

Lemma kept_hidden : forall O cf tr s, execution O cf tr s -> conditions_kept (cf :: confs_of tr) -> no_hidden (w_all (watch_run cf tr)).
Proof.
  intros O cf tr s H Hc. apply weakening_hidden; [|eapply kept_inv; eauto]. eapply all_ok. eapply execution_inv; eauto.
Qed.

(** ** C15 with one configuration *)

Theorem final_C15_newest : forall O cf tr p a s, execution O cf (tr ++ [(OLatest p, a)]) s -> valid_latest p ->
    Forall (fun c => c = cf) (confs_of tr) ->
    exists es, a = Answer (Some (QRes es false)) /\ NoDup (map ev_type es) /\
      forall e, In e es <-> covers cf (ev_type e) = true /\ asked p (ev_type e) /\ newest (w_all (watch_run cf tr)) (ev_type e) e.
Proof.
  intros O cf tr p a s H Hv Hc. destruct (final_C15 _ _ _ _ _ _ H Hv) as (es & E & A & B). exists es. split; auto. split; auto.
  apply execution_snoc in H as (s1 & H1 & _). destruct (watch_confs _ _ _ _ H1) as [W1 W2].
  assert (Hcf : forall c, In c (cf :: confs_of tr) -> c = cf).
  { intros c [<-|Hin]; auto. rewrite Forall_forall in Hc. auto. }
  pose proof (all_ok _ _ (execution_inv _ _ _ _ H1)) as Hok.
  intros e. rewrite B, (Hcf _ W1). unfold visible.
  pose proof (latest_newest cf (w_all (watch_run cf tr)) Hok) as Hl.
  assert (Hall : Forall (fun en => en_conf en = cf) (w_all (watch_run cf tr))) by (apply Forall_forall; auto).
  specialize (Hl Hall (ev_type e)).
  destruct (covers cf (ev_type e)) eqn:Eco.
  - specialize (Hl eq_refl e). rewrite <- Hl. destruct (latest_of (w_all (watch_run cf tr)) (ev_type e)) as [x|] eqn:Ex.
    + assert (Hx : cf_cond cf x = true).
      { apply latest_of_In in Ex as (en & Hen & <- & _). rewrite <- (Hcf _ (W2 _ Hen)). eapply hist_cond; eauto. }
      rewrite Hx. cbn [andb]. tauto.
    + split; [intros [? _]; discriminate|intros (_ & _ & ?); discriminate].
  - split; [|intros [? _]; discriminate]. destruct (latest_of _ _); intros [? _]; discriminate.
Qed.

(** ** C16 *)

Lemma NoDup_map_inv' : forall (A B : Type) (f : A -> B) l, NoDup (map f l) -> NoDup l.
Proof. intros. eapply NoDup_map_inv; eauto. Qed.

Theorem final_C16 : forall O cf tr1 tr2 c p a b s1 s2,
    execution O cf (tr1 ++ [(OLatest p, a)]) s1 ->
    execution O cf (tr1 ++ tr2 ++ [(OReopen c, Quiet); (OLatest p, b)]) s2 ->
    valid_latest p -> c = w_conf (watch_run cf tr1) ->
    w_disk (watch_run cf (tr1 ++ tr2)) = w_all (watch_run cf tr1) ->
    same_answer a b.
Proof.
  intros O cf tr1 tr2 c p a b s1 s2 H1 H2 Hv -> Hd.
  destruct (final_C15 _ _ _ _ _ _ H1 Hv) as (x & -> & X1 & X2).
  replace (tr1 ++ tr2 ++ [(OReopen (w_conf (watch_run cf tr1)), Quiet); (OLatest p, b)])
    with (((tr1 ++ tr2) ++ [(OReopen (w_conf (watch_run cf tr1)), Quiet)]) ++ [(OLatest p, b)]) in H2 by (now rewrite <- !app_assoc).
  destruct (final_C15 _ _ _ _ _ _ H2 Hv) as (y & -> & Y1 & Y2).
  exists x, y. split; auto. split; auto. apply NoDup_Permutation; eauto using NoDup_map_inv'.
  intros e. rewrite X2, Y2, watch_run_snoc. unfold w_all at 2. cbn [watch_step]. si_fields. cbn [concat]. rewrite !app_nil_r, Hd. reflexivity.
Qed.

(** Nothing registered: nothing new is known. *)
Lemma all_same : forall O cf tr1 tr2 s, execution O cf (tr1 ++ tr2) s -> no_reopen tr2 -> no_register tr2 ->
    w_all (watch_run cf (tr1 ++ tr2)) = w_all (watch_run cf tr1).
Proof.
  intros O cf tr1 tr2. induction tr2 as [|[o x] tr2 IH] using rev_ind; intros s H Hn Hg.
  - now rewrite !app_nil_r.
  - rewrite app_assoc in H. apply execution_snoc in H as (s1 & H1 & H2 & _). rewrite app_assoc, watch_run_snoc.
    assert (IH' : w_all (watch_run cf (tr1 ++ tr2)) = w_all (watch_run cf tr1)).
    { eapply IH; eauto; intros c y Hin; [apply (Hn c y)|apply (Hg c y)]; apply in_or_app; auto. }
    destruct (step_all _ _ _ _ _ _ (execution_inv _ _ _ _ H1) H2) as [(h & E & _ & _ & Hh & _)|(c & -> & _)].
    + rewrite E, Hh, app_nil_r; auto. intros es ->. apply (Hg es x). apply in_or_app. cbn. auto.
    + exfalso. apply (Hn c x). apply in_or_app. cbn. auto.
Qed.

(** ... in particular after everything was flushed. *)
Theorem final_C16_flush : forall O cf tr1 tr2 p a b s1 s2,
    execution O cf (tr1 ++ [(OLatest p, a)]) s1 ->
    execution O cf (tr1 ++ tr2 ++ [(OReopen (w_conf (watch_run cf tr1)), Quiet); (OLatest p, b)]) s2 ->
    valid_latest p -> no_register tr2 -> no_reopen tr2 ->
    w_queue (watch_run cf (tr1 ++ tr2)) = [] -> w_cur (watch_run cf (tr1 ++ tr2)) = [] ->
    same_answer a b.
Proof.
  intros O cf tr1 tr2 p a b s1 s2 H1 H2 Hv Hg Hn Eq Ec. eapply final_C16; eauto.
  rewrite app_assoc in H2. apply execution_split in H2 as (s & H2 & _).
  rewrite <- (all_same _ _ _ _ _ H2 Hn Hg). unfold w_all. rewrite Eq, Ec. cbn [concat]. now rewrite !app_nil_r.
Qed.

(** ** C23 *)

Lemma flush_point_snoc : forall tr1 tr2 x, flush_point tr1 tr2 -> flush_point tr1 (tr2 ++ [x]).
Proof. intros tr1 tr2 x [->|(y & tr3 & ->)]; [now left|]. right. exists y, (tr3 ++ [x]). reflexivity. Qed.

Lemma flush_points : forall O cf tr s, execution O cf tr s ->
    let w := watch_run cf tr in
    forall Q R, w_queue w = Q ++ R ->
    exists tr1 tr2, tr = tr1 ++ tr2 /\ flush_point tr1 tr2 /\ w_disk w ++ concat Q = w_all (watch_run cf tr1).
Proof.
  intros O cf tr. induction tr as [|[o x] tr IH] using rev_ind; intros s H; cbn zeta; intros Q R E.
  - exists [], []. split; auto. split; [now left|]. cbn [watch_run fold_left watch_start w_queue] in E.
    destruct Q; [|discriminate]. reflexivity.
  - apply execution_snoc in H as (s1 & H1 & H2 & _). specialize (IH _ H1). cbn zeta in IH.
    pose proof (execution_inv _ _ _ _ H1) as Hi. rewrite watch_run_snoc in *.
    assert (Hgen : forall Q' R', w_queue (watch_run cf tr) = Q' ++ R' ->
       w_disk (watch_step (watch_run cf tr) (o, x)) ++ concat Q = w_disk (watch_run cf tr) ++ concat Q' ->
       exists tr1 tr2, tr ++ [(o, x)] = tr1 ++ tr2 /\ flush_point tr1 tr2 /\
         w_disk (watch_step (watch_run cf tr) (o, x)) ++ concat Q = w_all (watch_run cf tr1)).
    { intros Q' R' EQ ED. destruct (IH _ _ EQ) as (tr1 & tr2 & -> & Hf & Hd). exists tr1, (tr2 ++ [(o, x)]).
      rewrite <- app_assoc. split; auto. split; [now apply flush_point_snoc|]. now rewrite ED. }
    destruct o as [es| |now|p|q p|q p| |q|c]; cbn [watch_step] in *; si_fields;
      try (eapply Hgen; [exact E|reflexivity]).
    + (* flush *)
      destruct R as [|r R _] using rev_ind.
      * rewrite app_nil_r in E. exists tr, [(OFlush, x)]. split; auto.
        split; [right; eauto|]. rewrite <- E, concat_snoc. reflexivity.
      * rewrite app_assoc in E. apply app_inj_tail in E as [E _]. eapply Hgen; [exact E|reflexivity].
    + assert (Hq : x = Wrote -> w_queue (watch_run cf tr) <> []) by (intros ->; eapply wrote_queue; eauto).
      destruct x; si_fields; try (eapply Hgen; [exact E|reflexivity]).
      specialize (Hq eq_refl). destruct (w_queue (watch_run cf tr)) as [|h wq] eqn:Ew; [congruence|]. cbn [hd tl] in *.
      apply (Hgen (h :: Q) R); [now rewrite E|]. cbn [concat]. now rewrite <- app_assoc.
    + destruct Q; [|discriminate]. eapply (Hgen [] (w_queue (watch_run cf tr))); reflexivity.
Qed.

Theorem final_C23 : forall O cf tr s, execution O cf tr s ->
    let w := watch_run cf tr in
    content (s_disk s) (w_disk w) (w_gone w) /\
    (exists tr1 tr2, tr = tr1 ++ tr2 /\ flush_point tr1 tr2 /\ w_disk w = w_all (watch_run cf tr1)) /\
    (forall c x s', execution O cf (tr ++ [(OReopen c, x)]) s' -> content (s_disk s') (w_disk w) (w_gone w) /\
       w_all (watch_run cf (tr ++ [(OReopen c, x)])) = w_disk w).
Proof.
  intros O cf tr s H. cbn zeta. split; [apply repr_content, (execution_inv _ _ _ _ H)|]. split.
  - destruct (flush_points _ _ _ _ H [] (w_queue (watch_run cf tr)) eq_refl) as (tr1 & tr2 & E & F & D). cbn [concat] in D.
    rewrite app_nil_r in D. eauto.
  - intros c x s' H'. split.
    + pose proof (execution_inv _ _ _ _ H') as Hi. rewrite watch_run_snoc in Hi. apply repr_content, Hi.
    + rewrite watch_run_snoc. unfold w_all. cbn [watch_step]. si_fields. cbn [concat]. now rewrite !app_nil_r.
Qed.

(** ** C21, C22 *)

Lemma stored_at_ref : forall d r i, db_wf d -> (stored_at d r i <-> at_ref d r i).
Proof.
  intros d r i Hw. destruct r as [k|k]; cbn [stored_at at_ref]; split; intros (e & H1 & H2); exists e; split; auto;
    (apply (kget_In zord) in H1 || apply (kget_In keyord) in H1); auto; apply Hw.
Qed.

Theorem final_C21 : forall O cf tr s, execution O cf tr s ->
    NoDup (keys (db_ref (s_disk s))) /\
    (forall i rs, In (i, rs) (db_ref (s_disk s)) -> rs <> [] /\ NoDup rs) /\
    (forall r i, at_ref (s_disk s) r i -> exists rs, In (i, rs) (db_ref (s_disk s)) /\ In r rs).
Proof.
  intros O cf tr s H. pose proof (execution_inv _ _ _ _ H) as Hi. pose proof (si_repr _ _ Hi) as Hr.
  pose proof (ba_wf _ (rp_base _ _ _ Hr)) as Hw. destruct (dw_ref _ Hw) as [W1 W2]. split; [|split].
  - eapply ksorted_NoDup; eauto.
  - intros i rs Hin. apply (kget_In eidord) in Hin; auto. destruct (W2 _ _ Hin) as [A B]. split; auto. eapply ssorted_NoDup; eauto.
  - intros r i Ha. apply (stored_at_ref _ _ _ Hw) in Ha. apply (rp_refs _ _ _ Hr) in Ha. unfold refs_at in Ha.
    destruct (kget eidord i (db_ref (s_disk s))) as [rs|] eqn:E; [|destruct Ha]. exists rs. split; auto. now apply (kget_In eidord).
Qed.

Theorem final_C21_exact : forall O cf tr s, execution O cf tr s -> conditions_kept (cf :: confs_of tr) ->
    forall i r, (exists rs, In (i, rs) (db_ref (s_disk s)) /\ In r rs) <-> at_ref (s_disk s) r i.
Proof.
  intros O cf tr s H Hc i r. split; [|apply final_C21 with (1 := H)].
  pose proof (execution_inv _ _ _ _ H) as Hi. pose proof (si_repr _ _ Hi) as Hr.
  pose proof (ba_wf _ (rp_base _ _ _ Hr)) as Hw. destruct (dw_ref _ Hw) as [W1 W2].
  intros (rs & Hin & Hrs). apply (stored_at_ref _ _ _ Hw). apply (rp_exact _ _ _ Hr).
  - pose proof (kept_hidden _ _ _ _ H Hc) as Hn. unfold w_all in Hn. eapply no_hidden_app; eauto.
  - apply (kget_In eidord) in Hin; auto. unfold refs_at. now rewrite Hin.
Qed.

Theorem final_C22 : forall O cf tr s, execution O cf tr s ->
    forall p n, counter (s_disk s) p n <-> n = entries_in (s_disk s) p.
Proof.
  intros O cf tr s H p n. pose proof (execution_inv _ _ _ _ H) as Hi. pose proof (si_repr _ _ Hi) as Hr.
  pose proof (dw_counts _ (ba_wf _ (rp_base _ _ _ Hr))) as Hw.
  pose proof (rp_counts _ _ _ Hr p) as Hc. unfold partition_count, cnt, zlen in Hc. unfold entries_in. rewrite <- Hc. unfold counter.
  destruct (kget zord p (db_counts (s_disk s))) as [m|] eqn:E.
  - split.
    + intros [Hin|[_ Hn]].
      * apply (kget_In zord) in Hin; auto. congruence.
      * exfalso. apply Hn. apply (kget_In zord) in E; auto. unfold keys. apply in_map_iff. exists (p, m). auto.
    + intros ->. left. now apply (kget_In zord).
  - split.
    + intros [Hin|[-> _]]; auto. apply (kget_In zord) in Hin; auto. congruence.
    + intros ->. right. split; auto. now apply (kget_None zord).
Qed.

(** ** C28 *)

Lemma flush_parts : forall d c, db_parts (flush_write d c) = db_parts d.
Proof. reflexivity. Qed.

Lemma step_parts : forall O s w o x s', sys_inv s w -> exec O s o = Some (s', x) ->
    forall p v, kget zord p (db_parts (s_disk s)) = Some v -> kget zord p (db_parts (s_disk s')) = Some v.
Proof.
  intros O s w o x s' Hi He p v Hp. pose proof (si_repr _ _ Hi) as Hr.
  destruct o as [es| |now|q|q pr|q pr| |q|c]; cbn [exec] in He.
  - destruct (register_events _ _ _ _) as [[m c]|]; [|discriminate]. injection He as <- <-. exact Hp.
  - injection He as <- <-. exact Hp.
  - injection He as <- <-. exact Hp.
  - injection He as <- <-. exact Hp.
  - destruct (server_query_start pr); injection He as <- <-; exact Hp.
  - unfold ts_query_step in He. destruct (ts_query_start _ _ _ _) as [[[sub mx] [part|]]|]; try (injection He as <- <-; exact Hp).
    destruct (qt_order pr); [|injection He as <- <-; exact Hp]. destruct (query_pending _ _ _ _) as [es f].
    destruct (filter_done f); injection He as <- <-; exact Hp.
  - unfold work in He. destruct (s_jobs s) as [|j js]; [injection He as <- <-; exact Hp|]. destruct j.
    + injection He as <- <-. exact Hp.
    + destruct (cleanup _ _ _ _) as [d' ks] eqn:Ec. injection He as <- <-. cbn [done_ s_disk].
      destruct (cleanup_spec _ _ _ _ _ _ (repr_ts_wf _ _ _ Hr) Ec) as (-> & _). now rewrite removes_parts.
    + destruct (query_refs _ _ _ _ _); [|discriminate]. injection He as <- <-. exact Hp.
    + destruct (query_stored _ _ _ _ _ _). injection He as <- <-. exact Hp.
  - destruct (take_ready _ _) as [[r rs]|]; [|discriminate]. injection He as <- <-. exact Hp.
  - unfold open_db in He. destruct (validate_settings _ _ _); [|discriminate].
    pose proof (init_partitions_spec (db_parts (s_disk s)) (cf_parts c) (rp_psorted _ _ _ Hr) (rp_pinj _ _ _ Hr)) as Hs.
    destruct (init_partitions _ _) as [ps res]. destruct Hs as (_ & _ & Hs & _). injection He as <- <-. cbn [s_disk db_parts]. auto.
Qed.

Theorem final_C28_stable : forall O cf tr1 tr2 s1 s2, execution O cf tr1 s1 -> execution O cf (tr1 ++ tr2) s2 ->
    forall p v, In (p, v) (db_parts (s_disk s1)) -> In (p, v) (db_parts (s_disk s2)).
Proof.
  intros O cf tr1 tr2 s1 s2 H1. revert s2. induction tr2 as [|[o x] tr2 IH] using rev_ind; intros s2 H2 p v Hin.
  - rewrite app_nil_r in H2. destruct H1 as (a & A1 & A2 & _). destruct H2 as (b & B1 & B2 & _).
    assert (a = b) by congruence. subst b.
    assert (Hf : forall s tr t u, runs O s tr t -> runs O s tr u -> t = u).
    { clear. intros s tr t u Ht. revert u. induction Ht as [s|s o x s' tr s'' He Hr IH]; intros u Hu; inversion Hu; subst; auto.
      apply IH. assert (s' = s1) by congruence. now subst. }
    rewrite <- (Hf _ _ _ _ A2 B2). exact Hin.
  - rewrite app_assoc in H2. apply execution_snoc in H2 as (s & H2 & H3 & H4 & H5).
    pose proof (IH _ H2 _ _ Hin) as Hs. pose proof (execution_inv _ _ _ _ H2) as Hi.
    assert (H2' : execution O cf ((tr1 ++ tr2) ++ [(o, x)]) s2) by (apply execution_snoc; eauto).
    pose proof (execution_inv _ _ _ _ H2') as Hi'.
    apply (kget_In zord); [apply (si_repr _ _ Hi')|]. apply (step_parts _ _ _ _ _ _ Hi H3). apply (kget_In zord); [apply (si_repr _ _ Hi)|exact Hs].
Qed.

Theorem final_C28 : forall O cf tr s, execution O cf tr s ->
    NoDup (keys (db_parts (s_disk s))) /\ NoDup (vals (db_parts (s_disk s))) /\
    forall pt, In pt (cf_parts (w_conf (watch_run cf tr))) -> exists p, In (p, part_data_of pt) (db_parts (s_disk s)).
Proof.
  intros O cf tr s H. pose proof (execution_inv _ _ _ _ H) as Hi. pose proof (si_repr _ _ Hi) as Hr.
  pose proof (rp_psorted _ _ _ Hr) as Hs. pose proof (ksorted_NoDup _ _ Hs) as Hnd. split; auto. split.
  - assert (Hinj : forall p p' x, In (p, x) (db_parts (s_disk s)) -> In (p', x) (db_parts (s_disk s)) -> p = p').
    { intros p p' x A B. eapply (rp_pinj _ _ _ Hr); apply (kget_In zord); eauto. }
    unfold vals. clear - Hinj Hnd. unfold keys in Hnd. induction (db_parts (s_disk s)) as [|[p x] l IH]; cbn [map]; constructor.
    + intros Hin. apply in_map_iff in Hin as ([p' x'] & E & Hin). cbn [snd] in E. subst x'.
      assert (p = p') by (eapply Hinj; [now left|right; exact Hin]). subst p'. cbn [map fst] in Hnd. inversion Hnd as [|? ? Hn _]; subst.
      apply Hn. apply in_map_iff. exists (p, x). auto.
    + cbn [map fst] in Hnd. inversion Hnd as [|? ? _ Hnd']; subst. apply IH; auto. intros a b y A B. apply (Hinj a b y); right; auto.
  - intros pt Hpt. destruct (si_parts _ _ Hi pt Hpt) as [p Hp]. exists p. now apply (kget_In zord).
Qed.

Theorem final_C28_distinct : forall a b, py_subscription (pt_sub a) -> py_subscription (pt_sub b) ->
    part_data_of a = part_data_of b ->
    pt_order a = pt_order b /\ forall t, node_matches (pt_sub a) t = node_matches (pt_sub b) t.
Proof.
  intros a b Ha Hb E. apply py_subscription_wf in Ha. apply py_subscription_wf in Hb. injection E as Eo Eq. split.
  - destruct (pt_order a), (pt_order b); try discriminate; reflexivity.
  - intros t. rewrite !to_qts_matches by auto. apply existsb_same. intros x. rewrite <- (In_etype_sort _ x), Eq. apply In_etype_sort.
Qed.

(** ** C30 *)

Lemma validate_spec : forall st v i, NoDup (keys st) ->
    match validate_settings st v i with
    | None => (exists x, dget Z.eqb 0 st = Some x /\ x <> v) \/
              (exists x y, dget Z.eqb 1 st = Some x /\ i = Some y /\ x <> y)
    | Some st' =>
        (forall x, dget Z.eqb 0 st = Some x -> x = v) /\
        (forall x y, dget Z.eqb 1 st = Some x -> i = Some y -> x = y) /\
        dget Z.eqb 0 st' = Some v /\
        dget Z.eqb 1 st' = match dget Z.eqb 1 st with Some x => Some x | None => i end /\
        (forall k, k <> 0 -> k <> 1 -> dget Z.eqb k st' = dget Z.eqb k st) /\
        (ksorted zord st -> ksorted zord st')
    end.
Proof.
  intros st v i Hnd. unfold validate_settings.
  assert (Hs1 : match dget Z.eqb 0 st with
                | None => Some (dset Z.eqb 0 v st)
                | Some x => if negb (x =? v)%string then None else Some (ddel Z.eqb 0 st)
                end = None /\ (exists x, dget Z.eqb 0 st = Some x /\ x <> v) \/
    exists s1, match dget Z.eqb 0 st with
                | None => Some (dset Z.eqb 0 v st)
                | Some x => if negb (x =? v)%string then None else Some (ddel Z.eqb 0 st)
                end = Some s1 /\ NoDup (keys s1) /\ (forall x, dget Z.eqb 0 st = Some x -> x = v) /\
       (match dget Z.eqb 0 s1 with Some x => Some x | None => dget Z.eqb 0 st end = Some v) /\
       (forall k, k <> 0 -> dget Z.eqb k s1 = dget Z.eqb k st)).
  { destruct (dget Z.eqb 0 st) as [x|] eqn:E.
    - destruct (x =? v)%string eqn:Ex; cbn [negb].
      + apply String.eqb_eq in Ex. subst x. right. exists (ddel Z.eqb 0 st). split; auto. split; [now apply NoDup_ddel|].
        split; [congruence|]. split; [now rewrite (dget_ddel_same zeqb_spec)|]. intros k Hk. now apply (dget_ddel_other zeqb_spec).
      + apply String.eqb_neq in Ex. left. split; auto. exists x. auto.
    - right. exists (dset Z.eqb 0 v st). split; auto. split; [now apply (NoDup_dset zeqb_spec)|]. split; [discriminate|].
      split; [now rewrite (dget_dset_same zeqb_spec)|]. intros k Hk. now apply (dget_dset_other zeqb_spec). }
  cbn zeta. destruct Hs1 as [(-> & Hx)|(s1 & -> & Hn1 & Hv & H0 & Ho)]; [now left|].
  assert (H1 : dget Z.eqb 1 s1 = dget Z.eqb 1 st) by (apply Ho; lia).
  assert (Hput : forall s2 r, NoDup (keys s2) -> (forall k, k <> 1 -> dget Z.eqb k s2 = dget Z.eqb k s1) ->
     (match dget Z.eqb 1 s2 with Some x => Some x | None => dget Z.eqb 1 st end = r) ->
     dget Z.eqb 0 (kputs zord s2 st) = Some v /\ dget Z.eqb 1 (kputs zord s2 st) = r /\
     (forall k, k <> 0 -> k <> 1 -> dget Z.eqb k (kputs zord s2 st) = dget Z.eqb k st) /\ (ksorted zord st -> ksorted zord (kputs zord s2 st))).
  { intros s2 r Hn2 Hk2 Hr. change (dget Z.eqb) with (@kget Z string zord).
    rewrite !(kget_kputs zord) by auto. split; [|split; [|split]].
    - change (dget (oeqb zord)) with (@dget Z string Z.eqb). rewrite Hk2 by lia. exact H0.
    - exact Hr.
    - intros k K0 K1. rewrite (kget_kputs zord) by auto. change (dget (oeqb zord)) with (@dget Z string Z.eqb).
      rewrite Hk2, Ho by auto. change (@kget Z string zord k st) with (dget Z.eqb k st). destruct (dget Z.eqb k st); auto.
    - intros Hs. now apply (ksorted_kputs zord). }
  destruct i as [i|].
  - destruct (dget Z.eqb 1 s1) as [j|] eqn:Ej.
    + destruct (j =? i)%string eqn:Eji; cbn [negb].
      * apply String.eqb_eq in Eji. subst j. rewrite <- H1.
        destruct (Hput (ddel Z.eqb 1 s1) (Some i)) as (P0 & P1 & P2 & P3).
        { now apply NoDup_ddel. } { intros k Hk. now apply (dget_ddel_other zeqb_spec). }
        { rewrite (dget_ddel_same zeqb_spec) by auto. now rewrite <- H1. }
        split; auto. split; [congruence|]. auto.
      * apply String.eqb_neq in Eji. right. exists j, i. rewrite <- H1. auto.
    + rewrite <- H1. destruct (Hput (dset Z.eqb 1 i s1) (Some i)) as (P0 & P1 & P2 & P3).
      { now apply (NoDup_dset zeqb_spec). } { intros k Hk. now apply (dget_dset_other zeqb_spec). }
      { now rewrite (dget_dset_same zeqb_spec). }
      split; auto. split; [discriminate|]. auto.
  - destruct (Hput (ddel Z.eqb 1 s1) (dget Z.eqb 1 st)) as (P0 & P1 & P2 & P3).
    { now apply NoDup_ddel. } { intros k Hk. now apply (dget_ddel_other zeqb_spec). }
    { now rewrite (dget_ddel_same zeqb_spec) by auto. }
    split; auto. split; [discriminate|]. split; auto. split; [rewrite P1; destruct (dget Z.eqb 1 st); auto|]. auto.
Qed.

Theorem final_C30 : forall cf d, NoDup (keys (db_settings d)) ->
    match open_db cf d with
    | None => (exists v, setting d 0 = Some v /\ v <> cf_version cf) \/
              (exists i j, setting d 1 = Some i /\ cf_ident cf = Some j /\ i <> j)
    | Some (d', _) =>
        (forall v, setting d 0 = Some v -> v = cf_version cf) /\
        (forall i j, setting d 1 = Some i -> cf_ident cf = Some j -> i = j) /\
        setting d' 0 = Some (cf_version cf) /\
        setting d' 1 = match setting d 1 with Some i => Some i | None => cf_ident cf end /\
        (forall k, k <> 0 -> k <> 1 -> setting d' k = setting d k) /\
        (db_ids d', db_tss d', db_ref d', db_latest d', db_types d', db_ts d', db_counts d') =
        (db_ids d, db_tss d, db_ref d, db_latest d, db_types d, db_ts d, db_counts d)
    end.
Proof.
  intros cf d Hnd. pose proof (validate_spec (db_settings d) (cf_version cf) (cf_ident cf) Hnd) as Hv. unfold open_db.
  destruct (validate_settings _ _ _) as [st|]; [|exact Hv]. destruct (init_partitions _ _) as [ps res].
  unfold setting. cbn [db_settings db_ids db_tss db_ref db_latest db_types db_ts db_counts].
  destruct Hv as (A & B & C & D & E & _). auto 10.
Qed.

Lemma step_settings : forall O s w o x s', sys_inv s w -> exec O s o = Some (s', x) -> (forall c, o <> OReopen c) ->
    db_settings (s_disk s') = db_settings (s_disk s).
Proof.
  intros O s w o x s' Hi He Hn. pose proof (si_repr _ _ Hi) as Hr.
  destruct o as [es| |now|q|q pr|q pr| |q|c]; cbn [exec] in He.
  - destruct (register_events _ _ _ _) as [[m c]|]; [|discriminate]. injection He as <- <-. reflexivity.
  - injection He as <- <-. reflexivity.
  - injection He as <- <-. reflexivity.
  - injection He as <- <-. reflexivity.
  - destruct (server_query_start pr); injection He as <- <-; reflexivity.
  - unfold ts_query_step in He. destruct (ts_query_start _ _ _ _) as [[[sub mx] [part|]]|]; try (injection He as <- <-; reflexivity).
    destruct (qt_order pr); [|injection He as <- <-; reflexivity]. destruct (query_pending _ _ _ _) as [es f].
    destruct (filter_done f); injection He as <- <-; reflexivity.
  - unfold work in He. destruct (s_jobs s) as [|j js]; [injection He as <- <-; reflexivity|]. destruct j.
    + injection He as <- <-. reflexivity.
    + destruct (cleanup _ _ _ _) as [d' ks] eqn:Ec. injection He as <- <-. cbn [done_ s_disk].
      destruct (cleanup_spec _ _ _ _ _ _ (repr_ts_wf _ _ _ Hr) Ec) as (-> & _).
      clear. generalize (s_disk s). induction ks as [|k ks IH]; intros d; cbn [fold_left]; auto. now rewrite IH.
    + destruct (query_refs _ _ _ _ _); [|discriminate]. injection He as <- <-. reflexivity.
    + destruct (query_stored _ _ _ _ _ _). injection He as <- <-. reflexivity.
  - destruct (take_ready _ _) as [[r rs]|]; [|discriminate]. injection He as <- <-. reflexivity.
  - exfalso. eapply Hn; eauto.
Qed.

Lemma first_ident_snoc : forall l c, first_ident (l ++ [c]) = match first_ident l with Some i => Some i | None => cf_ident c end.
Proof.
  induction l as [|a l IH]; intros c; cbn [app first_ident].
  - destruct (cf_ident c); reflexivity.
  - destruct (cf_ident a); auto.
Qed.

Lemma open_settings : forall cf d d' m, ksorted zord (db_settings d) -> open_db cf d = Some (d', m) ->
    ksorted zord (db_settings d').
Proof.
  intros cf d d' m Hs. unfold open_db.
  pose proof (validate_spec (db_settings d) (cf_version cf) (cf_ident cf) (ksorted_NoDup _ _ Hs)) as Hv.
  destruct (validate_settings _ _ _) as [st|]; [|discriminate]. destruct (init_partitions _ _) as [ps res].
  intros [= <- <-]. apply Hv. exact Hs.
Qed.

Theorem final_C30_runs : forall O cf tr s, execution O cf tr s ->
    setting (s_disk s) 0 = Some (cf_version cf) /\
    Forall (fun c => cf_version c = cf_version cf) (confs_of tr) /\
    setting (s_disk s) 1 = first_ident (cf :: confs_of tr) /\
    (forall c i, In c (cf :: confs_of tr) -> cf_ident c = Some i -> setting (s_disk s) 1 = Some i).
Proof.
  intros O cf tr s H.
  assert (Hgoal : ksorted zord (db_settings (s_disk s)) /\ setting (s_disk s) 0 = Some (cf_version cf) /\
    Forall (fun c => cf_version c = cf_version cf) (confs_of tr) /\
    setting (s_disk s) 1 = first_ident (cf :: confs_of tr) /\
    (forall c i, In c (cf :: confs_of tr) -> cf_ident c = Some i -> setting (s_disk s) 1 = Some i)); [|tauto].
  revert s H. induction tr as [|[o x] tr IH] using rev_ind; intros s H.
  - apply execution_nil in H as [H _]. unfold start in H. destruct (open_db cf empty_db) as [[d m]|] eqn:Eo; [|discriminate].
    injection H as <-. cbn [s_disk confs_of flat_map].
    assert (Hs : ksorted zord (db_settings empty_db)) by constructor.
    pose proof (final_C30 cf empty_db (ksorted_NoDup _ _ Hs)) as Hf. pose proof (open_settings _ _ _ _ Hs Eo) as Hs'. rewrite Eo in Hf.
    destruct Hf as (_ & _ & F0 & F1 & _). split; auto. split; auto. split; [constructor|].
    assert (E1 : setting d 1 = cf_ident cf) by exact F1.
    rewrite E1. split; [cbn [first_ident]; destruct (cf_ident cf); auto|]. intros c i [<-|[]]. auto.
  - apply execution_snoc in H as (s1 & H1 & H2 & _). destruct (IH _ H1) as (I0 & I1 & I2 & I3 & I4). rewrite confs_snoc.
    assert (Hsame : (forall c, o <> OReopen c) -> match o with OReopen c => [c] | _ => [] end = [] :> list conf).
    { intros Hn. destruct o; auto. exfalso. eapply Hn; eauto. }
    assert (Hcase : (forall c, o <> OReopen c) \/ exists c, o = OReopen c) by (destruct o; eauto; left; discriminate).
    destruct Hcase as [Hn|[c ->]].
    + rewrite (Hsame Hn), app_nil_r. unfold setting in *. rewrite (step_settings _ _ _ _ _ _ (execution_inv _ _ _ _ H1) H2 Hn). auto.
    + cbn [exec] in H2. destruct (open_db c (s_disk s1)) as [[d m]|] eqn:Eo; [|discriminate]. injection H2 as <- <-. cbn [s_disk].
      pose proof (final_C30 c (s_disk s1) (ksorted_NoDup _ _ I0)) as Hf. rewrite Eo in Hf.
      destruct Hf as (F0 & F1 & F2 & F3 & _). pose proof (F0 _ I1) as Ev.
      split; [eapply open_settings; eauto|]. split; [now rewrite F2, Ev|]. split; [apply Forall_app; auto|].
      rewrite app_comm_cons, first_ident_snoc, <- I3. split; [exact F3|].
      intros a i Ha Hai. rewrite F3. apply in_app_or in Ha as [Ha|[<-|[]]].
      * now rewrite (I4 _ _ Ha Hai).
      * destruct (setting (s_disk s1) 1) as [j|] eqn:Ej; auto. now rewrite (F1 _ _ eq_refl Hai).
Qed.
