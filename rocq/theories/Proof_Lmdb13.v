(** LMDB backend: where the work and the answers of queries come from. *)
From Coq Require Import String Bool ZArith Lia Sorted Permutation List.
From Verif Require Import Base Kv Model_Types Model_Subscription Model_Order Model_Codec Keys
  Spec_Subscription Proof_Subscription Proof_Subscription2 Proof_Order Model_Lmdb Model_LmdbSys Spec_Lmdb Spec_LmdbContent Spec_LmdbQuery
  Proof_Lmdb1 Proof_Lmdb2 Proof_Lmdb3 Proof_Lmdb4 Proof_Lmdb5 Proof_Lmdb6 Proof_Lmdb7 Proof_Lmdb8 Proof_Lmdb9 Proof_Lmdb10 Proof_Lmdb11 Proof_Lmdb12.
Import ListNotations.
Open Scope list_scope.
Open Scope Z_scope.

Definition query_op (o : op) (q : nat) : Prop :=
  match o with OServer q' _ => q' = q | OTs q' _ => q' = q | _ => False end.
Definition job_query (j : job) : option nat :=
  match j with JServer q _ _ _ => Some q | JTs q _ _ _ _ _ _ _ => Some q | _ => None end.
(** The database part of a query. *)
Definition job_result (O : oracle) (s : sys) (j : job) : option ready :=
  match j with
  | JServer q p max g =>
      match query_refs O (s_disk s) (qs_server p) (max + 1) (qs_last p) with
      | None => None
      | Some es => Some (RServer q p max g es)
      end
  | JTs q p part sub max g pre f =>
      let '(es, f) := query_stored (cf_cond (s_conf s)) (s_disk s) part p sub f in
      Some (RTs q p part sub max g (pre ++ es) f)
  | _ => None
  end.
(** Events on disk when everything that waits is written. *)
Definition w_before (w : watch) : history := w_disk w ++ concat (w_queue w).

Definition job_from (O : oracle) (cf : conf) (tr : list (op * out)) (js1 : list job) (j : job) : Prop :=
  forall q, job_query j = Some q ->
  exists trA o trB sA, tr = trA ++ (o, Quiet) :: trB /\ execution O cf trA sA /\ query_op o q /\
    exec O sA o = Some (push sA j, Quiet) /\ no_reopen trB /\
    w_disk (watch_run cf tr) ++ concat (firstn (List.length (flushes js1)) (w_queue (watch_run cf tr))) = w_before (watch_run cf trA).

Definition ready_from (O : oracle) (cf : conf) (tr : list (op * out)) (r : ready) : Prop :=
  exists trA o trB trC sA sB j, tr = trA ++ (o, Quiet) :: trB ++ (OWork, Quiet) :: trC /\
    execution O cf trA sA /\ execution O cf (trA ++ (o, Quiet) :: trB) sB /\
    query_op o (ready_id r) /\ exec O sA o = Some (push sA j, Quiet) /\ no_reopen (trB ++ trC) /\
    w_disk (watch_run cf (trA ++ (o, Quiet) :: trB)) = w_before (watch_run cf trA) /\
    job_result O sB j = Some r.

Lemma no_reopen_snoc : forall tr o x, no_reopen tr -> (forall c, o <> OReopen c) -> no_reopen (tr ++ [(o, x)]).
Proof. intros tr o x H Hn c y Hin. apply in_app_or in Hin as [Hin|[Hin|[]]]; [eapply H; eauto|]. injection Hin as -> ->. eapply Hn; eauto. Qed.

Lemma exec_query : forall O s o q s' x, query_op o q -> exec O s o = Some (s', x) ->
    (s' = s /\ x <> Quiet) \/ (exists j, s' = push s j /\ x = Quiet /\ job_query j = Some q).
Proof.
  intros O s o q s' x Hq. destruct o as [| | | |q' p|q' p| | |]; try destruct Hq; cbn [exec].
  - destruct (server_query_start p); intros [= <- <-]; [right; eauto|left; split; auto; discriminate].
  - intros [= E]. revert E. unfold ts_query_step.
    destruct (ts_query_start _ _ _ _) as [[[sub max] [part|]]|]; [|intros [= <- <-]; left; split; auto; discriminate..].
    destruct (qt_order p).
    + destruct (query_pending _ _ _ _) as [es f]. destruct (filter_done f); intros [= <- <-]; [left; split; auto; discriminate|right; eauto].
    + intros [= <- <-]. right; eauto.
Qed.

Lemma chain_length : forall cs d H hs, chain d H cs hs -> List.length cs = List.length hs.
Proof. induction cs as [|c cs IH]; intros d H [|h hs] Hc; cbn in *; try easy. f_equal. eapply IH; apply Hc. Qed.

Lemma app_snoc_split : forall (A : Type) (l a b : list A) x y, l ++ [x] = a ++ y :: b ->
    (b = [] /\ a = l /\ y = x) \/ (exists b', b = b' ++ [x] /\ l = a ++ y :: b').
Proof.
  intros A l a b x y H. destruct b as [|z b _] using rev_ind.
  - left. apply app_inj_tail in H as [-> ->]. auto.
  - right. rewrite app_comm_cons, app_assoc in H. apply app_inj_tail in H as [-> ->]. eauto.
Qed.

Lemma take_ready_In : forall q l r l', take_ready q l = Some (r, l') -> In r l /\ ready_id r = q /\ forall x, In x l' -> In x l.
Proof.
  induction l as [|y l IH]; intros r l' H; cbn [take_ready] in H; [discriminate|].
  destruct (Nat.eqb q (ready_id y)) eqn:E.
  - injection H as <- <-. apply Nat.eqb_eq in E. split; [now left|]. split; auto. intros x Hx. now right.
  - destruct (take_ready q l) as [[x l'']|] eqn:E2; [|discriminate]. injection H as <- <-.
    destruct (IH _ _ eq_refl) as (A & B & C). split; [now right|]. split; auto. intros z [<-|Hz]; [now left|right; auto].
Qed.

Definition query_inv (O : oracle) (cf : conf) (tr : list (op * out)) (s : sys) : Prop :=
  (forall js1 j js2, s_jobs s = js1 ++ j :: js2 -> job_from O cf tr js1 j) /\
  (forall r, In r (s_ready s) -> ready_from O cf tr r).

Lemma ready_from_snoc : forall O cf tr r o x, ready_from O cf tr r -> (forall c, o <> OReopen c) -> ready_from O cf (tr ++ [(o, x)]) r.
Proof.
  intros O cf tr r o x (trA & o' & trB & trC & sA & sB & j & E & H1 & H2 & H3 & H4 & H5 & H6) Hn.
  exists trA, o', trB, (trC ++ [(o, x)]), sA, sB, j. split; [rewrite E, <- app_assoc; cbn [app]; now rewrite <- app_assoc|].
  split; auto. split; auto. split; auto. split; auto. split; auto. rewrite app_assoc. now apply no_reopen_snoc.
Qed.

(** Jobs that stay, when what waits for being written changes suitably. *)
Lemma job_from_snoc : forall O cf tr js1 js1' j o x, job_from O cf tr js1 j -> (forall c, o <> OReopen c) ->
    (let w := watch_run cf tr in let w' := watch_step w (o, x) in
     w_disk w' ++ concat (firstn (List.length (flushes js1')) (w_queue w')) =
     w_disk w ++ concat (firstn (List.length (flushes js1)) (w_queue w))) ->
    job_from O cf (tr ++ [(o, x)]) js1' j.
Proof.
  intros O cf tr js1 js1' j o x H Hn Hw q Hq. destruct (H q Hq) as (trA & o' & trB & sA & E & H1 & H2 & H3 & H4 & H5).
  exists trA, o', (trB ++ [(o, x)]), sA. split; [rewrite E, <- app_assoc; reflexivity|]. split; auto. split; auto. split; auto.
  split; [now apply no_reopen_snoc|]. rewrite watch_run_snoc. cbn zeta in Hw. now rewrite Hw.
Qed.

Lemma query_inv_step : forall O cf tr s o x s', execution O cf tr s -> query_inv O cf tr s -> exec O s o = Some (s', x) ->
    execution O cf (tr ++ [(o, x)]) s' -> query_inv O cf (tr ++ [(o, x)]) s'.
Proof.
  intros O cf tr s o x s' Hx [IJ IR] He Hx'. pose proof (execution_inv _ _ _ _ Hx) as Hi.
  pose proof (chain_length _ _ _ _ (si_chain _ _ Hi)) as Hlen.
  assert (Hfl : forall js1 j js2, s_jobs s = js1 ++ j :: js2 -> (List.length (flushes js1) <= List.length (w_queue (watch_run cf tr)))%nat).
  { intros js1 j js2 E. rewrite <- Hlen, E, flushes_app, app_length. lia. }
  destruct o as [es|  |now|p|q p|q p| |q|c].
  - (* register *)
    cbn [exec] in He. destruct (register_events _ _ _ _) as [[m ch]|]; [|discriminate]. injection He as <- <-. split; cbn [s_jobs s_ready].
    + intros js1 j js2 E. eapply job_from_snoc; [eapply IJ; eauto|discriminate|reflexivity].
    + intros r Hr. apply ready_from_snoc; auto. discriminate.
  - (* flush *)
    cbn [exec] in He. injection He as <- <-. split; cbn [s_jobs s_ready].
    + intros js1 j js2 E. apply app_snoc_split in E as [(-> & -> & ->)|(js2' & -> & E)]; [intros q Hq; discriminate|].
      eapply job_from_snoc; [eapply IJ; eauto|discriminate|]. cbn zeta. cbn [watch_step w_disk w_queue].
      rewrite firstn_app. replace (_ - _)%nat with 0%nat by (specialize (Hfl _ _ _ E); lia). cbn [firstn]. now rewrite app_nil_r.
    + intros r Hr. apply ready_from_snoc; auto. discriminate.
  - (* cleanup *)
    cbn [exec] in He. injection He as <- <-. split; cbn [s_jobs s_ready push].
    + intros js1 j js2 E. apply app_snoc_split in E as [(-> & -> & ->)|(js2' & -> & E)]; [intros q Hq; discriminate|].
      eapply job_from_snoc; [eapply IJ; eauto|discriminate|reflexivity].
    + intros r Hr. apply ready_from_snoc; auto. discriminate.
  - (* latest *)
    cbn [exec] in He. injection He as <- <-. split.
    + intros js1 j js2 E. eapply job_from_snoc; [eapply IJ; eauto|discriminate|reflexivity].
    + intros r Hr. apply ready_from_snoc; auto. discriminate.
  - (* server query *)
    destruct (exec_query O s (OServer q p) q s' x eq_refl He) as [[-> Hq]|(j & -> & -> & Hj)].
    + split.
      * intros js1 j js2 E. eapply job_from_snoc; [eapply IJ; eauto|discriminate|reflexivity].
      * intros r Hr. apply ready_from_snoc; auto. discriminate.
    + split; cbn [s_jobs s_ready push].
      * intros js1 j' js2 E. apply app_snoc_split in E as [(-> & -> & ->)|(js2' & -> & E)].
        -- intros q' Hq'. rewrite Hj in Hq'. injection Hq' as <-. exists tr, (OServer q p), [], s. split; auto. split; auto. split; [reflexivity|].
           split; auto. split; [intros ? ? []|]. rewrite watch_run_snoc. cbn [watch_step]. rewrite Hlen, firstn_all. reflexivity.
        -- eapply job_from_snoc; [eapply IJ; eauto|discriminate|reflexivity].
      * intros r Hr. apply ready_from_snoc; auto. discriminate.
  - (* timeseries query *)
    destruct (exec_query O s (OTs q p) q s' x eq_refl He) as [[-> Hq]|(j & -> & -> & Hj)].
    + split.
      * intros js1 j js2 E. eapply job_from_snoc; [eapply IJ; eauto|discriminate|reflexivity].
      * intros r Hr. apply ready_from_snoc; auto. discriminate.
    + split; cbn [s_jobs s_ready push].
      * intros js1 j' js2 E. apply app_snoc_split in E as [(-> & -> & ->)|(js2' & -> & E)].
        -- intros q' Hq'. rewrite Hj in Hq'. injection Hq' as <-. exists tr, (OTs q p), [], s. split; auto. split; auto. split; [reflexivity|].
           split; auto. split; [intros ? ? []|]. rewrite watch_run_snoc. cbn [watch_step]. rewrite Hlen, firstn_all. reflexivity.
        -- eapply job_from_snoc; [eapply IJ; eauto|discriminate|reflexivity].
      * intros r Hr. apply ready_from_snoc; auto. discriminate.
  - (* worker *)
    cbn [exec] in He. unfold work in He. destruct (s_jobs s) as [|j0 js] eqn:Ej.
    { injection He as <- <-. split.
      - intros js1 j js2 E. rewrite Ej in E. destruct js1; discriminate.
      - intros r Hr. apply ready_from_snoc; auto. discriminate. }
    assert (Hq : forall j q, j = j0 -> job_query j = Some q -> forall r, job_result O s j = Some r -> ready_id r = q ->
                   ready_from O cf (tr ++ [(OWork, Quiet)]) r).
    { intros j q -> Hjq r Hjr Hrq. destruct (IJ [] j0 js eq_refl q Hjq) as (trA & o' & trB & sA & E & H1 & H2 & H3 & H4 & H5).
      exists trA, o', trB, [], sA, s, j0. split; [rewrite E, <- app_assoc; reflexivity|]. split; auto. rewrite E in Hx. split; auto.
      rewrite Hrq. split; auto. split; auto. rewrite app_nil_r. split; auto. cbn [flushes flat_map List.length firstn concat] in H5.
      rewrite app_nil_r in H5. rewrite <- E. auto. }
    destruct j0 as [c|now|q p max g|q p part sub max g pre f].
    + injection He as <- <-. split; cbn [s_jobs s_ready done_].
      * intros js1 j js2 E. eapply job_from_snoc; [apply (IJ (JFlush c :: js1) j js2); cbn; now rewrite E|discriminate|].
        cbn zeta. cbn [watch_step w_disk w_queue]. change (flushes (JFlush c :: js1)) with (c :: flushes js1). cbn [List.length].
        destruct (w_queue (watch_run cf tr)) as [|h hs].
        -- cbn in Hlen. discriminate.
        -- cbn [hd tl firstn concat]. now rewrite <- app_assoc.
      * intros r Hr. apply ready_from_snoc; auto. discriminate.
    + destruct (cleanup _ _ _ _) as [db ks]. injection He as <- <-. split; cbn [s_jobs s_ready done_].
      * intros js1 j js2 E. eapply job_from_snoc; [apply (IJ (JCleanup now :: js1) j js2); cbn; now rewrite E|discriminate|reflexivity].
      * intros r Hr. apply ready_from_snoc; auto. discriminate.
    + destruct (query_refs _ _ _ _ _) as [es|] eqn:Eq; [|discriminate]. injection He as <- <-. split; cbn [s_jobs s_ready done_].
      * intros js1 j js2 E. eapply job_from_snoc; [apply (IJ (JServer q p max g :: js1) j js2); cbn; now rewrite E|discriminate|reflexivity].
      * intros r Hr. apply in_app_or in Hr as [Hr|[<-|[]]]; [apply ready_from_snoc; auto; discriminate|].
        apply (Hq (JServer q p max g) q); auto. cbn [job_result]. now rewrite Eq.
    + destruct (query_stored _ _ _ _ _ _) as [es f'] eqn:Eq. injection He as <- <-. split; cbn [s_jobs s_ready done_].
      * intros js1 j js2 E. eapply job_from_snoc; [apply (IJ (JTs q p part sub max g pre f :: js1) j js2); cbn; now rewrite E|discriminate|reflexivity].
      * intros r Hr. apply in_app_or in Hr as [Hr|[<-|[]]]; [apply ready_from_snoc; auto; discriminate|].
        apply (Hq (JTs q p part sub max g pre f) q); auto. cbn [job_result]. now rewrite Eq.
  - (* delivery *)
    cbn [exec] in He. destruct (take_ready q (s_ready s)) as [[r rs]|] eqn:Et; [|discriminate]. injection He as <- <-.
    apply take_ready_In in Et as (_ & _ & Hin). split; cbn [s_jobs s_ready done_].
    + intros js1 j js2 E. eapply job_from_snoc; [eapply IJ; eauto|discriminate|reflexivity].
    + intros r' Hr. apply ready_from_snoc; auto. discriminate.
  - (* restart *)
    cbn [exec] in He. destruct (open_db c (s_disk s)) as [[d m]|]; [|discriminate]. injection He as <- <-. split; cbn [s_jobs s_ready].
    + intros js1 j js2 E; destruct js1; discriminate.
    + intros r [].
Qed.

Lemma query_inv_all : forall O cf tr s, execution O cf tr s -> query_inv O cf tr s.
Proof.
  intros O cf. induction tr as [|[o x] tr IH] using rev_ind; intros s H.
  - apply execution_nil in H as [H _]. unfold start in H. destruct (open_db _ _) as [[d m]|]; [|discriminate]. injection H as <-.
    split; cbn [s_jobs s_ready]; [intros js1 j js2 E; destruct js1; discriminate|intros r []].
  - pose proof H as H'. apply execution_snoc in H as (s1 & H1 & H2 & _). eapply query_inv_step; eauto.
Qed.

(** ** Generations of changes *)

Lemma before_step : forall w o x, (forall c, o <> OReopen c) -> o <> OFlush -> w_before (watch_step w (o, x)) = w_before w.
Proof.
  intros w o x H1 H2. unfold w_before. destruct o; try reflexivity; try congruence.
  - destruct x; try reflexivity. cbn [watch_step w_disk w_queue]. destruct (w_queue w); cbn; [now rewrite app_nil_r|now rewrite <- app_assoc].
Qed.

Definition no_flush (tr : list (op * out)) : Prop := forall x, ~ In (OFlush, x) tr.

Lemma pending_at_none : forall tr w, no_flush tr -> pending_at w tr = fold_left watch_step tr w.
Proof.
  induction tr as [|[o x] tr IH]; intros w H; cbn [pending_at fold_left]; auto.
  assert (Hn : no_flush tr) by (intros y Hy; apply (H y); now right).
  destruct o; auto. exfalso. apply (H x). now left.
Qed.

Lemma pending_at_flush : forall tr1 x tr2 w, no_flush tr1 -> pending_at w (tr1 ++ (OFlush, x) :: tr2) = fold_left watch_step tr1 w.
Proof.
  induction tr1 as [|[o y] tr IH]; intros x tr2 w H; cbn [pending_at fold_left app]; auto.
  assert (Hn : no_flush tr) by (intros z Hz; apply (H z); now right).
  destruct o; auto. exfalso. apply (H y). now left.
Qed.

Lemma flush_split : forall tr, no_flush tr \/ exists tr1 x tr2, tr = tr1 ++ (OFlush, x) :: tr2 /\ no_flush tr1.
Proof.
  induction tr as [|[o x] tr [IH|(tr1 & y & tr2 & -> & IH)]].
  - left. intros x [].
  - destruct o; try (left; intros y [Hy|Hy]; [discriminate|now apply IH in Hy]). right. exists [], x, tr. split; auto. intros y [].
  - right. destruct o; try (exists ((OFlush, x) :: tr1), y, tr2; fail).
    2:{ exists [], x, (tr1 ++ (OFlush, y) :: tr2). split; auto. intros z []. }
    all: match goal with |- exists a b c, (?o, ?x) :: _ = _ /\ _ => exists ((o, x) :: tr1), y, tr2; split; auto; intros z [Hz|Hz]; [discriminate|now apply IH in Hz] end.
Qed.

Lemma step_old : forall O s o s' x, exec O s o = Some (s', x) -> (forall c, o <> OReopen c) ->
    db_parts (s_disk s) = db_parts (s_disk s) /\
    (s_old s' = s_old s /\ o <> OFlush \/ o = OFlush /\ s_old s' = s_old s ++ [s_cur s]).
Proof.
  intros O s o s' x He Hn. split; auto. destruct o as [es|  |now|p|q p|q p| |q|c]; cbn [exec] in He.
  - left. destruct (register_events _ _ _ _) as [[m ch]|]; [|discriminate]. injection He as <- <-. split; auto. discriminate.
  - right. injection He as <- <-. auto.
  - left. injection He as <- <-. split; auto. discriminate.
  - left. injection He as <- <-. split; auto. discriminate.
  - left. split; [|discriminate]. destruct (exec_query O s (OServer q p) q s' x eq_refl He) as [[-> _]|(j & -> & _)]; auto.
  - left. split; [|discriminate]. destruct (exec_query O s (OTs q p) q s' x eq_refl He) as [[-> _]|(j & -> & _)]; auto.
  - left. split; [|discriminate]. unfold work in He. destruct (s_jobs s) as [|[c|now|q p max g|q p part sub max g pre f] js].
    + injection He as <- <-. auto.
    + injection He as <- <-. auto.
    + destruct (cleanup _ _ _ _). injection He as <- <-. auto.
    + destruct (query_refs _ _ _ _ _); [|discriminate]. injection He as <- <-. auto.
    + destruct (query_stored _ _ _ _ _ _). injection He as <- <-. auto.
  - left. split; [|discriminate]. destruct (take_ready _ _) as [[r rs]|]; [|discriminate]. injection He as <- <-. auto.
  - exfalso. eapply Hn; eauto.
Qed.

Lemma step_parts_eq : forall O s w o x s', sys_inv s w -> exec O s o = Some (s', x) -> (forall c, o <> OReopen c) ->
    db_parts (s_disk s') = db_parts (s_disk s).
Proof.
  intros O s w o s' x Hi He Hn. destruct o as [es|  |now|p|q p|q p| |q|c]; cbn [exec] in He.
  - destruct (register_events _ _ _ _) as [[m ch]|]; [|discriminate]. injection He as <- <-. auto.
  - injection He as <- <-. auto.
  - injection He as <- <-. auto.
  - injection He as <- <-. auto.
  - destruct (exec_query O s (OServer q p) q x s' eq_refl He) as [[-> _]|(j & -> & _)]; auto.
  - destruct (exec_query O s (OTs q p) q x s' eq_refl He) as [[-> _]|(j & -> & _)]; auto.
  - unfold work in He. destruct (s_jobs s) as [|[c|now|q p max g|q p part sub max g pre f] js].
    + injection He as <- <-. auto.
    + injection He as <- <-. reflexivity.
    + destruct (cleanup _ _ _ _) as [d' ks] eqn:Ec. injection He as <- <-. cbn [s_disk done_].
      destruct (cleanup_spec _ _ _ _ _ _ (repr_ts_wf _ _ _ (si_repr _ _ Hi)) Ec) as (-> & _). apply removes_parts.
    + destruct (query_refs _ _ _ _ _); [|discriminate]. injection He as <- <-. auto.
    + destruct (query_stored _ _ _ _ _ _). injection He as <- <-. auto.
  - destruct (take_ready _ _) as [[r rs]|]; [|discriminate]. injection He as <- <-. auto.
  - exfalso. eapply Hn; eauto.
Qed.

Lemma runs_fun : forall O s tr s1 s2, runs O s tr s1 -> runs O s tr s2 -> s1 = s2.
Proof.
  intros O s tr s1 s2 R. revert s2. induction R as [|s o x sa tr sb E R IH]; intros s2 R2; inversion R2; subst; auto.
  apply IH. congruence.
Qed.

Lemma execution_fun : forall O cf tr s s', execution O cf tr s -> execution O cf tr s' -> s = s'.
Proof.
  intros O cf tr s s' (s0 & E0 & R0 & _) (s1 & E1 & R1 & _). rewrite E0 in E1. injection E1 as <-. eapply runs_fun; eauto.
Qed.

(** The changes captured by a query: those of the generation that was current
    when it started. *)
Lemma gen_spec : forall O cf trA sA trB s, execution O cf trA sA -> execution O cf (trA ++ trB) s -> no_reopen trB ->
    let wA := watch_run cf trA in
    let w := pending_at wA trB in
    (exists d K pls, repr d (w_before wA) K /\ pendH d (w_before wA) (gen s (cur_gen sA)) (w_cur w) pls /\
                     db_parts d = db_parts (s_disk s)) /\
    db_parts (s_disk s) = db_parts (s_disk sA) /\
    w_conf w = w_conf wA /\ w_before w = w_before wA /\ (cur_gen sA <= cur_gen s)%nat /\
    (no_flush trB -> cur_gen s = cur_gen sA) /\ (~ no_flush trB -> (cur_gen sA < cur_gen s)%nat).
Proof.
  intros O cf trA sA trB s HA. revert s. induction trB as [|[o x] trB IH] using rev_ind; intros s HB Hn.
  - cbn zeta. rewrite app_nil_r in HB. cbn [pending_at].
    pose proof (execution_fun _ _ _ _ _ HB HA).
    subst s. pose proof (execution_inv _ _ _ _ HA) as Hi. split; [|split; [auto|split; [auto|split; [auto|split; [auto|split; [auto|]]]]]].
    + destruct (si_pend _ _ Hi) as (pls & Hp).
      exists (written (s_disk sA) (flushes (s_jobs sA))), (w_gone (watch_run cf trA)), pls.
      split; [apply (chain_repr _ _ _ _ _ (si_repr _ _ Hi) (si_chain _ _ Hi))|]. split; [|apply written_parts].
      replace (gen sA (cur_gen sA)) with (s_cur sA); auto. unfold gen, cur_gen. rewrite app_nth2, Nat.sub_diag by lia. reflexivity.
    + intros Hf. exfalso. apply Hf. intros ? [].
  - rewrite app_assoc in HB. pose proof HB as HB'. apply execution_snoc in HB as (s1 & H1 & H2 & _).
    assert (Hn1 : no_reopen trB). { intros c y Hy. apply (Hn c y). apply in_or_app. auto. }
    assert (Hno : forall c, o <> OReopen c). { intros c ->. apply (Hn c x). apply in_or_app. right. now left. }
    destruct (IH _ H1 Hn1) as ((d & K & pls & I1 & I2 & I3) & I4 & I5 & I6 & I7 & I8 & I9). cbn zeta in *. clear IH.
    pose proof (step_parts_eq _ _ _ _ _ _ (execution_inv _ _ _ _ H1) H2 Hno) as Ep.
    pose proof (execution_inv _ _ _ _ HB') as Hi.
    destruct (step_old _ _ _ _ _ H2 Hno) as [_ Hold].
    destruct (flush_split trB) as [Hf|(tr1 & y & tr2 & E & Hf)].
    + specialize (I8 Hf). rewrite (pending_at_none _ _ Hf) in *. destruct Hold as [[Eo Hof]|[-> Eo]].
      * assert (Hf' : no_flush (trB ++ [(o, x)])).
        { intros z Hz. apply in_app_or in Hz as [Hz|[Hz|[]]]; [now apply Hf in Hz|]. congruence. }
        rewrite (pending_at_none _ _ Hf'), fold_left_app. cbn [fold_left].
        replace (fold_left watch_step trB (watch_run cf trA)) with (watch_run cf (trA ++ trB)) in * by (unfold watch_run; now rewrite fold_left_app).
        assert (Ecg : cur_gen s = cur_gen sA) by (unfold cur_gen in *; rewrite Eo; exact I8).
        assert (Ebef : w_before (watch_step (watch_run cf (trA ++ trB)) (o, x)) = w_before (watch_run cf trA)) by (rewrite before_step; auto).
        split; [|split; [congruence|split; [rewrite step_conf; destruct o; auto; exfalso; eapply Hno; eauto|split; [auto|split; [lia|split; [auto|]]]]]].
        -- destruct (si_pend _ _ Hi) as (pls' & Hp). rewrite watch_run_snoc in Hp.
           exists (written (s_disk s) (flushes (s_jobs s))), (w_gone (watch_run cf ((trA ++ trB) ++ [(o, x)]))), pls'.
           split; [|split; [|apply written_parts]].
           ++ rewrite <- Ebef. rewrite <- watch_run_snoc. apply (chain_repr _ _ _ _ _ (si_repr _ _ Hi) (si_chain _ _ Hi)).
           ++ rewrite <- Ebef. replace (gen s (cur_gen sA)) with (s_cur s); auto. unfold gen. rewrite <- Ecg. unfold cur_gen.
              rewrite app_nth2, Nat.sub_diag by lia. reflexivity.
        -- intros Hc. contradiction.
      * rewrite (pending_at_flush trB x [] _ Hf).
        assert (Ecg : cur_gen s = S (cur_gen sA)) by (unfold cur_gen in *; rewrite Eo, app_length; cbn [List.length]; lia).
        split; [|split; [congruence|split; [auto|split; [auto|split; [lia|split]]]]].
        -- exists d, K, pls. split; auto. split; [|congruence].
           replace (gen s (cur_gen sA)) with (gen s1 (cur_gen sA)); auto. unfold gen. rewrite Eo. symmetry. apply app_nth1.
           rewrite app_length. cbn [List.length]. unfold cur_gen in *. lia.
        -- intros Hc. exfalso. apply (Hc x). apply in_or_app. right. now left.
        -- intros _. lia.
    + assert (Hnf : ~ no_flush trB). { intros Hc. apply (Hc y). rewrite E. apply in_or_app. right. now left. }
      specialize (I9 Hnf). rewrite E in *. rewrite <- app_assoc. cbn [app]. rewrite !(pending_at_flush _ _ _ _ Hf) in *.
      assert (Hlt : (cur_gen sA < List.length (s_old s))%nat).
      { destruct Hold as [[Eo _]|[_ Eo]]; unfold cur_gen in *; rewrite Eo, ?app_length; cbn [List.length]; lia. }
      assert (Eg : gen s (cur_gen sA) = gen s1 (cur_gen sA)).
      { unfold gen. rewrite (app_nth1 (s_old s)) by auto. rewrite (app_nth1 (s_old s1)) by auto.
        destruct Hold as [[Eo _]|[_ Eo]]; rewrite Eo; auto. apply app_nth1. exact I9. }
      split; [|split; [congruence|split; [auto|split; [auto|split; [unfold cur_gen in *; lia|split]]]]].
      * exists d, K, pls. split; auto. split; [now rewrite Eg|congruence].
      * intros Hc. exfalso. apply (Hc y). apply in_or_app. right. now left.
      * intros _. exact Hlt.
Qed.
