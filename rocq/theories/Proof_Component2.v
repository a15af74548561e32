(** The component's theorems. *)
From Coq Require Import String Bool ZArith Lia List.
From Verif Require Import Base Model_Types Model_Monitor Model_Component Spec_Conditions Spec_Monitor Spec_Component Proof_Monitor Proof_Component.
Import ListNotations.
Open Scope string_scope.
Open Scope list_scope.

Lemma final_C45_one : forall cf tr s, cruns cf tr s -> link tr <> None.
Proof. intros cf tr s H. apply cinv_runs in H. destruct (ci_link _ _ _ H) as (k & E & _). congruence. Qed.

Lemma run_dial : forall cf s o s' l d i, cexec cf s o = Some (s', l) -> In (Dial d i) l -> (o = KStart \/ o = KWake) /\ c_loop s = LRun d /\ i = id_for cf d.
Proof.
  intros cf s o s' l d i E I.
  destruct o; cbn [cexec] in E;
    repeat match type of E with context [match ?x with _ => _ end] => destruct x; try discriminate end;
    injection E as <- <-; cbn in I; repeat destruct I as [I|I]; try discriminate; try contradiction; injection I as <- <-; auto.
Qed.
Lemma run_call : forall cf s o s' l d, cexec cf s o = Some (s', l) -> In (Call d) l -> c_loop s = LRun d /\ o = KMade.
Proof.
  intros cf s o s' l d E I.
  destruct o; cbn [cexec] in E;
    repeat match type of E with context [match ?x with _ => _ end] => destruct x; try discriminate end;
    injection E as <- <-; cbn in I; repeat destruct I as [I|I]; try discriminate; try contradiction; injection I as <-; auto.
Qed.

Lemma follow_run : forall cf tr s d, cinv cf tr s -> c_loop s = LRun d -> states_ok tr -> choice cf tr (Some d) \/ cexec cf s LTake <> None.
Proof.
  intros cf tr s d H L W. destruct (ci_follow _ _ _ H) as (Q & D & F); [congruence|]. rewrite L in F. cbn [target] in F.
  destruct (c_queue s) as [|q0 q] eqn:E.
  - left. apply choice_spec; auto. rewrite <- (ci_state _ _ _ H), <- D. auto.
  - right. cbn [cexec]. rewrite E, L. discriminate.
Qed.

Lemma final_C45_dial : forall cf tr s o s' l d i, cruns cf tr s -> states_ok tr -> cexec cf s o = Some (s', l) -> In (Dial d i) l ->
  alive tr = true /\ i = match cf_id cf with Some j => j | None => Some (cd_id d) end /\
  (choice cf tr (Some d) \/ cexec cf s LTake <> None) /\ exists a b, tr = a ++ b /\ choice cf a (Some d).
Proof.
  intros cf tr s o s' l d i H W E I. apply cinv_runs in H. destruct (run_dial _ _ _ _ _ _ _ E I) as (_ & L & ->).
  split; [rewrite (ci_alive _ _ _ H), L; auto|]. split; [reflexivity|]. split; [eapply follow_run; eauto|].
  destruct (ci_source _ _ _ H d L) as (a & b & -> & X). exists a, b. split; auto. apply choice_spec; auto. intros st l1 I1. apply (W st l1). rewrite in_app_iff. auto.
Qed.
Lemma final_C45_call : forall cf tr s o s' l d, cruns cf tr s -> states_ok tr -> cexec cf s o = Some (s', l) -> In (Call d) l ->
  alive tr = true /\ link tr = Some (Dialing d) /\ (choice cf tr (Some d) \/ cexec cf s LTake <> None).
Proof.
  intros cf tr s o s' l d H W E I. apply cinv_runs in H. destruct (run_call _ _ _ _ _ _ E I) as (L & ->).
  split; [rewrite (ci_alive _ _ _ H), L; auto|]. split; [|eapply follow_run; eauto].
  destruct (ci_link _ _ _ H) as (k & Ek & Kl). cbn [cexec] in E. rewrite L in E. unfold k_link in Kl. destruct (c_k s); try discriminate.
  destruct Kl as (d' & L' & ->). congruence.
Qed.

Lemma not_over_settled : forall cf tr s, cinv cf tr s -> settled cf s -> match c_loop s with LWait | LRun _ => c_queue s = [] | LNew | LClosing _ => False | LOff => True end.
Proof.
  intros cf tr s H (S1 & S2 & S3 & S4 & S5). pose proof (ci_k _ _ _ H) as Ik. cbn [cexec] in *.
  destruct (c_loop s) eqn:L; auto; try discriminate.
  - destruct (c_queue s); auto. discriminate.
  - destruct (c_queue s); auto. discriminate.
  - unfold over in Ik. destruct Ik as [Ik|[Ik|Ik]]; rewrite Ik in *; discriminate.
Qed.

Lemma final_C45_settled : forall cf tr s k, cruns cf tr s -> states_ok tr -> alive tr = true -> settled cf s -> link tr = Some k ->
  match peer k with Some d => choice cf tr (Some d) | None => True end.
Proof.
  intros cf tr s k H W A S E. apply cinv_runs in H. pose proof (not_over_settled _ _ _ H S) as N.
  destruct (ci_link _ _ _ H) as (k' & E' & Kl). assert (k' = k) as -> by congruence. clear E'.
  assert (F : forall d, c_loop s = LRun d -> choice cf tr (Some d)).
  { intros d L. rewrite L in N. destruct (follow_run _ _ _ d H L W) as [X|X]; auto. exfalso. apply X. cbn. now rewrite N. }
  destruct S as (_ & _ & _ & S4 & S5). cbn [cexec] in *. unfold k_link in Kl.
  destruct (c_k s) as [| | | | | | |[]|]; try discriminate; try (subst k; exact I).
  - destruct Kl as (d & L & ->). exact (F d L).
  - destruct Kl as (d & L & ->). exact (F d L).
  - destruct Kl as (_ & d & L & ->). exact (F d L).
  - destruct Kl as (_ & d & L & ->). exact (F d L).
Qed.

(** Without choice, nothing is connected. *)
Lemma final_C45_none : forall cf tr s, cruns cf tr s -> states_ok tr -> alive tr = true -> settled cf s -> choice cf tr None -> link tr = Some Off.
Proof.
  intros cf tr s H W A S C. pose proof (final_C45_one _ _ _ H) as L. destruct (link tr) as [k|] eqn:E; [|congruence].
  pose proof (final_C45_settled _ _ _ _ H W A S E) as P. destruct k as [|d|d|d|d]; auto; cbn in P, C; destruct (C _ P).
Qed.

(** ** Moving *)

Lemma cruns_app : forall cf tr s o s' l, cruns cf tr s -> cexec cf s o = Some (s', l) -> cruns cf (tr ++ [(o, l)]) s'.
Proof. intros. econstructor; eauto. Qed.

(** A cancelled client loop can end. *)
Lemma down : forall cf tr s, cruns cf tr s -> over (c_k s) ->
  exists b s', cruns cf (tr ++ b) s' /\ c_k s' = KEnded /\ c_loop s' = c_loop s /\ c_queue s' = c_queue s /\
    (forall o l, In (o, l) b -> own_step o) /\ latest (tr ++ b) = latest tr /\ alive (tr ++ b) = alive tr.
Proof.
  intros cf tr s H O.
  assert (C : forall tr s, cruns cf tr s -> c_k s = KDownC KOver -> exists b s', cruns cf (tr ++ b) s' /\ c_k s' = KEnded /\ c_loop s' = c_loop s /\ c_queue s' = c_queue s /\
    (forall o l, In (o, l) b -> own_step o) /\ latest (tr ++ b) = latest tr /\ alive (tr ++ b) = alive tr).
  { intros tr0 s0 H0 K. exists [(KClientClosed, [CClosed])], (with_k s0 KEnded). split.
    - eapply cruns_app; eauto. cbn. now rewrite K.
    - rewrite latest_snoc, alive_snoc. repeat split; auto. intros o l [[= <- <-]|[]]. unfold own_step; auto 10. }
  destruct O as [K|[K|K]].
  - assert (X : cexec cf s KRunnerClosed = Some (with_k s (KDownC KOver), [RClosed])) by (cbn; now rewrite K).
    pose proof (cruns_app _ _ _ _ _ _ H X) as H1. destruct (C _ _ H1 eq_refl) as (b & s' & R & A1 & A2 & A3 & A4 & A5 & A6).
    exists ((KRunnerClosed, [RClosed]) :: b), s'. rewrite <- app_assoc in *. cbn [app] in *. split; auto. split; auto. split; auto. split; auto. split.
    + intros o l [[= <- <-]|I]; [unfold own_step; auto 10|eauto].
    + rewrite latest_snoc in A5. rewrite alive_snoc in A6. auto.
  - apply C; auto.
  - exists [], s. rewrite app_nil_r. repeat split; auto. contradiction.
Qed.

(** A waiting or closing server loop whose client loop ended gets to the newest
    choice. *)
Lemma arrive : forall cf tr s d, cruns cf tr s -> c_loop s = LRun d -> c_k s = KNew ->
  exists s', cruns cf (tr ++ [(KStart, [Dial d (id_for cf d)])]) s'.
Proof. intros cf tr s d H L K. eexists. eapply cruns_app; eauto. cbn. now rewrite L, K. Qed.

Lemma final_C45_moves : forall cf tr s o, cruns cf tr s -> states_ok tr -> alive tr = true -> cexec cf s LTake <> None \/ (forall d, c_loop s <> LRun d) -> choice cf tr o ->
  exists b s', cruns cf (tr ++ b) s' /\ settled cf s' /\ (forall x l, In (x, l) b -> own_step x) /\
    match o with Some d => link (tr ++ b) = Some (Dialing d) | None => link (tr ++ b) = Some Off end.
Proof.
  intros cf tr s o H W A T C. apply choice_spec in C; auto.
  (* from a state whose server loop is about to serve *)
  assert (P : forall tr1 s1, cruns cf tr1 s1 -> latest tr1 = latest tr -> c_loop s1 <> LOff -> c_queue s1 = [] -> c_loop s1 = LWait \/ (exists d, c_loop s1 = LRun d /\ c_k s1 = KNew) ->
    exists b s', cruns cf (tr1 ++ b) s' /\ settled cf s' /\ (forall x l, In (x, l) b -> own_step x) /\ match o with Some d => link (tr1 ++ b) = Some (Dialing d) | None => link (tr1 ++ b) = Some Off end).
  { intros tr1 s1 H1 E1 N1 Q1 L1. pose proof (cinv_runs _ _ _ H1) as I1. destruct (ci_follow _ _ _ I1 N1) as (Q & D & F). rewrite Q1 in F. cbn in F.
    rewrite (ci_state _ _ _ I1), E1, C in D. destruct (ci_link _ _ _ I1) as (k & Ek & Kl). unfold k_link in Kl. destruct L1 as [L1|(d & L1 & K1)].
    - rewrite L1 in F. cbn in F. subst. rewrite <- F in *. pose proof (ci_k _ _ _ I1) as Ik. rewrite L1 in Ik. rewrite Ik in Kl. subst k.
      exists [], s1. rewrite app_nil_r. split; auto. split; [|split; [contradiction|]].
      + unfold settled. cbn. rewrite Q1, L1, Ik. auto.
      + rewrite <- D. auto.
    - rewrite L1 in F. cbn in F. assert (o = Some d) as -> by congruence. rewrite K1 in Kl. subst k.
      exists [(KStart, [Dial d (id_for cf d)])]. eexists. split; [eapply cruns_app; eauto; cbn; rewrite L1, K1; reflexivity|]. split; [|split].
      + unfold settled. cbn. rewrite Q1, L1. auto.
      + intros x l [[= <- <-]|[]]. unfold own_step; auto.
      + rewrite link_snoc, Ek. reflexivity. }
  (* one step before *)
  assert (P1 : forall tr1 s1 x s2, cruns cf tr1 s1 -> latest tr1 = latest tr -> cexec cf s1 x = Some (s2, []) -> own_step x -> (forall st, x <> CState st) -> c_loop s2 <> LOff -> c_queue s2 = [] -> c_loop s2 = LWait \/ (exists d, c_loop s2 = LRun d /\ c_k s2 = KNew) ->
    exists b s', cruns cf (tr1 ++ b) s' /\ settled cf s' /\ (forall x l, In (x, l) b -> own_step x) /\ match o with Some d => link (tr1 ++ b) = Some (Dialing d) | None => link (tr1 ++ b) = Some Off end).
  { intros tr1 s1 x s2 H1 E1 X O NS N Q L. pose proof (cruns_app _ _ _ _ _ _ H1 X) as H2.
    destruct (P _ _ H2) as (b & s' & R & S & B & K); auto.
    - rewrite latest_snoc. destruct x; auto. destruct (NS st eq_refl).
    - exists ((x, []) :: b), s'. rewrite <- app_assoc in *. cbn [app] in *. split; auto. split; auto. split; auto. intros y l [[= <- <-]|I]; eauto. }
  pose proof (cinv_runs _ _ _ H) as I. pose proof (ci_k _ _ _ I) as Ik.
  (* at the end of a block *)
  assert (N : forall tr1 s1 t, cruns cf tr1 s1 -> latest tr1 = latest tr -> c_loop s1 = LClosing t -> over (c_k s1) ->
    exists b s', cruns cf (tr1 ++ b) s' /\ settled cf s' /\ (forall x l, In (x, l) b -> own_step x) /\ match o with Some d => link (tr1 ++ b) = Some (Dialing d) | None => link (tr1 ++ b) = Some Off end).
  { intros tr1 s1 t H1 E1 L1 O1. destruct (down _ _ _ H1 O1) as (b & s2 & R & K2 & L2 & Q2 & B & La & Al). rewrite L1 in L2.
    destruct (P1 _ s2 LNext (serve s2 (newest_of t (c_queue s2))) R) as (b' & s' & R' & S' & B' & K'); auto.
    - congruence.
    - cbn. now rewrite L2, K2.
    - unfold own_step; auto.
    - discriminate.
    - unfold serve. destruct (newest_of t (c_queue s2)); discriminate.
    - unfold serve. destruct (newest_of t (c_queue s2)); reflexivity.
    - unfold serve. destruct (newest_of t (c_queue s2)); cbn; eauto.
    - exists (b ++ b'), s'. rewrite app_assoc. split; auto. split; auto. split; auto. intros x l X. apply in_app_iff in X. destruct X; eauto. }
  assert (T2 : forall tr1 s1, cruns cf tr1 s1 -> latest tr1 = latest tr -> c_loop s1 = LWait -> exists b s', cruns cf (tr1 ++ b) s' /\ settled cf s' /\ (forall x l, In (x, l) b -> own_step x) /\ match o with Some d => link (tr1 ++ b) = Some (Dialing d) | None => link (tr1 ++ b) = Some Off end).
  { intros tr1 s1 H1 E1 L1. destruct (c_queue s1) as [|q0 q] eqn:Q1.
    - apply (P _ s1); auto. congruence.
    - apply (P1 _ s1 LTake (serve s1 (newest_of None (c_queue s1)))); auto.
      + cbn. now rewrite Q1, L1.
      + unfold own_step; auto.
      + discriminate.
      + unfold serve. destruct (newest_of None (c_queue s1)); discriminate.
      + unfold serve. destruct (newest_of None (c_queue s1)); reflexivity.
      + unfold serve. destruct (newest_of None (c_queue s1)); cbn; eauto. }
  rewrite (ci_alive _ _ _ I) in A. destruct (c_loop s) as [| | |d|t] eqn:L; try discriminate.
  - assert (X : cexec cf s LStart = Some (with_loop s (c_queue s) LWait (c_k s), [])) by (cbn; now rewrite L).
    pose proof (cruns_app _ _ _ _ _ _ H X) as H1. destruct (T2 _ _ H1) as (b & s' & R & S & B & K); auto.
    + now rewrite latest_snoc.
    + exists ((LStart, []) :: b), s'. rewrite <- app_assoc in *. cbn [app] in *. split; auto. split; auto. split; auto. intros x l [[= <- <-]|Y]; [unfold own_step; auto|eauto].
  - apply (T2 _ s); auto.
  - destruct (cexec cf s LTake) as [[s1 l1]|] eqn:X.
    2:{ exfalso. destruct T as [T|T]; [congruence|]. exact (T d eq_refl). }
    pose proof X as X'. cbn [cexec] in X'. rewrite L in X'. destruct (c_queue s) as [|q0 q] eqn:Q; [discriminate|]. injection X' as <- <-.
    pose proof (cruns_app _ _ _ _ _ _ H X) as H1. destruct (N _ _ _ H1 (latest_snoc _ _ _) eq_refl (over_cancel _)) as (b & s' & R & S & B & K).
     exists ((LTake, []) :: b), s'. rewrite <- app_assoc in *. cbn [app] in *. split; auto. split; auto. split; auto. intros x l [[= <- <-]|Y]; [unfold own_step; auto|eauto].
  - apply (N _ s t); auto.
Qed.

(** ** Runners *)

Lemma run_cclosed : forall cf s o s' l, cexec cf s o = Some (s', l) -> In CClosed l -> o = KClientClosed /\ exists e, c_k s = KDownC e.
Proof.
  intros cf s o s' l E I.
  destruct o; cbn [cexec] in E;
    repeat match type of E with context [match ?x with _ => _ end] => destruct x eqn:?; try discriminate end;
    injection E as <- <-; cbn in I; repeat destruct I as [I|I]; try discriminate; try contradiction; eauto.
Qed.

Lemma final_C55_partial : forall cf tr s o s' l d, cruns cf tr s -> cexec cf s o = Some (s', l) -> In CClosed l -> link tr = Some (Running d) -> pending tr = true.
Proof.
  intros cf tr s o s' l d H E I L. apply cinv_runs in H. destruct (run_cclosed _ _ _ _ _ E I) as (-> & e & K).
  destruct (ci_link _ _ _ H) as (k & Ek & Kl). unfold k_link in Kl. rewrite K in Kl. destruct Kl as (d' & _ & Kl). assert (k = Running d) as -> by congruence.
  destruct Kl as [[X _]|[[X _]|[_ X]]]; auto; discriminate.
Qed.

(** ** Reconnecting *)

Lemma final_C56_partial : forall cf tr s d, cruns cf tr s -> states_ok tr -> alive tr = true -> settled cf s -> choice cf tr (Some d) -> gave_up tr = false -> ~ closed_itself tr ->
  link tr = Some (Dialing d) \/ link tr = Some (Calling d) \/ link tr = Some (Running d) \/
  exists o s' i, (o = KStart \/ o = KWake) /\ cexec cf s o = Some (s', [Dial d i]).
Proof.
  intros cf tr s d H W A S C G Z. pose proof H as H0. apply cinv_runs in H. pose proof (not_over_settled _ _ _ H S) as N. rewrite (ci_alive _ _ _ H) in A.
  apply choice_spec in C; auto. destruct (c_loop s) as [| | |d'|t] eqn:L; try discriminate; try contradiction.
  - exfalso. destruct (ci_follow _ _ _ H) as (Q & D & F); [congruence|]. rewrite L, N in F. cbn in F. rewrite (ci_state _ _ _ H) in D. congruence.
  - destruct (ci_follow _ _ _ H) as (Q & D & F); [congruence|]. rewrite L, N in F. cbn in F. rewrite (ci_state _ _ _ H) in D. assert (d' = d) as -> by congruence.
    destruct (ci_link _ _ _ H) as (k & Ek & Kl). unfold k_link in Kl. rewrite Ek, L in *. destruct S as (_ & _ & _ & S4 & S5). cbn [cexec] in S4, S5.
    pose proof (ci_gave _ _ _ H d L) as Ig. unfold over in Ig.
    destruct (c_k s) as [| | | | | | |[]|] eqn:K; try discriminate.
    + right; right; right. exists KStart, (with_k s KConnect), (id_for cf d). split; auto. cbn. now rewrite L, K.
    + left. destruct Kl as (d' & X & ->). congruence.
    + right; right; right. exists KWake, (with_k s KConnect), (id_for cf d). split; auto. cbn. now rewrite L, K.
    + right; left. destruct Kl as (d' & X & ->). congruence.
    + right; right; left. destruct Kl as (_ & d' & X & ->). congruence.
    + right; right; left. destruct Kl as (_ & d' & X & ->). congruence.
    + exfalso. destruct Ig; auto. congruence.
Qed.

(** ** Closing itself *)

Lemma final_C57_only : forall cf tr s o s' l, cruns cf tr s -> cexec cf s o = Some (s', l) -> In CloseSelf l ->
  (In KEnds (since_call tr) \/ In KRaise (since_call tr)) /\ c_open s' = false.
Proof.
  intros cf tr s o s' l H E I. apply cinv_runs in H. pose proof (ci_failed _ _ _ H) as If. pose proof (ci_ends _ _ _ H) as Ie.
  destruct o; cbn [cexec] in E.
  18: { destruct (c_k s) as [| | | | |b e| | |] eqn:K; try discriminate. destruct ((cl || rn) && implb cl b && implb rn e) eqn:B; try discriminate.
        destruct (rn && negb cl) eqn:R; injection E as <- <-; [|contradiction]. split; auto. left.
        apply andb_true_iff in R. destruct R as [-> _]. apply andb_true_iff in B. destruct B as [_ B]. destruct e; [auto|discriminate]. }
  all: repeat match type of E with context [match ?x with _ => _ end] => destruct x eqn:?; try discriminate end;
    injection E as <- <-; cbn in I; repeat destruct I as [I|I]; try discriminate; try contradiction.
  split; auto. right. destruct If; auto.
Qed.
Lemma final_C57_when : forall cf tr s cl rn s' l, cruns cf tr s -> cexec cf s (KNotice cl rn) = Some (s', l) -> ~ In KLost (since_call tr) -> l = [CloseSelf] /\ c_open s' = false.
Proof.
  intros cf tr s cl rn s' l H E N. apply cinv_runs in H. pose proof (ci_lost _ _ _ H) as Il. cbn [cexec] in E.
  destruct (c_k s) as [| | | | |b e| | |] eqn:K; try discriminate. assert (b = false) as -> by (destruct b; auto; exfalso; apply N; now apply Il).
  destruct cl, rn; cbn in E; try discriminate. destruct e; try discriminate. cbn in E. injection E as <- <-. auto.
Qed.
Lemma final_C57_again : forall cf tr s cl rn s' l, cruns cf tr s -> cexec cf s (KNotice cl rn) = Some (s', l) -> ~ In KEnds (since_call tr) -> l = [] /\ c_open s' = c_open s.
Proof.
  intros cf tr s cl rn s' l H E N. apply cinv_runs in H. pose proof (ci_ends _ _ _ H) as Ie. cbn [cexec] in E.
  destruct (c_k s) as [| | | | |b e| | |] eqn:K; try discriminate. destruct e; [contradiction|].
  destruct cl, rn; cbn in E; try discriminate; destruct b; try discriminate; cbn in E; injection E as <- <-; auto.
Qed.
Lemma final_C57_raise : forall cf tr s s' l s2 l2, cruns cf tr s -> cexec cf s KRaise = Some (s', l) -> cexec cf s' KClientClosed = Some (s2, l2) -> l2 = [CClosed; CloseSelf] /\ c_open s2 = false.
Proof.
  intros cf tr s s' l s2 l2 H E E2. cbn [cexec] in E. destruct (c_k s); try discriminate. injection E as <- <-. cbn in E2. injection E2 as <- <-. auto.
Qed.
