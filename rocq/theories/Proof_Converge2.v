(** Two servers that are left alone: every step brings them nearer to the end. *)
From Coq Require Import String Bool ZArith Arith Lia Sorted Permutation List.
From Verif Require Import Base Kv Model_Types Model_Codec Keys Spec_Order Proof_Order Model_Lmdb Model_LmdbSys Spec_Lmdb Spec_LmdbContent Spec_LmdbQuery
  Proof_Lmdb3 Proof_Lmdb4 Proof_Lmdb7 Proof_Lmdb8 Proof_Lmdb9 Proof_Lmdb10 Proof_Lmdb12 Proof_Lmdb13 Proof_Lmdb14 Proof_Lmdb15 Model_LmdbFlush Spec_LmdbFlush Proof_LmdbFlush Proof_LmdbFlush4
  Model_Sync Spec_Sync Proof_Sync Proof_Sync2 Proof_Sync3 Proof_Sync4 Proof_Sync5 Proof_Sync6 Proof_Sync7 Model_Replica Spec_Replica Proof_Replica Proof_Replica2 Proof_Replica3 Proof_Replica4 Proof_Replica5
  Model_Pair Spec_Pair Proof_Pair Proof_Pair2 Proof_Pair3 Proof_Pair4 Proof_Pair5 Proof_Pair6 Proof_Pair7 Proof_Pair8 Spec_Converge Proof_Converge.
Import ListNotations.
Open Scope list_scope.
Open Scope nat_scope.

(** ** Steps *)

Inductive dgo (OA OB : oracle) (sv : Z) : pstate -> dstep -> pstate -> Prop :=
| go_remote : forall F top q us c s o xs l F' c' q', fexec OA F o = Some (F', xs, l) -> usual sv top us o -> returned q o xs (notice sv c l) = (c', q') ->
    dgo OA OB sv (PState F top q us c s) (DRemote (o, xs, l)) (PState F' (top_after sv top o) q' (used_after us o) c' s)
| go_ask : forall F top us c s last q x, r_req c = Some last -> ~ In q us -> exec OA (f_sys F) (OServer q (client_query sv last)) = Some (x, Quiet) ->
    dgo OA OB sv (PState F top None us c s) (DAsk q (client_query sv last))
      (PState (set_sys F x) top (Some q) (q :: us) (y_remote c (r_stored c) (r_top c) (r_lag c) (r_up c) None (r_resp c) (r_chan c)) s)
| go_client : forall F top q us c s o l c' xs s', client_op o = true ->
    yexec sv (get_last_event_id (m_sys (s_mem s)) sv) c o = Some (c', l) -> runs OB s xs s' -> map fst xs = map ORegister (batches_in l) ->
    dgo OA OB sv (PState F top q us c s) (DClient (o, l) xs) (PState F top q us c' s')
| go_not : forall st x st', ~ of_itself st x -> dgo OA OB sv st x st'.

Lemma pair_snoc : forall OA OB cfA cfB sv tr x st', pair OA OB cfA cfB sv (tr ++ [x]) st' -> exists st, pair OA OB cfA cfB sv tr st /\ dgo OA OB sv st x st'.
Proof.
  intros * H. remember (tr ++ [x]) as t eqn:E.
  destruct H as [a b Ha Hb|tr0 F top q us c s o xs l F' c' q' H He Hu Hr|tr0 F top us c s last q y H Hq Hn He
    |tr0 F top q us c s o l c' xs s' H Ho Hy Hr Hm|tr0 F top q us c s o y s' H He Hb Hr|tr0 F top q us c s H|tr0 F top q us c s cf y r H He];
    [destruct tr; discriminate|..]; apply app_inj_tail in E as [<- <-]; eexists; (split; [exact H|]);
    try (econstructor; eauto; fail); apply go_not; intros [].
Qed.

(** ** What is left to do *)

Definition jobw (j : job) : nat := match j with JFlush _ | JCleanup _ => 1 | _ => 2 end.
Definition msgw (m : ymsg) : nat := match m with YNote _ => 2 | YResult _ => 1 end.
Fixpoint sum {A : Type} (f : A -> nat) (l : list A) : nat := match l with [] => 0 | x :: l' => f x + sum f l' end.
Definition some {A : Type} (l : list A) (n : nat) : nat := match l with [] => 0 | _ => n end.
Definition trig (F : fstate) : nat := match f_reg F, f_queue F with [], [] => 0 | _, _ => 10 end.
Definition closing (F : fstate) (fin : bool) : nat := if f_open F || fin then 0 else 10.
Definition loopw (F : fstate) : nat :=
  3 * length (f_reg F) +
  match f_loop F with
  | LWait => trig F + closing F false
  | LGo _ fin => 6 + some (f_queue F) 10 + closing F fin
  | LWrite _ bs fin => 3 + 3 * length bs + trig F + closing F fin
  | LNotify _ bs fin => 2 + 3 * length bs + trig F + closing F fin
  | LDone => 0
  end.
Definition sysw (s : sys) : nat := sum jobw (s_jobs s) + length (s_ready s).
Definition remotew (F : fstate) : nat := loopw F + sysw (f_sys F).

Definition extra (m : bool) : nat := if m then 12 else 0.
Definition left_over (U : list event) (i : event_id) : nat := length (filter (newer i) U).
Definition pagew (U : list event) (i : event_id) (q : query_result) : nat :=
  20 * left_over U (last_id i (qr_events q)) + length (qr_events q) + 5 + extra (qr_more q).
Definition phasew (U : list event) (query : option nat) (c : ystate) : nat :=
  match y_phase c with
  | PNew => 20 * length U + (if r_up c then 13 else 14)
  | PConn => 20 * left_over U (y_last c) + 12
  | PAsk => match wired c with
            | q :: _ => pagew U (y_last c) q
            | [] => 20 * left_over U (y_last c) + match query with Some _ => 8 | None => 11 end
            end
  | PResp q => pagew U (y_last c) q
  | PSync => 20 * left_over U (last_id (y_last c) (y_ev c)) + 4 + extra (y_more c)
  | PLoop => 20 * left_over U (y_last c) + 3 + extra (y_more c)
  | PFinal => 2
  | PDrain => 1
  | PDone | PEnd => 0
  end.
Definition queuew (c : ystate) : nat := match y_queue c with Some q => length q | None => 0 end.
Definition restw (c : ystate) : nat :=
  length (y_ev c) + sum msgw (r_chan c) + match r_resp c with Some _ => 2 | None => 0 end + (if y_busy c then 1 else 0) + queuew c.
Definition clientw (U : list event) (query : option nat) (c : ystate) : nat := phasew U query c + restw c.
Definition todo (sv : Z) (tr : list dstep) (st : pstate) : nat :=
  remotew (d_remote st) + clientw (taken_own sv (remote_part tr)) (d_query st) (d_client st).

Lemma sum_app : forall (A : Type) (f : A -> nat) a b, sum f (a ++ b) = sum f a + sum f b.
Proof. intros A f a b. induction a as [|x a IH]; cbn [app sum]; lia. Qed.

(** ** Events that are left *)

Lemma left_all : forall U i, left_over U i <= length U.
Proof. intros U i. unfold left_over. induction U as [|e U IH]; cbn [filter length]; [lia|]. destruct (newer i e); cbn [length]; lia. Qed.

Lemma filter_split : forall (A : Type) (p q : A -> bool) l, (forall x, q x = true -> p x = true) ->
    length (filter p l) = length (filter q l) + length (filter (fun x => p x && negb (q x)) l).
Proof.
  intros A p q l H. induction l as [|x l IH]; [reflexivity|]. cbn [filter]. specialize (H x). destruct (q x).
  - rewrite H by reflexivity. cbn [andb negb length]. lia.
  - destruct (p x); cbn [andb negb length]; lia.
Qed.

Lemma left_page : forall U i es, incl es U -> NoDup es -> above i es -> increasing es -> length es + left_over U (last_id i es) <= left_over U i.
Proof.
  intros U i es HI HN HA HS. unfold left_over.
  rewrite (filter_split _ (newer i) (newer (last_id i es))).
  - enough (length es <= length (filter (fun x => newer i x && negb (newer (last_id i es) x)) U)) by lia.
    apply NoDup_incl_length; [exact HN|]. intros e He. apply filter_In. split; [now apply HI|]. unfold above in HA. rewrite Forall_forall in HA. unfold newer at 1. rewrite (HA e He).
    pose proof (last_id_max i es HS e He) as M. rewrite eid_leb_ltb in M. unfold newer. exact M.
  - intros x Hx. unfold newer in *. eapply leb_ltb_trans; [|exact Hx]. now apply last_id_above.
Qed.

(** ** The client *)

Ltac fields := cbn [y_set y_remote y_phase y_ev r_chan r_resp r_up r_req y_busy y_queue y_more y_last fst snd] in *.

Lemma dturn_less : forall U query s s' l, dturn s s' l -> clientw U query s' + length (y_ev s) <= restw s.
Proof.
  intros U query s s' l [q es q' E _|E].
  - apply next_queued_len in E. unfold clientw, phasew, restw, queuew. fields. destruct (y_queue s); cbn [length] in *; lia.
  - unfold clientw, phasew, restw, queuew. fields. cbn [length]. lia.
Qed.

Lemma turn_less : forall U s s' l, wired s = [] -> turn s s' l -> clientw U None s' < 20 * left_over U (y_last s) + 3 + extra (y_more s) + restw s.
Proof.
  intros U s s' l W [e r E N|M H|e r M E H|M E].
  - unfold clientw, phasew, restw, queuew. fields. rewrite E. pose proof (span_len e r). cbn [length]. lia.
  - unfold clientw, phasew, restw, queuew, ask. fields. unfold wired in *. fields. rewrite W, M. cbn [extra]. lia.
  - unfold clientw, phasew, restw, queuew. fields. cbn [length]. lia.
  - pose proof (dturn_less U None s _ _ (drain_turn s)). lia.
Qed.

Lemma phase_same : forall U query c c', y_phase c' = y_phase c -> r_up c' = r_up c -> y_last c' = y_last c -> y_ev c' = y_ev c -> y_more c' = y_more c -> wired c' = wired c ->
    phasew U query c' = phasew U query c.
Proof. intros U query c c' H1 H2 H3 H4 H5 H6. unfold phasew. now rewrite H1, H2, H3, H4, H5, H6. Qed.

Lemma client_less : forall sv U L query c o c' l, shape sv U query c -> client_op o = true -> yexec sv L c o = Some (c', l) ->
    clientw U query c' < clientw U query c.
Proof.
  intros sv U L query c o c' l [S1 S2 S3] Ho H. apply yexec_case in H as [HP H].
  destruct H as [b G|i|b lag E1 E2|b lag E1 E2|E|k i E|q E|E1 E2|E|s' l E T|s' l E T|s' l E T|q E1 E2 E3|q s' l E1 E2 T|b chan q E1 E2 E3|b chan E1 E2 E3|q chan E1 E2 E3|q chan E1 E2 E3|E|];
    try discriminate Ho.
  - unfold clientw, phasew, restw, queuew. fields. rewrite (S1 E), E. lia.
  - unfold clientw. rewrite (phase_same U query c); try reflexivity.
    + unfold restw, queuew. fields. rewrite E, sum_app. cbn [sum msgw]. lia.
    + unfold wired. fields. rewrite results_app, E. cbn [results_of flat_map app]. now rewrite app_nil_r.
  - rewrite E1 in S3. destruct S3 as [_ S3]. unfold clientw, phasew, restw, queuew. fields. rewrite E1, E2, S3. pose proof (left_all U L). cbn [length]. lia.
  - rewrite E in S3. destruct S3 as [(S4 & S5 & S6) S7]. subst query. unfold clientw, phasew, restw, queuew, ask. fields. rewrite E. unfold wired in *. fields. rewrite S6. lia.
  - rewrite E in S3. destruct S3 as (S4 & S5 & S6). subst query. apply turn_less with (U := U) in T; [|exact S6]. unfold updated in T. fields. unfold clientw at 2, phasew. rewrite E.
    unfold restw, queuew in *. fields. lia.
  - rewrite E in S3. destruct S3 as (S4 & S5 & S6). subst query. apply turn_less with (U := U) in T; [|exact S6]. unfold clientw at 2, phasew. rewrite E. lia.
  - assert (S4 : y_ev c = []) by (destruct E as [E|E]; rewrite E in S3; tauto). pose proof (dturn_less U query _ _ _ T) as D. unfold clientw at 2, phasew.
    rewrite S4 in *. cbn [length] in *.
    destruct E as [E|E]; rewrite E; lia.
  - rewrite E1 in S3. destruct S3 as [(S4 & S5 & S6) S7]. unfold clientw, phasew, restw, queuew, woken, pagew. fields. rewrite E1, last_id_app, S7, app_length. lia.
  - rewrite E1 in S3. destruct S3 as [(S4 & S5 & S6) S7]. subst query. apply turn_less with (U := U) in T; [|exact S6]. unfold updated, woken in T. fields. unfold clientw at 2, phasew, pagew. rewrite E1.
    rewrite last_id_app, S7 in T. unfold restw, queuew in *. fields. rewrite app_length in T. lia.
  - unfold clientw. rewrite (phase_same U query c); try reflexivity.
    + unfold restw, queuew. fields. rewrite E2, E3, app_length. cbn [sum msgw length]. lia.
    + unfold wired. fields. now rewrite E2.
  - unfold clientw. rewrite (phase_same U query c); try reflexivity.
    + unfold restw, queuew. fields. rewrite E1, E2, E3. cbn [sum msgw length]. lia.
    + unfold wired. fields. now rewrite E2.
  - unfold clientw, phasew, restw, queuew. fields. rewrite E2, E3. unfold wired. rewrite E2. cbn [results_of flat_map app sum msgw]. lia.
  - exfalso. assert (W : wired c = []) by (destruct (y_phase c); try (now destruct HP); try (now destruct E3); unfold nothing in S3; tauto).
    unfold wired in W. rewrite E2 in W. discriminate.
  - unfold clientw. rewrite (phase_same U query c); try reflexivity. unfold restw, queuew. fields. rewrite E. lia.
Qed.

(** ** The remote *)

Lemma taken_same : forall sv A o r, (forall es, o <> ORegister es) -> (forall cf, o <> OReopen cf) -> taken_own sv (A ++ [(o, r)]) = taken_own sv A.
Proof.
  intros sv A o r H1 H2. unfold taken_own. f_equal. wr. destruct (write_run A) as [[en go] wa].
  destruct o; try reflexivity; try (exfalso; now eapply H1); try (exfalso; now eapply H2).
  - cbn [write_step fst snd]. rewrite concat_app. cbn [concat]. now rewrite !app_nil_r.
  - destruct r; try reflexivity. cbn [write_step fst snd]. destruct go as [|g go]; cbn [hd tl concat]; now rewrite <- ?app_assoc, ?app_nil_r.
Qed.

Lemma notice_most : forall sv U query c l, clientw U query (notice sv c l) <= clientw U query c + 2 * match l with [Flushed _] => 1 | _ => 0 end.
Proof.
  intros sv U query c l. unfold notice. destruct l as [|[b|n k] [|x l]]; try lia. destruct (own sv b) as [|e es]; [lia|]. destruct (r_up c) eqn:EU; [|lia].
  unfold clientw. rewrite (phase_same U query c); try reflexivity; try (symmetry; exact EU).
  - unfold restw, queuew. fields. rewrite sum_app. cbn [sum msgw]. lia.
  - unfold wired. fields. rewrite results_app. cbn [results_of flat_map]. now rewrite app_nil_r.
Qed.

Lemma take_ready_less : forall n l r l', take_ready n l = Some (r, l') -> length l = S (length l').
Proof. intros n l r l' H. apply take_ready_perm in H as [H _]. now apply Permutation_length in H. Qed.

Lemma work_less : forall O s x r, exec O s OWork = Some (x, r) -> s_jobs s <> [] -> sysw x < sysw s.
Proof.
  intros O s x r H Hj. cbn [exec] in H. unfold work in H. unfold sysw. destruct (s_jobs s) as [|[c|now|q p max g|q p part sub max g pre f] js]; [congruence|..].
  - injection H as <- <-. cbn [done_ s_jobs s_ready sum jobw]. lia.
  - destruct (cleanup _ _ _ _). injection H as <- <-. cbn [done_ s_jobs s_ready sum jobw]. lia.
  - destruct (query_refs _ _ _ _ _); [|discriminate]. injection H as <- <-. cbn [done_ s_jobs s_ready sum jobw]. rewrite app_length. cbn [length]. lia.
  - destruct (query_stored _ _ _ _ _ _). injection H as <- <-. cbn [done_ s_jobs s_ready sum jobw]. rewrite app_length. cbn [length]. lia.
Qed.

(** The answer to the client's query. *)
Lemma deliver_page : forall OA OB cfA cfB sv tr F top n us c s x r, paired OA OB cfA cfB sv tr (PState F top (Some n) us c s) -> restarts_ok cfA sv tr ->
    exec OA (f_sys F) (ODeliver n) = Some (x, r) -> exists q, r = Answer (Some q) /\ (qr_more q = true -> qr_events q <> []).
Proof.
  intros * (HP & PO & CA & EA & KA & CB & EB) RO Hx. destruct (pair_joint _ _ _ _ _ _ _ HP PO CA EA KA CB EB RO) as (tr' & y & J).
  pose proof (pair_numbers _ _ _ _ _ _ _ HP) as [HN _]. cbn [d_remote d_query d_client] in *.
  cbn [exec] in Hx. destruct (take_ready n (s_ready (f_sys F))) as [[w rs]|] eqn:Et; [|discriminate]. injection Hx as <- <-.
  apply take_ready_perm in Et as [P E]. unfold numbers in HN.
  assert (Hin : In w (s_ready (f_sys F))) by (eapply Permutation_in; [symmetry; exact P|now left]).
  pose proof (j_q _ _ _ _ _ _ _ _ _ _ _ _ _ _ J) as (A1 & A2 & last & max & g & A3 & A4).
  destruct A4 as [(A5 & _)|(es & res & A5 & A6 & A7 & A8)].
  { exfalso. assert (B1 : In n (flat_map jq (s_jobs (f_sys F)))) by (apply in_flat_map; eexists; split; [exact A5|now left]).
    assert (B2 : In n (map ready_id (s_ready (f_sys F)))) by (rewrite <- E; now apply in_map).
    revert HN B1 B2. generalize (flat_map jq (s_jobs (f_sys F))) (map ready_id (s_ready (f_sys F))). clear. intros a. induction a as [|z a IH]; intros b H B1 B2; [destruct B1|].
    cbn [app] in H. inversion H as [|? ? X1 X2]; subst. destruct B1 as [->|B1]; [apply X1; apply in_or_app; now right|eauto]. }
  assert (w = RServer n (client_query sv last) max g es) as -> by (eapply nodup_ready; eauto; eapply nodup_right; eauto).
  cbn [finish]. rewrite A6. exists res. split; [reflexivity|]. intros M. specialize (A6 []). unfold server_query_finish in A6. cbn [client_query qs_persisted negb andb] in A6.
  apply start_max in A3 as [-> _]. destruct (Z.ltb 4096 (zlen es)) eqn:L; [|injection A6 as <-; discriminate M]. cbn [Z.ltb Z.compare] in A6. injection A6 as <-.
  cbn [qr_events]. destruct es as [|e es]; [discriminate L|]. unfold take. replace (Z.to_nat 4096) with (S (Z.to_nat 4095)) by lia. discriminate.
Qed.

Lemma paired_pre : forall OA OB cfA cfB sv tr x st st', paired OA OB cfA cfB sv (tr ++ [x]) st' -> pair OA OB cfA cfB sv tr st -> paired OA OB cfA cfB sv tr st.
Proof.
  intros * (_ & PO & CA & EA & KA & CB & EB) HP. rewrite remote_snoc, near_snoc in *. destruct (ok_app _ _ _ CA EA) as [[CA1 EA1] _]. destruct (ok_app _ _ _ CB EB) as [[CB1 EB1] _].
  split; [exact HP|]. split; [exact PO|]. split; [exact CA1|]. split; [exact EA1|]. split; [eapply kept_app; eauto|]. auto.
Qed.

Ltac ffields := cbn [f_sys f_open f_qopen f_put f_queue f_gone f_used f_reg f_loop set_loop set_sys] in *.

Lemma loop_less : forall OA F o F' xs l, fexec OA F o = Some (F', xs, l) ->
    match o with FWake => f_reg F <> [] \/ f_queue F <> [] | FStart | FWrote | FNotify true | FAnswer | FCancel | FEnd => True | _ => False end ->
    remotew F' + 2 * match l with [Flushed _] => 1 | _ => 0 end < remotew F.
Proof.
  assert (NA : forall gone ok futs b, answers gone ok futs <> [Flushed b]).
  { intros gone ok futs b. unfold answers. induction futs as [|[n|] futs IH]; cbn [flat_map]; try discriminate; auto.
    destruct (memn n gone); cbn [app]; [exact IH|discriminate]. }
  assert (NB : forall gone ok futs, match answers gone ok futs with [Flushed _] => 1 | _ => 0 end = 0).
  { intros gone ok futs. specialize (NA gone ok futs). destruct (answers gone ok futs) as [|[b|] [|]]; try reflexivity. exfalso. now apply (NA b). }
  intros OA F o F' xs l H Ho. unfold remotew, loopw, trig, closing, some, sysw. destruct o; try (now destruct Ho); try destruct ok; try (now destruct Ho); finv H; ffields;
    rewrite ?NB; repeat match goal with E : f_loop F = _ |- _ => rewrite E end.
  all: try match goal with E : exec _ _ OFlush = Some _ |- _ => cbn [exec] in E; injection E as <- <-; cbn [s_jobs s_ready]; rewrite sum_app; cbn [sum jobw] end.
  all: repeat match goal with E : f_open _ = _ |- _ => rewrite E end; cbn [orb length].
  - destruct Ho as [Ho|Ho]; destruct (f_reg F), (f_queue F), (f_open F); cbn [length orb]; try congruence; lia.
  - destruct (f_reg F), (f_queue F), (f_open F || fin); cbn [length]; lia.
  - lia.
  - lia.
  - lia.
  - destruct (f_reg F), (f_queue F); cbn [length]; lia.
  - destruct (f_reg F), (f_queue F); cbn [length]; lia.
  - destruct (f_reg F), (f_queue F); cbn [length]; lia.
Qed.

Lemma restarts_pre : forall cf sv tr x, restarts_ok cf sv (tr ++ [x]) -> restarts_ok cf sv tr.
Proof. exact restarts_ok_snoc. Qed.

Lemma step_less : forall OA OB cfA cfB sv tr st x st', paired OA OB cfA cfB sv (tr ++ [x]) st' -> restarts_ok cfA sv (tr ++ [x]) -> pair OA OB cfA cfB sv tr st ->
    dgo OA OB sv st x st' -> of_itself st x ->
    taken_own sv (remote_part (tr ++ [x])) = taken_own sv (remote_part tr) /\ todo sv (tr ++ [x]) st' < todo sv tr st.
Proof.
  intros * HP' RO' HP HG HO. pose proof (paired_pre _ _ _ _ _ _ _ _ _ HP' HP) as HQ. pose proof (restarts_pre _ _ _ _ RO') as RO.
  pose proof (pair_shape _ _ _ _ _ _ _ HQ RO) as SH.
  destruct HG as [F top q us c s o xs l F' c' q' He Hu Hr|F top us c s last q x Hq Hn He|F top q us c s o l c' xs s' Ho Hy Hr Hm|st x st' Hn]; [| | |now destruct (Hn HO)].
  - assert (HU : taken_own sv (remote_part (tr ++ [DRemote (o, xs, l)])) = taken_own sv (remote_part tr)).
    { rewrite remote_snoc. cbn [remote_part flat_map]. rewrite app_nil_r. destruct (usual_fine _ _ _ _ Hu) as [U1 _].
      destruct (fexec_inner _ _ _ _ _ _ He U1) as [[-> _]|(p & r & -> & _ & [(es & -> & ->)|[[-> ->]|[-> Hp]]])]; [now rewrite app_nil_r|destruct HO| |];
        apply taken_same; try discriminate; intros ? ->; discriminate Hp. }
    split; [exact HU|]. unfold todo. rewrite HU. cbn [d_remote d_query d_client] in *. set (U := taken_own sv (remote_part tr)) in *.
    assert (Plain : (forall n, o <> FOther (ODeliver n)) -> c' = notice sv c l /\ q' = q).
    { intros Hn. assert (R0 : returned q o xs (notice sv c l) = (notice sv c l, q)).
      { destruct q as [n|]; [|reflexivity]. destruct o as [| | | | | |[]| | | | | | | |]; try reflexivity. exfalso. now eapply Hn. }
      rewrite R0 in Hr. injection Hr as <- <-. auto. }
    assert (Loop : (match o with FOther _ => False | _ => True end) -> remotew F' + clientw U q' c' < remotew F + clientw U q c).
    { intros Hn. destruct Plain as [-> ->]; [intros n ->; exact Hn|]. pose proof (notice_most sv U q c l) as N.
      assert (LL : remotew F' + 2 * match l with [Flushed _] => 1 | _ => 0 end < remotew F); [|lia].
      eapply loop_less; [exact He|]. destruct o; try exact HO; try exact I; try (now destruct HO); try (now destruct Hn); destruct ok; try exact I; exact Hu. }
    destruct o as [| | | | | |p| | | | | | | |]; try (apply Loop; exact I).
    destruct (other_set _ _ _ _ _ _ He) as (_ & x & r & Ex & -> & -> & ->). destruct p as [| | | | | | |n|]; try (now destruct HO).
    + destruct Plain as [-> ->]; [discriminate|]. cbn [notice]. pose proof (work_less _ _ _ _ Ex HO). unfold remotew, loopw, trig, closing. ffields. lia.
    + cbn [notice] in Hr. assert (RS : remotew (set_sys F x) < remotew F).
      { cbn [exec] in Ex. destruct (take_ready n (s_ready (f_sys F))) as [[w rs]|] eqn:Et; [|discriminate]. injection Ex as <- <-. apply take_ready_less in Et.
        unfold remotew, loopw, trig, closing, sysw. ffields. cbn [done_ s_jobs s_ready]. lia. }
      destruct q as [m|]; [|injection Hr as <- <-; lia]. unfold returned in Hr.
      destruct r as [|a| |]; try (injection Hr as <- <-; lia). destruct (Nat.eqb m n) eqn:E; [|injection Hr as <- <-; lia]. injection Hr as <- <-. apply Nat.eqb_eq in E as ->.
      destruct (deliver_page _ _ _ _ _ _ _ _ _ _ _ _ _ _ HQ RO Ex) as (q & [= ->] & M).
      pose proof (pair_shape _ _ _ _ _ _ _ HP' RO') as [S1' _ S3']. destruct SH as [S1 _ S3]. rewrite HU in S3'. cbn [d_query d_client] in *. fields.
      destruct (y_phase c) eqn:P; unfold nothing in S3; try (exfalso; destruct S3 as [S3 _]; try destruct S3 as [S3 _]; discriminate); try (now destruct S3).
      destruct S3 as (S3 & [(S4 & _)|[(_ & S4 & S5)|(S4 & _)]]); [discriminate| |discriminate].
      destruct S3' as (_ & [(_ & X & _)|[((? & X) & _)|(_ & _ & q2 & W & I1 & I2 & I3 & I4)]]); [congruence|discriminate|].
      assert (q2 = q) as ->.
      { unfold wired in *. fields. apply app_eq_nil in S5 as [S5 _]. rewrite S5 in W. now injection W. }
      unfold clientw, phasew. fields. rewrite P, S5, W. unfold pagew, restw, queuew. fields. pose proof (left_page _ _ _ I1 I2 I3 I4) as LP. unfold wired in S5. apply app_eq_nil in S5 as [_ S5].
      destruct (r_resp c); [discriminate|]. destruct (qr_more q); cbn [extra]; [specialize (M eq_refl); destruct (qr_events q); [congruence|]; cbn [length] in *|]; lia.
  - assert (HU : taken_own sv (remote_part (tr ++ [DAsk q (client_query sv last)])) = taken_own sv (remote_part tr)).
    { rewrite remote_snoc. cbn [remote_part flat_map app]. apply taken_same; discriminate. }
    split; [exact HU|]. unfold todo. rewrite HU. cbn [d_remote d_query d_client] in *. destruct SH as [_ _ S3].
    cbn [exec] in He. destruct (server_query_start _); [|discriminate]. injection He as <-.
    destruct (y_phase c) eqn:P; unfold nothing in S3; try (exfalso; assert (X : r_req c = None) by tauto; congruence); try (now destruct S3).
    destruct S3 as (S3 & [(_ & S4 & S5)|[((? & X) & _)|(_ & X & _)]]); [|discriminate|congruence].
    unfold remotew, loopw, trig, closing, sysw, clientw, phasew, restw, queuew. ffields. fields. rewrite P. unfold push. cbn [s_jobs s_ready]. rewrite sum_app. cbn [sum jobw].
    unfold wired in *. fields. rewrite S5. lia.
  - assert (HU : remote_part (tr ++ [DClient (o, l) xs]) = remote_part tr) by (rewrite remote_snoc; apply app_nil_r).
    split; [now rewrite HU|]. unfold todo. rewrite HU. cbn [d_remote d_query d_client] in *. pose proof (client_less _ _ _ _ _ _ _ _ SH Ho Hy). lia.
Qed.

Lemma many_less : forall OA OB cfA cfB sv tr st, restarts_ok cfA sv tr -> pair OA OB cfA cfB sv tr st -> forall D st', paired OA OB cfA cfB sv (tr ++ D) st' -> undisturbed OA OB cfA cfB sv tr D ->
    restarts_ok cfA sv (tr ++ D).
Proof.
  intros * RO _ D. induction D as [|x D IH] using rev_ind; intros st' HP HU; [now rewrite app_nil_r|].
  rewrite app_assoc in *. pose proof HP as (HP0 & _). destruct (pair_snoc _ _ _ _ _ _ _ _ HP0) as (s1 & H1 & _).
  assert (HX : of_itself s1 x) by (eapply HU; [reflexivity|exact H1]).
  intros a cf b E l e Hl. destruct b as [|y b _] using rev_ind.
  - apply app_inj_tail in E as [_ ->]. destruct HX.
  - change (a ++ DRestart cf :: b ++ [y]) with (a ++ (DRestart cf :: b) ++ [y]) in E. rewrite app_assoc in E. apply app_inj_tail in E as [E _].
    eapply (IH s1); [eapply paired_pre; eauto| |exact E|exact Hl].
    intros a' x' b' st1 E' H'. apply (HU a' x' (b' ++ [x]) st1); [|exact H']. now rewrite E', <- app_assoc.
Qed.
