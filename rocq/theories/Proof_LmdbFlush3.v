(** Flush loop of the LMDB backend: answers (C24). *)
From Coq Require Import String Bool ZArith Arith Lia List.
From Verif Require Import Base Model_Types Model_Lmdb Model_LmdbSys Spec_Lmdb Spec_LmdbContent Spec_LmdbQuery
  Proof_Lmdb8 Proof_Lmdb9 Proof_Lmdb10 Proof_Lmdb13 Model_LmdbFlush Spec_LmdbFlush Proof_LmdbFlush Proof_LmdbFlush2.
Import ListNotations.
Open Scope list_scope.
Open Scope nat_scope.

Lemma cnt_NoDup : forall l, (forall n, cnt n l <= 1) -> NoDup l.
Proof. intros l H. apply (NoDup_count_occ Nat.eq_dec). exact H. Qed.

Lemma final_C24_once : forall O cf tr0 tr s, lifetime O cf tr0 tr s ->
    NoDup (answered tr) /\ forall n, In n (answered tr) -> In (FCall n) (done_of tr).
Proof.
  intros O cf tr0 tr s H. pose proof (lifetime_fids _ _ _ _ _ H) as [I1 _ _ _ _]. split.
  - apply cnt_NoDup. intros n. specialize (I1 n). destruct (memn n (f_used s)); lia.
  - intros n Hn. specialize (I1 n). apply cnt_In in Hn. destruct (memn n (f_used s)) eqn:E; [|lia]. clear I1 Hn.
    revert s E H. induction tr as [|i tr IH] using rev_ind; intros s E H.
    + destruct H as (s0 & _ & _ & H & _). inversion H as [|? ? ? ? ? ? ? ? ? E0]; subst; [discriminate|].
      destruct tr; discriminate.
    + apply lifetime_snoc in H as (s1 & o & xs & l & -> & H & Hx & _). rewrite done_app, in_app_iff.
      destruct (memn n (f_used s1)) eqn:E1; [left; eauto|right]. destruct o; finv Hx; cbn [f_used set_sys set_loop] in E; try congruence.
      rewrite memn_app, E1, memn_one in E. apply Nat.eqb_eq in E. subst. now left.
Qed.

Lemma gone_given : forall O cf tr0 tr s n, lifetime O cf tr0 tr s -> In n (f_gone s) -> In (FGiveUp n) (done_of tr).
Proof.
  intros O cf tr0 tr. induction tr as [|i tr IH] using rev_ind; intros s n H E.
  - destruct H as (s0 & _ & _ & H & _). inversion H as [|? ? ? ? ? ? ? ? ? E0]; subst; [destruct E|].
    destruct tr; discriminate.
  - apply lifetime_snoc in H as (s1 & o & xs & l & -> & H & Hx & _). rewrite done_app, in_app_iff.
    destruct o; finv Hx; cbn [f_gone set_sys set_loop] in E; eauto.
    apply in_app_iff in E as [E|[->|[]]]; [left; eauto|right; now left].
Qed.

(** Where the future of a call is, after [k] turns of the loop. *)
Definition place (n k : nat) (tr : list fitem) (s : fstate) : Prop :=
  In n (answered tr) \/ memn n (f_gone s) = true \/
  (In (Some n) (futs_of (f_loop s)) /\ k <= 1) \/
  (In (Some n) (f_queue s) /\ f_loop s = LWait /\ k <= 1) \/
  (In (Some n) (f_queue s) /\ k = 0).

Lemma In_aids_answers : forall gone ok n l, In (Some n) l -> memn n gone = false -> In n (aids (answers gone ok l)).
Proof. intros. apply cnt_In. rewrite answers_cnt, H0. now apply cnt_In, In_ids. Qed.

Lemma place_step : forall O n k tr s o xs l s2, fids tr s -> place n k tr s -> fexec O s o = Some (s2, xs, l) ->
    place n (k + turns [(o, xs, l)]) (tr ++ [(o, xs, l)]) s2.
Proof.
  intros O n k tr s o xs l s2 [_ _ _ I4 _] [P|[P|P]] H.
  - left. rewrite answered_snoc, in_app_iff. auto.
  - right. left. destruct o; finv H; cbn [f_gone set_sys set_loop]; auto. rewrite memn_app, P. reflexivity.
  - unfold place. rewrite answered_snoc, in_app_iff.
    destruct (memn n (f_gone s)) eqn:G.
    { right. left. destruct o; finv H; cbn [f_gone set_sys set_loop]; auto. rewrite memn_app, G. reflexivity. }
    destruct o; finv H; cbn [turns done_of map filter List.length fst f_queue f_gone f_loop set_sys set_loop futs_of] in *;
      rewrite ?Nat.add_0_r;
      repeat match goal with E : f_loop s = _ |- _ => rewrite E in *; clear E end; cbn [futs_of] in *;
      try (destruct (I4 eq_refl) as (J1 & J2 & J3 & J4); subst; rewrite ?J3 in * );
      intuition (try discriminate; try contradiction).
    all: try (right; right; right; left; rewrite in_app_iff; auto; fail).
    all: try (right; right; right; right; rewrite in_app_iff; auto; fail).
    all: try (left; right; rewrite ?aids_flushed; apply In_aids_answers; rewrite ?in_app_iff; auto; fail).
    all: try (right; right; left; split; [auto|lia]; fail).
    right; right; right; left. split; [assumption|split; [reflexivity|lia]].
Qed.

Lemma place_run : forall O cf tr0 n tr1 tr2 s, lifetime O cf tr0 (tr1 ++ tr2) s ->
    (forall s1, lifetime O cf tr0 tr1 s1 -> place n 0 tr1 s1) -> place n (turns tr2) (tr1 ++ tr2) s.
Proof.
  intros O cf tr0 n tr1 tr2. induction tr2 as [|i tr2 IH] using rev_ind; intros s H H1.
  - rewrite app_nil_r in *. now apply H1.
  - rewrite app_assoc in *. apply lifetime_snoc in H as (s1 & o & xs & l & -> & H & Hx & _). rewrite turns_app.
    eapply place_step; eauto. eapply lifetime_fids; eauto.
Qed.

Lemma final_C24_rounds : forall O cf tr0 tr1 n xs l tr2 s,
    lifetime O cf tr0 (tr1 ++ (FPut n, xs, l) :: tr2) s -> 2 <= turns tr2 ->
    let tr := tr1 ++ (FPut n, xs, l) :: tr2 in
    In n (answered tr) \/ In (FGiveUp n) (done_of tr).
Proof.
  intros O cf tr0 tr1 n xs l tr2 s H Ht tr.
  assert (E : tr = (tr1 ++ [(FPut n, xs, l)]) ++ tr2) by (unfold tr; now rewrite <- app_assoc).
  fold tr in H. rewrite E in H. destruct (place_run O cf tr0 n (tr1 ++ [(FPut n, xs, l)]) tr2 s H) as [P|[P|P]].
  - intros s1 H1. apply lifetime_snoc in H1 as (s2 & o & ys & k & Ei & H1 & Hx & _). injection Ei as <- <- <-.
    unfold place. rewrite answered_snoc, in_app_iff. finv Hx; cbn [f_queue f_loop].
    + right; right; right; right. split; [|reflexivity]. apply in_app_iff. right. now left.
    + left. right. now left.
  - left. now rewrite E.
  - right. rewrite E. eapply gone_given; eauto. now apply memn_In.
  - exfalso. lia.
Qed.

Lemma ended_done : forall O cf tr0 tr s, lifetime O cf tr0 tr s -> In FEnd (done_of tr) -> f_loop s = LDone.
Proof.
  intros O cf tr0 tr. induction tr as [|i tr IH] using rev_ind; intros s H E; [destruct E|].
  apply lifetime_snoc in H as (s1 & o & xs & l & -> & H & Hx & _). rewrite done_app, in_app_iff in E. destruct E as [E|[E|[]]].
  - specialize (IH _ H E). destruct o; finv Hx; cbn [f_loop set_loop set_sys]; try congruence.
  - cbn in E. subst o. finv Hx. reflexivity.
Qed.

(** A closed backend with the loop ended has no waiting calls, except those
    about to be told. *)
Lemma final_C24_ended : forall O cf tr0 tr s n, lifetime O cf tr0 tr s -> In FEnd (done_of tr) -> In (FPut n) (done_of tr) ->
    In n (answered tr) \/ In (FGiveUp n) (done_of tr).
Proof.
  intros O cf tr0 tr s n H Hd Hp. apply (ended_done _ _ _ _ _ H) in Hd. apply in_map_iff in Hp as (((o & xs) & l) & E & Hin). cbn [fst] in E. subst o.
  apply in_split in Hin as (tr1 & tr2 & ->).
  pose proof (lifetime_fids _ _ _ _ _ H) as [_ _ _ I4 _]. rewrite Hd in I4. destruct (I4 eq_refl) as (J1 & J2 & J3 & _).
  assert (E : tr1 ++ (FPut n, xs, l) :: tr2 = (tr1 ++ [(FPut n, xs, l)]) ++ tr2) by now rewrite <- app_assoc.
  rewrite E in *. destruct (place_run O cf tr0 n (tr1 ++ [(FPut n, xs, l)]) tr2 s H) as [P|[P|P]].
  - intros s1 H1. apply lifetime_snoc in H1 as (s2 & o & ys & k & Ei & H1 & Hx & _). injection Ei as <- <- <-.
    unfold place. rewrite answered_snoc, in_app_iff. finv Hx; cbn [f_queue f_loop].
    + right; right; right; right. split; [|reflexivity]. apply in_app_iff. right. now left.
    + left. right. now left.
  - now left.
  - right. eapply gone_given; eauto. now apply memn_In.
  - exfalso. rewrite Hd, J3 in P. cbn in P. intuition discriminate.
Qed.

(** ** The loop gets round *)

Lemma scan_refs_some : forall O d stop l max, pick_ok O -> (forall i rs, In (i, rs) l -> rs <> []) ->
    scan_refs O d stop max l <> None.
Proof.
  intros O d stop l. induction l as [|[k rs] l IH]; intros max Ho Hl; cbn [scan_refs]; [discriminate|].
  destruct (Z.leb max 0); [discriminate|]. destruct (negb _); [discriminate|].
  destruct (Ho rs) as (r & -> & _); [apply (Hl k); now left|].
  assert (Hl' : forall i rs, In (i, rs) l -> rs <> []) by (intros i rs' Hin; apply (Hl i); now right).
  destruct (get_event d r); [|auto]. specialize (IH (max - 1)%Z Ho Hl'). destruct (scan_refs _ _ _ _ _); [discriminate|congruence].
Qed.

Lemma dropwhile_incl : forall (A : Type) (f : A -> bool) l x, In x (dropwhile f l) -> In x l.
Proof. induction l as [|a l IH]; cbn; intros x H; auto. destruct (f a); auto. Qed.

Lemma query_refs_some : forall O d srv max last, pick_ok O -> (forall i rs, In (i, rs) (db_ref d) -> rs <> []) ->
    query_refs O d srv max last <> None.
Proof.
  intros O d srv max last Ho Hl. unfold query_refs. cbv zeta. apply scan_refs_some; auto.
  intros i rs Hin. apply (Hl i). destruct (dropwhile _ _) as [|[k r] l'] eqn:E; [destruct Hin|].
  apply (dropwhile_incl _ (fun kv => eid_ltb (fst kv) match last with Some i => i | None => Eid srv 0 0 end)). rewrite E.
  destruct (eid_eqb k _); [now right|auto].
Qed.

Lemma work_total : forall O cf tr s, execution O cf tr s -> pick_ok O -> s_jobs s <> [] ->
    exists s2 x, exec O s OWork = Some (s2, x) /\ s_jobs s2 = tl (s_jobs s).
Proof.
  intros O cf tr s H Ho Hj. cbn [exec]. unfold work. destruct (s_jobs s) as [|[c|now|q p max g|q p part sub max g pre f] js]; [congruence| | | |].
  - eexists _, _. split; [reflexivity|reflexivity].
  - destruct (cleanup _ _ _ _). eexists _, _. split; reflexivity.
  - pose proof (query_refs_some O (s_disk s) (qs_server p) (max + 1)%Z (qs_last p) Ho) as Hq.
    destruct (query_refs _ _ _ _ _).
    + eexists _, _. split; reflexivity.
    + exfalso. apply Hq; auto. intros i rs Hin. eapply (proj1 (proj2 (final_C21 _ _ _ _ H))); eauto.
  - destruct (query_stored _ _ _ _ _). eexists _, _. split; reflexivity.
Qed.

Definition loop_steps (tr : list fitem) : Prop := Forall (fun o => loop_step o = true) (done_of tr).

Lemma lifetime_step : forall O cf tr0 tr s o s2 xs l, lifetime O cf tr0 tr s -> fexec O s o = Some (s2, xs, l) ->
    loop_step o = true -> lifetime O cf tr0 (tr ++ [(o, xs, l)]) s2.
Proof.
  intros O cf tr0 tr s o s2 xs l (s0 & A & B & C & D) H Ho. exists s0. split; [auto|]. split; [auto|]. split.
  - econstructor; eauto.
  - rewrite registered_snoc. apply Forall_app. split; auto. destruct o; try discriminate Ho; constructor.
Qed.

Lemma writes_ok_snoc : forall tr o xs l, writes_ok tr -> loop_step o = true -> writes_ok (tr ++ [(o, xs, l)]).
Proof.
  unfold writes_ok. intros tr o xs l H Ho Hin. rewrite done_app, in_app_iff in Hin. destruct Hin as [Hin|[Hin|[]]]; [auto|]. cbn in Hin. subst o. discriminate.
Qed.

Definition reach (O : oracle) (cf : conf) (tr0 : list (op * out)) (tr : list fitem) (P : list fitem -> fstate -> Prop) : Prop :=
  exists k s, lifetime O cf tr0 (tr ++ k) s /\ writes_ok (tr ++ k) /\ loop_steps k /\ P (tr ++ k) s.

Lemma reach_here : forall O cf tr0 tr s (P : _ -> _ -> Prop), lifetime O cf tr0 tr s -> writes_ok tr -> P tr s -> reach O cf tr0 tr P.
Proof. intros. exists [], s. rewrite app_nil_r. split; [auto|]. split; [auto|]. split; [constructor|auto]. Qed.

Lemma reach_step : forall O cf tr0 tr s o s2 xs l (P : _ -> _ -> Prop),
    fexec O s o = Some (s2, xs, l) -> loop_step o = true -> lifetime O cf tr0 tr s -> writes_ok tr ->
    (lifetime O cf tr0 (tr ++ [(o, xs, l)]) s2 -> writes_ok (tr ++ [(o, xs, l)]) -> reach O cf tr0 (tr ++ [(o, xs, l)]) P) ->
    reach O cf tr0 tr P.
Proof.
  intros O cf tr0 tr s o s2 xs l P Hx Ho H Hw Hk.
  destruct Hk as (k & s3 & A & B & C & D); [eapply lifetime_step; eauto|eapply writes_ok_snoc; eauto|].
  exists ((o, xs, l) :: k), s3. rewrite <- app_assoc in *. cbn [app] in *. split; [auto|]. split; [auto|]. split; [|auto].
  unfold loop_steps in *. cbn [done_of map fst]. constructor; auto.
Qed.

Lemma reach_trans : forall O cf tr0 tr (P Q : _ -> _ -> Prop), reach O cf tr0 tr P ->
    (forall tr2 s2, lifetime O cf tr0 tr2 s2 -> writes_ok tr2 -> prefix tr tr2 -> P tr2 s2 -> reach O cf tr0 tr2 Q) -> reach O cf tr0 tr Q.
Proof.
  intros O cf tr0 tr P Q (k & s & A & B & C & D) H. destruct (H _ _ A B (prefix_app _ _ _) D) as (k2 & s2 & A2 & B2 & C2 & D2).
  exists (k ++ k2), s2. rewrite app_assoc. split; [auto|]. split; [auto|]. split; [|auto].
  unfold loop_steps in *. rewrite done_app. apply Forall_app; auto.
Qed.

(** What a turn leaves of the futures. *)
Definition kept (s s2 : fstate) : Prop := f_put s2 = f_put s /\ f_gone s2 = f_gone s.
Definition turned (s : fstate) (futs : list (option nat)) (tr2 : list fitem) (s2 : fstate) : Prop :=
  (forall n, In (Some n) futs -> memn n (f_gone s) = false -> In n (answered tr2)) /\ kept s s2 /\
  ((f_loop s2 = LWait /\ f_queue s2 = f_queue s) \/
   (f_qopen s2 = false /\ forall n, In (Some n) (f_queue s) -> memn n (f_gone s) = false -> In n (answered tr2))).

Lemma turn_notify : forall O cf tr0 futs bs tr s, lifetime O cf tr0 tr s -> writes_ok tr -> f_loop s = LNotify futs bs false ->
    reach O cf tr0 tr (turned s futs).
Proof.
  intros O cf tr0 futs bs. induction bs as [|b bs IH]; intros tr s H Hw Hl.
  - destruct (f_open s) eqn:Eo.
    + eapply (reach_step _ _ _ _ s FAnswer); auto; [cbn [fexec]; rewrite Hl; reflexivity|].
      intros H2 Hw2. eapply reach_here; eauto. split; [|split].
      * intros n Hn Hg. rewrite answered_snoc, in_app_iff. right. now apply In_aids_answers.
      * split; reflexivity.
      * left. split; reflexivity.
    + eapply (reach_step _ _ _ _ s FCancel); auto; [cbn [fexec]; rewrite Hl, Eo; reflexivity|].
      intros H2 Hw2. eapply reach_here; eauto. split; [|split].
      * intros n Hn Hg. rewrite answered_snoc, in_app_iff. right. apply In_aids_answers; auto. apply in_app_iff. now left.
      * split; reflexivity.
      * right. split; [reflexivity|]. intros n Hn Hg. rewrite answered_snoc, in_app_iff. right. apply In_aids_answers; auto.
        apply in_app_iff. now right.
  - eapply (reach_step _ _ _ _ s (FNotify true)); auto; [cbn [fexec]; rewrite Hl; reflexivity|].
    intros H2 Hw2. exact (IH _ _ H2 Hw2 eq_refl).
Qed.

Lemma turn_write : forall O cf tr0 futs bs, pick_ok O -> forall j tr s, lifetime O cf tr0 tr s -> writes_ok tr -> f_loop s = LWrite futs bs false ->
    List.length (s_jobs (f_sys s)) = j -> reach O cf tr0 tr (turned s futs).
Proof.
  intros O cf tr0 futs bs Ho j. induction j as [|j IH]; intros tr s H Hw Hl Hj.
  - eapply (reach_step _ _ _ _ s FWrote); auto.
    + cbn [fexec]. rewrite Hl. unfold flush_done. destruct (s_jobs (f_sys s)); [reflexivity|discriminate].
    + intros H2 Hw2. exact (turn_notify _ _ _ _ _ _ _ H2 Hw2 eq_refl).
  - destruct (work_total _ _ _ _ (fl_exec _ _ _ _ _ (lifetime_flink _ _ _ _ _ H Hw)) Ho) as (y & x & Ew & Ej).
    { intros E. rewrite E in Hj. discriminate. }
    eapply (reach_step _ _ _ _ s (FOther OWork)); auto; [cbn [fexec other]; rewrite Ew; reflexivity|].
    intros H2 Hw2. apply (IH _ (set_sys s y) H2 Hw2); [exact Hl|]. cbn [set_sys f_sys]. rewrite Ej.
    destruct (s_jobs (f_sys s)); [discriminate|]. cbn in *. lia.
Qed.

Lemma turn_go : forall O cf tr0 futs tr s, pick_ok O -> lifetime O cf tr0 tr s -> writes_ok tr -> f_loop s = LGo futs false ->
    reach O cf tr0 tr (turned s futs).
Proof.
  intros O cf tr0 futs tr s Ho H Hw Hl.
  eapply (reach_step _ _ _ _ s FStart); auto; [cbn [fexec]; rewrite Hl; reflexivity|].
  intros H2 Hw2. exact (turn_write _ _ _ _ _ Ho _ _ _ H2 Hw2 eq_refl eq_refl).
Qed.

Lemma turn : forall O cf tr0 tr s, pick_ok O -> lifetime O cf tr0 tr s -> writes_ok tr -> finb (f_loop s) = false ->
    reach O cf tr0 tr (turned s (futs_of (f_loop s))).
Proof.
  intros O cf tr0 tr s Ho H Hw Hf. destruct (f_loop s) as [|futs fin|futs bs fin|futs bs fin|] eqn:El; cbn [finb futs_of] in *; subst; try discriminate.
  - eapply reach_here; eauto. split; [intros n []|]. split; [split; reflexivity|]. left. auto.
  - now apply turn_go.
  - eapply turn_write; eauto.
  - eapply turn_notify; eauto.
Qed.

(** The loop wakes up and comes round. *)
Lemma turn_wake : forall O cf tr0 tr s, pick_ok O -> lifetime O cf tr0 tr s -> writes_ok tr -> f_loop s = LWait ->
    forall n, In (Some n) (f_queue s) -> memn n (f_gone s) = false -> reach O cf tr0 tr (fun tr2 _ => In n (answered tr2)).
Proof.
  intros O cf tr0 tr s Ho H Hw Hl n Hn Hg.
  eapply (reach_step _ _ _ _ s FWake); auto; [cbn [fexec]; rewrite Hl; reflexivity|]. intros H2 Hw2.
  eapply reach_trans; [eapply turn_go; [auto|exact H2|auto|reflexivity]|]. intros tr3 s3 H3 Hw3 _ (A & _ & _).
  eapply reach_here; eauto. 
Qed.

Lemma turn_queue : forall O cf tr0 tr s, pick_ok O -> lifetime O cf tr0 tr s -> writes_ok tr ->
    forall n, In (Some n) (f_queue s) -> memn n (f_gone s) = false -> reach O cf tr0 tr (fun tr2 _ => In n (answered tr2)).
Proof.
  intros O cf tr0 tr s Ho H Hw n Hn Hg. destruct (finb (f_loop s)) eqn:Ef.
  - pose proof (lifetime_fids _ _ _ _ _ H) as [_ _ _ I4 _]. destruct (I4 Ef) as (_ & _ & J & _). rewrite J in Hn. destruct Hn.
  - eapply reach_trans; [eapply turn; eauto|]. intros tr2 s2 H2 Hw2 _ (A & (B1 & B2) & [[C1 C2]|[C1 C2]]).
    + apply (turn_wake _ _ _ _ s2); auto; congruence.
    + eapply reach_here; eauto.
Qed.

Lemma put_step : forall O cf tr0 tr s n, pick_ok O -> lifetime O cf tr0 tr s -> writes_ok tr -> In n (f_put s) -> memn n (f_gone s) = false ->
    (f_qopen s = true -> List.length (f_queue s) < flush_queue_size) -> reach O cf tr0 tr (fun tr2 _ => In n (answered tr2)).
Proof.
  intros O cf tr0 tr s n Ho H Hw Hn Hg Hq. apply memn_In in Hn. destruct (f_qopen s) eqn:Eq.
  - specialize (Hq eq_refl). apply Nat.ltb_lt in Hq.
    eapply (reach_step _ _ _ _ s (FPut n)); auto; [cbn [fexec]; rewrite Hn, Eq, Hq; reflexivity|].
    intros H2 Hw2. eapply turn_queue; eauto. cbn [f_queue]. apply in_app_iff. right. now left.
  - eapply (reach_step _ _ _ _ s (FPut n)); auto; [cbn [fexec]; rewrite Hn, Eq; reflexivity|].
    intros H2 Hw2. eapply reach_here; eauto. cbv beta. rewrite answered_snoc, in_app_iff. right. now left.
Qed.

Lemma final_C24_answer : forall O cf tr0 tr s n, pick_ok O -> lifetime O cf tr0 tr s ->
    In (FCall n) (done_of tr) -> ~ In (FGiveUp n) (done_of tr) ->
    exists tr2 s2, lifetime O cf tr0 (tr ++ tr2) s2 /\ Forall (fun o => loop_step o = true) (done_of tr2) /\ In n (answered (tr ++ tr2)).
Proof.
  intros O cf tr0 tr s n Ho H Hc Hg.
  assert (Hg' : memn n (f_gone s) = false).
  { destruct (memn n (f_gone s)) eqn:E; auto. apply memn_In in E. exfalso. apply Hg. eapply gone_given; eauto. }
  assert (Hu : memn n (f_used s) = true).
  { clear Hg Hg'. revert s H. induction tr as [|i tr IH] using rev_ind; intros s H; [destruct Hc|].
    apply lifetime_snoc in H as (s1 & o & xs & l & -> & H & Hx & _). rewrite done_app, in_app_iff in Hc.
    destruct Hc as [Hc|[Hc|[]]].
    - specialize (IH Hc _ H). destruct o; finv Hx; cbn [f_used set_loop set_sys]; auto. rewrite memn_app, IH. reflexivity.
    - cbn in Hc. subst o. finv Hx. cbn [f_used]. rewrite memn_app, memn_one, Nat.eqb_refl. apply orb_true_r. }
  pose proof (lifetime_fids _ _ _ _ _ H) as [I1 I2 I3 I4 I5]. specialize (I2 n Hu Hg').
  destruct (finb (f_loop s)) eqn:Ef0.
  { destruct (I4 eq_refl) as (J1 & J2 & J3 & J4). rewrite J3, J4 in I2. cbn [ids flat_map] in I2. rewrite !cnt_none in I2.
    destruct (In_dec Nat.eq_dec n (answered tr)) as [Ha|Ha].
    { exists [], s. rewrite app_nil_r. split; [auto|]. split; [constructor|auto]. }
    assert (cnt n (answered tr) = 0) by now apply count_occ_not_In.
    assert (Hp : memn n (f_put s) = true) by (apply memn_In, cnt_In; lia).
    eexists [(FPut n, _, _)], _. split; [|split].
    - eapply lifetime_step; [exact H| |reflexivity]. cbn [fexec]. rewrite Hp, J2. reflexivity.
    - constructor; [reflexivity|constructor].
    - rewrite answered_snoc, in_app_iff. right. now left. }
  destruct (lifetime_going _ _ _ _ _ H Ef0) as [Hw _].
  cut (reach O cf tr0 tr (fun tr2 _ => In n (answered tr2))).
  { intros (k & s2 & A & _ & C & D). exists k, s2. auto. }
  destruct (In_dec Nat.eq_dec n (answered tr)) as [Ha|Ha]; [eapply reach_here; eauto|].
  destruct (In_dec Nat.eq_dec n (ids (f_queue s))) as [Hq|Hq]; [apply In_ids in Hq; eapply turn_queue; eauto|].
  destruct (In_dec Nat.eq_dec n (f_put s)) as [Hp|Hp].
  - destruct (Nat.ltb (List.length (f_queue s)) flush_queue_size) eqn:El.
      { apply Nat.ltb_lt in El. eapply put_step; eauto. }
      clear El. eapply reach_trans; [eapply turn; eauto|]. intros tr2 s2 H2 Hw2 _ (A & (B1 & B2) & [[C1 C2]|[C1 C2]]).
    + eapply (reach_step _ _ _ _ s2 FWake); auto; [cbn [fexec]; rewrite C1; reflexivity|]. intros H3 Hw3.
        eapply put_step; eauto; cbn [f_put f_gone f_queue]; [congruence|congruence|]. intros _. apply Nat.ltb_lt. reflexivity.
    + eapply put_step; eauto; congruence.
  - eapply reach_trans; [eapply turn; eauto|]. intros tr2 s2 H2 Hw2 _ (A & _ & _). eapply reach_here; eauto. cbv beta. apply A; auto.
      apply In_ids, cnt_In.
      assert (cnt n (ids (f_queue s)) = 0) by now apply count_occ_not_In. assert (cnt n (answered tr) = 0) by now apply count_occ_not_In.
      assert (cnt n (f_put s) = 0) by now apply count_occ_not_In. lia.
Qed.
