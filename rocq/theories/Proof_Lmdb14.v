(** LMDB backend: server queries over executions. *)
From Coq Require Import String Bool ZArith Lia Sorted Permutation List.
From Verif Require Import Base Kv Model_Types Model_Subscription Model_Order Model_Codec Keys
  Spec_Order Spec_Subscription Proof_Subscription Proof_Subscription2 Proof_Order Model_Lmdb Model_LmdbSys Spec_Lmdb Spec_LmdbContent Spec_LmdbQuery
  Proof_Lmdb1 Proof_Lmdb2 Proof_Lmdb3 Proof_Lmdb4 Proof_Lmdb5 Proof_Lmdb6 Proof_Lmdb7 Proof_Lmdb8 Proof_Lmdb9 Proof_Lmdb10 Proof_Lmdb11 Proof_Lmdb12 Proof_Lmdb13.
Import ListNotations.
Open Scope list_scope.
Open Scope Z_scope.

(** ** Which query is answered *)

Lemma queries_app : forall a b, queries_of (a ++ b) = queries_of a ++ queries_of b.
Proof. intros. unfold queries_of. apply flat_map_app. Qed.

Lemma query_op_In : forall o q x tr, query_op o q -> In (o, x) tr -> In q (queries_of tr).
Proof.
  intros o q x tr Hq Hin. unfold queries_of. apply in_flat_map. exists (o, x). split; auto.
  destruct o; try destruct Hq; cbn; auto.
Qed.

Lemma unique_split : forall (A : Type) (P : A -> Prop) l1 x l2 l1' x' l2', l1 ++ x :: l2 = l1' ++ x' :: l2' ->
    P x -> P x' -> (forall y, In y l1 -> ~ P y) -> (forall y, In y l2 -> ~ P y) -> l1 = l1' /\ x = x' /\ l2 = l2'.
Proof.
  induction l1 as [|a l1 IH]; intros x l2 l1' x' l2' E Px Px' H1 H2; destruct l1' as [|b l1']; cbn in E; injection E as E1 E2.
  - auto.
  - exfalso. apply (H2 x'); auto. rewrite E2. apply in_or_app. right. now left.
  - exfalso. apply (H1 a); [now left|]. now rewrite E1.
  - destruct (IH _ _ _ _ _ E2 Px Px') as (-> & -> & ->); auto. intros y Hy. apply H1. now right. now rewrite E1.
Qed.

Lemma answered : forall O cf trA o trB q a s sA,
    execution O cf (trA ++ (o, Quiet) :: trB ++ [(ODeliver q, a)]) s -> execution O cf trA sA ->
    query_op o q -> ~ In q (queries_of trA) -> ~ In q (queries_of trB) ->
    exists trB1 trB2 sB s1 j r, trB = trB1 ++ (OWork, Quiet) :: trB2 /\
      execution O cf (trA ++ (o, Quiet) :: trB1) sB /\ execution O cf (trA ++ (o, Quiet) :: trB) s1 /\
      exec O sA o = Some (push sA j, Quiet) /\ no_reopen trB /\
      w_disk (watch_run cf (trA ++ (o, Quiet) :: trB1)) = w_before (watch_run cf trA) /\
      job_result O sB j = Some r /\ a = Answer (finish s1 r) /\ s_disk s = s_disk s1.
Proof.
  intros O cf trA o trB q a s sA Hx HA Hq Hn1 Hn2.
  replace (trA ++ (o, Quiet) :: trB ++ [(ODeliver q, a)]) with ((trA ++ (o, Quiet) :: trB) ++ [(ODeliver q, a)]) in Hx
    by (now rewrite <- app_assoc).
  apply execution_snoc in Hx as (s1 & Hx & He & _). cbn [exec] in He.
  destruct (take_ready q (s_ready s1)) as [[r rs]|] eqn:Et; [|discriminate]. injection He as <- <-.
  apply take_ready_In in Et as (Hr & Hid & _).
  destruct (query_inv_all _ _ _ _ Hx) as [_ IR]. destruct (IR _ Hr) as (trA' & o' & trB' & trC' & sA' & sB & j & E & H1 & H2 & H3 & H4 & H5 & H6 & H7).
  rewrite Hid in H3.
  destruct (unique_split _ (fun y => query_op (fst y) q) _ _ _ _ _ _ E) as (<- & Eo & EB); auto.
  { intros [oy y] Hy Hqy. apply Hn1. eapply query_op_In; eauto. }
  { intros [oy y] Hy Hqy. apply Hn2. eapply query_op_In; eauto. }
  injection Eo as <-. rewrite (execution_fun _ _ _ _ _ H1 HA) in *.
  exists trB', trC', sB, s1, j, r. split; auto. split; auto. split; auto. split; auto. split.
  { rewrite EB. intros c x Hin. apply in_app_or in Hin as [Hin|[Hin|Hin]]; [|discriminate|]; apply (H5 c x), in_or_app; auto. }
  split; auto.
Qed.

(** ** The result *)

Lemma eid_lt_le : forall a b c, eid_lt a b -> eid_le b c -> eid_le a c.
Proof. intros a b c Hab [Hbc| <-]; left; auto. eapply eid_lt_trans; eauto. Qed.
Lemma leb_ltb : forall a b, negb (eid_leb a b) = eid_ltb b a.
Proof.
  intros a b. destruct (eid_leb a b) eqn:E; cbn [negb]; symmetry.
  - apply not_true_iff_false. intros Hc. apply eid_ltb_spec in Hc. apply eid_leb_spec in E as [E| ->]; [|now apply eid_lt_irrefl in Hc].
    eapply eid_lt_irrefl, eid_lt_trans; eauto.
  - apply eid_ltb_spec. destruct (eid_lt_total b a) as [H|[->|H]]; auto; exfalso; apply not_true_iff_false in E; apply E, eid_leb_spec; [now right|now left].
Qed.
Lemma ltb_trans : forall a b c, eid_ltb a b = true -> eid_ltb b c = true -> eid_ltb a c = true.
Proof. intros a b c. rewrite !eid_ltb_spec. apply eid_lt_trans. Qed.
Lemma ltb_irrefl : forall a, eid_ltb a a = false.
Proof. intros a. apply not_true_iff_false. rewrite eid_ltb_spec. apply eid_lt_irrefl. Qed.
Lemma filter_true : forall (A : Type) (l : list A), filter (fun _ => true) l = l.
Proof. induction l; cbn; congruence. Qed.

Lemma zlen_len : forall (A : Type) (l : list A), zlen l = Z.of_nat (List.length l).
Proof. reflexivity. Qed.

Lemma page_of : forall max (L es : list event), 0 <= max -> es = firstn (Z.to_nat (max + 1)) L ->
    (if max <? zlen es then if max <? 0 then None else Some (QRes (take max es) true) else Some (QRes es false)) = Some (page max L).
Proof.
  intros max L es Hm ->. unfold page, take. rewrite zlen_len, firstn_length, firstn_firstn.
  destruct (max <? 0) eqn:E0; [apply Z.ltb_lt in E0; lia|].
  replace (Nat.min (Z.to_nat max) (Z.to_nat (max + 1))) with (Z.to_nat max) by lia.
  destruct (max <? Z.of_nat (List.length L)) eqn:E.
  - apply Z.ltb_lt in E. replace (max <? _) with true; auto. symmetry. apply Z.ltb_lt. lia.
  - apply Z.ltb_ge in E. replace (max <? _) with false. 2:{ symmetry. apply Z.ltb_ge. lia. }
    rewrite !firstn_all2 by lia. reflexivity.
Qed.

Lemma last_opt_snoc : forall (A : Type) (l : list A) x, last_opt (l ++ [x]) = Some x.
Proof. induction l as [|y l IH]; intros x; auto. cbn [app last_opt]. specialize (IH x). destruct (l ++ [x]) eqn:E; auto. destruct l; discriminate. Qed.

Lemma finish_page : forall p max (Ld Lp : list event) c, 0 <= max -> by_id Ld ->
    map (fun x => fst (snd x)) (rc_added (server_changes_of c (qs_server p))) = Lp -> by_id Lp ->
    (forall a b, In a Ld -> In b Lp -> eid_ltb (ev_id a) (ev_id b) = true) ->
    (forall e, In e Ld -> after (qs_last p) e) ->
    server_query_finish p max (firstn (Z.to_nat (max + 1)) Ld) c =
    Some (page max (if qs_persisted p then Ld
                    else Ld ++ filter (fun e => match qs_last p with Some i => negb (eid_leb (ev_id e) i) | None => true end) Lp)).
Proof.
  intros p max Ld Lp c Hm Hd Ep Hp Hdp Haf. unfold server_query_finish. destruct (qs_persisted p); cbn [negb andb].
  { now apply page_of. }
  replace (zlen (firstn (Z.to_nat (max + 1)) Ld)) with (Z.of_nat (Nat.min (Z.to_nat (max + 1)) (List.length Ld)))
    by (now rewrite zlen_len, firstn_length).
  destruct (Z.of_nat (Nat.min (Z.to_nat (max + 1)) (List.length Ld)) <=? max) eqn:El.
  - apply Z.leb_le in El. assert (Hl : (List.length Ld <= Z.to_nat max)%nat) by lia.
    rewrite firstn_all2 by lia. apply page_of; auto. rewrite firstn_app, (firstn_all2 Ld) by lia. f_equal.
    unfold query_ref_changes, take. rewrite Ep. replace (Z.to_nat (max + 1 - _)) with (Z.to_nat (max + 1) - List.length Ld)%nat by lia.
    f_equal.
    assert (Hdw : forall i, dropwhile (fun e => eid_leb (ev_id e) i) Lp = filter (fun e => negb (eid_leb (ev_id e) i)) Lp).
    { intros i. apply (dropwhile_filter _ _ _ _ Hp). intros a b Hab Hb. apply eid_leb_spec in Hb. apply eid_leb_spec.
      apply eid_ltb_spec in Hab. revert Hab Hb. apply eid_lt_le. }
    destruct Ld as [|y Ld _] using rev_ind.
    + cbn [last_opt]. destruct (qs_last p) as [i|]; auto. symmetry. now apply filter_true.
    + rewrite last_opt_snoc, Hdw. apply filter_ext_in'. intros e He.
      assert (Hye : eid_ltb (ev_id y) (ev_id e) = true) by (apply Hdp; auto; apply in_or_app; right; now left).
      rewrite leb_ltb, Hye. destruct (qs_last p) as [i|] eqn:Eq; auto. rewrite leb_ltb. symmetry.
      specialize (Haf y). cbn [after] in Haf. assert (Hiy : eid_ltb i (ev_id y) = true) by (apply Haf, in_or_app; right; now left).
      eapply ltb_trans; eauto.
  - apply Z.leb_gt in El. apply page_of; auto. rewrite firstn_app. replace (_ - _)%nat with 0%nat by lia. cbn [firstn]. now rewrite app_nil_r.
Qed.

(** ** C19 *)

Lemma confs_none : forall tr, no_reopen tr -> confs_of tr = [].
Proof.
  induction tr as [|[o x] tr IH]; intros H; auto. assert (Hn : no_reopen tr) by (intros c y Hy; apply (H c y); now right).
  replace (confs_of ((o, x) :: tr)) with (confs_of [(o, x)] ++ confs_of tr) by (now rewrite <- confs_of_app). rewrite IH by auto.
  destruct o; auto. exfalso. eapply H. now left.
Qed.

Lemma pending_prefix : forall tr w, exists tr1 tr2, tr = tr1 ++ tr2 /\ pending_at w tr = fold_left watch_step tr1 w.
Proof.
  intros tr w. destruct (flush_split tr) as [H|(tr1 & x & tr2 & -> & H)].
  - exists tr, []. rewrite app_nil_r. split; auto. now apply pending_at_none.
  - exists tr1, ((OFlush, x) :: tr2). split; auto. now apply pending_at_flush.
Qed.

Lemma watch_run_app : forall cf a b, watch_run cf (a ++ b) = fold_left watch_step b (watch_run cf a).
Proof. intros. unfold watch_run. apply fold_left_app. Qed.

Lemma w_all_before : forall w, w_all w = w_before w ++ w_cur w.
Proof. intros w. unfold w_all, w_before. now rewrite app_assoc. Qed.

Lemma SS_map_keys : forall (V : Type) (l : list (event_id * (event * V))),
    ksorted eidord l -> (forall i e v, In (i, (e, v)) l -> ev_id e = i) -> by_id (map (fun x => fst (snd x)) l).
Proof.
  intros V l. unfold by_id, ksorted. induction l as [|[i [e v]] l IH]; intros Hs Hi; cbn [map keys fst snd] in *; [constructor|].
  inversion Hs as [|? ? Hs' Hf]; subst. constructor.
  - apply IH; auto. intros. eapply Hi. right; eauto.
  - rewrite Forall_forall in *. intros x Hx. apply in_map_iff in Hx as ([i' [e' v']] & <- & Hin). cbn [fst snd].
    rewrite (Hi i e v) by now left. rewrite (Hi i' e' v') by (right; eauto). apply Hf. apply in_map_iff. exists (i', (e', v')). auto.
Qed.

Lemma eff_server_max : forall p, eff_max (qs_max p) ref_max_results = server_max p.
Proof.
  intros p. unfold eff_max, server_max, ref_max_results. destruct (qs_max p) as [m|]; auto.
  destruct (Z.ltb_spec m 4096); lia.
Qed.

Lemma server_start_max : forall p max, server_query_start p = Some max ->
    max = server_max p /\ forall i, qs_last p = Some i -> eid_server i = qs_server p.
Proof.
  intros p max. unfold server_query_start. destruct (qs_last p) as [i|].
  - destruct (eid_server i =? qs_server p) eqn:E; [|discriminate]. cbn [negb]. intros [= <-]. split; auto.
    + apply eff_server_max.
    + intros j [= <-]. now apply Z.eqb_eq.
  - intros [= <-]. split; [|discriminate]. apply eff_server_max.
Qed.

Lemma before_after : forall H h a b, hist_ok (H ++ h) -> In a H -> In b h ->
    eid_server (ev_id (en_ev a)) = eid_server (ev_id (en_ev b)) -> eid_ltb (ev_id (en_ev a)) (ev_id (en_ev b)) = true.
Proof.
  intros H h a b Ho Ha Hb Es. apply in_split in Ha as (H1 & H2 & ->). apply in_split in Hb as (h1 & h2 & ->).
  pose proof (hist_server_order _ Ho) as Hs. destruct (Hs H1 a (H2 ++ h1) b h2) as [A _]; auto.
  repeat (rewrite <- app_assoc; cbn [app]). reflexivity.
Qed.

Lemma C19_core : forall O cf trA q p trB a s,
    pick_ok O -> execution O cf (trA ++ (OServer q p, Quiet) :: trB ++ [(ODeliver q, a)]) s ->
    conditions_kept (cf :: confs_of trA) -> ~ In q (queries_of trA) -> ~ In q (queries_of trB) -> 0 <= server_max p ->
    exists trB1 trB2 s2 s1 L, trB = trB1 ++ (OWork, Quiet) :: trB2 /\
      (execution O cf (trA ++ (OServer q p, Quiet) :: trB) s1 /\ s_disk s = s_disk s1 /\ no_reopen trB /\
       w_disk (watch_run cf (trA ++ (OServer q p, Quiet) :: trB1)) = w_before (watch_run cf trA)) /\
      execution O cf (trA ++ (OServer q p, Quiet) :: trB1) s2 /\
      a = Answer (Some (page (server_max p) L)) /\ by_id L /\
      (let w := pending_at (watch_run cf trA) trB in
       forall e, In e L <-> eid_server (ev_id e) = qs_server p /\ after (qs_last p) e /\
         (stored_event (s_disk s2) e \/
          (qs_persisted p = false /\ exists en, In en (w_cur w) /\ en_ev en = e /\ live (w_all w) en))).
Proof.
  intros O cf trA q p trB a s Hpick Hx Hck Hn1 Hn2 Hm.
  destruct (execution_split _ _ _ _ _ Hx) as (sA & HA & _).
  destruct (answered _ _ _ (OServer q p) _ _ _ _ _ Hx HA eq_refl Hn1 Hn2)
    as (trB1 & trB2 & sB & s1 & j & r & EB & HB & H1 & He & Hnr & Hd & Hj & Ha & Esd).
  cbn [exec] in He. destruct (server_query_start p) as [max|] eqn:Es; [|discriminate].
  apply server_start_max in Es as [-> Hsrv]. injection He as Ej. apply app_inv_head in Ej. injection Ej as <-.
  cbn [job_result] in Hj. pose proof (execution_inv _ _ _ _ HB) as HiB. pose proof (si_repr _ _ HiB) as HrB. rewrite Hd in HrB.
  pose proof (kept_hidden _ _ _ _ HA Hck) as HhA. rewrite w_all_before in HhA.
  destruct (query_refs_spec O _ _ _ (qs_server p) (qs_last p) Hpick HrB (no_hidden_app _ _ HhA) Hsrv) as (Ld & L1 & L2 & L3).
  rewrite L3 in Hj. injection Hj as <-.
  assert (Hnr' : no_reopen ((OServer q p, Quiet) :: trB)).
  { intros c x [Hin|Hin]; [discriminate|]. eapply Hnr; eauto. }
  destruct (gen_spec _ _ _ _ _ _ HA H1 Hnr') as ((d & K & pls & G1 & G2 & _) & _ & _ & G6 & _). cbn [pending_at watch_step] in *.
  set (w := pending_at (watch_run cf trA) trB) in *.
  assert (Hw : exists trX sX, execution O cf trX sX /\ w = watch_run cf trX /\ confs_of trX = confs_of trA).
  { destruct (pending_prefix trB (watch_run cf trA)) as (b1 & b2 & E1 & E2).
    exists (trA ++ (OServer q p, Quiet) :: b1).
    assert (Hx1 : execution O cf ((trA ++ (OServer q p, Quiet) :: b1) ++ b2) s1) by (rewrite <- app_assoc; cbn [app]; now rewrite <- E1).
    destruct (execution_split _ _ _ _ _ Hx1) as (sX & HX & _). exists sX. split; auto. split.
    - unfold w. rewrite E2, watch_run_app. reflexivity.
    - rewrite confs_of_app. change (confs_of ((OServer q p, Quiet) :: b1)) with (confs_of b1). rewrite (confs_none b1), app_nil_r; auto.
      intros c x Hin. apply (Hnr c x). rewrite E1. apply in_or_app. auto. }
  destruct Hw as (trX & sX & HX & Ew & Ec).
  assert (Hhw : no_hidden (w_all w)). { rewrite Ew. eapply kept_hidden; [exact HX|]. now rewrite Ec. }
  assert (How : hist_ok (w_all w)). { rewrite Ew. eapply all_ok, execution_inv; eauto. }
  rewrite w_all_before, G6 in Hhw, How.
  pose proof (pendH_ref _ _ _ _ _ _ G1 G2) as Hpr. pose proof (pend_added _ _ _ _ _ _ G1 G2 Hhw (qs_server p)) as Had.
  set (c := gen s1 (cur_gen sA)) in *. set (Lp := map (fun x => fst (snd x)) (added_of (ch_ref c) (qs_server p))).
  assert (HLp : forall e, In e Lp <-> eid_server (ev_id e) = qs_server p /\ exists en, In en (w_cur w) /\ en_ev en = e /\ live (w_all w) en).
  { intros e. rewrite (w_all_before w), G6. rewrite <- Had. unfold Lp. rewrite in_map_iff. split.
    - intros ([i [e' rs]] & <- & Hin). eauto.
    - intros (i & rs & Hin). exists (i, (e, rs)). auto. }
  assert (HsLp : by_id Lp). { apply SS_map_keys; [apply Hpr|]. intros i e v Hin. now apply (pr_ev _ _ Hpr) in Hin. }
  assert (Hlt : forall x y, In x Ld -> In y Lp -> eid_ltb (ev_id x) (ev_id y) = true).
  { intros x y Hin Hiny. apply L2 in Hin as (A & _ & B). apply HLp in Hiny as (C & en & D & <- & _).
    destruct (stored_hist _ _ _ _ HrB B) as (en0 & E1 & <-). eapply before_after; eauto. congruence. }
  set (after_b := fun e => match qs_last p with Some i => negb (eid_leb (ev_id e) i) | None => true end).
  assert (Hafb : forall e, after_b e = true <-> after (qs_last p) e).
  { intros e. unfold after_b, after. destruct (qs_last p); [now rewrite leb_ltb|tauto]. }
  exists trB1, trB2, sB, s1, (if qs_persisted p then Ld else Ld ++ filter after_b Lp). split; auto. split; auto. split; auto. split; [|split].
  - rewrite Ha. cbn [finish]. f_equal. apply finish_page; auto. intros e Hin. apply L2, Hin.
  - destruct (qs_persisted p); auto. apply SS_app; auto; [now apply SS_filter|]. intros x y Hin Hiny. apply filter_In in Hiny as [Hiny _]. auto.
  - cbn zeta. intros e. destruct (qs_persisted p).
    + rewrite L2. split; [tauto|]. intros (A & B & [C|[C _]]); [auto|discriminate].
    + rewrite in_app_iff, L2, filter_In, Hafb, HLp. tauto.
Qed.

Theorem final_C19 : forall O cf trA q p trB a s,
    pick_ok O -> execution O cf (trA ++ (OServer q p, Quiet) :: trB ++ [(ODeliver q, a)]) s ->
    conditions_kept (cf :: confs_of trA) -> ~ In q (queries_of trA) -> ~ In q (queries_of trB) -> 0 <= server_max p ->
    exists trB1 trB2 s2 L, trB = trB1 ++ (OWork, Quiet) :: trB2 /\
      execution O cf (trA ++ (OServer q p, Quiet) :: trB1) s2 /\
      a = Answer (Some (page (server_max p) L)) /\ by_id L /\
      (let w := pending_at (watch_run cf trA) trB in
       forall e, In e L <-> eid_server (ev_id e) = qs_server p /\ after (qs_last p) e /\
         (stored_event (s_disk s2) e \/
          (qs_persisted p = false /\ exists en, In en (w_cur w) /\ en_ev en = e /\ live (w_all w) en))).
Proof.
  intros O cf trA q p trB a s Hpick Hx Hck Hn1 Hn2 Hm.
  destruct (C19_core _ _ _ _ _ _ _ _ Hpick Hx Hck Hn1 Hn2 Hm) as (trB1 & trB2 & s2 & s1 & L & H1 & _ & H2). exists trB1, trB2, s2, L. auto.
Qed.

(** Queries that are refused. *)
Theorem final_C19_refused : forall O cf tr q p x s, execution O cf (tr ++ [(OServer q p, x)]) s ->
    x = match qs_last p with
        | Some i => if eid_server i =? qs_server p then Quiet else Answer None
        | None => Quiet
        end.
Proof.
  intros O cf tr q p x s H. apply execution_snoc in H as (s1 & _ & He & _). cbn [exec] in He. unfold server_query_start in He.
  destruct (qs_last p) as [i|]; [destruct (eid_server i =? qs_server p)|]; cbn [negb] in He; injection He as _ <-; reflexivity.
Qed.

Theorem final_C19_negative : forall O cf trA q p trB a s,
    execution O cf (trA ++ (OServer q p, Quiet) :: trB ++ [(ODeliver q, a)]) s ->
    ~ In q (queries_of trA) -> ~ In q (queries_of trB) -> server_max p < 0 -> a = Answer None.
Proof.
  intros O cf trA q p trB a s Hx Hn1 Hn2 Hm.
  destruct (execution_split _ _ _ _ _ Hx) as (sA & HA & _).
  destruct (answered _ _ _ (OServer q p) _ _ _ _ _ Hx HA eq_refl Hn1 Hn2)
    as (trB1 & trB2 & sB & s1 & j & r & EB & HB & H1 & He & Hnr & Hd & Hj & Ha & _).
  cbn [exec] in He. destruct (server_query_start p) as [max|] eqn:Es; [|discriminate].
  apply server_start_max in Es as [-> Hsrv]. injection He as Ej. apply app_inv_head in Ej. injection Ej as <-.
  cbn [job_result] in Hj. destruct (query_refs _ _ _ _ _) as [es|]; [|discriminate]. injection Hj as <-. rewrite Ha. cbn [finish]. f_equal.
  unfold server_query_finish.
  assert (Hlt : forall l : list event, (server_max p <? zlen l) = true) by (intros l; apply Z.ltb_lt; unfold zlen; lia).
  rewrite Hlt. apply Z.ltb_lt in Hm. now rewrite Hm.
Qed.
