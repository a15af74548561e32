(** Two servers, one of which follows the other one: queries and the client. *)
From Coq Require Import String Bool ZArith Arith Lia Sorted Permutation List.
From Verif Require Import Base Kv Model_Types Model_Codec Keys Spec_Order Proof_Order Model_Lmdb Model_LmdbSys Spec_Lmdb Spec_LmdbContent Spec_LmdbQuery
  Proof_Lmdb3 Proof_Lmdb4 Proof_Lmdb7 Proof_Lmdb8 Proof_Lmdb9 Proof_Lmdb10 Proof_Lmdb12 Proof_Lmdb13 Proof_Lmdb14 Proof_Lmdb15 Model_LmdbFlush Spec_LmdbFlush Proof_LmdbFlush Proof_LmdbFlush4
  Model_Sync Spec_Sync Proof_Sync Proof_Sync2 Proof_Sync3 Proof_Sync4 Proof_Sync5 Proof_Sync6 Model_Replica Spec_Replica Proof_Replica Proof_Replica2 Proof_Replica3 Proof_Replica4 Proof_Replica5
  Model_Pair Spec_Pair Proof_Pair Proof_Pair2 Proof_Pair3 Proof_Pair4 Proof_Pair5.
Import ListNotations.
Open Scope list_scope.
Open Scope nat_scope.

(** ** Steps that the abstract remote does not see *)

Lemma joint_quiet : forall OB cfA cfB sv A N K F top query query' c c' s tr y x p r, joint OB cfA cfB sv A N K F top query c s tr y ->
    other p = true -> r <> Wrote -> s_disk x = s_disk (f_sys F) -> y = put c' y (r_req y) (r_resp y) -> y_phase c' <> PEnd -> qrel sv x query' c' y ->
    joint OB cfA cfB sv (A ++ [(p, r)]) N K (set_sys F x) top query' c' s tr y.
Proof.
  intros * J Ho Hr Hd Hy Hp Hq.
  assert (W : write_run (A ++ [(p, r)]) = write_run A).
  { rewrite write_snoc. destruct (write_run A) as [[en go] wa]. destruct p; try discriminate Ho; try reflexivity. destruct r; try congruence; reflexivity. }
  eapply joint_same; eauto.
  - rewrite watch_run_snoc. destruct p; try discriminate Ho; try reflexivity. destruct r; try congruence; reflexivity.
  - unfold note_list, w_going. rewrite W. reflexivity.
Qed.

Definition extends (x s : sys) : Prop := s_disk x = s_disk s /\ s_ready x = s_ready s /\ exists l, s_jobs x = s_jobs s ++ l.
Lemma exec_extends : forall O s p x r, exec O s p = Some (x, r) -> other p = true -> p <> OWork -> (forall q, p <> ODeliver q) -> extends x s /\ r <> Wrote.
Proof.
  intros O s p x r He Ho H1 H2.
  assert (E0 : extends s s) by (split; [reflexivity|]; split; [reflexivity|]; exists []; now rewrite app_nil_r).
  assert (EP : forall j, extends (push s j) s) by (intros j; split; [reflexivity|]; split; [reflexivity|]; exists [j]; reflexivity).
  destruct p as [es|  |now|p|q p|q p| |q|c]; try discriminate Ho; try congruence.
  - cbn [exec] in He. injection He as <- <-. split; [apply EP|discriminate].
  - cbn [exec] in He. injection He as <- <-. split; [apply E0|discriminate].
  - assert (R : r <> Wrote) by (cbn [exec] in He; destruct (server_query_start p); injection He as _ <-; discriminate). split; [|exact R].
    destruct (exec_query O s (OServer q p) q x r eq_refl He) as [[-> _]|(j & -> & _)]; auto.
  - destruct (exec_query O s (OTs q p) q x r eq_refl He) as [[-> _]|(j & -> & -> & _)]; [split; [exact E0|]|split; [apply EP|discriminate]].
    intros ->. cbn [exec] in He. injection He as He. unfold ts_query_step in He. destruct (ts_query_start _ _ _ _) as [[[sub mx] [part|]]|]; [|discriminate..].
    destruct (qt_order p); [|discriminate]. destruct (query_pending _ _ _ _) as [es f]. destruct (filter_done f); discriminate.
Qed.

Lemma qrel_extends : forall sv s x query c y, qrel sv s query c y -> extends x s -> qrel sv x query c y.
Proof.
  intros * H (_ & ER & l & EJ). unfold qrel in *. destruct query as [q|]; [|exact H]. destruct H as (A1 & A2 & last & max & g & A3 & A4).
  split; auto. split; auto. exists last, max, g. split; auto. rewrite EJ, ER. destruct A4 as [(A5 & A6)|A4]; [left|right; exact A4].
  split; [|exact A6]. apply in_or_app. now left.
Qed.

(** ** The client's query *)

Lemma start_max : forall sv last max, server_query_start (client_query sv last) = Some max -> max = 4096%Z /\ eid_server last = sv.
Proof. intros sv last max H. apply server_start_max in H as [-> H]. split; [reflexivity|]. exact (H last eq_refl). Qed.

Lemma joint_work : forall OA OB cfA cfB sv A N K F top query c s tr y x, pick_ok OA -> far OA cfA A F -> conditions_kept (cfA :: confs_of A) ->
    increasing (r_stored y) -> joint OB cfA cfB sv A N K F top query c s tr y ->
    exec OA (f_sys F) OWork = Some (x, Quiet) ->
    exists tr' y', joint OB cfA cfB sv (A ++ [(OWork, Quiet)]) N K (set_sys F x) top query c s tr' y'.
Proof.
  intros * HP HF HC HI J Hx. assert (JP := joint_phase _ _ _ _ _ _ _ _ _ _ _ _ _ _ J).
  assert (Hmove : forall j js r, s_jobs (f_sys F) = j :: js -> x = done_ (f_sys F) (s_disk (f_sys F)) js (s_ready (f_sys F) ++ [r]) ->
    (forall q last max g, query = Some q -> j <> JServer q (client_query sv last) max g) ->
    exists tr' y', joint OB cfA cfB sv (A ++ [(OWork, Quiet)]) N K (set_sys F x) top query c s tr' y').
  { intros j js r Ej -> Hn. exists tr, y. eapply joint_quiet; eauto; try apply J; try reflexivity; try discriminate.
    pose proof (j_q _ _ _ _ _ _ _ _ _ _ _ _ _ _ J) as Q. unfold qrel in *. destruct query as [q|]; [|exact Q].
    destruct Q as (A1 & A2 & last & max & g & A3 & A4). split; auto. split; auto. exists last, max, g. split; auto. cbn [done_ s_jobs s_ready].
    destruct A4 as [(A5 & A6)|(es & res & A5 & A6)].
    - left. split; [|exact A6]. rewrite Ej in A5. destruct A5 as [A5|A5]; [|exact A5]. exfalso. eapply Hn; eauto.
    - right. exists es, res. split; [|exact A6]. apply in_or_app. now left. }
  pose proof Hx as Hx0. cbn [exec] in Hx. unfold work in Hx. destruct (s_jobs (f_sys F)) as [|[ch|now|q p max g|q p part sub max g pre f] js] eqn:Ej.
  - injection Hx as <-. exists tr, y. eapply joint_quiet; eauto; try apply J; try reflexivity; try discriminate.
  - discriminate.
  - destruct (cleanup _ _ _ _). discriminate.
  - destruct (query_refs OA (s_disk (f_sys F)) (qs_server p) (max + 1) (qs_last p)) as [es|] eqn:Er; [|discriminate]. injection Hx as <-.
    destruct (match query with Some n => Nat.eqb n q | None => false end) eqn:En.
    2:{ eapply Hmove; [reflexivity..|]. intros q' last' max' g' -> [= <- _ _ _]. rewrite Nat.eqb_refl in En. discriminate. }
    destruct query as [n|]; [|discriminate]. apply Nat.eqb_eq in En as ->.
    pose proof (j_q _ _ _ _ _ _ _ _ _ _ _ _ _ _ J) as Q. destruct Q as (A1 & A2 & last & max' & g' & A3 & A4). rewrite Ej in A4.
    assert (Hcase : (JServer q p max g = JServer q (client_query sv last) max' g' /\ r_req y = Some last /\ r_resp y = None) \/
      (forall l2 m2 g2, JServer q p max g <> JServer q (client_query sv l2) m2 g2) \/
      qrel sv (done_ (f_sys F) (s_disk (f_sys F)) js (s_ready (f_sys F) ++ [RServer q p max g es])) (Some q) c y).
    { destruct A4 as [([A5|A5] & A6)|(es' & res & A5 & A6)].
      - left. auto.
      - right. right. split; [exact A1|]. split; [exact A2|]. exists last, max', g'. split; [exact A3|]. left. split; [exact A5|exact A6].
      - right. right. split; [exact A1|]. split; [exact A2|]. exists last, max', g'. split; [exact A3|]. right. exists es', res. split; [|exact A6]. cbn [done_ s_ready]. apply in_or_app. now left. }
    destruct Hcase as [([= -> -> ->] & Rq & Rs)|[Hn|Hq]].
    2:{ eapply Hmove; [reflexivity..|]. intros q' l2 m2 g2 [= <-]. apply Hn. }
    2:{ exists tr, y. eapply joint_quiet; eauto; try apply J; try reflexivity; try discriminate. }
    destruct (start_max _ _ _ A3) as [M1 M2]. pose proof (execution_inv _ _ _ _ (fa_exec _ _ _ _ HF)) as I.
    pose proof (kept_hidden _ _ _ _ (fa_exec _ _ _ _ HF) HC) as Hh. unfold w_all in Hh. apply no_hidden_app in Hh.
    destruct (query_refs_spec OA _ _ _ sv (Some last) HP (si_repr _ _ I) Hh) as (L & L1 & L2 & L3); [intros i [= <-]; exact M2|].
    cbn [client_query qs_server qs_last] in Er. rewrite L3 in Er. injection Er as <-.
    destruct J as [J1 J2 J3 J4 J5 J6 J7 J8 J9 J10 J11 J12 J13 J14].
    assert (EL : L = filter (newer last) (r_stored y)).
    { apply inc_eq; [exact L1|now apply increasing_filter|]. intros e. rewrite filter_In, L2, J5. cbn [after]. unfold newer. tauto. }
    set (res := QRes (firstn (Z.to_nat max') L) (Nat.ltb (Z.to_nat max') (List.length L))).
    set (y' := y_remote y (r_stored y) (r_top y) (r_lag y) (r_up y) None (Some res) (r_chan y)).
    assert (HY : replica OB cfB sv (tr ++ [RSync (RQuery (Z.to_nat max'), [Answered res]) []]) y' s).
    { eapply replica_sync; [exact J1| |constructor|reflexivity]. unfold yexec. rewrite Rq, <- EL. destruct (y_phase y) eqn:EP; try congruence; reflexivity. }
    assert (HQ : Forall quiet_sync [RSync (RQuery (Z.to_nat max'), [Answered res]) []]) by (constructor; [|constructor]; exists (RQuery (Z.to_nat max')), [Answered res]; auto).
    destruct (quiet_parts _ tr HQ) as (P1 & P2 & P3).
    assert (W : write_run (A ++ [(OWork, Quiet)]) = write_run A).
    { rewrite write_snoc. destruct (write_run A) as [[en go] wa]. reflexivity. }
    exists (tr ++ [RSync (RQuery (Z.to_nat max'), [Answered res]) []]), y'.
    econstructor; [exact HY|..]; unfold y', y_remote; cbn [r_stored r_top r_lag r_req r_resp set_sys f_sys done_ s_disk]; rewrite ?watch_run_snoc; cbn [watch_step]; unfold w_going, w_waits, w_ended in *; rewrite ?W; auto.
    + rewrite J2. reflexivity.
    + split; [exact A1|]. split; [exact A2|]. exists last, max', g'. split; [exact A3|]. right. exists (firstn (Z.to_nat (max' + 1)) L), res.
      split; [cbn [done_ s_ready]; apply in_or_app; right; now left|]. split; [|split; reflexivity].
      intros ch. unfold server_query_finish. cbn [client_query qs_persisted negb andb]. rewrite (page_of max' L); [|lia|reflexivity]. unfold page, res. f_equal. f_equal.
      apply Bool.eq_iff_eq_true. rewrite Z.ltb_lt, Nat.ltb_lt. lia.
    + rewrite J6. unfold note_list, w_going. cbn [set_sys f_loop]. rewrite W. reflexivity.
    + rewrite so_far_app. cbn. now rewrite app_nil_r.
    + rewrite remote_events_app. cbn. now rewrite app_nil_r.
    + intros i l Hi. apply (J11 i l). rewrite sync_part_app in Hi. apply in_app_or in Hi as [Hi|[Hi|[]]]; [exact Hi|discriminate].
    + now rewrite P1.
    + now rewrite P2.
  - destruct (query_stored _ _ _ _ _ _) as [es f']. injection Hx as <-. eapply Hmove; [reflexivity..|]. intros; discriminate.
Qed.

Lemma nodup_right : forall (a b : list nat), NoDup (a ++ b) -> NoDup b.
Proof. induction a as [|x a IH]; intros b H; [exact H|]. cbn [app] in H. inversion H; subst. auto. Qed.

Lemma nodup_ready : forall l a b, NoDup (map ready_id l) -> In a l -> In b l -> ready_id a = ready_id b -> a = b.
Proof.
  induction l as [|x l IH]; intros a b H Ha Hb E; [destruct Ha|]. cbn [map] in H. inversion H as [|? ? H1 H2]; subst.
  destruct Ha as [->|Ha], Hb as [->|Hb]; auto; exfalso; apply H1; [rewrite E|rewrite <- E]; now apply in_map.
Qed.

Lemma joint_deliver : forall OA OB cfA cfB sv A N K F top query c s tr y x n r c' query', joint OB cfA cfB sv A N K F top query c s tr y ->
    NoDup (numbers (f_sys F)) -> exec OA (f_sys F) (ODeliver n) = Some (x, r) ->
    returned query (FOther (ODeliver n)) [(ODeliver n, r)] c = (c', query') ->
    joint OB cfA cfB sv (A ++ [(ODeliver n, r)]) N K (set_sys F x) top query' c' s tr y.
Proof.
  intros * J HN Hx HR. cbn [exec] in Hx. destruct (take_ready n (s_ready (f_sys F))) as [[w rs]|] eqn:Et; [|discriminate]. injection Hx as <- <-.
  apply take_ready_perm in Et as [P E]. unfold numbers in HN.
  assert (Hin : In w (s_ready (f_sys F))) by (eapply Permutation_in; [symmetry; exact P|now left]).
  pose proof (j_q _ _ _ _ _ _ _ _ _ _ _ _ _ _ J) as Q. destruct query as [q|]; cbn [returned] in HR.
  - destruct (Nat.eqb q n) eqn:Eq.
    + apply Nat.eqb_eq in Eq as <-. injection HR as <- <-. destruct Q as (A1 & A2 & last & max & g & A3 & A4).
      destruct A4 as [(A5 & _)|(es & res & A5 & A6 & A7 & A8)].
      { exfalso. assert (B1 : In q (flat_map jq (s_jobs (f_sys F)))) by (apply in_flat_map; eexists; split; [exact A5|now left]).
        assert (B2 : In q (map ready_id (s_ready (f_sys F)))) by (rewrite <- E; now apply in_map).
        revert HN B1 B2. generalize (flat_map jq (s_jobs (f_sys F))) (map ready_id (s_ready (f_sys F))). clear. intros a. induction a as [|z a IH]; intros b H B1 B2; [destruct B1|].
        cbn [app] in H. inversion H as [|? ? X1 X2]; subst. destruct B1 as [->|B1]; [apply X1; apply in_or_app; now right|eauto]. }
      assert (w = RServer q (client_query sv last) max g es) as ->.
      { eapply nodup_ready; eauto. eapply nodup_right; eauto. }
      cbn [finish]. rewrite A6. eapply joint_quiet; eauto; try discriminate; [rewrite (j_cl _ _ _ _ _ _ _ _ _ _ _ _ _ _ J) at 1; reflexivity|apply J|].
      split; cbn [y_remote r_req r_resp]; congruence.
    + injection HR as <- <-. eapply joint_quiet; eauto; try apply J; try reflexivity; try discriminate.
      destruct Q as (A1 & A2 & last & max & g & A3 & A4). split; auto. split; auto. exists last, max, g. split; auto. cbn [done_ s_jobs s_ready].
      destruct A4 as [A4|(es & res & A5 & A6)]; [left; exact A4|right]. exists es, res. split; [|exact A6].
      apply (Permutation_in _ P) in A5 as [->|A5]; [|exact A5]. cbn [ready_id] in E. apply Nat.eqb_neq in Eq. congruence.
  - injection HR as <- <-. eapply joint_quiet; eauto; try apply J; try reflexivity; try discriminate.
Qed.

(** ** The client *)

Lemma yexec_end : forall sv L c o c' l, client_op o = true -> yexec sv L c o = Some (c', l) -> y_phase c' <> PEnd.
Proof.
  assert (D : forall c, y_phase (fst (drain c)) <> PEnd) by (intros c; unfold drain; destruct (next_queued _ _) as [[es q]|]; discriminate).
  assert (NX : forall c, y_phase (fst (next c)) <> PEnd) by (intros c; unfold next; destruct (y_more c); [discriminate|]; destruct (y_ev c); [apply D|discriminate]).
  assert (S : forall c, y_phase (fst (Model_Sync.sessions c)) <> PEnd).
  { intros c. unfold Model_Sync.sessions. destruct (y_ev c); [apply NX|]. cbv zeta. destruct (Z.eqb _ _); [apply NX|discriminate]. }
  assert (AD : forall c, y_phase (fst (advance c)) <> PEnd) by (intros c; apply S).
  intros sv L c o c' l Ho. unfold yexec. destruct (y_phase c) eqn:EP; try discriminate; destruct o; try discriminate Ho; intros H; try discriminate H;
    repeat match type of H with
         | (if ?b then _ else _) = Some _ => destruct b eqn:?; try discriminate H
         | match ?x with _ => _ end = Some _ => destruct x eqn:?; try discriminate H
         end;
    try (injection H as <- <-; cbn; rewrite ?EP; discriminate);
    match type of H with Some ?p = Some _ => assert (X : y_phase (fst p) <> PEnd) by auto; assert (E : p = (c', l)) by congruence; rewrite E in X; exact X end.
Qed.
