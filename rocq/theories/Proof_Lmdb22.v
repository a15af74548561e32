(** LMDB backend: paging through timeseries queries. *)
From Coq Require Import String Bool ZArith Lia Sorted Permutation List.
From Verif Require Import Base Kv Model_Types Model_Subscription Model_Order Model_Codec Keys
  Spec_Order Spec_Codec Spec_Subscription Proof_Subscription Proof_Subscription2 Proof_Order Model_Lmdb Model_LmdbSys Spec_Lmdb Spec_LmdbContent
  Spec_LmdbQuery Spec_LmdbTs
  Proof_Lmdb1 Proof_Lmdb2 Proof_Lmdb3 Proof_Lmdb4 Proof_Lmdb5 Proof_Lmdb6 Proof_Lmdb7 Proof_Lmdb8 Proof_Lmdb9 Proof_Lmdb10 Proof_Lmdb11 Proof_Lmdb12
  Proof_Lmdb13 Proof_Lmdb14 Proof_Lmdb15 Proof_Lmdb16 Proof_Lmdb18 Proof_Lmdb19 Proof_Lmdb20 Proof_Lmdb21.
Import ListNotations.
Open Scope list_scope.
Open Scope Z_scope.

(** ** Nothing changes *)

Lemma still_cons : forall o x tr, still ((o, x) :: tr) -> still [(o, x)] /\ still tr.
Proof. intros o x tr H. split; intros o' x' Hi; apply H; [destruct Hi as [Hi|[]]; now left|now right]. Qed.
Lemma still_app : forall a b, still (a ++ b) <-> still a /\ still b.
Proof.
  intros a b. split.
  - intros H. split; intros o x Hi; apply H; apply in_or_app; auto.
  - intros [H1 H2] o x Hi. apply in_app_or in Hi as [Hi|Hi]; [now apply H1|now apply H2].
Qed.

Lemma still_watch1 : forall o x w, still [(o, x)] -> watch_step w (o, x) = w.
Proof. intros o x w H. destruct (H o x (or_introl eq_refl)) as [H1 H2]. destruct o; try easy; destruct x; easy. Qed.

Lemma still_watch : forall tr w, still tr -> fold_left watch_step tr w = w.
Proof.
  induction tr as [|[o x] tr IH]; intros w H; auto. apply still_cons in H as [H1 H2]. cbn [fold_left]. rewrite (still_watch1 _ _ _ H1). auto.
Qed.

Lemma still_run : forall cf a b, still b -> watch_run cf (a ++ b) = watch_run cf a.
Proof. intros. rewrite watch_run_app. now apply still_watch. Qed.

Lemma still_pending : forall tr w, still tr -> pending_at w tr = w.
Proof.
  induction tr as [|[o x] tr IH]; intros w H; auto. apply still_cons in H as [H1 H2].
  pose proof (still_watch1 o x w H1) as E. destruct (H1 o x (or_introl eq_refl)) as [H3 _].
  destruct o; try easy; cbn [pending_at]; rewrite ?E; auto.
Qed.

Lemma still_pending_for : forall p cf tr trB, still trB -> pending_for p cf tr trB = w_cur (watch_run cf tr).
Proof. intros p cf tr trB H. unfold pending_for. rewrite still_pending; auto. now destruct (qt_order p). Qed.

Lemma still_disk : forall O tr s s', runs O s tr s' -> still tr -> s_disk s' = s_disk s.
Proof.
  intros O tr s s' H. induction H as [|s o x s1 tr s2 He Hr IH]; intros Hs; auto. apply still_cons in Hs as [H1 H2]. rewrite IH by auto.
  destruct (H1 o x (or_introl eq_refl)) as [H3 H4]. destruct o as [es| |now|q|q pr|q pr| |q|c]; try easy; cbn [exec] in He.
  - injection He as <- <-. reflexivity.
  - injection He as <- <-. reflexivity.
  - destruct (server_query_start pr); injection He as <- <-; reflexivity.
  - unfold ts_query_step in He. destruct (ts_query_start _ _ _ _) as [[[sub mx] [part|]]|]; try (injection He as <- <-; reflexivity).
    destruct (qt_order pr); [|injection He as <- <-; reflexivity]. destruct (query_pending _ _ _ _) as [es f].
    destruct (filter_done f); injection He as <- <-; reflexivity.
  - unfold work in He. destruct (s_jobs s) as [|j js]; [injection He as <- <-; reflexivity|]. destruct j.
    + injection He as <- <-. easy.
    + destruct (cleanup _ _ _ _) as [d' ks]. injection He as <- <-. easy.
    + destruct (query_refs _ _ _ _ _); [|discriminate]. injection He as <- <-. reflexivity.
    + destruct (query_stored _ _ _ _ _ _). injection He as <- <-. reflexivity.
  - destruct (take_ready _ _) as [[r rs]|]; [|discriminate]. injection He as <- <-. reflexivity.
Qed.

Lemma still_execution : forall O cf a b s s', execution O cf a s -> execution O cf (a ++ b) s' -> still b -> s_disk s' = s_disk s.
Proof.
  intros O cf a b s s' Ha Hb Hs. destruct (execution_split _ _ _ _ _ Hb) as (s1 & H1 & H2 & _).
  rewrite (execution_fun _ _ _ _ _ H1 Ha) in H2. eapply still_disk; eauto.
Qed.

Lemma paging_still : forall cf p tr0 tr last acc more, ts_paging cf p tr0 tr last acc more -> exists X, tr = tr0 ++ X /\ still X.
Proof.
  intros cf p tr0 tr last acc more H.
  induction H as [|tr last acc trA q max trB es more H IH HA HB _ _ _ _|tr last acc trA q max es more H IH HA _].
  - exists []. split; [now rewrite app_nil_r|]. intros o x [].
  - destruct IH as (X & -> & HX).
    exists (X ++ trA ++ (OTs q (ask_page p last max), Quiet) :: trB ++ [(ODeliver q, Answer (Some (QRes es more)))]).
    split; [now rewrite <- app_assoc|]. apply still_app. split; auto. apply still_app. split; auto.
    intros o x [[= <- <-]|Hi]; [easy|]. apply in_app_or in Hi as [Hi|[[= <- <-]|[]]]; [now apply HB|easy].
  - destruct IH as (X & -> & HX). exists (X ++ trA ++ [(OTs q (ask_page p last max), Answer (Some (QRes es more)))]).
    split; [now rewrite <- app_assoc|]. apply still_app. split; auto. apply still_app. split; auto.
    intros o x [[= <- <-]|[]]. easy.
Qed.

(** ** One page after another *)

Lemma first_eq : forall (A : Type) (P : A -> Prop) a x b a' x' b', a ++ x :: b = a' ++ x' :: b' -> P x -> P x' ->
    (forall y, In y a -> ~ P y) -> (forall y, In y a' -> ~ P y) -> x = x'.
Proof.
  intros A P a. induction a as [|y a IH]; intros x b [|y' a'] x' b' E Hx Hx' Ha Ha'; cbn [app] in E; injection E as E1 E2.
  - auto.
  - subst. exfalso. apply (Ha' y'); auto. now left.
  - subst. exfalso. apply (Ha x'); auto. now left.
  - eapply (IH x b a' x' b' E2 Hx Hx'); intros z Hz; [apply Ha|apply Ha']; now right.
Qed.

Lemma chosen_fun : forall cf d H K p n pt n' pt', repr d H K -> chosen cf d p n pt -> chosen cf d p n' pt' -> n = n' /\ pt = pt'.
Proof.
  intros cf d H K p n pt n' pt' Hr (a & b & E & Hs & Ha & Hn) (a' & b' & E' & Hs' & Ha' & Hn').
  rewrite E in E'. assert (pt = pt') by (eapply (first_eq _ (suits p)); eauto). subst pt'. split; auto.
  apply (kget_In zord) in Hn; [|apply (rp_psorted _ _ _ Hr)]. apply (kget_In zord) in Hn'; [|apply (rp_psorted _ _ _ Hr)].
  eapply (rp_pinj _ _ _ Hr); eauto.
Qed.

Lemma chosen_page : forall cf d p last max n pt, chosen cf d (ask_page p last max) n pt <-> chosen cf d p n pt.
Proof. reflexivity. Qed.
Lemma suits_page : forall p last max pt, suits (ask_page p last max) pt <-> suits p pt.
Proof. reflexivity. Qed.
Lemma looked_page : forall p last max D P, looked_at (ask_page p last max) D P = looked_at p D P.
Proof. reflexivity. Qed.
Lemma wanted_page : forall p last max e, wanted (ask_page p last max) e <-> wanted p e.
Proof. reflexivity. Qed.

Lemma behind_at : forall e a b, NoDup (map ev_id (a ++ e :: b)) -> behind (ev_id e) (a ++ e :: b) = b.
Proof.
  intros e. induction a as [|x a IH]; intros b Hn; cbn [app behind].
  - now rewrite (proj2 (eid_eqb_spec _ _) eq_refl).
  - cbn [app map] in Hn. inversion Hn as [|? ? Hi Hn']; subst. destruct (eid_eqb (ev_id x) (ev_id e)) eqn:E; auto.
    apply eid_eqb_spec in E. exfalso. apply Hi. rewrite E, map_app. apply in_or_app. right. now left.
Qed.

Lemma filter_at : forall (A : Type) (w : A -> bool) T a e b, filter w T = a ++ e :: b -> exists T1 T2, T = T1 ++ e :: T2 /\ filter w T2 = b.
Proof.
  intros A w T. induction T as [|x T IH]; intros a e b E; cbn [filter] in E; [now destruct a|]. destruct (w x).
  - destruct a as [|y a]; cbn [app] in E; injection E as E1 E2.
    + subst. exists [], T. auto.
    + apply IH in E2 as (T1 & T2 & -> & E2). exists (x :: T1), T2. auto.
  - apply IH in E as (T1 & T2 & -> & E). exists (x :: T1), T2. auto.
Qed.

Lemma next_page : forall w last S m, NoDup (map ev_id S) ->
    let L := filter w (following last S) in
    filter w (following (last_received last (firstn m L)) S) = match m with O => L | _ => skipn m L end.
Proof.
  intros w last S m Hn L. destruct m as [|m]; [reflexivity|].
  assert (Hc : L = [] \/ exists a e, firstn (Datatypes.S m) L = a ++ [e]).
  { destruct L as [|x l]; [auto|]. right. cbn [firstn]. destruct (@exists_last _ (x :: firstn m l)) as (a & e & E); [discriminate|]. rewrite E. eauto. }
  destruct Hc as [E|(a & e & E)].
  - rewrite E. rewrite firstn_nil, skipn_nil. cbn [last_received]. exact E.
  - rewrite E.
    assert (EL : L = a ++ e :: skipn (Datatypes.S m) L).
    { rewrite <- (firstn_skipn (Datatypes.S m) L) at 1. rewrite E, <- app_assoc. reflexivity. }
    unfold last_received. rewrite rev_app_distr. cbn [rev app]. cbn [following].
    unfold L in EL at 1. apply filter_at in EL as (T1 & T2 & ET & E2). rewrite <- E2.
    f_equal. destruct (following_suffix last S) as (b & [Eb|Eb]).
    + rewrite ET, app_assoc in Eb. rewrite Eb in Hn |- *. apply behind_at. exact Hn.
    + rewrite Eb in ET. now destruct T1.
Qed.

(** Each answer during paging. *)
Lemma answer_later : forall O cf p tr0 s0 X trA q max trB es more s last, disj_ok O -> execution O cf tr0 s0 ->
    made (w_conf (watch_run cf tr0)) -> still X -> still trA -> still trB ->
    let tr := tr0 ++ X in let pg := ask_page p last max in let cfA := w_conf (watch_run cf tr0) in
    execution O cf (tr ++ trA ++ (OTs q pg, Quiet) :: trB ++ [(ODeliver q, Answer (Some (QRes es more)))]) s ->
    1 <= ts_max cfA pg -> ~ In q (queries_of tr) -> ~ In q (queries_of trA) -> ~ In q (queries_of trB) ->
    exists n pt, chosen cfA (s_disk s0) p n pt /\
      ts_exact cfA pg (looked_at p (seen (cf_cond cfA) (stored_in (s_disk s0) n)) (pending_in pt (w_cur (watch_run cf tr0)))) (Answer (Some (QRes es more))).
Proof.
  intros O cf p tr0 s0 X trA q max trB es more s last Hdj H0 Hm HX HA HB tr pg cfA Hx HM Hq1 Hq2 Hq3.
  rewrite app_assoc in Hx. destruct (execution_split _ _ _ _ _ Hx) as (sA & HxA & _).
  assert (Ew : watch_run cf (tr ++ trA) = watch_run cf tr0) by (unfold tr; now rewrite !still_run).
  assert (EdA : s_disk sA = s_disk s0).
  { unfold tr in HxA. rewrite <- app_assoc in HxA. eapply still_execution; eauto. apply still_app; auto. }
  assert (Hq : ~ In q (queries_of (tr ++ trA))).
  { unfold queries_of in *. rewrite flat_map_app. intros Hi. apply in_app_or in Hi as [Hi|Hi]; auto. }
  destruct (final_C17 _ _ _ _ _ _ _ _ _ Hdj Hx HxA) as (n & pt & trB1 & trB2 & s2 & A1 & A2 & A3 & A4 & _); auto; [now rewrite Ew| |].
  { rewrite Ew. fold cfA. lia. }
  rewrite Ew in A1, A4. rewrite (still_pending_for _ _ _ _ HB), Ew in A4. fold cfA in A1, A4.
  assert (Ed2 : s_disk s2 = s_disk s0).
  { unfold tr in A3. rewrite <- !app_assoc in A3. eapply still_execution; eauto. apply still_app; split; auto. apply still_app; split; auto.
    intros o x [[= <- <-]|Hi]; [easy|]. apply HB. rewrite A2. apply in_or_app. auto. }
  rewrite Ed2 in A4. rewrite EdA in A1. exists n, pt. split; auto.
Qed.

Lemma answer_at_once : forall O cf p tr0 s0 X trA q max es more s last, disj_ok O -> execution O cf tr0 s0 ->
    made (w_conf (watch_run cf tr0)) -> still X -> still trA ->
    let tr := tr0 ++ X in let pg := ask_page p last max in let cfA := w_conf (watch_run cf tr0) in
    execution O cf (tr ++ trA ++ [(OTs q pg, Answer (Some (QRes es more)))]) s -> 1 <= ts_max cfA pg ->
    ((forall pt, In pt (cf_parts cfA) -> ~ suits p pt) /\ es = [] /\ more = false) \/
    exists n pt, chosen cfA (s_disk s0) p n pt /\
      ts_exact cfA pg (looked_at p (seen (cf_cond cfA) (stored_in (s_disk s0) n)) (pending_in pt (w_cur (watch_run cf tr0)))) (Answer (Some (QRes es more))).
Proof.
  intros O cf p tr0 s0 X trA q max es more s last Hdj H0 Hm HX HA tr pg cfA Hx HM.
  rewrite app_assoc in Hx. destruct (execution_split _ _ _ _ _ Hx) as (sA & HxA & _).
  assert (Ew : watch_run cf (tr ++ trA) = watch_run cf tr0) by (unfold tr; now rewrite !still_run).
  assert (EdA : s_disk sA = s_disk s0).
  { unfold tr in HxA. rewrite <- app_assoc in HxA. eapply still_execution; eauto. apply still_app; auto. }
  destruct (final_C17_at_once _ _ _ _ _ _ _ _ Hdj Hx HxA) as [H|[H|(n & pt & H1 & H2)]].
  - now rewrite Ew.
  - destruct H as (qs & _ & _ & E). discriminate.
  - rewrite Ew in H. destruct H as [H E]. injection E as -> ->. auto.
  - rewrite Ew, EdA in *. right. exists n, pt. split; auto. destruct H2 as [H2|(_ & H2 & _)]; [discriminate|].
    apply H2. fold cfA. fold pg. lia.
Qed.

Lemma paging_inv : forall O cf p tr0 s0, disj_ok O -> execution O cf tr0 s0 -> made (w_conf (watch_run cf tr0)) ->
    forall tr last acc more s, ts_paging cf p tr0 tr last acc more -> execution O cf tr s ->
    let cfA := w_conf (watch_run cf tr0) in
    (more = false -> (forall pt, In pt (cf_parts cfA) -> ~ suits p pt) \/
       exists n pt w, chosen cfA (s_disk s0) p n pt /\ forall e : event, w e = true <-> wanted p e) /\
    ((forall pt, In pt (cf_parts cfA) -> ~ suits p pt) -> acc = []) /\
    (forall n pt, chosen cfA (s_disk s0) p n pt ->
       let S := looked_at p (seen (cf_cond cfA) (stored_in (s_disk s0) n)) (pending_in pt (w_cur (watch_run cf tr0))) in
       forall w, (forall e, w e = true <-> wanted p e) ->
         filter w (following (qt_last p) S) = acc ++ filter w (following last S) /\
         (more = false -> filter w (following last S) = []) /\
         (more = true -> acc <> [] -> filter w (following last S) <> [])).
Proof.
  intros O cf p tr0 s0 Hdj H0 Hm tr last acc more s Hp. revert s.
  assert (Hext : forall (w w' : event -> bool) l, (forall e, w e = true <-> wanted p e) -> (forall e, w' e = true <-> wanted p e) ->
                 filter w l = filter w' l).
  { intros w w' l H1 H2. apply filter_ext. intros e. specialize (H1 e). specialize (H2 e). destruct (w e), (w' e); intuition congruence. }
  pose proof (execution_inv _ _ _ _ H0) as Hi0.
  assert (Hns : forall n pt, chosen (w_conf (watch_run cf tr0)) (s_disk s0) p n pt ->
            ~ (forall pt, In pt (cf_parts (w_conf (watch_run cf tr0))) -> ~ suits p pt)).
  { intros n pt (a & b & E & Hs & _) H. apply (H pt); auto. rewrite E. apply in_or_app. right. now left. }
  assert (Hstep : forall es more last acc m, 1 <= ts_max (w_conf (watch_run cf tr0)) (ask_page p last m) -> forall n pt, chosen (w_conf (watch_run cf tr0)) (s_disk s0) p n pt ->
            forall w, (forall e, w e = true <-> wanted p e) ->
            let S := looked_at p (seen (cf_cond (w_conf (watch_run cf tr0))) (stored_in (s_disk s0) n)) (pending_in pt (w_cur (watch_run cf tr0))) in
            filter w (following (qt_last p) S) = acc ++ filter w (following last S) ->
            ts_exact (w_conf (watch_run cf tr0)) (ask_page p last m) S (Answer (Some (QRes es more))) ->
            filter w (following (qt_last p) S) = (acc ++ es) ++ filter w (following (last_received last es) S) /\
            (more = false -> filter w (following (last_received last es) S) = []) /\
            (more = true -> acc ++ es <> [] -> filter w (following (last_received last es) S) <> [])).
  { intros es more0 last0 acc0 m HM n pt Hch w Hw S HS (L & (w' & Hw' & EL) & Ea & _). cbn [ask_page qt_last] in EL.
    rewrite (Hext w' w) in EL by auto. unfold page in Ea. injection Ea as -> ->. set (M := ts_max _ _) in *.
    assert (HnS : NoDup (map ev_id S)).
    { pose proof Hch as (pa & pb & Ep & _ & _ & Hnp). apply (kget_In zord) in Hnp; [|apply (rp_psorted _ _ _ (si_repr _ _ Hi0))].
      apply looked_nodup. eapply entries_between; [apply (si_repr _ _ Hi0)|apply (all_ok _ _ Hi0)|exact Hnp|].
      eapply nth_wf; [apply (si_ok _ _ Hi0)|]. rewrite Ep. apply in_or_app; right; now left. }
    rewrite EL. rewrite next_page by auto. rewrite <- EL.
    replace (match Z.to_nat M with O => L | _ => skipn (Z.to_nat M) L end) with (skipn (Z.to_nat M) L) by (destruct (Z.to_nat M) eqn:E; [lia|reflexivity]).
    rewrite <- app_assoc, firstn_skipn. split; [now rewrite HS, EL|]. split.
    - intros H. apply Z.ltb_ge in H. apply skipn_all2. lia.
    - intros H _ E. apply Z.ltb_lt in H. apply (f_equal (@List.length event)) in E. rewrite skipn_length in E. cbn [List.length] in E. lia. }
  induction Hp as [|tr last acc trA q max trB es more H IH HA HB HM Hq1 Hq2 Hq3|tr last acc trA q max es more H IH HA HM]; intros s Hx cfA.
  - split; [discriminate|]. split; auto. intros n pt Hch S w Hw. split; auto. split; [discriminate|]. intros _ E. now destruct E.
  - destruct (paging_still _ _ _ _ _ _ _ H) as (X & -> & HX). pose proof Hx as Hx'. destruct (execution_split _ _ _ _ _ Hx) as (s1 & Hx1 & _).
    destruct (IH _ Hx1) as (_ & I1 & I2).
    destruct (answer_later _ _ _ _ _ _ _ _ _ _ _ _ _ _ Hdj H0 Hm HX HA HB Hx' HM Hq1 Hq2 Hq3) as (n & pt & A1 & A2).
    pose proof A2 as (_ & (w0 & Hw0 & _) & _). split; [intros _; right; exists n, pt, w0; auto|]. split; [intros Hno; destruct (Hns _ _ A1 Hno)|].
    intros n' pt' Hch S w Hw. destruct (chosen_fun _ _ _ _ _ _ _ _ _ (si_repr _ _ Hi0) A1 Hch) as [-> ->].
    eapply Hstep; eauto. apply (I2 _ _ Hch w Hw).
  - destruct (paging_still _ _ _ _ _ _ _ H) as (X & -> & HX). pose proof Hx as Hx'. destruct (execution_split _ _ _ _ _ Hx) as (s1 & Hx1 & _).
    destruct (IH _ Hx1) as (_ & I1 & I2).
    destruct (answer_at_once _ _ _ _ _ _ _ _ _ _ _ _ _ Hdj H0 Hm HX HA Hx' HM) as [(Hno & -> & ->)|(n & pt & A1 & A2)].
    + split; auto. split; [intros _; rewrite app_nil_r; auto|]. intros n pt Hch. destruct (Hns _ _ Hch Hno).
    + pose proof A2 as (_ & (w0 & Hw0 & _) & _). split; [intros _; right; exists n, pt, w0; auto|]. split; [intros Hno; destruct (Hns _ _ A1 Hno)|].
      intros n' pt' Hch S w Hw. destruct (chosen_fun _ _ _ _ _ _ _ _ _ (si_repr _ _ Hi0) A1 Hch) as [-> ->].
      eapply Hstep; eauto. apply (I2 _ _ Hch w Hw).
Qed.

Theorem final_C18 : forall O cf p tr0 s0 tr last acc s, disj_ok O -> execution O cf tr0 s0 -> made (w_conf (watch_run cf tr0)) ->
    ts_paging cf p tr0 tr last acc false -> execution O cf tr s ->
    let cfA := w_conf (watch_run cf tr0) in
    ((forall pt, In pt (cf_parts cfA) -> ~ suits p pt) /\ acc = []) \/
    exists n pt, chosen cfA (s_disk s0) p n pt /\ NoDup (map ev_id acc) /\
      selected p (looked_at p (seen (cf_cond cfA) (stored_in (s_disk s0) n)) (pending_in pt (w_cur (watch_run cf tr0)))) acc.
Proof.
  intros O cf p tr0 s0 tr last acc s Hdj H0 Hm Hp Hx cfA.
  destruct (paging_inv _ _ _ _ _ Hdj H0 Hm _ _ _ _ _ Hp Hx) as (I1 & I2 & I3). fold cfA in I1, I2, I3.
  destruct (I1 eq_refl) as [Hno|(n & pt & w & Hch & Hw)]; [left; auto|]. right. exists n, pt. split; auto.
  destruct (I3 _ _ Hch w Hw) as (E1 & E2 & _). rewrite E2, app_nil_r in E1 by auto. split; [|exists w; auto].
  rewrite <- E1. pose proof (execution_inv _ _ _ _ H0) as Hi0.
  pose proof Hch as (pa & pb & Ep & _ & _ & Hnp). apply (kget_In zord) in Hnp; [|apply (rp_psorted _ _ _ (si_repr _ _ Hi0))].
  eapply sub_NoDup; [apply sub_map; eapply sub_trans; [|apply sub_filter]|].
  2: { apply looked_nodup. eapply entries_between; [apply (si_repr _ _ Hi0)|apply (all_ok _ _ Hi0)|exact Hnp|].
       eapply nth_wf; [apply (si_ok _ _ Hi0)|]. fold cfA. rewrite Ep. apply in_or_app; right; now left. }
  fold cfA. destruct (qt_last p) as [i|]; [|apply sub_refl]. cbn [following].
  match goal with |- Proof_Lmdb18.sub (behind i ?l) ?l => generalize l end. clear. induction l as [|x l IH]; cbn [behind]; [constructor|].
  destruct (eid_eqb (ev_id x) i); apply sub_skip; auto. apply sub_refl.
Qed.

(** Any two ways to page to the end yield the same. *)
Theorem final_C18_same : forall O cf p tr0 s0 tr last acc s tr' last' acc' s', disj_ok O -> execution O cf tr0 s0 -> made (w_conf (watch_run cf tr0)) ->
    ts_paging cf p tr0 tr last acc false -> execution O cf tr s ->
    ts_paging cf p tr0 tr' last' acc' false -> execution O cf tr' s' -> acc = acc'.
Proof.
  intros O cf p tr0 s0 tr last acc s tr' last' acc' s' Hdj H0 Hm Hp Hx Hp' Hx'.
  destruct (paging_inv _ _ _ _ _ Hdj H0 Hm _ _ _ _ _ Hp Hx) as (I1 & I2 & I3).
  destruct (paging_inv _ _ _ _ _ Hdj H0 Hm _ _ _ _ _ Hp' Hx') as (_ & J2 & J3).
  destruct (I1 eq_refl) as [Hno|(n & pt & w & Hch & Hw)]; [now rewrite I2, J2 by auto|].
  destruct (I3 _ _ Hch w Hw) as (E1 & E2 & _). destruct (J3 _ _ Hch w Hw) as (E3 & E4 & _).
  rewrite E2, app_nil_r in E1 by auto. rewrite E4, app_nil_r in E3 by auto. congruence.
Qed.

(** Before the end. *)
Theorem final_C18_prefix : forall O cf p tr0 s0 tr last acc s tr' last' acc' s', disj_ok O -> execution O cf tr0 s0 -> made (w_conf (watch_run cf tr0)) ->
    ts_paging cf p tr0 tr last acc true -> execution O cf tr s ->
    ts_paging cf p tr0 tr' last' acc' false -> execution O cf tr' s' -> exists rest, acc' = acc ++ rest /\ (acc <> [] -> rest <> []).
Proof.
  intros O cf p tr0 s0 tr last acc s tr' last' acc' s' Hdj H0 Hm Hp Hx Hp' Hx'.
  destruct (paging_inv _ _ _ _ _ Hdj H0 Hm _ _ _ _ _ Hp Hx) as (_ & I2 & I3).
  destruct (paging_inv _ _ _ _ _ Hdj H0 Hm _ _ _ _ _ Hp' Hx') as (J1 & J2 & J3).
  destruct (J1 eq_refl) as [Hno|(n & pt & w & Hch & Hw)].
  - rewrite I2, J2 by auto. exists []. split; auto.
  - destruct (I3 _ _ Hch w Hw) as (E1 & _ & E2). destruct (J3 _ _ Hch w Hw) as (E3 & E4 & _).
    rewrite E4, app_nil_r in E3 by auto. eexists. split; [rewrite <- E3; exact E1|]. intros Ha. now apply E2.
Qed.
