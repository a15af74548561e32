(** Lemmas for C81: answers of queries of a server that goes on from a database. *)
From Coq Require Import String Bool ZArith Lia Sorted List.
From Verif Require Import Base Kv Model_Types Model_Subscription Spec_Subscription Model_Codec Keys Model_Lmdb Model_LmdbSys Spec_Order Spec_Lmdb Spec_LmdbContent Spec_Copy
  Proof_Lmdb1 Proof_Lmdb2 Proof_Lmdb3 Proof_Lmdb4 Proof_Lmdb5 Proof_Lmdb6 Proof_Lmdb7 Proof_Lmdb8 Proof_Lmdb9 Proof_Lmdb10 Proof_Lmdb11 Proof_Lmdb12 Proof_Lmdb13 Proof_Lmdb14 Proof_Lmdb16 Proof_Lmdb20 Spec_Resume Proof_Resume Proof_Resume2 Proof_Resume3
  Spec_LmdbQuery Spec_LmdbTs Spec_ResumeQuery Proof_ResumeQuery.
Import ListNotations.
Open Scope list_scope.
Open Scope Z_scope.

Lemma seen_kept : forall O cf c tr s n f, consistent c -> resumed O cf c tr s ->
    forall t i e, In ((n, t, i), e) (db_ts c) -> f e = true ->
      In (t, e) (seen f (stored_in (s_disk s) n)) \/ exists ks, In (OWork, Cleaned ks) tr /\ In (n, t, i) ks.
Proof.
  intros O cf c tr s n f HC Hs t i e Hi Hf. destruct (final_C81_kept _ _ _ _ _ _ _ HC Hs Hi) as [H|H]; [left|now right].
  unfold seen, stored_in. apply filter_In. split; auto. apply in_map_iff. exists ((n, t, i), e). split; auto. apply filter_In. split; auto. cbn. apply Z.eqb_refl.
Qed.

Lemma final_C81_timeseries : forall c, consistent c -> exists H, stands_for H c /\ forall O cf trA q p trB a s sA, disj_ok O ->
    resumed O cf c (trA ++ (OTs q p, Quiet) :: trB ++ [(ODeliver q, a)]) s -> resumed O cf c trA sA ->
    made (w_conf (watch_from H cf trA)) -> ~ In q (queries_of trA) -> ~ In q (queries_of trB) ->
    let cfA := w_conf (watch_from H cf trA) in
    0 <= ts_max cfA p ->
    exists n pt trB1 trB2 s2, chosen cfA (s_disk sA) p n pt /\ trB = trB1 ++ (OWork, Quiet) :: trB2 /\
      resumed O cf c (trA ++ (OTs q p, Quiet) :: trB1) s2 /\
      let D := seen (cf_cond cfA) (stored_in (s_disk s2) n) in
      let P := pending_in pt (pending_from H p cf trA trB) in
      ts_exact cfA p (looked_at p D P) a /\ (cuttable p P -> ts_answer cfA p (D ++ P) a) /\
      forall t i e, In ((n, t, i), e) (db_ts c) -> cf_cond cfA e = true ->
        In (t, e) D \/ exists ks, In (OWork, Cleaned ks) (trA ++ (OTs q p, Quiet) :: trB1) /\ In (n, t, i) ks.
Proof.
  intros c HC. destruct (resume_history c HC) as (H & SF & R). exists H. split; auto. intros O cf trA q p trB a s sA Hd Hx HA Hm N1 N2 cfA HM.
  destruct (res_ts c H R _ _ _ _ _ _ _ _ _ Hd Hx HA Hm N1 N2 HM) as (n & pt & trB1 & trB2 & s2 & A1 & A2 & A3 & A4 & A5).
  exists n, pt, trB1, trB2, s2. do 3 (split; [assumption|]). cbn zeta. split; [exact A4|]. split; [exact A5|]. intros t i e. now apply (seen_kept _ _ _ _ _ _ _ HC A3).
Qed.

Lemma final_C81_at_once : forall c, consistent c -> exists H, stands_for H c /\ forall O cf trA q p x s sA, disj_ok O ->
    resumed O cf c (trA ++ [(OTs q p, x)]) s -> resumed O cf c trA sA -> made (w_conf (watch_from H cf trA)) ->
    let cfA := w_conf (watch_from H cf trA) in
    (exists qs, qt_types p = Some qs /\ py_create qs = None /\ x = Answer None) \/
    ((forall pt, In pt (cf_parts cfA) -> ~ suits p pt) /\ x = Answer (Some (QRes [] false))) \/
    (exists n pt, chosen cfA (s_disk sA) p n pt /\
      (x = Quiet \/
       qt_order p = DESCENDING /\
       let D := seen (cf_cond cfA) (stored_in (s_disk sA) n) in
       let P := pending_in pt (w_cur (watch_from H cf trA)) in
       (0 <= ts_max cfA p -> ts_exact cfA p (looked_at p D P) x /\ (cuttable p P -> ts_answer cfA p (D ++ P) x)) /\
       (ts_max cfA p < 0 -> x = Answer None))).
Proof. intros c HC. destruct (resume_history c HC) as (H & SF & R). exists H. split; [exact SF|]. exact (res_at_once c H R). Qed.

(** ** Nothing registered and nothing removed *)

Lemma watch_undisturbed : forall tr w, undisturbed tr -> concat (w_queue w) = [] -> w_cur w = [] ->
    let w' := fold_left watch_step tr w in w_disk w' = w_disk w /\ concat (w_queue w') = [] /\ w_cur w' = [] /\ w_gone w' = w_gone w.
Proof.
  induction tr as [|[o x] tr IH]; intros w Hu Hq Hc; [auto|]. cbn [fold_left].
  assert (Hu' : undisturbed tr) by (intros o' x' Hi; apply Hu; now right). destruct (Hu o x (or_introl eq_refl)) as [N1 N2].
  assert (S : w_disk (watch_step w (o, x)) = w_disk w /\ concat (w_queue (watch_step w (o, x))) = [] /\ w_cur (watch_step w (o, x)) = [] /\ w_gone (watch_step w (o, x)) = w_gone w).
  { destruct o; cbn [watch_step]; auto.
    - exfalso. now apply (N1 es).
    - cbn [w_disk w_queue w_cur w_gone]. rewrite concat_app, Hq, Hc. auto.
    - destruct x; auto; [|exfalso; now apply (N2 ks)]. cbn [w_disk w_queue w_cur w_gone].
      destruct (w_queue w) as [|h Q]; cbn [hd tl concat] in *; [rewrite app_nil_r; auto|]. apply app_eq_nil in Hq as [-> Hq]. rewrite app_nil_r. auto. }
  destruct S as (S1 & S2 & S3 & S4). destruct (IH _ Hu' S2 S3) as (I1 & I2 & I3 & I4). cbn zeta. rewrite I1, I4. auto.
Qed.

Lemma former_entries : forall O cf c H tr s, repr c H [] -> resumed O cf c tr s -> undisturbed tr -> db_ts (s_disk s) = db_ts c.
Proof.
  intros O cf c H tr s R Hs Hu. pose proof (si_repr _ _ (resumed_inv _ _ _ _ _ _ R Hs)) as R'.
  destruct (watch_undisturbed tr (Watch cf H [] [] []) Hu eq_refl eq_refl) as (W1 & _ & _ & W4). cbn [w_disk w_gone] in W1, W4.
  unfold watch_from in R'. rewrite W1, W4 in R'.
  assert (Sub : forall p v, kget zord p (db_parts c) = Some v -> kget zord p (db_parts (s_disk s)) = Some v).
  { intros p v Hp. apply (kget_In zord); [apply (rp_psorted _ _ _ R')|]. apply (resumed_parts _ _ _ _ _ _ R Hs). apply (kget_In zord); [apply (rp_psorted _ _ _ R)|auto]. }
  apply (kext keyord); [apply (dw_ts _ (ba_wf _ (rp_base _ _ _ R')))|apply (dw_ts _ (ba_wf _ (rp_base _ _ _ R)))|]. intros k.
  assert (I : forall e, kget keyord k (db_ts (s_disk s)) = Some e <-> kget keyord k (db_ts c) = Some e).
  { intros e. rewrite (rp_ts _ _ _ R'), (rp_ts _ _ _ R). unfold kept. split; intros [(cf' & pt & A & B & D & E) G]; (split; [exists cf', pt; split; [exact A|split; [exact B|split; [|exact E]]]|auto]); auto.
    destruct (rp_parts _ _ _ R _ pt A B) as [p Hp]. replace (fst (fst k)) with p; auto. apply (rp_pinj _ _ _ R' p _ (part_data_of pt)); auto. }
  destruct (kget keyord k (db_ts (s_disk s))) as [e|] eqn:E1; [symmetry; now apply I|]. destruct (kget keyord k (db_ts c)) as [e|] eqn:E2; auto. now apply I.
Qed.

Lemma pending_undisturbed : forall tr w, undisturbed tr -> concat (w_queue w) = [] -> w_cur w = [] -> w_cur (pending_at w tr) = [].
Proof.
  intros tr w Hu Hq Hc. destruct (pending_prefix tr w) as (b1 & b2 & E1 & E2). rewrite E2. apply watch_undisturbed; auto.
  intros o x Hi. apply Hu. rewrite E1. apply in_or_app. auto.
Qed.

Lemma final_C81_former : forall O cf c trA q p trB a s sA, consistent c -> disj_ok O ->
    resumed O cf c (trA ++ (OTs q p, Quiet) :: trB ++ [(ODeliver q, a)]) s -> resumed O cf c trA sA -> undisturbed (trA ++ trB) ->
    ~ In q (queries_of trA) -> ~ In q (queries_of trB) ->
    let cfA := s_conf sA in
    made cfA -> 0 <= ts_max cfA p ->
    exists n pt L, chosen cfA (s_disk sA) p n pt /\ selected p (in_sequence p (seen (cf_cond cfA) (stored_in c n))) L /\
      a = Answer (Some (page (ts_max cfA p) L)) /\ NoDup (map ev_id L) /\ ordered p L.
Proof.
  intros O cf c trA q p trB a s sA HC Hd Hx HA Hu N1 N2 cfA Hm HM. destruct (resume_history c HC) as (H & SF & R).
  assert (UA : undisturbed trA) by (intros o x Hi; apply Hu, in_or_app; auto). assert (UB : undisturbed trB) by (intros o x Hi; apply Hu, in_or_app; auto).
  assert (Ec : w_conf (watch_from H cf trA) = cfA) by (symmetry; apply (si_conf _ _ (resumed_inv _ _ _ _ _ _ R HA))).
  destruct (watch_undisturbed trA (Watch cf H [] [] []) UA eq_refl eq_refl) as (_ & W2 & W3 & _).
  destruct (res_flushed c H R O cf trA q p trB a s sA Hd Hx HA) as (n & pt & trB1 & trB2 & s2 & L & A1 & A2 & A3 & A4 & A5 & A6 & A7); auto; try (now rewrite Ec).
  { unfold pending_from. destruct (qt_order p); [exact W3|]. now apply pending_undisturbed. }
  rewrite Ec in *. exists n, pt, L. split; auto. split; auto. replace (stored_in c n) with (stored_in (s_disk s2) n); auto. unfold stored_in.
  rewrite (former_entries _ _ _ _ _ _ R A3); auto. intros o x Hi. apply in_app_or in Hi as [Hi|[[= <- <-]|Hi]]; [now apply UA|split; discriminate|].
  apply UB. rewrite A2. apply in_or_app. auto.
Qed.

(** ** Server queries *)

Lemma final_C81_server : forall c, consistent c -> exists H, stands_for H c /\ forall O cf trA q p trB a s,
    pick_ok O -> resumed O cf c (trA ++ (OServer q p, Quiet) :: trB ++ [(ODeliver q, a)]) s ->
    conditions_kept (cf :: confs_of trA) -> (forall e, In e (vals (db_latest c)) -> cf_cond cf e = true) ->
    ~ In q (queries_of trA) -> ~ In q (queries_of trB) -> 0 <= server_max p ->
    exists trB1 trB2 s2 L, trB = trB1 ++ (OWork, Quiet) :: trB2 /\
      resumed O cf c (trA ++ (OServer q p, Quiet) :: trB1) s2 /\
      a = Answer (Some (page (server_max p) L)) /\ by_id L /\
      (let w := pending_at (watch_from H cf trA) trB in
       forall e, In e L <-> eid_server (ev_id e) = qs_server p /\ after (qs_last p) e /\
         (stored_event (s_disk s2) e \/
          (qs_persisted p = false /\ exists en, In en (w_cur w) /\ en_ev en = e /\ live (w_all w) en))).
Proof.
  intros c HC. destruct (resume_history_met c HC) as (H & SF & R & T). exists H. split; [exact SF|]. intros O cf trA q p trB a s Hp Hx Hk Hm.
  intros N1 N2 M. apply (res_server c H R) with (s := s); auto. split; auto. intros t e L. apply Hm. now apply (sf_latest _ _ SF) in L.
Qed.
