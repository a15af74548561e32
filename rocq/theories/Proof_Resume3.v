(** Lemmas for C81: what a server does that goes on from a database. *)
From Coq Require Import String Bool ZArith Lia Sorted List.
From Verif Require Import Base Kv Model_Types Model_Subscription Spec_Subscription Proof_Subscription Proof_Subscription2 Model_Codec Keys Model_Lmdb Model_LmdbSys Spec_Order Proof_Order Spec_Lmdb Spec_LmdbContent Spec_Copy
  Model_Convert Spec_Convert Proof_Lmdb1 Proof_Lmdb2 Proof_Lmdb3 Proof_Lmdb4 Proof_Lmdb5 Proof_Lmdb6 Proof_Lmdb7 Proof_Lmdb8 Proof_Lmdb9 Proof_Lmdb10 Spec_Resume Proof_Resume Proof_Resume2.
Import ListNotations.
Open Scope list_scope.
Open Scope Z_scope.

Lemma resumed_snoc : forall O cf c tr o x s', resumed O cf c (tr ++ [(o, x)]) s' ->
    exists s, resumed O cf c tr s /\ exec O s o = Some (s', x) /\ Forall conf_ok (confs_of [(o, x)]) /\ Forall event_ok (events_of [(o, x)]).
Proof.
  intros O cf c tr o x s' (d & m & H1 & H2 & H3 & H4). rewrite confs_of_app, app_comm_cons in H3. apply Forall_app in H3 as [H3 H5].
  rewrite events_of_app in H4. apply Forall_app in H4 as [H4 H6]. apply runs_split in H2 as (s & A & B). apply runs_one in B.
  exists s. split; [|auto]. exists d, m. auto.
Qed.

Lemma watch_from_snoc : forall H cf tr x, watch_from H cf (tr ++ [x]) = watch_step (watch_from H cf tr) x.
Proof. intros. unfold watch_from. now rewrite fold_left_app. Qed.

Lemma resumed_inv : forall O cf c H tr s, repr c H [] -> resumed O cf c tr s -> sys_inv s (watch_from H cf tr).
Proof.
  intros O cf c H tr. induction tr as [|[o x] tr IH] using rev_ind; intros s Hr Hs.
  - destruct Hs as (d & m & H1 & H2 & H3 & _). inversion H2; subst. inversion H3; subst. now apply (opened_inv _ _ _ _ _ _ Hr).
  - apply resumed_snoc in Hs as (s1 & H1 & H2 & H3 & H4). rewrite watch_from_snoc. eapply step_inv; eauto.
Qed.

Lemma final_C81_history : forall c, consistent c -> exists H, stands_for H c /\ forall O cf tr s, resumed O cf c tr s ->
    let w := watch_from H cf tr in
    content (s_disk s) (w_disk w) (w_gone w) /\ server_order (w_all w) /\
    (forall srv, last_id (w_all w) srv (get_last_event_id (m_sys (s_mem s)) srv)) /\
    (forall p a s', resumed O cf c (tr ++ [(OLatest p, a)]) s' -> valid_latest p ->
       exists es, a = Answer (Some (QRes es false)) /\ NoDup (map ev_type es) /\
         forall e, In e es <-> visible (w_conf w) (w_all w) (ev_type e) = Some e /\ asked p (ev_type e)).
Proof.
  intros c HC. destruct (resume_history c HC) as (H & SF & R). exists H. split; auto. intros O cf tr s Hs. cbn zeta.
  pose proof (resumed_inv _ _ _ _ _ _ R Hs) as Hi. split; [apply repr_content, Hi|]. split; [apply hist_server_order; eapply all_ok; eauto|]. split.
  - intros srv. destruct (all_repr _ _ Hi) as [K Hr]. rewrite (reported_id _ _ _ _ _ _ (si_mem _ _ Hi) Hr). apply last_id_ev.
  - intros p a s' Hq Hv. apply resumed_snoc in Hq as (s1 & H1 & H2 & _). cbn [exec] in H2. injection H2 as <- <-.
    pose proof (resumed_inv _ _ _ _ _ _ R H1) as Hi1. pose proof (si_mem _ _ Hi1) as Hm.
    destruct (latest_query_spec (m_latest (s_mem s1)) p _ _ (mr_events _ _ _ _ Hm) (mr_nodup _ _ _ _ Hm) Hv) as (es & E & A & B).
    exists es. rewrite E. auto.
Qed.

Lemma final_C81_latest : forall O cf c p a s, consistent c -> resumed O cf c [(OLatest p, a)] s -> valid_latest p ->
    exists es, a = Answer (Some (QRes es false)) /\ NoDup (map ev_type es) /\
      forall e, In e es <-> In e (vals (db_latest c)) /\ covers cf (ev_type e) = true /\ cf_cond cf e = true /\ asked p (ev_type e).
Proof.
  intros O cf c p a s HC Hs Hv. destruct (final_C81_history c HC) as (H & SF & F).
  pose proof (resumed_snoc O cf c [] _ _ _ Hs) as (s1 & H1 & _). destruct (F _ _ _ _ H1) as (_ & _ & _ & L). destruct (L p a s Hs Hv) as (es & E & N & I).
  exists es. split; auto. split; auto. intros e. rewrite I. unfold watch_from, w_all. cbn [fold_left w_conf w_disk w_queue w_cur concat app]. rewrite app_nil_r. unfold visible. split.
  - intros [A B]. destruct (latest_of H (ev_type e)) as [x|] eqn:El; [|discriminate]. destruct (covers cf (ev_type e) && cf_cond cf x) eqn:Ec; [|discriminate].
    injection A as ->. apply andb_prop in Ec as [Ec1 Ec2]. apply (sf_latest _ _ SF) in El. tauto.
  - intros (A & B & C & D). split; auto. rewrite (proj2 (sf_latest _ _ SF (ev_type e) e)) by auto. now rewrite B, C.
Qed.

Lemma resumed_parts : forall O cf c H tr s, repr c H [] -> resumed O cf c tr s ->
    forall p v, In (p, v) (db_parts c) -> In (p, v) (db_parts (s_disk s)).
Proof.
  intros O cf c H tr. induction tr as [|[o x] tr IH] using rev_ind; intros s Hr Hs p v Hp.
  - destruct Hs as (d & m & H1 & H2 & _). inversion H2; subst. cbn [s_disk]. unfold open_db in H1. destruct (validate_settings _ _ _); [|discriminate].
    pose proof (init_partitions_spec (db_parts c) (cf_parts cf) (rp_psorted _ _ _ Hr) (rp_pinj _ _ _ Hr)) as X.
    destruct (init_partitions _ _) as [ps res]. destruct X as (X1 & _ & X3 & _). injection H1 as <- <-. cbn [db_parts].
    apply (kget_In zord); auto. apply X3. apply (kget_In zord); auto. apply Hr.
  - apply resumed_snoc in Hs as (s1 & H1 & H2 & H3 & H4). pose proof (resumed_inv _ _ _ _ _ _ Hr H1) as Hi. pose proof (step_inv _ _ _ _ _ _ Hi H2 H3 H4) as Hi'.
    apply (kget_In zord); [apply (rp_psorted _ _ _ (si_repr _ _ Hi'))|]. apply (step_parts _ _ _ _ _ _ Hi H2). apply (kget_In zord); [apply (rp_psorted _ _ _ (si_repr _ _ Hi))|]. now apply IH.
Qed.

Lemma watch_disk_from : forall H cf tr, exists h, w_disk (watch_from H cf tr) = H ++ h.
Proof.
  intros H cf tr. induction tr as [|[o x] tr IH] using rev_ind; [exists []; cbn; now rewrite app_nil_r|].
  destruct IH as [h E]. rewrite watch_from_snoc. destruct o; cbn [watch_step w_disk]; try (exists h; exact E).
  destruct x; cbn [w_disk]; try (exists h; exact E). rewrite E. eexists. now rewrite <- app_assoc.
Qed.

Lemma watch_gone_from : forall H cf tr k, In k (w_gone (watch_from H cf tr)) -> exists ks, In (OWork, Cleaned ks) tr /\ In k ks.
Proof.
  intros H cf tr. induction tr as [|[o x] tr IH] using rev_ind; intros k Hk; [destruct Hk|]. rewrite watch_from_snoc in Hk.
  assert (G : In k (w_gone (watch_from H cf tr)) -> exists ks, In (OWork, Cleaned ks) (tr ++ [(o, x)]) /\ In k ks).
  { intros G. destruct (IH _ G) as (ks & A & B). exists ks. split; auto. apply in_or_app. auto. }
  destruct o; cbn [watch_step w_gone] in Hk; auto. destruct x; cbn [w_gone] in Hk; auto. apply in_app_or in Hk as [Hk|Hk]; auto.
  exists ks. split; auto. apply in_or_app. right. now left.
Qed.

Lemma final_C81_kept : forall O cf c tr s k e, consistent c -> resumed O cf c tr s -> In (k, e) (db_ts c) ->
    In (k, e) (db_ts (s_disk s)) \/ exists ks, In (OWork, Cleaned ks) tr /\ In k ks.
Proof.
  intros O cf c tr s k e HC Hs Hk. destruct (resume_history c HC) as (H & SF & R). pose proof (resumed_inv _ _ _ _ _ _ R Hs) as Hi.
  pose proof (repr_content _ _ _ (si_repr _ _ Hi)) as Ct. assert (Dec : forall a b : ts_key, {a = b} + {a <> b}). { intros a b. destruct (oeqb keyord a b) eqn:E; [left; now apply (oeqb_spec keyord)|right]. intros ->. rewrite (eqb_refl' (oeqb_spec keyord)) in E. discriminate. }
  destruct (in_dec Dec k (w_gone (watch_from H cf tr))) as [G|G].
  - right. now apply (watch_gone_from H cf).
  - left. apply (ct_ts _ _ _ Ct). split; auto. destruct (proj1 (sf_ts _ _ SF k e) Hk) as (cf' & pt & A & B & D & E). exists cf', pt.
    split; [|split; [auto|split; [now apply (resumed_parts _ _ _ _ _ _ R Hs)|auto]]]. destruct (watch_disk_from H cf tr) as [h ->]. apply in_or_app. auto.
Qed.

Lemma latest_app : forall H h t e, latest_of (H ++ h) t = Some e -> latest_of H t = Some e \/ exists en, In en h /\ en_ev en = e.
Proof.
  intros H h t e. induction h as [|x h IH] using rev_ind; [rewrite app_nil_r; auto|]. rewrite app_assoc, latest_of_snoc. unfold latest_step. intros E.
  assert (X : latest_of (H ++ h) t = Some e \/ en_ev x = e).
  { destruct (_ && _); [|auto]. destruct (latest_of (H ++ h) t) as [p|]; [|right; congruence]. destruct (_ && _); [auto|right; congruence]. }
  destruct X as [X|X]; [destruct (IH X) as [Y|(en & Y & Z)]; [auto|]|]; right; [exists en|exists x]; (split; [apply in_or_app|exact Z || exact X]); [auto|right; now left].
Qed.

Lemma stored_from : forall O cf c H h tr s e, repr c H [] -> resumed O cf c tr s -> w_disk (watch_from H cf tr) = H ++ h -> stored_event (s_disk s) e ->
    stored_event c e \/ exists en, In en h /\ en_ev en = e.
Proof.
  intros O cf c H h tr s e R Hs Eh Se. pose proof (si_repr _ _ (resumed_inv _ _ _ _ _ _ R Hs)) as R'. rewrite Eh in R'. pose proof (repr_content _ _ _ R') as Ct.
  pose proof (repr_content _ _ _ R) as C0. destruct Se as [Se|Se].
  - apply (ct_latest _ _ _ Ct) in Se. apply latest_app in Se as [Se|Se]; [|now right]. left. left. now apply (ct_latest _ _ _ C0).
  - apply vals_In in Se as [k Se]. destruct (proj1 (ct_ts _ _ _ Ct k e) Se) as [(cf' & pt & A & B & D & E) _]. apply in_app_or in A as [A|A]; [left; right|right; exists (Entry cf' e); auto].
    apply vals_In. exists k. apply (ct_ts _ _ _ C0). split; [|intros []]. exists cf', pt. split; auto. split; auto. split; auto.
    destruct (rp_parts _ _ _ R _ pt A B) as [p Hp]. apply (kget_In zord) in Hp; [|apply (rp_psorted _ _ _ R)]. replace (fst (fst k)) with p; auto.
    apply (resumed_parts _ _ _ _ _ _ R Hs) in Hp. apply (kget_In zord) in Hp; [|apply (rp_psorted _ _ _ R')]. apply (kget_In zord) in D; [|apply (rp_psorted _ _ _ R')].
    apply (rp_pinj _ _ _ R' _ _ _ Hp D).
Qed.

Lemma last_entry : forall c H s i, repr c H [] -> In (s, i) (db_ids c) -> exists en, In en H /\ ev_id (en_ev en) = i /\ eid_server (ev_id (en_ev en)) = s.
Proof.
  intros c H s i R Hi. apply (kget_In zord) in Hi; [|apply (dw_ids _ (ba_wf _ (rp_base _ _ _ R)))]. rewrite (rp_ids _ _ _ R) in Hi.
  destruct (last_ev H s) as [l|] eqn:E; [|discriminate]. injection Hi as <-. pose proof (last_ev_server _ _ _ E). destruct (last_ev_In _ _ _ E) as (en & A & <-). eauto.
Qed.
Lemma last_entry_ts : forall c H s t, repr c H [] -> In (s, t) (db_tss c) -> exists en, In en H /\ ev_ts (en_ev en) = t /\ eid_server (ev_id (en_ev en)) = s.
Proof.
  intros c H s i R Hi. apply (kget_In zord) in Hi; [|apply (dw_tss _ (ba_wf _ (rp_base _ _ _ R)))]. rewrite (rp_tss _ _ _ R) in Hi.
  destruct (last_ev H s) as [l|] eqn:E; [|discriminate]. injection Hi as <-. pose proof (last_ev_server _ _ _ E). destruct (last_ev_In _ _ _ E) as (en & A & <-). eauto.
Qed.

Lemma final_C81_ids : forall O cf c tr s, consistent c -> resumed O cf c tr s ->
    (forall e, stored_event (s_disk s) e -> stored_event c e \/
       (forall i, In (server_of e, i) (db_ids c) -> eid_lt i (ev_id e)) /\ (forall t, In (server_of e, t) (db_tss c) -> ts_le t (ev_ts e)) /\
       forall x, stored_event c x -> server_of x = server_of e -> eid_lt (ev_id x) (ev_id e) /\ ts_le (ev_ts x) (ev_ts e)) /\
    (forall sv i, In (sv, i) (db_ids c) -> eid_le i (get_last_event_id (m_sys (s_mem s)) sv)) /\
    (forall x, stored_event c x -> eid_le (ev_id x) (get_last_event_id (m_sys (s_mem s)) (server_of x))).
Proof.
  intros O cf c tr s HC Hs. destruct (resume_history c HC) as (H & SF & R). pose proof (resumed_inv _ _ _ _ _ _ R Hs) as Hi.
  destruct (watch_disk_from H cf tr) as [h Eh].
  assert (Low : forall y, In y H -> eid_le (ev_id (en_ev y)) (get_last_event_id (m_sys (s_mem s)) (eid_server (ev_id (en_ev y))))).
  { intros y Hy. destruct (all_repr _ _ Hi) as [K Hr]. rewrite (reported_id _ _ _ _ _ _ (si_mem _ _ Hi) Hr).
    destruct (last_ev_max _ (rp_ok _ _ _ Hr) y) as (l & Hl & Hle & _).
    { unfold w_all. rewrite Eh, <- app_assoc. apply in_or_app. auto. }
    rewrite Hl. now apply eid_leb_spec. }
  split; [|split].
  - intros e Se. destruct (stored_from _ _ _ _ _ _ _ _ R Hs Eh Se) as [X|(en & Hen & <-)]; [now left|]. right.
    assert (Ab : forall y, In y H -> eid_server (ev_id (en_ev y)) = server_of (en_ev en) -> eid_lt (ev_id (en_ev y)) (ev_id (en_ev en)) /\ ts_le (ev_ts (en_ev y)) (ev_ts (en_ev en))).
    { intros y Hy Ey. clear Se. apply in_split in Hy as (A & B & ->). apply in_split in Hen as (C & D & ->).
      pose proof (hist_server_order _ (rp_ok _ _ _ (si_repr _ _ Hi))) as So.
      destruct (So A y (B ++ C) en D) as [S1 S2]; [rewrite Eh, <- !app_assoc; reflexivity|exact Ey|].
      split; [now apply eid_ltb_spec|now apply ts_leb_spec]. }
    split; [|split].
    + intros i Hid. destruct (last_entry _ _ _ _ R Hid) as (y & Hy & <- & Ey). now apply Ab.
    + intros t Ht. destruct (last_entry_ts _ _ _ _ R Ht) as (y & Hy & <- & Ey). now apply Ab.
    + intros x Sx Ex. apply (sf_events _ _ SF) in Sx as (y & Hy & <-). now apply Ab.
  - intros sv i Hid. destruct (last_entry _ _ _ _ R Hid) as (y & Hy & <- & <-). now apply Low.
  - intros x Sx. apply (sf_events _ _ SF) in Sx as (y & Hy & <-). now apply Low.
Qed.
