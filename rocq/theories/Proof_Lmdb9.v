(** LMDB backend: content of the database, last ids, latest queries. *)
From Coq Require Import String Bool ZArith Lia Sorted Permutation List.
From Verif Require Import Base Kv Model_Types Model_Subscription Model_Order Model_Codec Keys
  Spec_Subscription Proof_Subscription Proof_Subscription2 Proof_Order Model_Lmdb Model_LmdbSys Spec_Lmdb Spec_LmdbContent
  Proof_Lmdb1 Proof_Lmdb2 Proof_Lmdb3 Proof_Lmdb4 Proof_Lmdb5 Proof_Lmdb6 Proof_Lmdb7 Proof_Lmdb8.
Import ListNotations.
Open Scope list_scope.
Open Scope Z_scope.

(** ** C14 *)

Lemma hist_server_order : forall H, hist_ok H -> server_order H.
Proof.
  intros H Hk H1 a H2 b H3 -> Hs.
  specialize (Hk (H1 ++ a :: H2) b H3). rewrite <- app_assoc in Hk. cbn [app] in Hk. specialize (Hk eq_refl).
  apply goes_follows in Hk. unfold follows in Hk. apply andb_prop in Hk as [_ Hk].
  rewrite forallb_forall in Hk. specialize (Hk a). rewrite in_app_iff in Hk. cbn [In] in Hk.
  specialize (Hk (or_intror (or_introl eq_refl))). apply orb_prop in Hk as [Hk|Hk].
  - apply negb_true_iff, not_true_iff_false in Hk. exfalso. apply Hk. now apply server_eqb_iff.
  - now apply andb_prop in Hk.
Qed.

Lemma last_ev_last : forall H s l, last_ev H s = Some l ->
    exists H1 en H2, H = H1 ++ en :: H2 /\ en_ev en = l /\ eid_server (ev_id l) = s /\
      forall x, In x H2 -> eid_server (ev_id (en_ev x)) <> s.
Proof.
  intros H s. induction H as [|en H IH] using rev_ind; intros l; [discriminate|].
  rewrite last_ev_snoc. unfold last_step. destruct (_ =? s) eqn:E.
  - apply Z.eqb_eq in E. intros [= <-]. exists H, en, []. auto.
  - apply Z.eqb_neq in E. intros Hl. apply IH in Hl as (H1 & x & H2 & -> & E1 & E2 & E3).
    exists H1, x, (H2 ++ [en]). rewrite <- app_assoc. split; auto. split; auto. split; auto.
    intros y Hy. apply in_app_or in Hy as [Hy|[<-|[]]]; auto.
Qed.

Lemma last_ev_none : forall H s, last_ev H s = None -> forall x, In x H -> eid_server (ev_id (en_ev x)) <> s.
Proof.
  intros H s. induction H as [|en H IH] using rev_ind; intros E x Hx; [easy|].
  rewrite last_ev_snoc in E. unfold last_step in E. destruct (_ =? s) eqn:E1; [discriminate|].
  apply Z.eqb_neq in E1. apply in_app_or in Hx as [Hx|[<-|[]]]; auto.
Qed.

Lemma last_id_ev : forall H s, last_id H s (match last_ev H s with Some l => ev_id l | None => Eid s 0 0 end).
Proof.
  intros H s. destruct (last_ev H s) as [l|] eqn:E.
  - left. apply last_ev_last in E as (H1 & en & H2 & E1 & E2 & E3 & E4). exists H1, en, H2. rewrite E2. auto.
  - right. split; auto. now apply last_ev_none.
Qed.

Lemma last_id_fun : forall H s i j, last_id H s i -> last_id H s j -> i = j.
Proof.
  assert (Hc : forall H s i, last_id H s i -> i = match last_ev H s with Some l => ev_id l | None => Eid s 0 0 end).
  { intros H s i [(H1 & en & H2 & -> & E2 & E3 & E4)|[Hn ->]].
    - revert E4. induction H2 as [|x H2 IH] using rev_ind; intros E4.
      + rewrite last_ev_snoc. unfold last_step. rewrite E2, E3, Z.eqb_refl. auto.
      + change (H1 ++ en :: H2 ++ [x]) with (H1 ++ (en :: H2) ++ [x]). rewrite app_assoc, last_ev_snoc. unfold last_step.
        destruct (_ =? s) eqn:E.
        * apply Z.eqb_eq in E. exfalso. apply (E4 x); auto. apply in_or_app. cbn. auto.
        * apply IH. intros y Hy. apply E4. apply in_or_app. auto.
    - destruct (last_ev H s) as [l|] eqn:E; auto. exfalso.
      pose proof (last_ev_server _ _ _ E) as Es. apply last_ev_In in E as (en & Hen & <-). now apply (Hn en). }
  intros H s i j Hi Hj. apply Hc in Hi. apply Hc in Hj. congruence.
Qed.

Lemma reported_id : forall m d H cf K s, mem_repr m d H cf -> repr d H K ->
    get_last_event_id (m_sys m) s = match last_ev H s with Some l => ev_id l | None => Eid s 0 0 end.
Proof.
  intros m d H cf K s Hm Hr. unfold get_last_event_id. rewrite (mr_ids _ _ _ _ Hm), (rp_ids _ _ _ Hr).
  destruct (last_ev H s); auto.
Qed.

Lemma vals_In : forall (K V : Type) (m : list (K * V)) v, In v (vals m) <-> exists k, In (k, v) m.
Proof.
  intros K V m v. unfold vals. rewrite in_map_iff. split.
  - intros ([k x] & <- & H). eauto.
  - intros [k H]. exists (k, v). auto.
Qed.

Lemma repr_content : forall d H K, repr d H K -> content d H K.
Proof.
  intros d H K Hr. pose proof (rp_base _ _ _ Hr) as Hb. pose proof (ba_wf _ Hb) as Hw. constructor.
  - intros e. rewrite vals_In. split.
    + intros [r Hin]. apply (kget_In zord) in Hin; [|apply Hw]. apply (rp_latest _ _ _ Hr) in Hin. tauto.
    + intros He. destruct (proj1 (rp_types _ _ _ Hr (ev_type e))) as [r Hrt]; [congruence|].
      exists r. apply (kget_In zord); [apply Hw|]. apply (rp_latest _ _ _ Hr). auto.
  - unfold vals. rewrite map_map. apply NoDup_map_inj.
    + apply NoDup_keys_list, (ksorted_NoDup zord), Hw.
    + intros [r1 e1] [r2 e2] H1 H2 E. cbn [snd] in E.
      apply (kget_In zord) in H1; [|apply Hw]. apply (kget_In zord) in H2; [|apply Hw].
      apply (rp_latest _ _ _ Hr) in H1 as [H1 H1']. apply (rp_latest _ _ _ Hr) in H2 as [H2 H2'].
      rewrite E in H1, H1'. rewrite (rp_inj _ _ _ Hr _ _ _ H1 H2). congruence.
  - intros k e. rewrite <- (kget_In keyord) by apply Hw. rewrite (rp_ts _ _ _ Hr). unfold kept.
    split; intros [(cf & pt & A & B & C & D) Hn]; (split; [|auto]); exists cf, pt.
    + apply (kget_In zord) in C; [auto|apply Hr].
    + apply (kget_In zord) in C; [auto|apply Hr].
  - apply (ksorted_NoDup keyord), Hw.
  - intros s i. rewrite <- (kget_In zord) by apply Hw. rewrite (rp_ids _ _ _ Hr).
    pose proof (last_id_ev H s) as Hl. split.
    + destruct (last_ev H s) as [l|] eqn:E; [|discriminate]. cbn [option_map]. intros [= <-]. split; auto.
      pose proof (last_ev_server _ _ _ E) as Es. apply last_ev_In in E as (en & Hen & <-). eauto.
    + intros [Hi (en & Hen & Es)]. rewrite (last_id_fun _ _ _ _ Hi Hl).
      destruct (last_ev H s) as [l|] eqn:E; auto. exfalso. now apply (last_ev_none _ _ E en).
Qed.

Lemma content_stored : forall d H K e, content d H K -> stored_event d e -> exists en, In en H /\ en_ev en = e.
Proof.
  intros d H K e Hc [He|He].
  - apply (ct_latest _ _ _ Hc) in He. apply latest_of_In in He as (en & A & B & _). eauto.
  - apply vals_In in He as [k He]. apply (ct_ts _ _ _ Hc) in He as [(cf & pt & A & _) _]. exists (Entry cf e). auto.
Qed.

Lemma all_ok : forall s w, sys_inv s w -> hist_ok (w_all w).
Proof. intros s w Hi. destruct (all_repr _ _ Hi) as [K Hr]. apply Hr. Qed.

Theorem final_C14 : forall O cf tr s, execution O cf tr s ->
    let w := watch_run cf tr in
    server_order (w_all w) /\
    (forall e, stored_event (s_disk s) e -> exists en, In en (w_disk w) /\ en_ev en = e) /\
    (forall srv, last_id (w_all w) srv (get_last_event_id (m_sys (s_mem s)) srv)).
Proof.
  intros O cf tr s H. apply execution_inv in H as Hi. cbn zeta. split; [|split].
  - apply hist_server_order. eapply all_ok; eauto.
  - intros e. eapply content_stored. apply repr_content, Hi.
  - intros srv. destruct (all_repr _ _ Hi) as [K Hr]. rewrite (reported_id _ _ _ _ _ _ (si_mem _ _ Hi) Hr). apply last_id_ev.
Qed.

(** Except for a restart, and for [Wrote] with nothing waiting, history grows. *)
Lemma watch_step_all : forall w o x, (forall cf, o <> OReopen cf) -> (o = OWork -> x = Wrote -> w_queue w <> []) ->
    exists h, w_all (watch_step w (o, x)) = w_all w ++ h.
Proof.
  intros w o x Hn Hq. destruct w as [wc wd wq wu wg]. unfold w_all.
  assert (Hz : forall w', w_disk w' ++ concat (w_queue w') ++ w_cur w' = wd ++ concat wq ++ wu ->
    exists h, w_disk w' ++ concat (w_queue w') ++ w_cur w' = (wd ++ concat wq ++ wu) ++ h).
  { intros w' E. exists []. now rewrite app_nil_r. }
  destruct o; cbn [watch_step]; si_fields; try (apply (Hz (Watch wc wd wq wu wg)); reflexivity).
  - exists (take_events wc (wd ++ concat wq ++ wu) es). unfold w_all. si_fields. now rewrite <- !app_assoc.
  - exists []. rewrite concat_snoc, !app_nil_r. reflexivity.
  - destruct x; try (apply (Hz (Watch wc wd wq wu wg)); reflexivity).
    specialize (Hq eq_refl eq_refl). destruct wq as [|h wq]; [congruence|]. si_fields. cbn [hd tl concat].
    exists []. now rewrite app_nil_r, <- !app_assoc.
  - exfalso. eapply Hn; eauto.
Qed.

Lemma wrote_queue : forall O s w s' o, sys_inv s w -> exec O s o = Some (s', Wrote) -> w_queue w <> [].
Proof.
  intros O s w s' o Hi. destruct o; cbn [exec].
  - destruct (register_events _ _ _ _) as [[m c]|]; [intros [=]|intros [=]].
  - intros [=].
  - intros [=].
  - intros [=].
  - destruct (server_query_start p); intros [=].
  - unfold ts_query_step. destruct (ts_query_start _ _ _ _) as [[[sub mx] [part|]]|]; try (intros [=]; fail).
    destruct (qt_order p); [|intros [=]]. destruct (query_pending _ _ _ _) as [es f]. destruct (filter_done f); intros [=].
  - unfold work. destruct (s_jobs s) as [|j js] eqn:Ej; [intros [=]|]. destruct j.
    + intros _. pose proof (si_chain _ _ Hi) as Hc. rewrite Ej in Hc. cbn [flushes flat_map app chain] in Hc.
      destruct (w_queue w); [easy|discriminate].
    + destruct (cleanup _ _ _ _); intros [=].
    + destruct (query_refs _ _ _ _ _); intros [=].
    + destruct (query_stored _ _ _ _ _ _); intros [=].
  - destruct (take_ready _ _) as [[r rs]|]; intros [=].
  - destruct (open_db _ _) as [[d m]|]; intros [=].
Qed.

Lemma all_grows : forall O cf tr1 tr2 s, execution O cf (tr1 ++ tr2) s -> no_reopen tr2 ->
    exists h, w_all (watch_run cf (tr1 ++ tr2)) = w_all (watch_run cf tr1) ++ h.
Proof.
  intros O cf tr1 tr2. induction tr2 as [|[o x] tr2 IH] using rev_ind; intros s H Hn.
  - exists []. now rewrite !app_nil_r.
  - rewrite app_assoc in H. apply execution_snoc in H as (s1 & H1 & H2 & _).
    destruct (IH s1 H1) as [h Hh]. { intros c y Hin. apply (Hn c y). apply in_or_app. auto. }
    rewrite app_assoc, watch_run_snoc.
    destruct (watch_step_all (watch_run cf (tr1 ++ tr2)) o x) as [h' Hh'].
    + intros c ->. apply (Hn c x). apply in_or_app. cbn. auto.
    + intros _ ->. eapply wrote_queue; eauto. eapply execution_inv; eauto.
    + exists (h ++ h'). now rewrite Hh', Hh, app_assoc.
Qed.

Lemma last_grows : forall H h s, hist_ok (H ++ h) ->
    eid_leb (match last_ev H s with Some l => ev_id l | None => Eid s 0 0 end)
            (match last_ev (H ++ h) s with Some l => ev_id l | None => Eid s 0 0 end) = true.
Proof.
  intros H h s Hk. destruct (last_ev H s) as [l|] eqn:E.
  - pose proof (last_ev_server _ _ _ E) as Es. apply last_ev_In in E as (en & Hen & <-).
    destruct (last_ev_max _ Hk en) as (l & Hl & Hle & _); [apply in_or_app; auto|]. rewrite Es in Hl. now rewrite Hl.
  - destruct (last_ev (H ++ h) s) as [l|] eqn:E2; [|apply eid_leb_lt; auto].
    pose proof (last_ev_server _ _ _ E2) as Es. apply last_ev_In in E2 as (en & Hen & <-).
    apply in_split in Hen as (A & B & Ea). pose proof (Hk A en B Ea) as Hf. apply goes_follows in Hf.
    unfold follows in Hf. apply andb_prop in Hf as [Hf _]. apply andb_prop in Hf as [Hf _].
    rewrite Es in Hf. apply eid_leb_lt. auto.
Qed.

(** The reported id does not decrease, except by a crash; then it is not
    smaller than the one of the last flush. *)
Theorem final_C14_grows : forall O cf tr1 tr2 s1 s2, execution O cf tr1 s1 -> execution O cf (tr1 ++ tr2) s2 ->
    forall srv, (no_reopen tr2 -> eid_leb (get_last_event_id (m_sys (s_mem s1)) srv) (get_last_event_id (m_sys (s_mem s2)) srv) = true) /\
    (forall i, In (srv, i) (db_ids (s_disk s1)) -> eid_leb i (get_last_event_id (m_sys (s_mem s2)) srv) = true).
Proof.
  intros O cf tr1 tr2 s1 s2 H1 H2 srv.
  pose proof (execution_inv _ _ _ _ H1) as Hi1. pose proof (execution_inv _ _ _ _ H2) as Hi2.
  destruct (all_repr _ _ Hi1) as [K1 Hr1]. destruct (all_repr _ _ Hi2) as [K2 Hr2].
  rewrite (reported_id _ _ _ _ _ srv (si_mem _ _ Hi1) Hr1), (reported_id _ _ _ _ _ srv (si_mem _ _ Hi2) Hr2). split.
  - intros Hn. destruct (all_grows _ _ _ _ _ H2 Hn) as [h Hh]. rewrite Hh. apply last_grows. rewrite <- Hh. apply Hr2.
  - intros i Hin.
    assert (Hd : exists h, w_all (watch_run cf (tr1 ++ tr2)) = w_disk (watch_run cf tr1) ++ h).
    { clear - H2. revert s2 H2. induction tr2 as [|[o x] tr2 IH] using rev_ind; intros s2 H2.
      - rewrite app_nil_r. exists (concat (w_queue (watch_run cf tr1)) ++ w_cur (watch_run cf tr1)). reflexivity.
      - assert (Hdd : forall tr s, execution O cf (tr1 ++ tr) s -> exists h, w_disk (watch_run cf (tr1 ++ tr)) = w_disk (watch_run cf tr1) ++ h).
        { clear. intros tr. induction tr as [|[o x] tr IH] using rev_ind; intros s H.
          - exists []. now rewrite !app_nil_r.
          - rewrite app_assoc in H. apply execution_snoc in H as (s1 & H1 & H2 & _).
            destruct (IH _ H1) as [h Hh]. rewrite app_assoc, watch_run_snoc.
            destruct o; cbn [watch_step w_disk]; try (exists h; exact Hh).
            destruct x; cbn [w_disk]; try (exists h; exact Hh). rewrite Hh. eexists. now rewrite <- app_assoc. }
        destruct (Hdd _ _ H2) as [h Hh]. unfold w_all. rewrite Hh. eexists. now rewrite <- app_assoc. }
    destruct Hd as [h Hh]. rewrite Hh.
    apply (kget_In zord) in Hin; [|apply (si_repr _ _ Hi1)]. rewrite (rp_ids _ _ _ (si_repr _ _ Hi1)) in Hin.
    pose proof (last_grows (w_disk (watch_run cf tr1)) h srv) as Hl.
    rewrite <- Hh in Hl at 1. specialize (Hl (rp_ok _ _ _ Hr2)).
    destruct (last_ev (w_disk (watch_run cf tr1)) srv) as [l|]; [|discriminate]. cbn [option_map] in Hin. injection Hin as <-. exact Hl.
Qed.

(** ** C15 *)

Lemma etypes_mem_In : forall t l, etypes_mem t l = true <-> In t l.
Proof.
  intros t l. unfold etypes_mem. rewrite existsb_exists. split.
  - intros (x & Hx & E). apply etype_eqb_spec in E. now subst.
  - intros H. exists t. split; auto. now apply etype_eqb_spec.
Qed.

Lemma etypes_set_In : forall l t, In t (etypes_set l) <-> In t l.
Proof.
  induction l as [|u l IH]; intros t; cbn [etypes_set In]; [easy|]. rewrite filter_In, IH.
  destruct (etype_eqb u t) eqn:E; cbn [negb].
  - apply etype_eqb_spec in E. subst. intuition.
  - intuition.
Qed.

Lemma etypes_set_NoDup : forall l, NoDup (etypes_set l).
Proof.
  induction l as [|u l IH]; cbn [etypes_set]; constructor.
  - rewrite filter_In. intros [_ H]. rewrite (eqb_refl' etype_eqb_spec) in H. discriminate.
  - now apply NoDup_filter.
Qed.

Lemma plain_qmatch : forall q t, existsb (fun s => (s =? "*") || (s =? "?"))%string q = false -> (qmatch q t <-> q = t).
Proof.
  induction q as [|s q IH]; intros t Hq; cbn [existsb] in Hq.
  - split; [intros H; inversion H; auto|intros <-; constructor].
  - apply orb_false_iff in Hq as [Hs Hq]. apply orb_false_iff in Hs as [H1 H2].
    apply String.eqb_neq in H1, H2. split.
    + intros H. inversion H; subst; try congruence. f_equal. now apply IH.
    + intros <-. apply qm_same; auto. now apply IH.
Qed.

Lemma plain_valid : forall q, existsb (fun s => (s =? "*") || (s =? "?"))%string q = false -> valid_query q.
Proof.
  intros q Hq p r ->. rewrite existsb_app in Hq. cbn [existsb] in Hq. rewrite String.eqb_refl in Hq.
  cbn [orb] in Hq. now rewrite orb_true_r in Hq.
Qed.

Definition visible_in (cf : conf) (H : history) (e : event) : Prop := visible cf H (ev_type e) = Some e.

Lemma latest_query_spec : forall d p cf H,
    (forall t, dget etype_eqb t (ld_events d) = visible cf H t) -> NoDup (keys (ld_events d)) ->
    valid_latest p ->
    exists es, latest_query d p = Some (QRes es false) /\ NoDup (map ev_type es) /\
      forall e, In e es <-> visible_in cf H e /\ asked p (ev_type e).
Proof.
  intros d p cf H Hv Hnd Hva.
  assert (Hkey : forall t e, In (t, e) (ld_events d) <-> t = ev_type e /\ visible_in cf H e).
  { intros t e. split.
    - intros Hin. apply (In_dget etype_eqb_spec) in Hin; auto. rewrite Hv in Hin.
      assert (Et : ev_type e = t).
      { unfold visible in Hin. destruct (latest_of H t) as [x|] eqn:E; [|discriminate].
        destruct (covers cf t && cf_cond cf x); [|discriminate]. injection Hin as <-.
        apply latest_of_In in E. destruct E as (en & _ & _ & Et & _). auto. }
      subst t. auto.
    - intros [-> Hvis]. apply (dget_In etype_eqb_spec). rewrite Hv. exact Hvis. }
  assert (Hmap : map ev_type (vals (ld_events d)) = keys (ld_events d)).
  { unfold vals, keys. rewrite map_map. apply map_ext_in. intros [t e] Hin. apply Hkey in Hin as [-> _]. reflexivity. }
  assert (Hall : forall e, In e (vals (ld_events d)) <-> visible_in cf H e).
  { intros e. rewrite vals_In. split; [intros [t Ht]; now apply Hkey in Ht|]. intros He. exists (ev_type e). now apply Hkey. }
  assert (Hndf : forall f, NoDup (map ev_type (filter f (vals (ld_events d))))).
  { intros f. rewrite <- Hmap in Hnd. clear - Hnd. induction (vals (ld_events d)) as [|x l IH]; cbn [filter map] in *; [constructor|].
    inversion Hnd; subst. destruct (f x); auto. cbn [map]. constructor; auto.
    intros Hin. apply H1. apply in_map_iff in Hin as (y & E & Hy). apply filter_In in Hy as [Hy _]. rewrite <- E. now apply in_map. }
  unfold latest_query, asked, valid_latest in *. cbn zeta. destruct (ql_types p) as [ts|].
  2: { exists (vals (ld_events d)). rewrite Hmap. split; auto. split; auto. intros e. rewrite Hall. tauto. }
  assert (Hsel : forall t, selects (etypes_set ts) t <-> selects ts t).
  { intros t. unfold selects. split; intros (q & A & B); exists q; (split; [now apply etypes_set_In|auto]). }
  destruct (etypes_mem ["*"%string] (etypes_set ts)) eqn:Es.
  { exists (vals (ld_events d)). rewrite Hmap. split; auto. split; auto. intros e. rewrite Hall.
    apply etypes_mem_In in Es. apply (proj1 (etypes_set_In _ _)) in Es. split; [|tauto]. intros He. split; auto.
    exists ["*"%string]. rewrite Forall_forall in Hva. split; [exact Es|]. split; [now apply Hva|constructor]. }
  destruct (existsb (fun t => existsb (fun s => (s =? "*") || (s =? "?"))%string t) (etypes_set ts)) eqn:Ew.
  { destruct (create_valid (etypes_set ts)) as [n Hn].
    { apply Forall_forall. intros q Hq. rewrite Forall_forall in Hva. apply Hva. now apply etypes_set_In. }
    rewrite Hn. eexists. split; [reflexivity|]. split; auto. intros e. rewrite filter_In, Hall.
    rewrite (create_matches _ _ Hn), Hsel. tauto. }
  assert (Hplain : forall q, In q (etypes_set ts) -> existsb (fun s => (s =? "*") || (s =? "?"))%string q = false).
  { intros q Hq. destruct (existsb (fun s => (s =? "*") || (s =? "?"))%string q) eqn:E; auto.
    assert (existsb (fun t => existsb (fun s => (s =? "*") || (s =? "?"))%string t) (etypes_set ts) = true).
    { apply existsb_exists. eauto. }
    congruence. }
  assert (Hpl : forall t, selects ts t <-> In t (etypes_set ts)).
  { intros t. rewrite <- Hsel. split.
    - intros (q & A & B & C). apply plain_qmatch in C; auto. now subst.
    - intros Ht. exists t. split; auto. split; [now apply plain_valid, Hplain|]. apply plain_qmatch; auto. }
  destruct (Nat.ltb _ _).
  - eexists. split; [reflexivity|]. split.
    + assert (Hg : forall l, NoDup l -> NoDup (map ev_type (flat_map (fun t => match dget etype_eqb t (ld_events d) with Some e => [e] | None => [] end) l)) /\
        forall x, In x (map ev_type (flat_map (fun t => match dget etype_eqb t (ld_events d) with Some e => [e] | None => [] end) l)) -> In x l).
      { induction l as [|t l IH]; intros Hl; cbn [flat_map map]; [split; [constructor|easy]|].
        inversion Hl as [|? ? Hl1 Hl2]; subst. destruct (IH Hl2) as [IH1 IH2].
        destruct (dget etype_eqb t (ld_events d)) as [e|] eqn:E; cbn [app map].
        - apply (dget_In etype_eqb_spec) in E. apply Hkey in E as [-> _]. split.
          + constructor; auto.
          + intros x [<-|Hx]; cbn; auto.
        - split; auto. intros x Hx. cbn. auto. }
      apply Hg, etypes_set_NoDup.
    + intros e. rewrite in_flat_map, Hpl. split.
      * intros (t & Ht & He). destruct (dget etype_eqb t (ld_events d)) as [e'|] eqn:E; [|easy].
        destruct He as [<-|[]]. apply (dget_In etype_eqb_spec) in E. apply Hkey in E as [-> E]. auto.
      * intros [A B]. exists (ev_type e). split; auto. rewrite Hv, A. cbn. auto.
  - eexists. split; [reflexivity|]. split; auto. intros e. rewrite filter_In, Hall, Hpl, etypes_mem_In. tauto.
Qed.

Theorem final_C15 : forall O cf tr p a s, execution O cf (tr ++ [(OLatest p, a)]) s -> valid_latest p ->
    let w := watch_run cf tr in
    exists es, a = Answer (Some (QRes es false)) /\ NoDup (map ev_type es) /\
      forall e, In e es <-> visible (w_conf w) (w_all w) (ev_type e) = Some e /\ asked p (ev_type e).
Proof.
  intros O cf tr p a s H Hv. apply execution_snoc in H as (s1 & H1 & H2 & _). cbn [exec] in H2. injection H2 as <- <-.
  apply execution_inv in H1. cbn zeta. pose proof (si_mem _ _ H1) as Hm.
  destruct (latest_query_spec (m_latest (s_mem s1)) p _ _ (mr_events _ _ _ _ Hm) (mr_nodup _ _ _ _ Hm) Hv) as (es & E & A & B).
  exists es. rewrite E. auto.
Qed.

(** With one configuration, the latest event is the newest one. *)
Lemma latest_newest : forall cf H, hist_ok H -> Forall (fun en => en_conf en = cf) H ->
    forall t, covers cf t = true -> forall e, latest_of H t = Some e <-> newest H t e.
Proof.
  intros cf H. induction H as [|en H IH] using rev_ind; intros Hk Hc t Hco.
  - intros e. split; [discriminate|]. intros ([|] & ? & ? & [=] & _).
  - apply hist_ok_snoc in Hk as [Hk Ha]. apply Forall_app in Hc as [Hc Hc1]. inversion Hc1 as [|? ? Hcf _]; subst.
    specialize (IH Hk Hc t Hco). rewrite latest_of_snoc. unfold latest_step. rewrite Hco, andb_true_r.
    destruct (etype_eqb (ev_type (en_ev en)) t) eqn:Et.
    + apply etype_eqb_spec in Et.
      assert (Hnew : newest (H ++ [en]) t (en_ev en) <-> forall x, In x H -> ev_type (en_ev x) = t -> ts_leb (ev_ts (en_ev x)) (ev_ts (en_ev en)) = true).
      { split.
        - intros (H1 & y & H2 & E & Ey & _ & A & B) x Hx Ht. apply snoc_split in E as [(-> & -> & ->)|(H3 & -> & ->)]; auto.
          assert (Hf : ts_ltb (ev_ts (en_ev en)) (ev_ts (en_ev en)) = true). { apply B; auto. apply in_or_app. cbn. auto. }
          rewrite <- (negb_involutive (ts_ltb _ _)), <- ts_leb_ltb, ts_leb_refl in Hf. discriminate.
        - intros A. exists H, en, []. split; [auto|]. split; [auto|]. split; [auto|]. split; [auto|easy]. }
      assert (Huniq : forall e, newest (H ++ [en]) t e ->
         (e = en_ev en /\ newest (H ++ [en]) t (en_ev en)) \/ (newest H t e /\ ts_ltb (ev_ts (en_ev en)) (ev_ts e) = true)).
      { intros e (H1 & y & H2 & E & Ey & Ety & A & B). apply snoc_split in E as [(-> & -> & ->)|(H3 & -> & ->)].
        - left. split; auto. apply Hnew. rewrite Ey. auto.
        - right. split.
          + exists H1, y, H3. split; auto. split; auto. split; auto. split; auto. intros x Hx. apply B. apply in_or_app. auto.
          + apply B; auto. apply in_or_app. cbn. auto. }
      assert (Hold : forall e, newest H t e -> ts_ltb (ev_ts (en_ev en)) (ev_ts e) = true -> newest (H ++ [en]) t e).
      { intros e (H1 & y & H2 & -> & Ey & Ety & A & B) Hlt. exists H1, y, (H2 ++ [en]). rewrite <- app_assoc.
        split; auto. split; auto. split; auto. split; auto. intros x Hx. apply in_app_or in Hx as [Hx|[<-|[]]]; auto. }
      assert (Hmax : forall p, newest H t p -> forall x, In x H -> ev_type (en_ev x) = t -> ts_leb (ev_ts (en_ev x)) (ev_ts p) = true).
      { intros p (H1 & y & H2 & -> & Ey & Ety & A & B) x Hx Hxt. apply in_app_or in Hx as [Hx|[<-|Hx]]; auto.
        - rewrite Ey. apply ts_leb_refl.
        - specialize (B _ Hx Hxt). rewrite ts_leb_ltb. unfold ts_ltb in *. lia. }
      destruct (latest_of H t) as [p|] eqn:El.
      * assert (Hp : newest H t p) by (now apply IH).
        assert (Hcp : cf_cond (en_conf en) p = true).
        { apply latest_of_In in El as (x & Hx & Ex & _ & _). rewrite Forall_forall in Hc. specialize (Hc _ Hx).
          apply in_split in Hx as (A & B & ->). specialize (Hk A x B eq_refl). unfold goes_on in Hk.
          apply andb_prop in Hk as [_ Hk]. now rewrite <- Hc, <- Ex. }
        rewrite Hcp. cbn [andb].
        assert (Hnp : newer p (en_ev en) = ts_ltb (ev_ts (en_ev en)) (ev_ts p)).
        { unfold newer. destruct (server_eqb p (en_ev en)) eqn:Es; auto.
          apply latest_of_In in El as (x & Hx & Ex & _ & _). apply goes_follows in Ha. unfold follows in Ha.
          apply andb_prop in Ha as [_ Ha]. rewrite forallb_forall in Ha. specialize (Ha _ Hx). rewrite Ex, Es in Ha. cbn [negb orb] in Ha.
          apply andb_prop in Ha as [Ha1 Ha2]. rewrite (eid_ltb_asym _ _ Ha1). rewrite ts_leb_ltb in Ha2.
          apply negb_true_iff in Ha2. auto. }
        rewrite Hnp. destruct (ts_ltb (ev_ts (en_ev en)) (ev_ts p)) eqn:Elt; intros e.
        -- split.
           ++ intros [= <-]. auto.
           ++ intros He. destruct (Huniq _ He) as [[-> Hn]|[Hn _]]; [|now apply IH].
              exfalso. destruct Hp as (H1 & y & H2 & -> & Ey & Ety & _).
              assert (Hf : ts_leb (ev_ts p) (ev_ts (en_ev en)) = true).
              { rewrite <- Ey. apply Hnew; auto. - apply in_or_app. cbn. auto. - congruence. }
              rewrite ts_leb_ltb, Elt in Hf. discriminate.
        -- assert (Hn : newest (H ++ [en]) t (en_ev en)).
           { apply Hnew. intros x Hx Hxt. eapply ts_leb_trans; [eapply Hmax; eauto|]. now rewrite ts_leb_ltb, Elt. }
           split.
           ++ intros [= <-]. auto.
           ++ intros He. destruct (Huniq _ He) as [[-> _]|[Hn' Hlt]]; auto. exfalso.
              assert (e = p) by (apply IH in Hn'; congruence). subst. congruence.
      * intros e. split.
        -- intros [= <-]. apply Hnew. intros x Hx Hxt. exfalso.
           assert (Hex : forall H', (exists x, In x H' /\ ev_type (en_ev x) = t) -> Forall (fun en0 => en_conf en0 = en_conf en) H' -> latest_of H' t <> None).
           { clear - Hco. intros H'. induction H' as [|y H' IH'] using rev_ind; intros (x & Hx & Ht) Hc; [easy|].
             apply Forall_app in Hc as [Hc Hc1]. inversion Hc1 as [|? ? Hcy _]; subst.
             rewrite latest_of_snoc. unfold latest_step. rewrite Hcy, Hco, andb_true_r.
             destruct (etype_eqb (ev_type (en_ev y)) (ev_type (en_ev x))) eqn:E.
             - destruct (latest_of H' (ev_type (en_ev x))) as [q|]; [destruct (_ && _)|]; discriminate.
             - apply IH'; auto. apply in_app_or in Hx as [Hx|[<-|[]]]; eauto. rewrite (eqb_refl' etype_eqb_spec) in E. discriminate. }
           apply (Hex H); eauto.
        -- intros He. destruct (Huniq _ He) as [[-> _]|[Hn' Hlt]]; auto. apply IH in Hn'. congruence.
    + assert (Hne : ev_type (en_ev en) <> t). { intros E. apply etype_eqb_spec in E. congruence. }
      intros e. rewrite IH. split.
      * intros (H1 & y & H2 & -> & Ey & Ety & A & B). exists H1, y, (H2 ++ [en]). rewrite <- app_assoc.
        split; auto. split; auto. split; auto. split; auto. intros x Hx. apply in_app_or in Hx as [Hx|[<-|[]]]; [auto|]. intros; contradiction.
      * intros (H1 & y & H2 & E & Ey & Ety & A & B). apply snoc_split in E as [(-> & -> & ->)|(H3 & -> & ->)].
        -- congruence.
        -- exists H1, y, H3. split; auto. split; auto. split; auto. split; auto. intros x Hx. apply B. apply in_or_app. auto.
Qed.
