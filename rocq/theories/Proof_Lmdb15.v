(** LMDB backend: server queries during flushes, and paging. *)
From Coq Require Import String Bool ZArith Lia Sorted Permutation List.
From Verif Require Import Base Kv Model_Types Model_Subscription Model_Order Model_Codec Keys
  Spec_Order Spec_Subscription Proof_Subscription Proof_Subscription2 Proof_Order Model_Lmdb Model_LmdbSys Spec_Lmdb Spec_LmdbContent Spec_LmdbQuery
  Proof_Lmdb1 Proof_Lmdb2 Proof_Lmdb3 Proof_Lmdb4 Proof_Lmdb5 Proof_Lmdb6 Proof_Lmdb7 Proof_Lmdb8 Proof_Lmdb9 Proof_Lmdb10 Proof_Lmdb11 Proof_Lmdb12 Proof_Lmdb13 Proof_Lmdb14.
Import ListNotations.
Open Scope list_scope.
Open Scope Z_scope.

(** ** Events that stay *)

Lemma latest_back : forall t h cur e, fold_left (latest_step t) h cur = Some e -> cur = Some e \/ exists en, In en h /\ en_ev en = e.
Proof.
  intros t. induction h as [|en h IH]; intros cur e H; cbn [fold_left] in H; [now left|].
  apply IH in H as [H|(en' & A & B)]; [|right; exists en'; split; auto; now right].
  unfold latest_step in H. destruct (_ && _); [|now left].
  destruct cur as [p|]; [|injection H as H; right; exists en; split; auto; now left].
  destruct (_ && _); [now left|]. injection H as H. right. exists en. split; auto. now left.
Qed.

(** The same event does not come again. *)
Lemma twice : forall H h a b, hist_ok (H ++ h) -> In a H -> In b h -> en_ev a = en_ev b -> False.
Proof.
  intros H h a b Ho Ha Hb E. pose proof (before_after _ _ _ _ Ho Ha Hb) as Hl. rewrite E in Hl. specialize (Hl eq_refl).
  now rewrite ltb_irrefl in Hl.
Qed.

Lemma live_back : forall H h en, hist_ok (H ++ h) -> In en H -> live (H ++ h) en -> live H en.
Proof.
  intros H h en Ho Hin [Hl|Hl]; [|now right]. left. unfold latest_of in *. rewrite fold_left_app in Hl.
  apply latest_back in Hl as [Hl|(en' & A & B)]; auto. exfalso. eapply twice; eauto.
Qed.

(** The event was accepted (and written). *)
Definition known_event (persisted : bool) (w : watch) (e : event) : Prop :=
  exists en, In en (if persisted then w_disk w else w_all w) /\ en_ev en = e.

Lemma stored_acc : forall s w e, sys_inv s w -> stored_event (s_disk s) e -> exists en, In en (w_disk w) /\ en_ev en = e.
Proof. intros s w e Hi Hs. eapply stored_hist; eauto. apply Hi. Qed.

Lemma waits_acc : forall w e, waits w e -> exists en, In en (concat (w_queue w) ++ w_cur w) /\ en_ev en = e.
Proof.
  intros w e (Q1 & g & Q2 & en & E & Hin & <- & _). exists en. split; auto.
  replace (concat (w_queue w) ++ w_cur w) with (concat (w_queue w ++ [w_cur w])) by apply concat_snoc.
  rewrite E, concat_app. cbn [concat]. apply in_or_app. right. apply in_or_app. now left.
Qed.

Lemma held_acc : forall pers s w e, sys_inv s w -> held pers (s_disk s) w e -> known_event pers w e.
Proof.
  intros pers s w e Hi [H|[-> H]].
  - destruct (stored_acc _ _ _ Hi H) as (en & A & B). exists en. split; auto. destruct pers; auto. unfold w_all. apply in_or_app. now left.
  - apply waits_acc in H as (en & A & B). exists en. split; auto. unfold w_all. apply in_or_app. now right.
Qed.

Lemma acc_step : forall pers O s w o x s' e, sys_inv s w -> exec O s o = Some (s', x) -> (forall c, o <> OReopen c) ->
    known_event pers w e -> known_event pers (watch_step w (o, x)) e.
Proof.
  intros pers O s w o x s' e Hi He Hn (en & Hin & <-). exists en. split; auto. destruct pers.
  - destruct o; auto.
    destruct x; auto. cbn [watch_step w_disk]. apply in_or_app. now left.
  - destruct (step_all _ _ _ _ _ _ Hi He) as [(h & E & _)|(c & E & _)]; [rewrite E; apply in_or_app; now left|].
    exfalso. eapply Hn; eauto.
Qed.

Lemma stored_back : forall O s w o x s' e, sys_inv s w -> sys_inv s' (watch_step w (o, x)) -> exec O s o = Some (s', x) ->
    (forall c, o <> OReopen c) -> stored_event (s_disk s') e ->
    stored_event (s_disk s) e \/ exists h Q en, w_queue w = h :: Q /\ In en h /\ en_ev en = e /\ live (w_disk w ++ h) en.
Proof.
  intros O s w o x s' e Hi Hi' He Hn Hs.
  pose proof (step_parts_eq _ _ _ _ _ _ Hi He Hn) as Ep.
  destruct o as [es|  |now|p|q p|q p| |q|c]; cbn [exec] in He.
  - destruct (register_events _ _ _ _) as [[m ch]|]; [|discriminate]. injection He as <- <-. auto.
  - injection He as <- <-. auto.
  - injection He as <- <-. auto.
  - injection He as <- <-. auto.
  - destruct (exec_query O s (OServer q p) q s' x eq_refl He) as [[-> _]|(j & -> & _)]; auto.
  - destruct (exec_query O s (OTs q p) q s' x eq_refl He) as [[-> _]|(j & -> & _)]; auto.
  - pose proof (repr_content _ _ _ (si_repr _ _ Hi)) as Hc. pose proof (repr_content _ _ _ (si_repr _ _ Hi')) as Hc'.
    pose proof (chain_length _ _ _ _ (si_chain _ _ Hi)) as Hlen.
    unfold work in He. destruct (s_jobs s) as [|[c|now|q p max g|q p part sub max g pre f] js] eqn:Ej.
    + injection He as <- <-. auto.
    + injection He as <- <-. cbn [watch_step w_disk w_gone w_queue] in *. change (flushes (JFlush c :: js)) with (c :: flushes js) in Hlen.
      destruct (w_queue w) as [|h Q]; [discriminate|]. cbn [hd] in *. destruct Hs as [Hs|Hs].
      * apply (ct_latest _ _ _ Hc') in Hs. pose proof Hs as Hs'. unfold latest_of in Hs. rewrite fold_left_app in Hs.
        apply latest_back in Hs as [Hs|(en & A & B)].
        -- left. left. now apply (ct_latest _ _ _ Hc).
        -- right. exists h, Q, en. split; auto. split; auto. split; auto. left. now rewrite B.
      * apply vals_In in Hs as [k Hs]. apply (ct_ts _ _ _ Hc') in Hs as [(cf & pt & A & B & C & D & E) F].
        rewrite Ep in C. apply in_app_or in A as [A|A].
        -- left. right. apply vals_In. exists k. apply (ct_ts _ _ _ Hc). split; auto. exists cf, pt. auto.
        -- right. exists h, Q, (Entry cf e). split; auto. split; auto. split; auto. right. apply has_place_ex. eauto.
    + destruct (cleanup _ _ _ _) as [d' ks] eqn:Ec. injection He as <- <-. cbn [watch_step w_disk w_gone w_queue] in *. left.
      destruct Hs as [Hs|Hs].
      * left. apply (ct_latest _ _ _ Hc') in Hs. now apply (ct_latest _ _ _ Hc).
      * right. apply vals_In in Hs as [k Hs]. apply vals_In. exists k. apply (ct_ts _ _ _ Hc') in Hs as [(cf & pt & A & B & C & D & E) F].
        rewrite Ep in C. apply (ct_ts _ _ _ Hc). split; [exists cf, pt; auto|]. intros G. apply F, in_or_app. now left.
    + destruct (query_refs _ _ _ _ _); [|discriminate]. injection He as <- <-. auto.
    + destruct (query_stored _ _ _ _ _ _). injection He as <- <-. auto.
  - destruct (take_ready _ _) as [[r rs]|]; [|discriminate]. injection He as <- <-. auto.
  - exfalso. eapply Hn; eauto.
Qed.

Lemma waits_back : forall O s w o x s' e, sys_inv s w -> sys_inv s' (watch_step w (o, x)) -> exec O s o = Some (s', x) ->
    (forall c, o <> OReopen c) -> known_event false w e -> waits (watch_step w (o, x)) e -> waits w e.
Proof.
  intros O s w o x s' e Hi Hi' He Hn Hacc Hw.
  pose proof (all_ok _ _ Hi') as Ho.
  destruct o as [es|  |now|p|q p|q p| |q|c]; auto.
  - cbn [watch_step] in *. destruct Hw as (Q1 & g & Q2 & en & E & Hin & Ee & Hl). cbn [w_queue w_cur w_disk] in *.
    apply app_snoc_split in E as [(-> & -> & ->)|(Q2' & -> & E)].
    + set (h := take_events (w_conf w) (w_all w) es) in *. unfold w_all in Ho at 1. cbn [w_queue w_cur w_disk] in Ho.
      replace (w_disk w ++ concat (w_queue w) ++ w_cur w ++ h) with (w_all w ++ h) in Ho by (unfold w_all; now rewrite <- !app_assoc).
      destruct Hacc as (en0 & A & B).
      assert (Hnh : ~ In en h). { intros Hc. eapply (twice _ _ en0 en Ho); eauto. congruence. }
      apply in_app_or in Hin as [Hin|Hin]; [|contradiction].
      exists (w_queue w), (w_cur w), [], en. split; auto. split; auto. split; auto.
      replace (w_disk w ++ concat (w_queue w) ++ w_cur w ++ h) with (w_all w ++ h) in Hl by (unfold w_all; now rewrite <- !app_assoc).
      eapply live_back; eauto. unfold w_all. apply in_or_app. right. apply in_or_app. now right.
    + exists Q1, g, (Q2' ++ [w_cur w]), en. split; [rewrite E, <- app_assoc; reflexivity|]. auto.
  - cbn [watch_step] in *. destruct Hw as (Q1 & g & Q2 & en & E & Hin & Ee & Hl). cbn [w_queue w_cur w_disk] in *.
    apply app_snoc_split in E as [(-> & -> & ->)|(Q2' & -> & E)]; [destruct Hin|]. exists Q1, g, Q2', en. auto.
  - destruct x; auto. cbn [watch_step] in *. destruct Hw as (Q1 & g & Q2 & en & E & Hin & Ee & Hl). cbn [w_queue w_cur w_disk] in *.
    destruct (w_queue w) as [|h Q] eqn:Eq; cbn [hd tl] in *.
    + exists Q1, g, Q2, en. rewrite app_nil_r in Hl. rewrite Eq. auto.
    + exists (h :: Q1), g, Q2, en. rewrite Eq. cbn [app concat]. rewrite E. split; auto. split; auto. split; auto. now rewrite <- !app_assoc in *.
  - exfalso. eapply Hn; eauto.
Qed.

Lemma held_back_step : forall pers O s w o x s' e, sys_inv s w -> sys_inv s' (watch_step w (o, x)) -> exec O s o = Some (s', x) ->
    (forall c, o <> OReopen c) -> known_event pers w e -> held pers (s_disk s') (watch_step w (o, x)) e -> held pers (s_disk s) w e.
Proof.
  intros pers O s w o x s' e Hi Hi' He Hn Hacc [Hs|[-> Hs]].
  - destruct (stored_back _ _ _ _ _ _ _ Hi Hi' He Hn Hs) as [H|(h & Q & en & A & B & C & D)]; [now left|].
    destruct pers.
    + exfalso. destruct Hacc as (en0 & E & F). pose proof (all_ok _ _ Hi) as Ho. unfold w_all in Ho. rewrite A in Ho. cbn [concat] in Ho.
      eapply (twice _ _ en0 en Ho); eauto; [|congruence]. apply in_or_app. left. apply in_or_app. now left.
    + right. split; auto. exists [], h, (Q ++ [w_cur w]), en. rewrite A. auto.
  - right. split; auto. eapply waits_back; eauto.
Qed.

Lemma held_back : forall pers O cf tr tr' s s' e, execution O cf tr s -> execution O cf (tr ++ tr') s' -> no_reopen tr' ->
    known_event pers (watch_run cf tr) e ->
    known_event pers (watch_run cf (tr ++ tr')) e /\
    (held pers (s_disk s') (watch_run cf (tr ++ tr')) e -> held pers (s_disk s) (watch_run cf tr) e).
Proof.
  intros pers O cf tr tr' s s' e Hx. revert s'. induction tr' as [|[o x] tr' IH] using rev_ind; intros s' Hx' Hn Ha.
  - rewrite app_nil_r in *. rewrite (execution_fun _ _ _ _ _ Hx Hx'). auto.
  - rewrite app_assoc in *. pose proof Hx' as Hx''. apply execution_snoc in Hx' as (s1 & H1 & H2 & _).
    assert (Hn' : no_reopen tr') by (intros c y Hy; apply (Hn c y), in_or_app; now left).
    assert (Hno : forall c, o <> OReopen c) by (intros c ->; apply (Hn c x), in_or_app; right; now left).
    destruct (IH _ H1 Hn' Ha) as [A B]. pose proof (execution_inv _ _ _ _ H1) as Hi1. pose proof (execution_inv _ _ _ _ Hx'') as Hi2.
    rewrite watch_run_snoc in *. split; [eapply acc_step; eauto|]. intros Hh. apply B. eapply held_back_step; eauto.
Qed.

(** ** C26 for server queries *)

Lemma no_reopen_app : forall a b, no_reopen a -> no_reopen b -> no_reopen (a ++ b).
Proof. intros a b Ha Hb c x Hin. apply in_app_or in Hin as [Hin|Hin]; [eapply Ha|eapply Hb]; eauto. Qed.
Lemma no_reopen_cons : forall o x tr, (forall c, o <> OReopen c) -> no_reopen tr -> no_reopen ((o, x) :: tr).
Proof. intros o x tr Ho H c y [Hin|Hin]; [injection Hin as -> ->; eapply Ho; eauto|eapply H; eauto]. Qed.
Lemma no_reopen_l : forall a b, no_reopen (a ++ b) -> no_reopen a.
Proof. intros a b H c x Hin. apply (H c x), in_or_app. now left. Qed.
Lemma no_reopen_r : forall a b, no_reopen (a ++ b) -> no_reopen b.
Proof. intros a b H c x Hin. apply (H c x), in_or_app. now right. Qed.

(** The point where the captured changes are closed. *)
Lemma pending_point : forall O cf trA sA o trB s, execution O cf trA sA -> execution O cf (trA ++ (o, Quiet) :: trB) s ->
    (forall c, o <> OReopen c) -> o <> OFlush -> watch_step (watch_run cf trA) (o, Quiet) = watch_run cf trA -> no_reopen trB ->
    exists b1 b2 sX, trB = b1 ++ b2 /\ execution O cf (trA ++ (o, Quiet) :: b1) sX /\
      pending_at (watch_run cf trA) trB = watch_run cf (trA ++ (o, Quiet) :: b1) /\
      w_before (watch_run cf (trA ++ (o, Quiet) :: b1)) = w_before (watch_run cf trA).
Proof.
  intros O cf trA sA o trB s HA Hx Hno Hof Hst Hn.
  destruct (pending_prefix trB (watch_run cf trA)) as (b1 & b2 & E1 & E2).
  assert (Hx1 : execution O cf ((trA ++ (o, Quiet) :: b1) ++ b2) s) by (rewrite <- app_assoc; cbn [app]; now rewrite <- E1).
  destruct (execution_split _ _ _ _ _ Hx1) as (sX & HX & _). exists b1, b2, sX. split; auto. split; auto.
  assert (E3 : pending_at (watch_run cf trA) trB = watch_run cf (trA ++ (o, Quiet) :: b1)).
  { rewrite E2, watch_run_app. cbn [fold_left]. now rewrite Hst. }
  split; auto. rewrite <- E3.
  assert (Hn' : no_reopen ((o, Quiet) :: trB)) by now apply no_reopen_cons.
  destruct (gen_spec _ _ _ _ _ _ HA Hx Hn') as (_ & _ & _ & G & _). cbn [pending_at] in G. destruct o; try rewrite Hst in G; auto.
  congruence.
Qed.

(** An event that stays is on the disk when it is read, or in the captured
    changes. *)
Lemma stays_found : forall pers O cf trA sA o trB1 sB trB s e, execution O cf trA sA ->
    execution O cf (trA ++ (o, Quiet) :: trB) s -> execution O cf (trA ++ (o, Quiet) :: trB1) sB ->
    (exists trB2, trB = trB1 ++ trB2) ->
    (forall c, o <> OReopen c) -> o <> OFlush -> watch_step (watch_run cf trA) (o, Quiet) = watch_run cf trA -> no_reopen trB ->
    w_disk (watch_run cf (trA ++ (o, Quiet) :: trB1)) = w_before (watch_run cf trA) ->
    held pers (s_disk sA) (watch_run cf trA) e -> held pers (s_disk s) (watch_run cf (trA ++ (o, Quiet) :: trB)) e ->
    let w := pending_at (watch_run cf trA) trB in
    stored_event (s_disk sB) e \/ (pers = false /\ exists en, In en (w_cur w) /\ en_ev en = e /\ live (w_all w) en).
Proof.
  intros pers O cf trA sA o trB1 sB trB s e HA Hx HB (trB2 & EB) Hno Hof Hst Hn Hd H1 H2 w.
  pose proof (execution_inv _ _ _ _ HA) as HiA. pose proof (held_acc _ _ _ _ HiA H1) as Hacc.
  assert (HaccT : forall tr' s', execution O cf (trA ++ tr') s' -> no_reopen tr' -> known_event pers (watch_run cf (trA ++ tr')) e).
  { intros tr' s' Hx' Hn'. eapply (held_back pers O cf trA tr'); eauto. }
  assert (HnB : no_reopen ((o, Quiet) :: trB)) by now apply no_reopen_cons.
  assert (HnB1 : no_reopen ((o, Quiet) :: trB1)) by (apply no_reopen_cons; auto; rewrite EB in Hn; eapply no_reopen_l; eauto).
  assert (HB2 : held pers (s_disk sB) (watch_run cf (trA ++ (o, Quiet) :: trB1)) e).
  { assert (Ex : trA ++ (o, Quiet) :: trB = (trA ++ (o, Quiet) :: trB1) ++ trB2) by (rewrite <- app_assoc; cbn [app]; now rewrite EB).
    rewrite Ex in *. eapply (held_back pers O cf _ trB2 sB s e HB Hx); eauto. rewrite EB in Hn. eapply no_reopen_r; eauto. }
  destruct HB2 as [HB2|[-> HB2]]; [now left|]. right. split; auto.
  apply waits_acc in HB2 as (en & A & Ee).
  pose proof (execution_inv _ _ _ _ HB) as HiB. pose proof (all_ok _ _ HiB) as HoB. pose proof (all_ok _ _ HiA) as HoA.
  destruct Hacc as (en0 & B & Ee0). unfold known_event in HaccT.
  assert (Hbef : forall en1, In en1 (w_before (watch_run cf trA)) -> en_ev en1 = e -> False).
  { intros en1 C D. unfold w_all in HoB. rewrite Hd in HoB. eapply (twice _ _ en1 en HoB); eauto. congruence. }
  destruct (pending_point _ _ _ _ _ _ _ HA Hx Hno Hof Hst Hn) as (b1 & b2 & sX & E1 & HX & E2 & E3). unfold w. rewrite E2.
  assert (HX2 : held false (s_disk sX) (watch_run cf (trA ++ (o, Quiet) :: b1)) e).
  { assert (Ex : trA ++ (o, Quiet) :: trB = (trA ++ (o, Quiet) :: b1) ++ b2) by (rewrite <- app_assoc; cbn [app]; now rewrite E1).
    rewrite Ex in *. eapply (held_back false O cf _ b2 sX s e HX Hx); eauto; [rewrite E1 in Hn; eapply no_reopen_r; eauto|].
    eapply HaccT; eauto. apply no_reopen_cons; auto. rewrite E1 in Hn; eapply no_reopen_l; eauto. }
  destruct HX2 as [HX2|[_ (Q1 & g & Q2 & en2 & C & D & F & G)]].
  - exfalso. destruct (stored_acc _ _ _ (execution_inv _ _ _ _ HX) HX2) as (en1 & C & D). apply (Hbef en1); auto.
    rewrite <- E3. unfold w_before. apply in_or_app. now left.
  - apply app_snoc_split in C as [(-> & -> & ->)|(Q2' & -> & C)].
    + exists en2. auto.
    + exfalso. apply (Hbef en2); auto. rewrite <- E3. unfold w_before. rewrite C, concat_app. cbn [concat].
      apply in_or_app. right. apply in_or_app. right. apply in_or_app. now left.
Qed.

Lemma by_id_firstn : forall n l, by_id l -> by_id (firstn n l).
Proof.
  unfold by_id. induction n as [|n IH]; intros [|x l] H; cbn [firstn]; try constructor; inversion H as [|? ? A B]; subst; auto.
  rewrite Forall_forall in *. intros y Hy. apply B. rewrite <- (firstn_skipn n l). apply in_or_app. now left.
Qed.

Lemma by_id_split : forall n l e, by_id l -> In e l -> In e (firstn n l) \/
    ((n < List.length l)%nat /\ forall x, In x (firstn n l) -> eid_ltb (ev_id x) (ev_id e) = true).
Proof.
  unfold by_id. induction n as [|n IH]; intros l e Hs Hin.
  - right. split; [destruct l; [destruct Hin|cbn; lia]|]. intros x [].
  - destruct l as [|y l]; [destruct Hin|]. inversion Hs as [|? ? A B]; subst. destruct Hin as [->|Hin]; [left; now left|].
    destruct (IH l e A Hin) as [H|[H1 H2]]; [left; now right|]. right. cbn [firstn List.length]. split; [lia|].
    intros x [->|Hx]; auto. rewrite Forall_forall in B. auto.
Qed.

Theorem final_C26_server : forall O cf trA q p trB es more sA s,
    pick_ok O -> execution O cf trA sA ->
    execution O cf (trA ++ (OServer q p, Quiet) :: trB ++ [(ODeliver q, Answer (Some (QRes es more)))]) s ->
    conditions_kept (cf :: confs_of trA) -> ~ In q (queries_of trA) -> ~ In q (queries_of trB) ->
    by_id es /\
    forall e, eid_server (ev_id e) = qs_server p -> after (qs_last p) e ->
      held (qs_persisted p) (s_disk sA) (watch_run cf trA) e ->
      held (qs_persisted p) (s_disk s) (watch_run cf (trA ++ (OServer q p, Quiet) :: trB)) e ->
      In e es \/ (more = true /\ Z.of_nat (List.length es) = server_max p /\
                  forall x, In x es -> eid_ltb (ev_id x) (ev_id e) = true).
Proof.
  intros O cf trA q p trB es more sA s Hpick HA Hx Hck Hn1 Hn2.
  assert (Hm : 0 <= server_max p).
  { destruct (Z.le_gt_cases 0 (server_max p)) as [H|H]; auto. pose proof (final_C19_negative _ _ _ _ _ _ _ _ Hx Hn1 Hn2 H). discriminate. }
  destruct (C19_core _ _ _ _ _ _ _ _ Hpick Hx Hck Hn1 Hn2 Hm) as (trB1 & trB2 & sB & s1 & L & EB & (Hs1 & Esd & Hnr & Hd) & HB & Ea & HL & Hin).
  injection Ea as -> ->. split; [now apply by_id_firstn|]. intros e E1 E2 E3 E4. cbn zeta in Hin. rewrite Esd in E4.
  pose proof (stays_found _ _ _ _ _ _ _ _ _ _ _ HA Hs1 HB (ex_intro _ _ EB) ltac:(discriminate) ltac:(discriminate) eq_refl Hnr Hd E3 E4) as Hf.
  cbn zeta in Hf. assert (HeL : In e L) by (apply Hin; auto).
  destruct (by_id_split (Z.to_nat (server_max p)) L e HL HeL) as [H|[H1 H2]]; [now left|]. right. split; [apply Z.ltb_lt; lia|].
  split; auto. rewrite firstn_length. lia.
Qed.

(** ** C20 *)

Lemma by_id_app : forall a b, by_id a -> by_id b -> (forall x y, In x a -> In y b -> eid_ltb (ev_id x) (ev_id y) = true) -> by_id (a ++ b).
Proof. intros. now apply SS_app. Qed.

Lemma last_received_max : forall last es x, by_id es -> In x es -> exists i, last_received last es = Some i /\ (ev_id x = i \/ eid_ltb (ev_id x) i = true).
Proof.
  intros last es x Hs Hin. destruct es as [|y es _] using rev_ind; [destruct Hin|]. unfold last_received. rewrite rev_app_distr. cbn [rev app].
  exists (ev_id y). split; auto. apply in_app_or in Hin as [Hin|[->|[]]]; auto. right. revert Hs x Hin. clear. unfold by_id.
  induction es as [|z es IH]; intros Hs x Hin; [destruct Hin|]. cbn [app] in Hs. inversion Hs as [|? ? A B]; subst.
  destruct Hin as [->|Hin]; auto. rewrite Forall_forall in B. apply B, in_or_app. right. now left.
Qed.

Lemma last_received_In : forall last es i, last_received last es = Some i -> last = Some i /\ es = [] \/ exists x, In x es /\ ev_id x = i.
Proof.
  intros last es i. destruct es as [|y es _] using rev_ind; [auto|]. unfold last_received. rewrite rev_app_distr. cbn [rev app].
  intros [= <-]. right. exists y. split; auto. apply in_or_app. right. now left.
Qed.

Theorem final_C20_all : forall O cf srv pers last0 tr0 s0, pick_ok O -> execution O cf tr0 s0 -> conditions_kept (cf :: confs_of tr0) ->
    forall tr last acc more, paging srv pers last0 tr0 tr last acc more -> forall s, execution O cf tr s ->
    (exists trZ, tr = tr0 ++ trZ /\ no_reopen trZ) /\
    by_id acc /\
    (forall e, In e acc -> exists i, last = Some i /\ (ev_id e = i \/ eid_ltb (ev_id e) i = true)) /\
    (forall e, after last e -> after last0 e) /\
    (forall e, In e acc -> eid_server (ev_id e) = srv /\ after last0 e /\
       exists tr1 tr2 s1, tr = tr0 ++ tr1 ++ tr2 /\ execution O cf (tr0 ++ tr1) s1 /\ held pers (s_disk s1) (watch_run cf (tr0 ++ tr1)) e) /\
    (forall e, eid_server (ev_id e) = srv -> after last0 e -> held pers (s_disk s0) (watch_run cf tr0) e ->
       held pers (s_disk s) (watch_run cf tr) e -> In e acc \/ (more = true /\ after last e)).
Proof.
  intros O cf srv pers last0 tr0 s0 Hpick H0 Hck tr last acc more Hp.
  induction Hp as [|tr last acc trA q p trB es more Hp IH HnA HnB Esrv Epers Elast Hmax Hq1 Hq2 Hq3]; intros s Hs.
  { split; [exists []; rewrite app_nil_r; split; auto; intros ? ? []|]. split; [constructor|]. split; [intros e []|]. split; auto. split; [intros e []|].
    intros e E1 E2 E3 E4. right. auto. }
  set (o := (OServer q p, Quiet)) in *. set (a := (ODeliver q, Answer (Some (QRes es more)))) in *.
  assert (Hs' : execution O cf ((tr ++ trA) ++ o :: trB ++ [a]) s) by (rewrite <- app_assoc; exact Hs).
  destruct (execution_split _ _ _ _ _ Hs) as (st & Ht & _). destruct (execution_split _ _ _ _ _ Hs') as (sA & HA & _).
  destruct (IH _ Ht) as ((trZ & EZ & HnZ) & I1 & I2 & I3 & I4 & I5). clear IH.
  assert (Hnq : ~ In q (queries_of (tr ++ trA))). { rewrite queries_app, in_app_iff. tauto. }
  assert (Hck' : conditions_kept (cf :: confs_of (tr ++ trA))).
  { rewrite EZ, !confs_of_app, (confs_none trZ), (confs_none trA), !app_nil_r; auto. }
  assert (Hm : 0 <= server_max p) by lia.
  assert (Hs'' := Hs'). unfold o, a in Hs''.
  destruct (C19_core _ _ _ _ _ _ _ _ Hpick Hs'' Hck' Hnq Hq3 Hm) as (trB1 & trB2 & sB & s1 & L & EB & (Hs1 & Esd & Hnr & Hd) & HB & Ea & HL & Hin).
  destruct (final_C26_server _ _ _ _ _ _ _ _ _ _ Hpick HA Hs'' Hck' Hnq Hq3) as [Hes Hfull].
  injection Ea as Ees Emore. cbn zeta in Hin.
  assert (HesL : forall e, In e es -> In e L). { intros e. rewrite Ees. intros Hi. rewrite <- (firstn_skipn (Z.to_nat (server_max p)) L). apply in_or_app. now left. }
  assert (Hno : forall c, OServer q p <> OReopen c) by discriminate. assert (Hnd : forall c, ODeliver q <> OReopen c) by discriminate.
  assert (Hn1 : no_reopen (trA ++ o :: trB ++ [a])).
  { apply no_reopen_app; auto. apply no_reopen_cons; auto. apply no_reopen_app; auto. apply no_reopen_cons; auto. intros ? ? []. }
  assert (Hgt : forall x y, In x acc -> In y es -> eid_ltb (ev_id x) (ev_id y) = true).
  { intros x y Hx Hy. destruct (I2 _ Hx) as (i & Ei & Hi). apply HesL, Hin in Hy as (_ & Ha & _). rewrite Elast, Ei in Ha. cbn [after] in Ha.
    destruct Hi as [->|Hi]; auto. eapply ltb_trans; eauto. }
  split; [|split; [|split; [|split; [|split]]]].
  - exists (trZ ++ trA ++ o :: trB ++ [a]). split; [rewrite EZ, <- app_assoc; reflexivity|]. now apply no_reopen_app.
  - now apply by_id_app.
  - intros e Hi. apply in_app_or in Hi as [Hi|Hi]; [|now apply last_received_max].
    destruct (last_received last es) as [i|] eqn:El.
    + exists i. split; auto. apply last_received_In in El as [[El _]|(x & Hx & <-)].
      * destruct (I2 _ Hi) as (i' & Ei' & Hi'). congruence.
      * right. auto.
    + destruct (I2 _ Hi) as (i & Ei & _). exfalso. unfold last_received in El. destruct (rev es); congruence.
  - intros e Ha. destruct (last_received last es) as [i|] eqn:El.
    + apply last_received_In in El as [[El _]|(x & Hx & <-)]; [apply I3; now rewrite El|].
      apply HesL, Hin in Hx as (_ & Hb & _). rewrite Elast in Hb. apply I3. destruct last as [j|]; [|exact I]. cbn [after] in *. eapply ltb_trans; eauto.
    + apply I3. unfold last_received in El. destruct (rev es); [now rewrite El|discriminate].
  - intros e Hi. apply in_app_or in Hi as [Hi|Hi].
    + destruct (I4 _ Hi) as (A & B & tr1 & tr2 & s2 & C & D & E). split; auto. split; auto. exists tr1, (tr2 ++ trA ++ o :: trB ++ [a]), s2.
      split; auto. rewrite C, <- !app_assoc. reflexivity.
    + apply HesL, Hin in Hi as (A & B & C). rewrite Esrv in A. split; auto. rewrite Elast in B. split; auto.
      assert (Eall : tr ++ trA = tr0 ++ trZ ++ trA) by (rewrite EZ, <- app_assoc; reflexivity).
      destruct C as [C|[Hpf (en & C1 & C2 & C3)]].
      * exists (trZ ++ trA ++ o :: trB1), ((OWork, Quiet) :: trB2 ++ [a]), sB.
        assert (E1 : tr0 ++ trZ ++ trA ++ o :: trB1 = (tr ++ trA) ++ o :: trB1) by (rewrite Eall, <- !app_assoc; reflexivity).
        split; [|rewrite E1; split; auto; left; auto]. rewrite EZ, EB. repeat (rewrite <- app_assoc; cbn [app]). reflexivity.
      * destruct (pending_point _ _ _ _ _ _ _ HA Hs1 Hno ltac:(discriminate) eq_refl Hnr) as (b1 & b2 & sX & E1 & HX & E2 & E3).
        exists (trZ ++ trA ++ o :: b1), (b2 ++ [a]), sX.
        assert (E4 : tr0 ++ trZ ++ trA ++ o :: b1 = (tr ++ trA) ++ o :: b1) by (rewrite Eall, <- !app_assoc; reflexivity).
        split; [rewrite EZ, E1; repeat (rewrite <- app_assoc; cbn [app]); reflexivity|]. rewrite E4. split; auto. right. rewrite <- Epers. split; auto.
        rewrite E2 in C1, C3. unfold o. eexists _, _, [], en. split; [reflexivity|]. auto.
  - intros e E1 E2 E3 E4.
    assert (Hacc0 := held_acc _ _ _ _ (execution_inv _ _ _ _ H0) E3).
    assert (Ht' : execution O cf (tr0 ++ trZ) st) by now rewrite <- EZ.
    assert (Hacct : known_event pers (watch_run cf tr) e) by (rewrite EZ; eapply held_back; eauto).
    assert (Hht : held pers (s_disk st) (watch_run cf tr) e) by (eapply (held_back pers O cf tr _ st s e Ht Hs); eauto).
    destruct (I5 e E1 E2 E3 Hht) as [Hi|[_ Hi]]; [left; apply in_or_app; now left|].
    assert (HaccA : known_event pers (watch_run cf (tr ++ trA)) e) by (eapply held_back; eauto).
    assert (Hn2 : no_reopen (o :: trB ++ [a])) by (eapply no_reopen_r; eauto).
    assert (HhA : held pers (s_disk sA) (watch_run cf (tr ++ trA)) e).
    { eapply (held_back pers O cf (tr ++ trA) _ sA s e HA Hs'); eauto. now rewrite <- app_assoc. }
    assert (Hend : held pers (s_disk s) (watch_run cf ((tr ++ trA) ++ o :: trB)) e).
    { replace (tr ++ trA ++ o :: trB ++ [a]) with (((tr ++ trA) ++ o :: trB) ++ [a]) in E4 by (repeat (rewrite <- app_assoc; cbn [app]); reflexivity).
      rewrite watch_run_snoc in E4. exact E4. }
    rewrite Epers in Hfull. specialize (Hfull e). rewrite Esrv, Elast in Hfull. destruct (Hfull E1 Hi HhA Hend) as [Hf|(Hf1 & Hf2 & Hf3)].
    + left. apply in_or_app. now right.
    + right. split; auto. destruct (last_received last es) as [i|] eqn:El; [|exact I]. cbn [after].
      apply last_received_In in El as [[_ El]|(x & Hx & <-)]; auto. rewrite El in Hf2. cbn [List.length] in Hf2. lia.
Qed.

Theorem final_C20 : forall O cf srv pers last0 tr0 s0 tr last acc s, pick_ok O -> execution O cf tr0 s0 -> conditions_kept (cf :: confs_of tr0) ->
    paging srv pers last0 tr0 tr last acc false -> execution O cf tr s ->
    by_id acc /\
    (forall e, In e acc -> eid_server (ev_id e) = srv /\ after last0 e /\
       exists tr1 tr2 s1, tr = tr0 ++ tr1 ++ tr2 /\ execution O cf (tr0 ++ tr1) s1 /\ held pers (s_disk s1) (watch_run cf (tr0 ++ tr1)) e) /\
    (forall e, eid_server (ev_id e) = srv -> after last0 e -> held pers (s_disk s0) (watch_run cf tr0) e ->
       held pers (s_disk s) (watch_run cf tr) e -> In e acc).
Proof.
  intros O cf srv pers last0 tr0 s0 tr last acc s Hpick H0 Hck Hp Hs.
  destruct (final_C20_all _ _ _ _ _ _ _ Hpick H0 Hck _ _ _ _ Hp _ Hs) as (_ & A & _ & _ & B & C). split; auto. split; auto.
  intros e E1 E2 E3 E4. destruct (C e E1 E2 E3 E4) as [H|[H _]]; auto. discriminate.
Qed.
