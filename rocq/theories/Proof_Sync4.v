(** Synchronization: what pages contain, how they are given to the backend. *)
From Coq Require Import String Bool ZArith Arith Lia Sorted List.
From Verif Require Import Base Model_Types Proof_Order Proof_Lmdb3 Model_Sync Spec_Sync Proof_Sync Proof_Sync2 Proof_Sync3.
Import ListNotations.
Open Scope string_scope.
Open Scope list_scope.
Open Scope nat_scope.

Definition pcat (tr : list yitem) : list event := concat (map qr_events (pages tr)).
Definition coming (s : ystate) : list event :=
  match y_phase s with PResp q => qr_events q | _ => [] end ++ concat (map qr_events (wired s)).
Definition call (tr : list yitem) : list event := concat (map batch (commits tr)).
Definition kept (tr : list yitem) (e : event) : Prop := persisted tr e /\ ~ removed tr e.

(** ** The remote's storage *)
Record ystore (tr : list yitem) (s : ystate) : Prop := {
  t_inc : increasing (r_stored s);
  t_sub : forall e, In e (r_stored s) -> In e (call tr);
  t_keep : forall e, kept tr e -> In e (r_stored s) }.

Lemma persisted_snoc : forall tr o l e, persisted (tr ++ [(o, l)]) e -> persisted tr e \/ exists b, o = RCommit b /\ In (e, true) b.
Proof.
  intros tr o l e (b & Hb & He). rewrite commits_snoc in Hb. apply in_app_or in Hb as [Hb|Hb]; [left; exists b; auto|].
  right. destruct o; try (now destruct Hb). destruct Hb as [->|[]]. eauto.
Qed.
Lemma removed_snoc : forall tr i e, removed tr e -> removed (tr ++ [i]) e.
Proof. intros tr i e [l H]. exists l. apply in_or_app. auto. Qed.
Lemma call_snoc : forall tr o l, call (tr ++ [(o, l)]) = call tr ++ match o with RCommit b => batch b | _ => [] end.
Proof.
  intros. unfold call. rewrite commits_snoc, map_app, concat_app. destruct o; cbn; rewrite ?app_nil_r; auto.
Qed.

Lemma ystore_step : forall sv last0 tr s o s' l, ynote sv tr s -> ystore tr s -> yexec sv last0 s o = Some (s', l) -> ystore (tr ++ [(o, l)]) s'.
Proof.
  intros sv last0 tr s o s' l N [T1 T2 T3] H.
  assert (Same : r_stored s' = r_stored s -> match o with RCommit _ => False | _ => True end -> ystore (tr ++ [(o, l)]) s').
  { intros E E'. constructor; rewrite E; auto.
    - intros e He. rewrite call_snoc. apply in_or_app. auto.
    - intros e [Hpe Hr]. apply T3. split; [apply persisted_snoc in Hpe as [Hpe|(b & -> & _)]; auto; destruct E'|]. intros Hx. apply Hr. now apply removed_snoc. }
  ycases H; turns s; try (apply Same; auto; fail).
  - clear Same. constructor; proj.
    + apply growing_spec in H0 as [G1 G2]. apply increasing_app; auto.
      * clear - G1. induction b as [|[e m] b IH]; cbn in *; auto. inversion_clear G1 as [|? ? G3 G4]. destruct m; cbn; auto. constructor; auto. fold (increasing (map fst (filter snd b))) in *. apply IH; auto.
        rewrite Forall_forall in *. intros x Hx. apply G4. apply in_map_iff in Hx as (y & <- & Hy). apply filter_In in Hy as [Hy _]. now apply in_map.
      * intros a c Ha Hc. apply T2 in Ha. pose proof (n_top _ _ _ N) as Ht. rewrite Forall_forall in Ht. apply Ht in Ha as [_ Ha].
        apply in_map_iff in Hc as (y & <- & Hy). apply filter_In in Hy as [Hy _]. rewrite Forall_forall in G2. assert (Hm : In (fst y) (map fst b)) by now apply in_map. apply G2 in Hm as (_ & Hm & _).
        unfold id_lt. eapply leb_ltb_trans; eauto.
    + intros e He. rewrite call_snoc. apply in_or_app. apply in_app_or in He as [He|He]; auto. right. unfold batch.
      apply in_map_iff in He as (y & <- & Hy). apply filter_In in Hy as [Hy _]. now apply in_map.
    + intros e [Hpe Hr]. apply in_or_app. apply persisted_snoc in Hpe as [Hpe|(b' & E & Hpe)].
      * left. apply T3. split; auto. intros Hx. apply Hr. now apply removed_snoc.
      * right. injection E as <-. apply in_map_iff. exists (e, true). split; auto. now apply filter_In.
  - clear Same. constructor; proj.
    + now apply increasing_filter.
    + intros e He. rewrite call_snoc, app_nil_r. apply filter_In in He as [He _]. auto.
    + intros e [Hpe Hr]. apply filter_In. split.
      * apply T3. split; [apply persisted_snoc in Hpe as [Hpe|(b & E & _)]; auto; discriminate|]. intros Hx. apply Hr. now apply removed_snoc.
      * apply negb_true_iff. destruct (eid_eqb i (ev_id e)) eqn:E; auto. exfalso. apply eid_eqb_spec in E as ->. apply Hr. exists []. apply in_or_app. right. now left.
Qed.
Lemma ystore_run : forall sv last0 tr s, sync_run sv last0 tr s -> ystore tr s.
Proof.
  intros sv last0 tr s H. unfold sync_run in H. remember (ystart sv) as s0 eqn:E. induction H; subst.
  - constructor; cbn; [constructor|intros ? []|]. intros e [(b & [] & _) _].
  - eapply ystore_step; eauto. eapply ynote_run; eauto.
Qed.

(** ** Pages *)
Lemma pcat_snoc : forall tr o l, pcat (tr ++ [(o, l)]) = pcat tr ++ concat (map qr_events (pages_in l)).
Proof. intros. unfold pcat. rewrite pages_snoc, map_app, concat_app. reflexivity. Qed.

Record ypage (last0 : event_id) (tr : list yitem) (s : ystate) : Prop := {
  g_pre : exists r, pcat tr = concat (gives FromQuery tr) ++ r;
  g_split : y_phase s <> PEnd -> pcat tr = concat (gives FromQuery tr) ++ y_ev s ++ coming s;
  g_last : match y_phase s with
           | PNew | PEnd => True
           | PConn | PAsk | PResp _ => y_last s = last_id last0 (concat (gives FromQuery tr) ++ y_ev s)
           | PSync => last_id (y_last s) (y_ev s) = last_id last0 (pcat tr)
           | _ => y_last s = last_id last0 (pcat tr)
           end }.

Ltac unf := unfold coming, wired in *; proj; rewrite ?results_app in *; cbn [results_of flat_map app map concat] in *.

Lemma last_twice : forall i g ev q, last_id (last_id i (g ++ ev)) (ev ++ q) = last_id i (g ++ ev ++ q).
Proof.
  intros. rewrite !last_id_app. destruct ev as [|x ev]; auto. f_equal. apply last_id_any. discriminate.
Qed.

Lemma ypage_step : forall sv last0 tr s o s' l, yflow tr s -> ypage last0 tr s -> yexec sv last0 s o = Some (s', l) -> ypage last0 (tr ++ [(o, l)]) s'.
Proof.
  intros sv last0 tr s o s' l F [G1 G2 G3] H. ycases H; turns s.
  all: specialize (G2 Hp).
  all: unfold yflow in F; try match goal with E : y_phase _ = _ |- _ => rewrite E in F, G3 end.
  all: constructor; unf; rewrite ?pcat_snoc; snocs; shrink; rewrite ?concat_app; cbn [map concat app]; rewrite ?app_nil_r; auto.
  all: try match goal with E : y_phase _ = _ |- _ => rewrite E in G2 end.
  all: cbn [app] in G2.
  all: try match type of F with
       | _ = None /\ _ = [] /\ pages _ = [] /\ _ => destruct F as (R & W & Pg & M & Fn & C & Ev); rewrite W in *; cbn [map concat] in *; rewrite ?app_nil_r in *
       | _ = None /\ _ = [] /\ _ /\ y_more _ = false /\ _ => destruct F as (R & W & Fk & M & Ev); rewrite W in *; cbn [map concat] in *; rewrite ?app_nil_r in *
       | _ = None /\ _ = [] /\ _ => destruct F as (R & W & Fk); rewrite W in *; cbn [map concat] in *; rewrite ?app_nil_r in *
       | y_more _ = true /\ _ = None /\ _ => destruct F as (M & R & W & Fk); rewrite W in *; cbn [map concat] in *; rewrite ?app_nil_r in *
       end.
  all: try match goal with E : y_ev _ = [] |- _ => rewrite E in *; cbn [app] in *; rewrite ?app_nil_r in * end.
  all: try (intros _; rewrite G2, ?app_nil_r, <- ?app_assoc; try (rewrite (app_assoc (fst _)), span_app); rewrite <- ?app_assoc; auto; fail).
  all: try (exists []; rewrite G2, ?app_nil_r, <- ?app_assoc; auto; fail).
  all: try (eexists; rewrite G2; rewrite <- app_assoc; f_equal; symmetry; apply span_app).
  all: try (rewrite G3, G2; auto; fail).
  all: try (rewrite G3, <- last_id_app, ?G2; auto; fail).
  all: try (rewrite G3, ?G2; apply last_twice).
  all: try (intros _; rewrite G2, <- ?app_assoc; f_equal; symmetry; apply span_app).
  all: try match goal with E : y_ev _ ++ qr_events _ = [] |- _ => intros _; rewrite G2, E; apply app_nil_r end.
  - intros _. rewrite G2. destruct (y_phase s) eqn:P; try (now destruct Hp); try (exfalso; destruct F as (F1 & F); try destruct F as (F2 & _); congruence).
    destruct F as (M & [(R & W & Fn)|(R & _)]); [|congruence]. apply app_eq_nil in W as [W1 W2]. rewrite W1, W2. cbn. now rewrite !app_nil_r, <- app_assoc.
  - destruct (y_phase s) eqn:P; try (now destruct Hp); try (exfalso; destruct F as (F1 & F); try destruct F as (F2 & _); congruence). auto.
  - intros _. rewrite H0 in G2. exact G2.
  - unfold pcat in G2. rewrite Pg in G2. symmetry in G2. rewrite G2. reflexivity.
  - rewrite H1 in G2. auto.
  - rewrite H1 in G2. auto.
  - rewrite H1 in G2. auto.
  - exfalso. rewrite H1 in F. cbn [results_of flat_map app] in F.
    destruct (y_phase s); try congruence; destruct F as (F1 & F); try destruct F as (F2 & F); try destruct F as (F3 & F); discriminate.
  - congruence.
Qed.

Lemma ypage_run : forall sv last0 tr s, sync_run sv last0 tr s -> ypage last0 tr s.
Proof.
  intros sv last0 tr s H. unfold sync_run in H. remember (ystart sv) as s0 eqn:E. induction H; subst.
  - constructor; cbn; auto. now exists [].
  - eapply ypage_step; eauto. eapply yflow_run; eauto.
Qed.

(** The page answered to a query. *)
Lemma answer_page : forall sv last0 tr s k s' l, yflow tr s -> ypage last0 tr s -> yexec sv last0 s (RQuery k) = Some (s', l) ->
    let q := filter (newer (last_id last0 (pcat tr))) (r_stored s) in
    l = [Answered (QRes (firstn k q) (Nat.ltb k (length q)))] /\ s' = y_remote s (r_stored s) (r_top s) (r_lag s) (r_up s) None (Some (QRes (firstn k q) (Nat.ltb k (length q)))) (r_chan s) /\
    y_phase s = PAsk /\ fin tr = None.
Proof.
  intros sv last0 tr s k s' l F [G1 G2 G3] H. ycases H. specialize (G2 Hp). unfold yflow in F.
  destruct (y_phase s) eqn:P; try (exfalso; try (now destruct Hp); destruct F as (F1 & F); try destruct F as (F2 & _); congruence).
  destruct F as (M & [(R & W & Fn)|(R & _)]); [|congruence]. unfold coming in G2. rewrite P, W in G2. cbn in G2. rewrite app_nil_r in G2.
  rewrite <- G2 in G3. assert (i = y_last s) as -> by congruence. rewrite <- G3. auto.
Qed.

(** ** What pages contain *)
Record ydone (last0 : event_id) (tr : list yitem) : Prop := {
  d_inc : increasing (pcat tr);
  d_above : above last0 (pcat tr);
  d_sub : forall e, In e (pcat tr) -> In e (call tr);
  d_upto : forall e, kept tr e -> eid_ltb last0 (ev_id e) = true -> eid_leb (ev_id e) (last_id last0 (pcat tr)) = true -> In e (pcat tr);
  d_fin : forall n, fin tr = Some n ->
            n <= length (commits tr) /\
            (forall e, In e (pcat tr) -> In e (concat (map batch (firstn n (commits tr))))) /\
            forall b e, In b (firstn n (commits tr)) -> In (e, true) b -> ~ removed tr e -> eid_ltb last0 (ev_id e) = true -> In e (pcat tr) }.

Lemma kept_snoc : forall tr o l e, kept (tr ++ [(o, l)]) e -> kept tr e \/ exists b, o = RCommit b /\ In (e, true) b.
Proof.
  intros tr o l e [H H']. apply persisted_snoc in H as [H|H]; auto. left. split; auto. intros Hx. apply H'. now apply removed_snoc.
Qed.
Lemma page_out : forall sv last0 s o s' l, yexec sv last0 s o = Some (s', l) -> (forall k, o <> RQuery k) -> pages_in l = [] /\ existsb is_last l = false.
Proof.
  intros sv last0 s o s' l H Hn. ycases H; turns s; auto; try (match goal with |- context [drain ?x] => destruct (drain_turn x) end; auto). exfalso. eapply Hn; reflexivity.
Qed.

Lemma ydone_step : forall sv last0 tr s o s' l, ynote sv tr s -> ystore tr s -> yflow tr s -> ypage last0 tr s -> ydone last0 tr ->
    yexec sv last0 s o = Some (s', l) -> ydone last0 (tr ++ [(o, l)]).
Proof.
  intros sv last0 tr s o s' l N T F G [D1 D2 D3 D4 D5] H.
  assert (Hq : (exists k, o = RQuery k) \/ forall k, o <> RQuery k) by (destruct o; try (right; intros; discriminate); left; eauto).
  destruct Hq as [[k ->]|Hq].
  - destruct (answer_page _ _ _ _ _ _ _ F G H) as (-> & _ & _ & Fn). set (q := filter (newer (last_id last0 (pcat tr))) (r_stored s)) in *.
    assert (Q1 : increasing q) by (apply increasing_filter; apply (t_inc _ _ T)).
    assert (Q2 : forall e, In e q -> In e (r_stored s) /\ eid_ltb (last_id last0 (pcat tr)) (ev_id e) = true) by (intros e He; now apply filter_In in He).
    assert (E : pcat (tr ++ [(RQuery k, [Answered (QRes (firstn k q) (Nat.ltb k (length q)))])]) = pcat tr ++ firstn k q).
    { rewrite pcat_snoc. cbn. now rewrite app_nil_r. }
    assert (K : forall e, kept tr e -> eid_ltb last0 (ev_id e) = true -> In e (pcat tr) \/ In e q).
    { intros e He Hl. destruct (leb_or_ltb (ev_id e) (last_id last0 (pcat tr))) as [Hx|Hx]; [left; auto|right]. apply filter_In. split; auto. now apply (t_keep _ _ T). }
    assert (KS : forall e, kept (tr ++ [(RQuery k, [Answered (QRes (firstn k q) (Nat.ltb k (length q)))])]) e -> kept tr e).
    { intros e He. apply kept_snoc in He as [He|(b & Eb & _)]; auto. discriminate. }
    constructor; rewrite ?E.
    + apply increasing_app; auto; [now apply increasing_firstn|]. intros a b Ha Hb. apply in_firstn, Q2 in Hb as [_ Hb]. unfold id_lt.
      eapply leb_ltb_trans; [|exact Hb]. now apply last_id_max.
    + apply Forall_app. split; auto. apply Forall_forall. intros e He. apply in_firstn, Q2 in He as [_ He]. eapply leb_ltb_trans; [|exact He]. now apply last_id_above.
    + intros e He. rewrite call_snoc, app_nil_r. apply in_app_or in He as [He|He]; auto. apply in_firstn, Q2 in He as [He _]. now apply (t_sub _ _ T).
    + intros e He Hl Hx. apply in_or_app. rewrite last_id_app in Hx. destruct (K e (KS e He) Hl) as [Hin|Hin]; auto. right.
      apply (page_all (last_id last0 (pcat tr))); auto. now apply Q2.
    + intros n Hn. rewrite fin_snoc in Hn. rewrite commits_snoc, app_nil_r. cbn [existsb is_last orb] in Hn. destruct (Nat.ltb_spec k (length q)) as [L|L]; cbn [orb] in Hn; [congruence|].
      injection Hn as <-. split; auto. rewrite firstn_all, (firstn_all2 (n := k)) by lia. split.
      * intros e He. change (In e (call tr)). apply in_app_or in He as [He|He]; auto. apply Q2 in He as [He _]. now apply (t_sub _ _ T).
      * intros b e Hb He Hr Hl. apply in_or_app. apply K; auto. split; [exists b; auto|]. intros Hx. apply Hr. now apply removed_snoc.
  - destruct (page_out _ _ _ _ _ _ H Hq) as [P1 P2]. assert (E : pcat (tr ++ [(o, l)]) = pcat tr) by (rewrite pcat_snoc, P1; cbn; apply app_nil_r).
    constructor; rewrite ?E; auto.
    + intros e He. rewrite call_snoc. apply in_or_app. auto.
    + intros e He Hl Hx. apply kept_snoc in He as [He|(b & -> & He)]; auto. exfalso.
      ycases H. match goal with G : growing _ _ _ = true |- _ => apply growing_spec in G as [_ G]; rewrite Forall_forall in G; specialize (G e ltac:(apply in_map_iff; exists (e, true); auto)); destruct G as (_ & Hg & _) end.
      destruct (pcat tr) as [|x p] eqn:Ep; [cbn in Hx; rewrite eid_leb_ltb, Hl in Hx; discriminate|].
      destruct (last_id_in last0 (x :: p)) as (y & Hy & Ey); [discriminate|]. rewrite Ey in Hx. apply D3 in Hy. pose proof (n_top _ _ _ N) as Ht. rewrite Forall_forall in Ht. apply Ht in Hy as [_ Hy].
      rewrite eid_leb_ltb in Hx. rewrite (leb_ltb_trans _ _ _ Hy Hg) in Hx. discriminate.
    + intros n Hn. rewrite fin_snoc, P2 in Hn. destruct (D5 _ Hn) as (L & A & B). rewrite commits_snoc, firstn_app, app_length. replace (n - length (commits tr)) with 0 by lia.
      cbn [firstn]. rewrite app_nil_r. split; [lia|]. split; auto. intros b e Hb He Hr Hl. eapply B; eauto. intros Hx. apply Hr. now apply removed_snoc.
Qed.
Lemma ydone_run : forall sv last0 tr s, sync_run sv last0 tr s -> ydone last0 tr.
Proof.
  intros sv last0 tr s H. unfold sync_run in H. remember (ystart sv) as s0 eqn:E. induction H; subst.
  - constructor; try (cbn; constructor); try discriminate; [intros e []|intros e [(b & [] & _) _]].
  - eapply ydone_step; eauto; [eapply ynote_run|eapply ystore_run|eapply yflow_run|eapply ypage_run]; eauto.
Qed.

(** ** Sessions *)
Definition before (ph : yphase) : bool := match ph with PFinal | PDrain | PDone | PEnd => false | _ => true end.
Record ysess (tr : list yitem) (s : ystate) : Prop := {
  e_one : Forall one_session (gives FromQuery tr);
  e_apart : apart (gives FromQuery tr);
  e_some : Forall (fun es => es <> []) (gives FromQuery tr);
  e_ev : before (y_phase s) = true -> concat (gives FromQuery tr) <> [] -> y_ev s <> [];
  e_lt : before (y_phase s) = true -> forall e e', In e (concat (gives FromQuery tr)) -> In e' (y_ev s) -> (sess e < sess e')%Z }.

Lemma pcat_served : forall sv last0 tr s, ynote sv tr s -> ydone last0 tr -> served sv (pcat tr).
Proof.
  intros sv last0 tr s N D. apply Forall_forall. intros e He. apply (d_sub _ _ D) in He. pose proof (n_top _ _ _ N) as H. rewrite Forall_forall in H. now apply H.
Qed.

Lemma turn_sess : forall sv tr s o s' l, served sv (concat (gives FromQuery tr) ++ y_ev s) -> increasing (concat (gives FromQuery tr) ++ y_ev s) ->
    Forall one_session (gives FromQuery tr) -> apart (gives FromQuery tr) -> Forall (fun es => es <> []) (gives FromQuery tr) ->
    (concat (gives FromQuery tr) <> [] -> y_ev s <> []) ->
    (forall e e', In e (concat (gives FromQuery tr)) -> In e' (y_ev s) -> (sess e < sess e')%Z) ->
    turn s s' l -> ysess (tr ++ [(o, l)]) s'.
Proof.
  intros sv tr s o s' l Hs Hi H1 H2 H3 H4 H5 H. apply increasing_inv in Hi as (_ & Hi & _). unfold served in Hs. apply Forall_app in Hs as [_ Hs]. destruct H.
  - destruct (span_split _ _ _ _ H Hi Hs H0) as (P1 & P2 & P3 & P4). set (p := span_session (sess e) (y_ev s)) in *. change (span_session (eid_session (ev_id e)) (y_ev s)) with p.
    pose proof (span_app (sess e) (y_ev s)) as Pa. fold p in Pa.
    constructor; proj; rewrite gives_snoc; shrink; rewrite ?concat_app; cbn [concat]; rewrite ?app_nil_r.
    + apply Forall_app. split; auto. constructor; auto. intros a b Ha Hb. change (sess a = sess b). now rewrite (P3 _ Ha), (P3 _ Hb).
    + apply apart_snoc; auto. intros a b Ha Hb. assert (sess a < sess b)%Z; [|lia]. apply H5; auto. rewrite <- Pa. apply in_or_app. auto.
    + apply Forall_app. split; auto.
    + auto.
    + intros _ a b Ha Hb. apply in_app_or in Ha as [Ha|Ha]; [|rewrite (P3 _ Ha); auto]. apply H5; auto. rewrite <- Pa. apply in_or_app. auto.
  - constructor; proj; rewrite gives_snoc; shrink; auto.
  - constructor; proj; rewrite gives_snoc; shrink; try (cbn; discriminate).
    + apply Forall_app. split; auto. constructor; auto. eapply one_of; eauto.
    + apply apart_snoc; auto. intros a b Ha Hb. assert (sess a < sess b)%Z; [|lia]. auto.
    + apply Forall_app. split; auto. constructor; auto. congruence.
  - destruct (drain_turn s); constructor; proj; rewrite gives_snoc; shrink; auto; cbn; discriminate.
Qed.

Lemma more_sess : forall sv p g ev q, p = g ++ ev ++ q -> served sv p -> increasing p -> (g <> [] -> ev <> []) ->
    (forall e e', In e g -> In e' ev -> (sess e < sess e')%Z) ->
    (g <> [] -> ev ++ q <> []) /\ forall e e', In e g -> In e' (ev ++ q) -> (sess e < sess e')%Z.
Proof.
  intros sv p g ev q -> Hs Hi H1 H2. split.
  - intros Hg E. apply app_eq_nil in E as [E _]. now apply H1.
  - intros e e' He He'. apply in_app_or in He' as [He'|He']; auto. destruct ev as [|x ev].
    + exfalso. apply H1; auto. intros ->. destruct He.
    + apply increasing_inv in Hi as (_ & Hi & _). apply increasing_inv in Hi as (_ & _ & Hi). specialize (Hi x e' (or_introl eq_refl) He').
      assert (sess e < sess x)%Z by (apply H2; auto; now left). assert (sess x <= sess e')%Z; [|lia]. apply sess_le; auto.
      unfold served in Hs. rewrite Forall_forall in Hs. rewrite (Hs x), (Hs e'); auto; apply in_or_app; right; apply in_or_app; [now right|left; now left].
Qed.

Lemma ysess_step : forall sv last0 tr s o s' l, ynote sv tr s -> ypage last0 tr s -> yflow tr s -> ydone last0 tr -> ysess tr s -> yexec sv last0 s o = Some (s', l) -> ysess (tr ++ [(o, l)]) s'.
Proof.
  intros sv last0 tr s o s' l N G F D [E1 E2 E3 E4 E5] H. pose proof (pcat_served _ _ _ _ N D) as Hs. pose proof (d_inc _ _ D) as Hi. pose proof (g_split _ _ _ G) as G2.
  ycases H.
  all: try (constructor; proj; rewrite gives_snoc; shrink; auto; cbn; try discriminate; fail).
  all: specialize (G2 Hp); unfold coming in G2; unfold yflow in F; try match goal with E : y_phase _ = _ |- _ => rewrite E in G2, E4, E5, F; cbn [before] in E4, E5 end.
  - destruct F as (R & W & Pg & _ & _ & _ & Ev). assert (Z : concat (gives FromQuery tr) = []).
    { unfold pcat in G2. rewrite Pg in G2. symmetry in G2. now apply app_eq_nil in G2 as [G2 _]. }
    constructor; proj; rewrite gives_snoc; shrink; auto; rewrite Z; try congruence. intros _ e e' [].
  - constructor; proj; rewrite gives_snoc; shrink; auto.
  - destruct F as (R & W & _). rewrite W in G2. cbn in G2. rewrite app_nil_r in G2. match goal with T : turn ?x _ _ |- _ => apply (turn_sess sv tr x); auto; proj; auto; rewrite <- G2; auto end.
  - destruct F as (R & W & _). rewrite W in G2. cbn in G2. rewrite app_nil_r in G2. match goal with T : turn ?x _ _ |- _ => apply (turn_sess sv tr x); auto; proj; auto; rewrite <- G2; auto end.
  - match goal with T : dturn _ _ _ |- _ => destruct T end; constructor; proj; rewrite gives_snoc; shrink; auto; cbn; discriminate.
  - destruct F as (M & R & W & _). rewrite W in G2. cbn in G2. rewrite app_nil_r in G2. destruct (more_sess _ _ _ _ _ G2 Hs Hi (E4 eq_refl) (E5 eq_refl)) as [M1 M2].
    constructor; proj; rewrite gives_snoc; shrink; auto.
  - destruct F as (M & R & W & _). rewrite W in G2. cbn in G2. rewrite app_nil_r in G2. destruct (more_sess _ _ _ _ _ G2 Hs Hi (E4 eq_refl) (E5 eq_refl)) as [M1 M2].
    match goal with T : turn ?x _ _ |- _ => apply (turn_sess sv tr x); auto; proj; auto; rewrite <- G2; auto end.
  - constructor; proj; rewrite gives_snoc; shrink; auto.
Qed.
Lemma ysess_run : forall sv last0 tr s, sync_run sv last0 tr s -> ysess tr s.
Proof.
  intros sv last0 tr s H. unfold sync_run in H. remember (ystart sv) as s0 eqn:E. induction H; subst.
  - constructor; cbn; try (now constructor); try congruence; [|intros _ e e' []]. intros a b c es es' E'. now destruct a.
  - eapply ysess_step; eauto; [eapply ynote_run|eapply ypage_run|eapply yflow_run|eapply ydone_run]; eauto.
Qed.
