(** A server process: readings of the clock, and batches at the backend. *)
From Coq Require Import String Bool ZArith Arith Lia Sorted List.
From Verif Require Import Base Kv Model_Types Model_Subscription Model_Codec Keys Spec_Order Proof_Order Model_Lmdb Model_LmdbSys
  Spec_Lmdb Spec_LmdbContent Spec_LmdbQuery Spec_LmdbTs Proof_Lmdb3 Proof_Lmdb4 Proof_Lmdb8 Proof_Lmdb9 Proof_Lmdb14 Proof_Lmdb23
  Model_Engine Spec_Engine Proof_Engine Proof_Engine2 Proof_Engine3 Proof_Engine5 Model_Eventer Spec_Eventer Model_Service Spec_Service.
Import ListNotations.
Open Scope list_scope.
Open Scope nat_scope.

(** ** Readings *)

Lemma ops_app : forall a b, ops_of (a ++ b) = ops_of a ++ ops_of b.
Proof. intros. unfold ops_of. apply map_app. Qed.
Lemma readings_app : forall a b, readings (a ++ b) = readings a ++ readings b.
Proof. intros. unfold readings. now rewrite ops_app, flat_map_app. Qed.
Lemma handed_app : forall a b, handed (a ++ b) = handed a ++ handed b.
Proof. intros. unfold handed, handed_in, outs_of. now rewrite !flat_map_app. Qed.

Lemma get_reading : forall tr t, last_get (ops_of tr) = Some t -> In t (readings tr).
Proof.
  induction tr as [|[o l] tr IH] using rev_ind; intros t H; [discriminate|]. rewrite ops_snoc, last_get_snoc in H. rewrite readings_app.
  apply in_or_app. destruct o; auto. injection H as <-. right. now left.
Qed.

Lemma SS_snoc : forall A (R : A -> A -> Prop) l x, StronglySorted R (l ++ [x]) -> StronglySorted R l /\ Forall (fun y => R y x) l.
Proof.
  induction l as [|y l IH]; intros x H; [split; constructor|]. cbn in H. inversion H as [|? ? H1 H2]; subst.
  destruct (IH _ H1) as [I1 I2]. apply Forall_app in H2 as [H2 H3]. inversion H3; subst. split; constructor; auto.
Qed.

Lemma last_reading : forall tr t, shut_in tr = false -> last_get (ops_of tr) = Some t -> StronglySorted (fun a b => ts_leb a b = true) (readings tr) ->
    forall u, In u (readings tr) -> ts_leb u t = true.
Proof.
  induction tr as [|[o l] tr IH] using rev_ind; intros t Hs Hg HS u Hu; [destruct Hu|].
  rewrite shut_snoc in Hs. apply orb_false_elim in Hs as [Hs Ho]. rewrite ops_snoc, last_get_snoc in Hg. rewrite readings_app in *.
  destruct o; try discriminate Ho; cbn [readings ops_of map flat_map app] in HS, Hu; rewrite ?app_nil_r in HS, Hu; eauto.
  injection Hg as <-. apply SS_snoc in HS as [_ HS]. rewrite Forall_forall in HS. apply in_app_or in Hu as [Hu|[->|[]]]; [auto|apply ts_leb_refl].
Qed.

Lemma eruns_pre : forall ms size last a b s, engine_run ms size last (a ++ b) s -> exists s1, engine_run ms size last a s1.
Proof. intros. eapply eruns_split; eauto. Qed.

Lemma hand_in : forall es l, In es (handed_in l) <-> In (Hand es) l.
Proof.
  intros es l. unfold handed_in. rewrite in_flat_map. split.
  - intros (x & H & H2). destruct x; try destruct H2 as [->|[]]; try destruct H2. exact H.
  - intros H. exists (Hand es). split; [exact H|now left].
Qed.

(** Events of a batch have one timestamp, which is a reading and not before
    earlier ones. *)
Lemma hand_time : forall ms size last A o l es s, engine_run ms size last (A ++ [(o, l)]) s -> In (Hand es) l ->
    exists now, Forall (fun e => ev_ts e = now) es /\ In now (readings (A ++ [(o, l)])) /\
      (StronglySorted (fun a b => ts_leb a b = true) (readings (A ++ [(o, l)])) -> forall u, In u (readings A) -> ts_leb u now = true).
Proof.
  intros ms size last A o l es s H Hh. destruct (final_C31_session _ _ _ _ _ _ _ _ H Hh) as (_ & now & ss & _ & F & D).
  exists now. split; [exact F|]. rewrite readings_app. destruct D as [(-> & _ & Hg)|[Ho _]].
  - split; [apply in_or_app; left; now apply get_reading|]. intros HS u Hu. cbn in HS. rewrite app_nil_r in HS.
    apply (last_reading A); auto. destruct (shut_in A) eqn:E; [|reflexivity]. exfalso.
    destruct (final_C34_last _ _ _ _ _ _ H E) as [X _]. rewrite handed_snoc in X. apply hand_in in Hh.
    destruct (handed_in l); [destruct Hh|]. apply (f_equal (@List.length _)) in X. rewrite app_length in X. cbn in X. lia.
  - assert (E : readings [(o, l)] = [now]) by (destruct Ho as [-> | ->]; reflexivity). rewrite E. split; [apply in_or_app; right; now left|].
    intros HS u Hu. apply SS_snoc in HS as [_ HS]. rewrite Forall_forall in HS. auto.
Qed.

Lemma handed_reading : forall ms size last tr s, engine_run ms size last tr s -> forall e, In e (concat (handed tr)) -> In (ev_ts e) (readings tr).
Proof.
  intros ms size last tr. induction tr as [|[o l] tr IH] using rev_ind; intros s H e He; [destruct He|].
  destruct (eruns_pre _ _ _ _ _ _ H) as [s1 H1]. rewrite handed_snoc, concat_app in He. apply in_app_or in He as [He|He].
  - rewrite readings_app. apply in_or_app. left. eauto.
  - apply in_concat in He as (es & Hh & He). apply hand_in in Hh. destruct (hand_time _ _ _ _ _ _ _ _ H Hh) as (now & F & Hi & _).
    rewrite Forall_forall in F. now rewrite (F _ He).
Qed.

(** ** Batches at the backend *)

Lemma follows_snoc : forall H en e, follows (H ++ [en]) e =
    follows H e && (negb (server_eqb (en_ev en) e) || (eid_ltb (ev_id (en_ev en)) (ev_id e) && ts_leb (ev_ts (en_ev en)) (ev_ts e))).
Proof. intros. unfold follows. rewrite forallb_app. cbn [forallb]. now rewrite andb_true_r, andb_assoc. Qed.

Definition ordered_batch (es : list event) : Prop :=
  StronglySorted (fun a b => eid_ltb (ev_id a) (ev_id b) = true /\ ts_leb (ev_ts a) (ev_ts b) = true) es.

Lemma follows_rest : forall cf H e es, ordered_batch (e :: es) -> Forall (fun x => follows H x = true) (e :: es) ->
    Forall (fun x => follows H x = true) es /\ Forall (fun x => follows (H ++ [Entry cf e]) x = true) es.
Proof.
  intros cf H e es HO F. inversion F as [|? ? _ F']; subst. inversion HO as [|? ? _ HO']; subst. split; [exact F'|].
  rewrite Forall_forall in *. intros x Hx. rewrite follows_snoc, (F' _ Hx). cbn [en_ev]. destruct (HO' _ Hx) as [-> ->]. now rewrite orb_true_r.
Qed.

(** Events with a place are stored. *)
Lemma take_placed : forall cf es H, ordered_batch es -> Forall (fun e => follows H e = true) es ->
    forall e, In e es -> cf_cond cf e = true -> has_place cf e = true -> In (Entry cf e) (take_events cf H es).
Proof.
  intros cf. induction es as [|x es IH]; intros H HO F e He Hc Hp; [destruct He|]. destruct (follows_rest cf _ _ _ HO F) as [F1 F2].
  inversion HO as [|? ? HO1 _]; subst. inversion F as [|? ? Fx _]; subst. cbn [take_events]. destruct He as [->|He].
  - unfold accepts. rewrite Fx, Hc, Hp, orb_true_r. now left.
  - destruct (accepts H cf x); [right|]; auto.
Qed.

(** The latest event of a type after a registration. *)
Definition shown (cf : conf) (H : history) (a : list event) (e : event) (b : list event) : Prop :=
  exists e', visible cf H (ev_type e) = Some e' /\ (e' = e \/ ts_ltb (ev_ts e) (ev_ts e') = true \/ (ev_ts e' = ev_ts e /\ In e' b)).

Lemma visible_type : forall cf H t e, visible cf H t = Some e -> ev_type e = t /\ cf_cond cf e = true /\ covers cf t = true /\ exists en, In en H /\ en_ev en = e.
Proof.
  intros cf H t e Hv. unfold visible in Hv. destruct (latest_of H t) as [x|] eqn:E; [|discriminate]. destruct (_ && _) eqn:E2; [|discriminate].
  injection Hv as ->. apply andb_prop in E2 as [E2 E3]. apply latest_of_In in E as (en & A & B & C & _). repeat split; auto. eauto.
Qed.

Lemma ts_cases : forall a b, ts_leb a b = true -> ts_ltb a b = true \/ b = a.
Proof. intros a b H. apply ts_leb_lt in H as [H|H]; auto. Qed.

Lemma follows_in : forall H e en, follows H e = true -> In en H -> eid_server (ev_id (en_ev en)) = eid_server (ev_id e) ->
    eid_ltb (ev_id (en_ev en)) (ev_id e) = true /\ ts_leb (ev_ts (en_ev en)) (ev_ts e) = true.
Proof.
  intros H e en F Hi Hs. unfold follows in F. apply andb_prop in F as [_ F]. rewrite forallb_forall in F. specialize (F _ Hi).
  apply orb_prop in F as [F|F]; [|now apply andb_prop in F]. apply negb_true_iff in F. apply server_eqb_iff in Hs. congruence.
Qed.

Lemma shown_step : forall cf H a e b x, shown cf H a e b ->
    shown cf (if accepts H cf x then H ++ [Entry cf x] else H) a e (b ++ [x]).
Proof.
  intros cf H a e b x (e' & Hv & D).
  assert (K : shown cf H a e (b ++ [x])).
  { exists e'. split; [exact Hv|]. destruct D as [D|[D|[D1 D2]]]; auto. right. right. split; [exact D1|]. apply in_or_app. now left. }
  destruct (accepts H cf x) eqn:Ea; [|exact K]. unfold accepts in Ea. apply andb_prop in Ea as [Ea _]. apply andb_prop in Ea as [Hf Hc].
  unfold shown. rewrite visible_next by exact Hc. destruct (etype_eqb (ev_type x) (ev_type e) && becomes_latest H cf x) eqn:E; [|exact K].
  apply andb_prop in E as [E1 E2]. apply etype_eqb_spec in E1. exists x. split; [reflexivity|].
  unfold becomes_latest in E2. rewrite E1, Hv in E2. apply andb_prop in E2 as [_ E2]. apply negb_true_iff in E2.
  assert (L : ts_leb (ev_ts e') (ev_ts x) = true).
  { unfold newer in E2. destruct (server_eqb e' x) eqn:Es.
    - apply visible_type in Hv as (_ & _ & _ & en & Hi & <-). apply server_eqb_iff in Es. apply (follows_in _ _ _ Hf Hi Es).
    - rewrite ts_leb_ltb, E2. reflexivity. }
  assert (Hx : In x (b ++ [x])) by (apply in_or_app; right; now left).
  destruct D as [->|[D|[D1 _]]].
  - apply ts_cases in L as [L|L]; auto.
  - right. left. apply ts_ltb_spec. apply ts_ltb_spec in D. apply ts_leb_spec in L. eapply ts_lt_le_trans; eauto.
  - rewrite D1 in L. apply ts_cases in L as [L|L]; auto.
Qed.

Lemma shown_take : forall cf es H a e b, shown cf H a e b -> shown cf (H ++ take_events cf H es) a e (b ++ es).
Proof.
  intros cf. induction es as [|x es IH]; intros H a e b S.
  - cbn [take_events]. now rewrite !app_nil_r.
  - cbn [take_events]. assert (S' := shown_step _ _ _ _ _ x S). destruct (accepts H cf x).
    + apply IH in S'. rewrite <- !app_assoc in S'. exact S'.
    + apply IH in S'. rewrite <- app_assoc in S'. exact S'.
Qed.

Lemma shown_new : forall cf H a e, follows H e = true -> cf_cond cf e = true -> covers cf (ev_type e) = true ->
    shown cf (if accepts H cf e then H ++ [Entry cf e] else H) a e [].
Proof.
  intros cf H a e Hf Hc Hv. unfold accepts. rewrite Hf, Hc. cbn [andb]. unfold shown. destruct (becomes_latest H cf e) eqn:Eb.
  - cbn [orb]. exists e. rewrite visible_next by exact Hc. rewrite Eb. assert (X : etype_eqb (ev_type e) (ev_type e) = true) by now apply etype_eqb_spec.
    rewrite X. split; [reflexivity|now left].
  - assert (V : exists p, visible cf H (ev_type e) = Some p /\ newer p e = true).
    { unfold becomes_latest in Eb. rewrite Hv in Eb. cbn [andb] in Eb. destruct (visible cf H (ev_type e)) as [p|]; [|discriminate].
      apply negb_false_iff in Eb. eauto. }
    destruct V as (p & V & N). assert (T : ts_ltb (ev_ts e) (ev_ts p) = true).
    { unfold newer in N. destruct (server_eqb p e) eqn:Es; [|exact N]. exfalso. apply visible_type in V as (_ & _ & _ & en & Hi & <-).
      apply server_eqb_iff in Es. destruct (follows_in _ _ _ Hf Hi Es) as [X _]. apply eid_ltb_asym in X. congruence. }
    exists p. split; [|auto]. destruct (orb false (has_place cf e)); [|exact V]. rewrite visible_next by exact Hc. rewrite Eb, andb_false_r. exact V.
Qed.

Lemma take_shown : forall cf es H, ordered_batch es -> Forall (fun e => follows H e = true) es ->
    forall e, In e es -> cf_cond cf e = true -> covers cf (ev_type e) = true ->
    exists a b, es = a ++ e :: b /\ shown cf (H ++ take_events cf H es) a e b.
Proof.
  intros cf. induction es as [|x es IH]; intros H HO F e He Hc Hv; [destruct He|]. destruct (follows_rest cf _ _ _ HO F) as [F1 F2].
  inversion HO as [|? ? HO1 _]; subst. inversion F as [|? ? Fx _]; subst. destruct He as [->|He].
  - exists [], es. split; [reflexivity|]. assert (S := shown_new cf H [] e Fx Hc Hv). cbn [take_events]. destruct (accepts H cf e).
    + apply (shown_take _ es) in S. rewrite <- app_assoc in S. exact S.
    + apply (shown_take _ es) in S. exact S.
  - cbn [take_events]. destruct (accepts H cf x).
    + destruct (IH (H ++ [Entry cf x]) HO1 F2 e He Hc Hv) as (a & b & -> & S). exists (x :: a), b. split; [reflexivity|].
      rewrite <- app_assoc in S. exact S.
    + destruct (IH H HO1 F1 e He Hc Hv) as (a & b & -> & S). exists (x :: a), b. split; [reflexivity|exact S].
Qed.

(** Over steps of the backend. *)
Lemma shown_run : forall cf tr w a e b, no_reopen tr -> w_conf w = cf -> shown cf (w_all w) a e b ->
    shown cf (w_all (fold_left watch_step tr w)) a e (b ++ events_of tr) /\ w_conf (fold_left watch_step tr w) = cf.
Proof.
  intros cf. induction tr as [|[o x] tr IH]; intros w a e b Hn Hc S.
  - cbn. now rewrite app_nil_r.
  - assert (Hn' : no_reopen tr) by (intros c y Hi; apply (Hn c y); now right).
    assert (S' : shown cf (w_all (watch_step w (o, x))) a e (b ++ events_of [(o, x)]) /\ w_conf (watch_step w (o, x)) = cf).
    { unfold events_of. cbn [flat_map fst]. rewrite app_nil_r.
      destruct o; try (rewrite app_nil_r; split; [exact S|exact Hc]).
      - cbn [watch_step w_conf]. split; [|exact Hc]. unfold w_all. cbn [w_disk w_queue w_cur]. rewrite Hc, !app_assoc, <- (app_assoc (w_disk w)).
        apply (shown_take _ es) in S. exact S.
      - rewrite app_nil_r. cbn [watch_step w_conf]. split; [|exact Hc]. unfold w_all. cbn [w_disk w_queue w_cur]. rewrite concat_app. cbn [concat].
        rewrite !app_nil_r. exact S.
      - rewrite app_nil_r. destruct x; try (split; [exact S|exact Hc]). cbn [watch_step w_conf]. split; [|exact Hc].
        unfold w_all in *. cbn [w_disk w_queue w_cur]. destruct (w_queue w) as [|g q]; cbn [hd tl concat] in *; [now rewrite app_nil_r|].
        rewrite <- !app_assoc. rewrite <- app_assoc in S. exact S.
      - exfalso. apply (Hn cf0 x). now left. }
    destruct S' as [S1 S2]. cbn [fold_left]. destruct (IH _ a e _ Hn' S2 S1) as [I1 I2]. split; [|exact I2].
    change (events_of ((o, x) :: tr)) with (events_of ([(o, x)] ++ tr)). unfold events_of in *. rewrite flat_map_app, app_assoc. exact I1.
Qed.
