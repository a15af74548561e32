(** Delivery of events from the engine to a client. *)
From Coq Require Import String Bool ZArith Arith Sorted Lia List.
From Verif Require Import Base Model_Types Spec_Order Model_Engine Spec_Engine Proof_Engine2 Model_Eventer Spec_Eventer Model_Client Spec_Client
  Proof_Eventer Proof_Eventer2 Proof_Eventer3 Proof_Eventer4 Proof_Eventer5 Proof_Eventer6 Spec_Delivery Proof_Delivery Spec_Delivery2.
Import ListNotations.
Open Scope list_scope.
Open Scope nat_scope.

Lemma engine_of_app : forall a b, engine_of (a ++ b) = engine_of a ++ engine_of b.
Proof. intros. apply flat_map_app. Qed.
Lemma server_of_app : forall a b, server_of (a ++ b) = server_of a ++ server_of b.
Proof. intros. apply flat_map_app. Qed.
Lemma handed_app : forall a b, handed (a ++ b) = handed a ++ handed b.
Proof. intros. unfold handed, handed_in, outs_of. now rewrite !flat_map_app. Qed.
Lemma handed_one : forall o l, handed [(o, l)] = handed_in l.
Proof. intros. unfold handed, outs_of. cbn [flat_map snd]. now rewrite app_nil_r. Qed.
Lemma server_E : forall tr i, server_of (tr ++ [JE i]) = server_of tr.
Proof. intros. rewrite server_of_app. apply app_nil_r. Qed.
Lemma server_S : forall tr i, server_of (tr ++ [JS i]) = server_of tr ++ [i].
Proof. intros. now rewrite server_of_app. Qed.
Lemma handed_E : forall tr o l, handed (engine_of (tr ++ [JE (o, l)])) = handed (engine_of tr) ++ handed_in l.
Proof. intros. rewrite engine_of_app, handed_app. f_equal. apply handed_one. Qed.
Lemma handed_S : forall tr i, handed (engine_of (tr ++ [JS i])) = handed (engine_of tr).
Proof. intros. rewrite engine_of_app. cbn. now rewrite app_nil_r. Qed.
Lemma returned_app : forall n a b, returned n (a ++ b) <-> returned n a \/ returned n b.
Proof. intros. unfold returned, vouts. rewrite flat_map_app. apply in_app_iff. Qed.

Lemma joined_prefix : forall N tr w, joined N tr w -> forall a b, tr = a ++ b -> exists w', joined N a w'.
Proof.
  intros N tr w H. induction H; intros a b E; try (symmetry in E; apply app_eq_nil in E as [-> ->]; eexists; constructor; fail);
    (destruct b as [|x b] using rev_ind; [rewrite app_nil_r in E; subst a; eexists; econstructor; eauto; fail|
     rewrite app_assoc in E; apply app_inj_tail in E as [E _]; eapply IHjoined; eauto]).
Qed.
Lemma calm_prefix : forall N a b, calm N (a ++ b) -> calm N a.
Proof. intros N a b H a' o l b' E. apply (H a' o l (b' ++ b)). rewrite E, <- app_assoc. reflexivity. Qed.

(** Chosen calls are of one kind. *)
Definition plain (N : nat -> bool) (kind : bool) (tr : list vitem) : Prop :=
  forall n es p ack l, In (VNotify n es p ack, l) tr -> N n = true -> p = kind /\ ack = false.

Lemma plain_snoc : forall N kind tr o l, plain N kind tr -> (forall n es p ack, o = VNotify n es p ack -> N n = true -> p = kind /\ ack = false) -> plain N kind (tr ++ [(o, l)]).
Proof. intros N kind tr o l H K n es p ack k Hi Hn. apply in_app_or in Hi as [Hi|[[= -> ->]|[]]]; [eapply H; eauto|eapply K; eauto]. Qed.

Definition all_told (N : nat -> bool) (kind : bool) (tr : list vitem) : Prop := forall n es, In (n, es) (announced N kind tr) -> returned n tr.

Definition jplace (N : nat -> bool) (tr : list jitem) (w : place) : Prop :=
  let S := server_of tr in let H := handed (engine_of tr) in let A := announced N false S in
  match w with
  | Idle => H = map snd A /\ all_told N false S
  | Due es => H = map snd A ++ [es] /\ all_told N false S
  | Told n => H = map snd A /\ exists A' es, A = A' ++ [(n, es)] /\ forall m es', In (m, es') A' -> returned m S
  | Over => upto1 (map snd A) H
  end.
Record jinv (N : nat -> bool) (tr : list jitem) (w : place) : Prop := {
  ji_plain : plain N false (server_of tr);
  ji_turn : in_turn N (server_of tr);
  ji_place : jplace N tr w }.

Lemma announced_snoc_none : forall N p tr o l, (forall n es p ack, o = VNotify n es p ack -> N n = false) -> announced N p (tr ++ [(o, l)]) = announced N p tr.
Proof.
  intros N p tr o l H. rewrite announced_app. unfold announced at 2. cbn [flat_map fst]. destruct o; rewrite ?app_nil_r; auto.
  rewrite (H _ _ _ _ eq_refl). cbn [andb]. now rewrite app_nil_r.
Qed.

Lemma in_turn_none : forall N tr o l, in_turn N tr -> (forall n es p ack, o = VNotify n es p ack -> N n = false) -> in_turn N (tr ++ [(o, l)]).
Proof.
  intros N tr o l H K a n es p ack k b m es' p' ack' k' d E Hn Hm.
  destruct d as [|y d] using rev_ind.
  - exfalso. rewrite app_comm_cons, app_assoc in E. apply app_inj_tail in E as [_ E]. injection E as -> ->. rewrite (K _ _ _ _ eq_refl) in Hm. discriminate.
  - clear IHd. replace (a ++ (VNotify n es p ack, k) :: b ++ (VNotify m es' p' ack', k') :: d ++ [y])
      with ((a ++ (VNotify n es p ack, k) :: b ++ (VNotify m es' p' ack', k') :: d) ++ [y]) in E.
    + apply app_inj_tail in E as [E _]. eapply H; eauto.
    + rewrite <- app_assoc. cbn [app]. rewrite <- app_assoc. reflexivity.
Qed.

Lemma ann_In : forall N p tr n es ack l, In (VNotify n es p ack, l) tr -> N n = true -> In (n, es) (announced N p tr).
Proof. intros N p tr n es ack l H Hn. unfold announced. apply in_flat_map. exists (VNotify n es p ack, l). split; auto. cbn [fst]. rewrite Hn, eqb_reflx. now left. Qed.

(** A call returns after it was made. *)
Lemma returned_after : forall sv tk a n es p ack l b s, server_run sv tk (a ++ (VNotify n es p ack, l) :: b) s ->
    returned n (a ++ (VNotify n es p ack, l) :: b) -> returned n ((VNotify n es p ack, l) :: b).
Proof.
  intros sv tk a n es p ack l b s H R. apply returned_app in R as [R|R]; auto. change ((VNotify n es p ack, l) :: b) with ([(VNotify n es p ack, l)] ++ b) in H.
  rewrite app_assoc in H. apply vruns_prefix in H as (s1 & H). apply vruns_snoc_inv in H as (s0 & H0 & Hx).
  destruct (call_fresh _ _ _ _ _ _ _ _ _ Hx). apply (used_run _ _ _ _ H0). now left.
Qed.

Lemma in_turn_tell : forall sv tk N kind tr n es l s, server_run sv tk tr s -> plain N kind tr -> in_turn N tr -> all_told N kind tr -> in_turn N (tr ++ [(VNotify n es kind false, l)]).
Proof.
  intros sv tk N kind tr n es l s H P T A a m es1 p1 ack1 l1 b n2 es2 p2 ack2 l2 d E Hm Hn.
  destruct d as [|y d] using rev_ind.
  - rewrite app_comm_cons, app_assoc in E. apply app_inj_tail in E as [E _]. subst tr.
    assert (Hi : In (VNotify m es1 p1 ack1, l1) (a ++ (VNotify m es1 p1 ack1, l1) :: b)) by (apply in_or_app; right; now left).
    destruct (P _ _ _ _ _ Hi Hm) as [-> ->]. eapply returned_after; [exact H|]. eapply A. eapply ann_In; eauto.
  - clear IHd. replace (a ++ (VNotify m es1 p1 ack1, l1) :: b ++ (VNotify n2 es2 p2 ack2, l2) :: d ++ [y])
      with ((a ++ (VNotify m es1 p1 ack1, l1) :: b ++ (VNotify n2 es2 p2 ack2, l2) :: d) ++ [y]) in E.
    + apply app_inj_tail in E as [E _]. eapply T; eauto.
    + rewrite <- app_assoc. cbn [app]. rewrite <- app_assoc. reflexivity.
Qed.

Lemma joined_inv : forall sv tk N tr w, joined N tr w -> forall s, server_run sv tk (server_of tr) s -> calm N tr -> jinv N tr w.
Proof.
  intros sv tk N tr w H. induction H; intros s Hs Hc.
  - constructor; cbn; [intros ? ? ? ? ? []| |].
    + intros a n es p ack l b m es' p' ack' l' d E. destruct a; discriminate.
    + split; [reflexivity|]. intros ? ? [].
  - rewrite server_E in Hs. destruct (IHjoined _ Hs (calm_prefix _ _ _ Hc)) as [P T J].
    constructor; rewrite ?server_E; auto. unfold jplace in *; cbv zeta in *. rewrite server_E, handed_E, H0, app_nil_r. exact J.
  - rewrite server_E in Hs. destruct (IHjoined _ Hs (calm_prefix _ _ _ Hc)) as [P T J].
    constructor; rewrite ?server_E; auto. unfold jplace in *; cbv zeta in *. rewrite server_E, handed_E. destruct J as [-> J]. auto.
  - rewrite server_S in Hs. apply vruns_snoc_inv in Hs as (s1 & Hs & Hx).
    destruct (IHjoined _ Hs (calm_prefix _ _ _ Hc)) as [P T [J1 J2]].
    constructor; rewrite ?server_S.
    + apply plain_snoc; auto. intros ? ? ? ? [= -> -> <- <-] _. auto.
    + eapply in_turn_tell; eauto.
    + unfold jplace; cbv zeta. rewrite server_S, handed_S. assert (E : forall i : vitem, i = (VNotify n es false false, l) -> announced N false (server_of tr ++ [i]) = announced N false (server_of tr) ++ [(n, es)]).
      { intros i ->. rewrite announced_app. f_equal. unfold announced. cbn [flat_map fst]. rewrite H0. reflexivity. }
      rewrite (E _ eq_refl), J1, map_app. split; auto. exists (announced N false (server_of tr)), es. split; auto. intros m es' Hi. apply returned_app. left. eapply J2; eauto.
  - rewrite server_S in Hs. apply vruns_snoc_inv in Hs as (s1 & Hs & Hx).
    destruct (IHjoined _ Hs (calm_prefix _ _ _ Hc)) as [P T J].
    constructor; rewrite ?server_S.
    + apply plain_snoc; auto. intros ? ? ? ? E Hn. rewrite (H0 _ _ _ _ E) in Hn. discriminate.
    + now apply in_turn_none.
    + unfold jplace in *; cbv zeta in *. rewrite server_S, handed_S, announced_snoc_none by auto.
      destruct w; auto.
      * destruct J as [J1 J2]. split; auto. intros n es Hi. rewrite announced_snoc_none in Hi by auto. apply returned_app. left. eapply J2; eauto.
      * destruct J as [J1 J2]. split; auto. intros n es' Hi. rewrite announced_snoc_none in Hi by auto. apply returned_app. left. eapply J2; eauto.
      * destruct J as (J1 & A' & es & E & J2). split; auto. exists A', es. split; auto. intros m es' Hi. apply returned_app. left. eapply J2; eauto.
  - rewrite server_E in Hs. destruct (IHjoined _ Hs (calm_prefix _ _ _ Hc)) as [P T J].
    constructor; rewrite ?server_E; auto. unfold jplace in *; cbv zeta in *. rewrite server_E, handed_E, H1, app_nil_r.
    destruct J as (J1 & A' & es & E & J2). split; auto. intros m es' Hi. rewrite E in Hi. apply in_app_or in Hi as [Hi|[[= <- <-]|[]]]; eauto.
  - rewrite server_E in Hs. destruct (IHjoined _ Hs (calm_prefix _ _ _ Hc)) as [P T J].
    constructor; rewrite ?server_E; auto.
    destruct (Hc tr o l [] eq_refl H0) as [S1 S2]. unfold jplace in *; cbv zeta in *. rewrite server_E, handed_E, H1, S1. auto.
  - rewrite server_E in Hs. destruct (IHjoined _ Hs (calm_prefix _ _ _ Hc)) as [P T J].
    constructor; rewrite ?server_E; auto. unfold jplace in *; cbv zeta in *. rewrite server_E, handed_E, H0, app_nil_r.
    destruct w as [|es|n|]; auto.
    + destruct J as [-> _]. now left.
    + destruct J as [-> _]. right. eauto.
    + destruct J as [-> _]. now left.
Qed.

Lemma jinv_upto : forall N tr w, jinv N tr w -> upto1 (map snd (announced N false (server_of tr))) (handed (engine_of tr)).
Proof.
  intros N tr w [_ _ J]. destruct w as [|es|n|]; unfold jplace in J; cbv zeta in J; auto.
  - left. tauto.
  - right. exists es. tauto.
  - left. tauto.
Qed.

(** Parts of calls without acknowledgement aren't cancelled. *)
Lemma plain_undropped : forall sv tk N kind tr s c, server_run sv tk tr s -> plain N kind tr -> undropped N c tr.
Proof.
  intros sv tk N kind tr s c H P n Hn [l Hd]. apply in_split in Hd as (a & b & ->).
  change ((VTaskCancel n c, l) :: b) with ([(VTaskCancel n c, l)] ++ b) in H. rewrite app_assoc in H. apply vruns_prefix in H as (s1 & H).
  apply vruns_snoc_inv in H as (s0 & H0 & Hx).
  assert (Ht : In n (map tk_call (v_tasks s0))).
  { cbn [vexec] in Hx. destruct (v_open s0); [discriminate|]. destruct (find_task n c (v_tasks s0)) as [z|] eqn:E; [|discriminate]. unfold find_task in E. destruct (find _ _) eqn:Ef; [|discriminate].
    apply find_some in Ef as [Ef1 Ef2]. apply of_task_spec in Ef2 as [<- _]. now apply in_map. }
  destruct (begun_run _ _ _ _ H0 n (or_intror Ht)) as (es & p & ack & k & Hi).
  destruct (P n es p ack k) as [-> ->]; auto. { apply in_or_app. auto. }
  apply in_split in Hi as (a1 & b1 & ->). apply ncall_run in H0 as (s' & _ & Nc & _). destruct (nc_kind _ _ _ _ _ _ Nc). contradiction.
Qed.

(** A client is accepted once. *)
Lemma since_at : forall sv tk c a i b s, server_run sv tk (a ++ i :: b) s -> existsb is_welcome (sent_in c (snd i)) = true ->
    welcomed c a = false /\ since c (a ++ i :: b) = b.
Proof.
  intros sv tk c a i b s H Hi. assert (W : welcomed c a = false).
  { destruct (welcomed c a) eqn:W; auto. exfalso. destruct (final_C38_messages _ _ _ _ c H) as [E|[[conv E]|(conv & st & rest & E & K)]];
      rewrite sent_to_app, sent_to_cons in E; unfold welcomed in W.
    - apply app_eq_nil in E as [E _]. rewrite E in W. discriminate.
    - destruct (sent_to c a) as [|m r]; [discriminate|]. injection E as -> E. apply app_eq_nil in E as [-> E]. discriminate.
    - destruct (sent_to c a) as [|m r]; [discriminate|]. injection E as -> E. apply existsb_exists in Hi as (m & Hi & Hm).
      assert (X : is_initres m = false). { apply K. rewrite <- E. apply in_or_app. right. apply in_or_app. left. exact Hi. }
      destruct m; try discriminate. }
  split; auto. rewrite since_app, W. cbn [since]. now rewrite Hi.
Qed.

Theorem final_C67_engine : forall ms size last es sv tk ss ctr cs N tr w pre i post c conv req,
    engine_run ms size last (engine_of tr) es -> server_run sv tk (server_of tr) ss -> joined N tr w -> calm N tr ->
    client_run ctr cs -> prefix (received ctr) (sent_to c (server_of tr)) ->
    only_by N (of_server (eid_server last)) false (server_of tr) ->
    tr = pre ++ JS i :: post -> existsb is_welcome (sent_in c (snd i)) = true ->
    init_of c (server_of tr) = Some (conv, req) -> ir_persisted req = false ->
    let got := from (of_server (eid_server last)) (got_events ctr) in
    exists early due l, upto1 early (handed (engine_of pre)) /\ upto1 (early ++ due) (handed (engine_of tr)) /\
      picked (interested req) (concat due) l /\ prefix got l /\
      (gone c (server_of tr) = false -> settled N tr -> received ctr = sent_to c (server_of tr) -> handed (engine_of tr) = early ++ due /\ got = l).
Proof.
  intros ms size last es sv tk ss ctr cs N tr w pre i post c conv req He Hs Hj Hc Hk Hp Ho E Hw Hi Hr got.
  pose proof (joined_inv sv tk N tr w Hj ss Hs Hc) as I.
  destruct (joined_prefix _ _ _ Hj _ _ E) as [w' Hj']. pose proof Hc as Hc'. rewrite E in Hc'. apply calm_prefix in Hc'.
  assert (Hs' : exists s', server_run sv tk (server_of pre) s'). { rewrite E, server_of_app in Hs. now apply vruns_prefix in Hs. }
  destruct Hs' as [s' Hs']. pose proof (joined_inv sv tk N pre w' Hj' s' Hs' Hc') as I'.
  assert (Es : server_of tr = server_of pre ++ i :: server_of post) by (rewrite E, server_of_app; reflexivity).
  pose proof Hs as Hs2. rewrite Es in Hs2. destruct (since_at _ _ c _ _ _ _ Hs2 Hw) as [W Sn]. rewrite <- Es in Sn.
  assert (Ei : announced N false (server_of tr) = announced N false (server_of pre) ++ announced N false (server_of post)).
  { rewrite Es, announced_app. f_equal. change (i :: server_of post) with ([i] ++ server_of post). rewrite announced_app.
    rewrite (not_begun N false [i]); [reflexivity|]. intros m _ (es1 & p1 & ack1 & l1 & [X|[]]). subst i.
    change ((VNotify m es1 p1 ack1, l1) :: server_of post) with ([(VNotify m es1 p1 ack1, l1)] ++ server_of post) in Hs2. rewrite app_assoc in Hs2.
    apply vruns_prefix in Hs2 as (s1 & H1). apply vruns_snoc_inv in H1 as (s0 & _ & Hx). cbn [snd] in Hw. rewrite (call_silent _ _ _ _ _ _ _ _ _ Hx c) in Hw. discriminate. }
  rewrite <- Hr in Ho.
  destruct (final_C67_client sv tk N (of_server (eid_server last)) (server_of tr) ss ctr cs c conv req Hs Hk Hp (ji_turn _ _ _ I) Ho
     (plain_undropped _ _ _ _ _ _ _ Hs (ji_plain _ _ _ I)) Hi) as (l & P1 & P2 & P3). rewrite Sn, Hr in P1.
  exists (map snd (announced N false (server_of pre))), (map snd (announced N false (server_of post))), l.
  assert (Up : upto1 (map snd (announced N false (server_of pre)) ++ map snd (announced N false (server_of post))) (handed (engine_of tr))).
  { rewrite <- map_app, <- Ei. eapply jinv_upto; eauto. }
  split; [eapply jinv_upto; eauto|]. split; [exact Up|]. split; [|split; [exact P2|]].
  - assert (F : Forall (fun e => of_server (eid_server last) e = true) (concat (map snd (announced N false (server_of post))))).
    { destruct (final_C31_increasing _ _ _ _ _ He) as [_ F].
      assert (F2 : Forall (fun e => eid_server (ev_id e) = eid_server last) (concat (map snd (announced N false (server_of post))))).
      { destruct Up as [U|[x U]]; rewrite U in F; rewrite !concat_app, !Forall_app in F; tauto. }
      eapply Forall_impl; [|exact F2]. intros e X. unfold of_server. now apply Z.eqb_eq. }
    revert F P1. generalize (concat (map snd (announced N false (server_of post)))). intros L F P. clear - F P.
    induction P as [|e L l [K1 K2] P IH|e L l K P IH]; [constructor| |]; apply Forall_cons_iff in F as [F1 F2].
    + apply picked_take; auto.
    + apply picked_skip; auto. intros X. apply K. split; auto.
  - intros G St Rc. split.
    + destruct St as [St _]. rewrite St, Ei. apply map_app.
    + apply P3; auto. intros n es1 X. rewrite Hr, Sn in X. destruct St as [_ St]. eapply (St n es1). rewrite Ei. apply in_or_app. auto.
Qed.

Lemma sorted_picked : forall P L l, picked P L l -> StronglySorted eid_lt (map ev_id L) -> StronglySorted eid_lt (map ev_id l).
Proof.
  intros P L l H. induction H as [|e L l He H IH|e L l He H IH]; cbn [map]; intros S; auto; apply StronglySorted_inv in S as [S1 S2]; auto.
  constructor; auto. rewrite Forall_forall in *. intros y Hy. apply S2. apply in_map_iff in Hy as (z & <- & Hz). apply in_map. apply (picked_In _ _ _ _ H) in Hz. tauto.
Qed.
Lemma sorted_app : forall A (R : A -> A -> Prop) a b, StronglySorted R (a ++ b) -> StronglySorted R a /\ StronglySorted R b.
Proof.
  intros A R a b. induction a as [|x a IH]; cbn [app]; intros S; [split; auto; constructor|]. apply StronglySorted_inv in S as [S1 S2]. apply IH in S1 as [S3 S4].
  split; auto. constructor; auto. now apply Forall_app in S2 as [S2 _].
Qed.

(** Ids at the callback increase. *)
Theorem final_C67_increasing : forall ms size last es sv tk ss ctr cs N tr w pre i post c conv req,
    engine_run ms size last (engine_of tr) es -> server_run sv tk (server_of tr) ss -> joined N tr w -> calm N tr ->
    client_run ctr cs -> prefix (received ctr) (sent_to c (server_of tr)) ->
    only_by N (of_server (eid_server last)) false (server_of tr) ->
    tr = pre ++ JS i :: post -> existsb is_welcome (sent_in c (snd i)) = true ->
    init_of c (server_of tr) = Some (conv, req) -> ir_persisted req = false ->
    StronglySorted eid_lt (last :: map ev_id (from (of_server (eid_server last)) (got_events ctr))).
Proof.
  intros ms size last es sv tk ss ctr cs N tr w pre i post c conv req He Hs Hj Hc Hk Hp Ho E Hw Hi Hr.
  destruct (final_C67_engine _ _ _ _ _ _ _ _ _ _ _ _ _ _ _ _ _ _ He Hs Hj Hc Hk Hp Ho E Hw Hi Hr) as (early & due & l & _ & U & P & [r R] & _).
  destruct (final_C31_increasing _ _ _ _ _ He) as [S _]. apply StronglySorted_inv in S as [S1 S2].
  assert (K : exists x y, concat (handed (engine_of tr)) = x ++ concat due ++ y).
  { destruct U as [U|[z U]]; rewrite U, ?concat_app; [exists (concat early), []; now rewrite app_nil_r|]. exists (concat early), (concat [z]). now rewrite <- app_assoc. }
  destruct K as (x & y & K). rewrite K in S1, S2. rewrite !map_app in S1, S2. apply sorted_app in S1 as [_ S1]. apply sorted_app in S1 as [S1 _].
  rewrite !Forall_app in S2. destruct S2 as (_ & S2 & _).
  assert (S3 : StronglySorted eid_lt (map ev_id l)) by (eapply sorted_picked; eauto).
  assert (S4 : Forall (eid_lt last) (map ev_id l)).
  { rewrite Forall_forall in *. intros z Hz. apply S2. apply in_map_iff in Hz as (e & <- & Hz). apply in_map. apply (picked_In _ _ _ _ P) in Hz. tauto. }
  rewrite R, map_app in S3, S4. apply sorted_app in S3 as [S3 _]. apply Forall_app in S4 as [S4 _]. constructor; auto.
Qed.
