(** Eventer server: notified events (C36). *)
From Coq Require Import String Bool ZArith Arith Lia List.
From Verif Require Import Base Model_Types Model_Subscription Spec_Subscription Proof_Subscription2 Model_Eventer Spec_Eventer Proof_Eventer Proof_Eventer2 Proof_Eventer3 Proof_Eventer4.
Import ListNotations.
Open Scope string_scope.
Open Scope list_scope.
Open Scope nat_scope.


Lemma returned_snoc : forall n tr o l, returned n (tr ++ [(o, l)]) <-> returned n tr \/ In (Returned n) l.
Proof. intros. unfold returned. now rewrite vouts_snoc, in_app_iff. Qed.

Lemma given_up_snoc : forall n tr o l, given_up n (tr ++ [(o, l)]) <-> given_up n tr \/ o = VGiveUp n.
Proof.
  intros n tr o l. unfold given_up. split.
  - intros [l' H]. apply in_app_or in H as [H|[[= -> ->]|[]]]; eauto.
  - intros [[l' H]| ->]; [exists l'|exists l]; apply in_or_app; cbn; auto.
Qed.

Lemma dropped_app : forall n c a b, dropped n c a \/ dropped n c b -> dropped n c (a ++ b).
Proof. intros n c a b [[l H]|[l H]]; exists l; apply in_or_app; auto. Qed.

(** The call [n] that began with the targets [T], before [b] happened. *)
Record ncall (n : nat) (T : list (nat * list event)) (ack : bool) (pre b : list vitem) (s : vstate) : Prop := {
  nc_used : In n (v_used s);
  nc_sets : nget n (v_sets s) = None;
  nc_kind : if ack then nget n (v_notes s) = None else ~ In n (map tk_call (v_tasks s)) /\ ~ In n (v_acks s);
  nc_nodup : NoDup (map conn_of (notes n b) ++ map fst (pend n s));
  nc_sent : forall c es last, In (c, es, last) (notes n b) -> In (c, es) T /\ last = negb ack;
  nc_pend : forall x, In x (pend n s) -> In x T;
  nc_all : forall c es, In (c, es) T -> In (c, es, negb ack) (notes n b) \/ gone c (pre ++ b) = true \/ In (c, es) (pend n s) \/ dropped n c b \/
             given_up n b /\ ~ returned n b;
  nc_done : returned n b -> pend n s = [] /\ nget n (v_notes s) = None /\ ~ In n (v_acks s);
  nc_gone : given_up n b -> nget n (v_notes s) = None /\ ~ In n (v_acks s) }.

Lemma ncall_step : forall sv tk n T ack pre b s o s' l, vbook tk (pre ++ b) s -> vwf s -> (forall c es, In (c, es) T -> In c (ids pre)) ->
    ncall n T ack pre b s -> vexec sv tk s o = Some (s', l) -> ncall n T ack pre (b ++ [(o, l)]) s'.
Proof.
  intros sv tk n T ack pre b s o s' l B W HT N Hx.
  pose proof (vexec_used _ _ _ _ _ _ _ Hx (nc_used _ _ _ _ _ _ N)) as Hu.
  pose proof (vexec_no_sets _ _ _ _ _ _ _ W Hx (nc_used _ _ _ _ _ _ N) (nc_sets _ _ _ _ _ _ N)) as Hs.
  pose proof (vexec_no_tasks _ _ _ _ _ _ n Hx (nc_used _ _ _ _ _ _ N)) as Ht.
  pose proof (vexec_nstep _ _ _ _ _ _ n W Hx (nc_used _ _ _ _ _ _ N) (nc_sets _ _ _ _ _ _ N)) as Hn.
  assert (Gn : forall c, gone c (pre ++ b) = true -> gone c (pre ++ b ++ [(o, l)]) = true).
  { intros c Hg. now rewrite app_assoc, gone_snoc, Hg. }
  assert (Dr : forall c, dropped n c b -> dropped n c (b ++ [(o, l)])) by (intros c Hd; apply dropped_app; auto).
  destruct N. destruct Hn.
  - constructor; auto.
    + destruct ack; [congruence|]. destruct nc_kind0 as [K1 K2]. split; auto. tauto.
    + rewrite notes_snoc, H2, app_nil_r, H. auto.
    + rewrite notes_snoc, H2, app_nil_r. auto.
    + rewrite H. auto.
    + intros c es Hc. rewrite notes_snoc, H2, app_nil_r, H. destruct (nc_all0 c es Hc) as [X|[X|[X|[X|[X Y]]]]]; auto 6.
      right. right. right. right. split; [apply given_up_snoc; auto|]. rewrite returned_snoc. tauto.
    + rewrite returned_snoc. intros [X|X]; [|contradiction]. rewrite H, H0, H1. auto.
    + rewrite given_up_snoc. intros [X|X]; [|contradiction]. rewrite H0, H1. auto.
  - assert (Hin : In (c, es) T) by (apply nc_pend0; rewrite H; apply in_or_app; right; now left).
    assert (Hl : last = negb ack).
    { destruct H2 as [(-> & _ & X)|(-> & X & _)]; destruct ack; auto; [destruct nc_kind0; contradiction|congruence]. }
    assert (Hsub : note_in n o l = [(c, es, last)] \/ note_in n o l = []) by (destruct H1 as [[_ X]|[[_ X]|[_ X]]]; auto).
    assert (Hnr : ~ returned n b). { intros X. apply nc_done0 in X as [X _]. rewrite X in H. now destruct x. }
    constructor; auto.
    + destruct ack.
      * destruct H2 as [(_ & -> & _)|(_ & X & _)]; congruence.
      * destruct nc_kind0 as [K1 K2]. split; auto. tauto.
    + rewrite notes_snoc, H0. rewrite H in nc_nodup0. rewrite map_app in nc_nodup0. cbn [map fst] in nc_nodup0.
      rewrite app_assoc in nc_nodup0. pose proof (NoDup_remove_1 _ _ _ nc_nodup0) as R1. pose proof (NoDup_remove_2 _ _ _ nc_nodup0) as R2.
      rewrite map_app, map_app. rewrite <- app_assoc in R1, R2.
      destruct Hsub as [-> | ->]; cbn [map conn_of fst app]; [|now rewrite app_nil_r].
      rewrite <- app_assoc. cbn [app]. apply NoDup_Add with (a := c) (l := map conn_of (notes n b) ++ (map fst x ++ map fst y)); auto. apply Add_app.
    + rewrite notes_snoc. intros c' es' last' X. apply in_app_or in X as [X|X]; auto.
      destruct Hsub as [E|E]; rewrite E in X; [|contradiction]. destruct X as [[= <- <- <-]|[]]; auto.
    + intros z Hz. apply nc_pend0. rewrite H. rewrite H0 in Hz. apply in_app_or in Hz. apply in_or_app. destruct Hz; auto. right. now right.
    + intros c' es' Hc. rewrite notes_snoc, in_app_iff, H0. destruct (nc_all0 c' es' Hc) as [X|[X|[X|[X|[X Y]]]]]; auto 6.
      * rewrite H in X. apply in_app_or in X as [X|[[= <- <-]|X]].
        -- right. right. left. apply in_or_app. auto.
        -- destruct H1 as [[_ ->]|[[Hup _]|[[l' [E|[]]] _]]].
           ++ left. right. left. congruence.
           ++ right. left. apply Gn. destruct (gone c (pre ++ b)) eqn:Eg; auto.
              assert (is_up s c = true); [|congruence]. apply (vb_up _ _ _ B). split; auto. unfold ids, vouts. rewrite flat_map_app. unfold ids_in. rewrite flat_map_app.
              apply in_or_app. left. eapply HT; eauto.
           ++ right. right. right. left. apply dropped_app. right. exists l. left. congruence.
        -- right. right. left. apply in_or_app. auto.
      * right. right. right. right. split; [apply given_up_snoc; auto|]. rewrite returned_snoc. tauto.
    + rewrite returned_snoc. tauto.
    + rewrite given_up_snoc. intros [X|X]; [|contradiction]. destruct (nc_gone0 X) as [X1 X2]. rewrite H3. split; auto.
      destruct H2 as [(_ & -> & _)|(_ & Y & _)]; [auto|contradiction].
  - assert (Hnn : note_in n o l = []) by auto.
    assert (Hng : ~ given_up n b). { intros X. destruct (nc_gone0 X) as [X1 X2]. destruct H5; contradiction. }
    constructor; auto.
    + destruct ack; auto. split; auto. intros X. apply Ht in X. destruct nc_kind0. contradiction.
    + rewrite notes_snoc, Hnn, app_nil_r, H0. rewrite H in nc_nodup0. auto.
    + rewrite notes_snoc, Hnn, app_nil_r. auto.
    + rewrite H0. intros x [].
    + intros c es Hc. rewrite notes_snoc, Hnn, app_nil_r, H0. destruct (nc_all0 c es Hc) as [X|[X|[X|[X|[X Y]]]]]; auto 6; try contradiction.
      rewrite H in X. contradiction.
  - subst o l. assert (Hnn : note_in n (VGiveUp n) [] = []) by reflexivity.
    assert (Hsub : forall x, In x (tnew n (v_tasks s)) -> In x (pend n s)) by (intros x X; unfold pend; apply in_or_app; auto).
    constructor; auto.
    + destruct ack; auto. split; auto. intros X. apply Ht in X. destruct nc_kind0. contradiction.
    + rewrite notes_snoc, Hnn, app_nil_r, H0. unfold pend in nc_nodup0. destruct (nget n (v_notes s)); auto.
      rewrite map_app, app_assoc in nc_nodup0.
      clear -nc_nodup0. revert nc_nodup0. generalize (map conn_of (notes n b)) (map fst l) (map fst (tnew n (v_tasks s))). intros x y z Hd.
      rewrite <- app_assoc in Hd. induction x as [|k x IH]; cbn [app] in *.
      * clear -Hd. induction y as [|k y IH]; auto. inversion Hd; auto.
      * inversion Hd as [|? ? K1 K2]; subst. constructor; auto. intros X. apply K1. apply in_app_or in X. rewrite !in_app_iff. tauto.
    + rewrite notes_snoc, Hnn, app_nil_r. auto.
    + rewrite H0. auto.
    + intros c es Hc. rewrite notes_snoc, Hnn, app_nil_r, H0. destruct (nc_all0 c es Hc) as [X|[X|[X|[X|[X Y]]]]]; auto 6.
      * unfold pend in X. apply in_app_or in X as [X|X]; auto. right. right. right. right. split; [apply given_up_snoc; auto|].
        rewrite returned_snoc. intros [Y|[]]. apply nc_done0 in Y as (_ & Y & _). rewrite Y in X. contradiction.
      * right. right. right. right. split; [apply given_up_snoc; auto|]. rewrite returned_snoc. intros [Z|[]]. auto.
    + rewrite returned_snoc. intros [X|[]]. apply nc_done0 in X as (X & _ & _). rewrite H0. split; auto.
      unfold pend in X. now apply app_eq_nil in X as [_ X].
Qed.

Lemma ncall_start : forall sv tk n es p ack s s' l pre, vexec sv tk s (VNotify n es p ack) = Some (s', l) -> vwf s ->
    ncall n (targets (v_infos s) es p) ack pre [] s' /\ (l <> [] -> targets (v_infos s) es p = []).
Proof.
  intros sv tk n es p ack s s' l pre H W. cbn [vexec] in H. destruct (nmem n (v_used s)) eqn:En; [discriminate|].
  assert (Hn : ~ In n (v_used s)) by (intros X; apply nmem_In in X; congruence).
  assert (Hns : nget n (v_sets s) = None). { destruct (nget n (v_sets s)) eqn:E; auto. destruct Hn. apply (wf_usets _ W). apply nget_keys. eauto. }
  assert (Hnn : nget n (v_notes s) = None). { destruct (nget n (v_notes s)) eqn:E; auto. destruct Hn. apply (wf_unotes _ W). apply nget_keys. eauto. }
  assert (Hnt : ~ In n (map tk_call (v_tasks s))) by (intros X; apply Hn; now apply (wf_utasks _ W)).
  assert (Hna : ~ In n (v_acks s)) by (intros X; apply Hn; now apply (wf_uacks _ W)).
  assert (Tn : tnew n (v_tasks s) = []). { apply tnew_nil. intros t Ht X. apply Hnt. rewrite <- X. now apply in_map. }
  assert (Ge : ~ given_up n []) by (intros [l' []]). assert (Re : ~ returned n []) by (intros []).
  assert (Nd : NoDup (map fst (targets (v_infos s) es p))) by apply NoDup_targets, W.
  destruct (targets (v_infos s) es p) as [|t ts] eqn:ET.
  - injection H as <- <-. split; auto. assert (Hp : pend n (use s n) = []) by (unfold pend; parts; now rewrite Hnn, Tn).
    constructor; rewrite ?Hp; auto; try tauto.
    + parts. apply in_or_app. right. now left.
    + destruct ack; auto.
  - destruct ack; injection H as <- <-; (split; [|congruence]).
    + match goal with |- ncall _ _ _ _ _ ?x => assert (Hp : pend n x = t :: ts) end.
      { unfold pend. parts. rewrite Hnn, tnew_app, Tn. exact (tnew_own n (t :: ts)). }
      constructor; rewrite ?Hp; auto; try tauto.
      parts. apply in_or_app. right. now left.
    + assert (Hp : pend n (use (with_notes s (v_notes s ++ [(n, t :: ts)])) n) = t :: ts).
      { unfold pend. parts. now rewrite nget_snoc, Hnn, Nat.eqb_refl, Tn, app_nil_r. }
      constructor; rewrite ?Hp; auto; try tauto.
      parts. apply in_or_app. right. now left.
Qed.

Lemma live_ids : forall tk tr s c, vbook tk tr s -> In c (keys (v_infos s)) -> In c (ids tr).
Proof.
  intros tk tr s c B H. apply nget_keys in H as [i H]. rewrite (vb_live _ _ _ B) in H. apply (vb_ids _ _ _ B), phase_conns. intros X. rewrite X in H. discriminate.
Qed.

Lemma ids_app : forall a b, ids (a ++ b) = ids a ++ ids b.
Proof. intros. unfold ids, vouts. rewrite flat_map_app. unfold ids_in. now rewrite flat_map_app. Qed.

Lemma ncall_run : forall sv tk a n es p ack l b s, server_run sv tk (a ++ (VNotify n es p ack, l) :: b) s ->
    exists s1, server_run sv tk a s1 /\ ncall n (targets (v_infos s1) es p) ack (a ++ [(VNotify n es p ack, l)]) b s /\
      (l <> [] -> targets (v_infos s1) es p = []).
Proof.
  intros sv tk a n es p ack l b s H. pose proof (run_at _ _ _ _ _ _ _ H) as (s1 & s2 & H1 & Hx & Hb). exists s1. split; auto.
  pose proof (vwf_run _ _ _ _ H1) as W1. pose proof (vbook_run _ _ _ _ H1) as B1.
  set (pre := a ++ [(VNotify n es p ack, l)]) in *.
  assert (Hpre : server_run sv tk pre s2) by (econstructor; eauto).
  destruct (ncall_start _ _ _ _ _ _ _ _ _ pre Hx W1) as [N Hl]. split; auto. clear H Hl Hx.
  assert (Hid : forall c es', In (c, es') (targets (v_infos s1) es p) -> In c (ids pre)).
  { intros c es' Hin. unfold pre. rewrite ids_app. apply in_or_app. left. eapply live_ids; eauto. eapply targets_infos; eauto. }
  assert (K : server_run sv tk (pre ++ b) s /\ ncall n (targets (v_infos s1) es p) ack pre b s); [|apply K].
  induction Hb as [s|s b s3 o l' s4 Hb IH Hx].
  - rewrite app_nil_r. auto.
  - destruct (IH Hpre N) as [R K]. split.
    + rewrite app_assoc. econstructor; eauto.
    + exact (ncall_step sv tk _ _ _ _ _ s3 o s4 l' (vbook_run _ _ _ _ R) (vwf_run _ _ _ _ R) Hid K Hx).
Qed.

(** ** Theorems *)

Lemma wanted_picked : forall tk req i es, made tk req i -> picked (interested req) es (wanted i es).
Proof.
  intros tk req i es (Hm & Hs & _). induction es as [|e es IH]; [constructor|]. unfold wanted. cbn [filter]. fold (wanted i es).
  assert (K : node_matches (in_sub i) (ev_type e) && match in_server i with None => true | Some x => (x =? eid_server (ev_id e))%Z end = true <-> interested req e).
  { unfold interested. rewrite andb_true_iff, Hs. destruct (final_C01 (ir_subs req)) as [_ F]. rewrite (F _ Hm).
    destruct (ir_server req) as [x|]; [rewrite Z.eqb_eq|]; tauto. }
  destruct (node_matches _ _ && _).
  - apply picked_take; auto. now apply K.
  - apply picked_skip; auto. intros X. apply K in X. discriminate.
Qed.

Lemma picked_In : forall A (P : A -> Prop) l l', picked P l l' -> forall x, In x l' <-> In x l /\ P x.
Proof.
  intros A P l l' H. induction H; intros y; cbn [In]; [tauto| |]; rewrite IHpicked; intuition (subst; auto); contradiction.
Qed.

(** What the server knows of its clients. *)
Lemma info_client : forall tk tr s c i, vbook tk tr s -> In (c, i) (v_infos s) ->
    welcomed c tr = true /\ exists conv req, init_of c tr = Some (conv, req) /\ made tk req i.
Proof.
  intros tk tr s c i B H. apply In_nget in H; [|apply B]. rewrite (vb_live _ _ _ B) in H. split; [eapply live_welcomed; eauto|].
  apply (known_about tk tr s c i (vb_about _ _ _ B c)). destruct (phase_of s c); try discriminate; exact H.
Qed.

Lemma client_info : forall tk tr s c, vbook tk tr s -> welcomed c tr = true -> gone c tr = false -> exists i, In (c, i) (v_infos s).
Proof.
  intros tk tr s c B Hw Hg. pose proof (vb_about _ _ _ B c) as Ha. unfold about in Ha. unfold welcomed in Hw.
  assert (Hid : In c (keys (v_conns s))).
  { destruct (in_dec Nat.eq_dec c (keys (v_conns s))) as [|X]; auto. destruct (vb_fresh _ _ _ B c X) as (_ & _ & X'). rewrite X' in Hw. discriminate. }
  assert (Hu : is_up s c = true) by (apply (vb_up _ _ _ B); split; auto; now apply (vb_ids _ _ _ B)).
  assert (K : exists i, live (phase_of s c) = Some i).
  { destruct (phase_of s c); cbn [live]; eauto.
    - destruct Ha as [E _]. rewrite E in Hw. discriminate.
    - destruct Ha as [E _]. rewrite E in Hw. discriminate.
    - destruct Ha as [conv E]. rewrite E in Hw. discriminate.
    - destruct Ha as [X _]. congruence.
    - destruct Ha as [X _]. congruence. }
  destruct K as [i K]. exists i. apply nget_In. now rewrite (vb_live _ _ _ B).
Qed.

Lemma In_targets : forall infos es p c es', In (c, es') (targets infos es p) <->
    exists i, In (c, i) infos /\ in_persisted i = p /\ es' = wanted i es /\ es' <> [].
Proof.
  intros infos es p c es'. unfold targets. rewrite in_flat_map. split.
  - intros ([k i] & H1 & H2). cbn [fst snd] in H2. destruct (Bool.eqb (in_persisted i) p) eqn:E; [|contradiction]. apply eqb_prop in E.
    destruct (wanted i es) eqn:Ew; [contradiction|]. destruct H2 as [[= <- <-]|[]]. exists i. rewrite Ew. repeat split; auto. discriminate.
  - intros (i & H1 & <- & -> & H2). exists (c, i). split; auto. cbn [fst snd]. rewrite eqb_reflx. destruct (wanted i es); [contradiction|now left].
Qed.

(** Messages of one call. *)
Lemma final_C36_message : forall sv tk a n es p ack l b s, server_run sv tk (a ++ (VNotify n es p ack, l) :: b) s ->
    NoDup (map conn_of (notes n b)) /\
    forall c es' last, In (c, es', last) (notes n b) ->
      welcomed c a = true /\ last = negb ack /\ es' <> [] /\
      exists conv req, init_of c a = Some (conv, req) /\ ir_persisted req = p /\ picked (interested req) es es'.
Proof.
  intros sv tk a n es p ack l b s H. apply ncall_run in H as (s1 & H1 & N & _). pose proof (vbook_run _ _ _ _ H1) as B. split.
  - pose proof (nc_nodup _ _ _ _ _ _ N) as X. clear -X. revert X. generalize (map conn_of (notes n b)). intros x Hd.
    induction x; [constructor|]. cbn [app] in Hd. inversion Hd; subst. constructor; auto. rewrite in_app_iff in *. tauto.
  - intros c es' last Hin. apply (nc_sent _ _ _ _ _ _ N) in Hin as [Hin ->]. apply In_targets in Hin as (i & Hi & Hp & -> & He).
    destruct (info_client _ _ _ _ _ B Hi) as (Hw & conv & req & Hq & Hm). repeat split; auto. exists conv, req. split; auto. split.
    + destruct Hm as (_ & _ & Hm & _). congruence.
    + eapply wanted_picked; eauto.
Qed.

(** Every client with a matching event is told. *)
Lemma final_C36_all : forall sv tk a n es p ack l b s c conv req e, server_run sv tk (a ++ (VNotify n es p ack, l) :: b) s ->
    returned n ((VNotify n es p ack, l) :: b) -> welcomed c a = true -> gone c (a ++ (VNotify n es p ack, l) :: b) = false -> ~ dropped n c b ->
    init_of c a = Some (conv, req) -> ir_persisted req = p -> In e es -> interested req e ->
    exists es', In (c, es', negb ack) (notes n b).
Proof.
  intros sv tk a n es p ack l b s c conv req e H Hr Hw Hg Hd Hi Hp He Hie. apply ncall_run in H as (s1 & H1 & N & Hl).
  pose proof (vbook_run _ _ _ _ H1) as B.
  assert (Hga : gone c a = false). { unfold gone in *. rewrite existsb_app in Hg. now apply orb_false_iff in Hg as [Hg _]. }
  destruct (client_info _ _ _ _ B Hw Hga) as [i Hin].
  destruct (info_client _ _ _ _ _ B Hin) as (_ & conv' & req' & Hi' & Hm). rewrite Hi in Hi'. injection Hi' as <- <-.
  assert (Ht : In (c, wanted i es) (targets (v_infos s1) es p)).
  { apply In_targets. exists i. repeat split; auto.
    - destruct Hm as (_ & _ & Hm & _). congruence.
    - intros X. pose proof (picked_In _ _ _ _ (wanted_picked _ _ _ es Hm) e) as K. rewrite X in K. apply K. auto. }
  assert (Hrb : returned n b).
  { unfold returned in *. cbn [vouts flat_map snd] in Hr. apply in_app_or in Hr as [Hr|Hr]; auto. rewrite Hl in Ht; [contradiction|]. intros ->. contradiction. }
  destruct (nc_all _ _ _ _ _ _ N _ _ Ht) as [X|[X|[X|[X|[X Y]]]]]; eauto.
  - rewrite <- app_assoc in X. cbn [app] in X. congruence.
  - destruct (nc_done _ _ _ _ _ _ N Hrb) as [E _]. rewrite E in X. contradiction.
  - contradiction.
  - contradiction.
Qed.

(** Where messages with events come from. *)
Definition begun (n : nat) (tr : list vitem) : Prop := exists es p ack l, In (VNotify n es p ack, l) tr.

Lemma begun_snoc : forall n tr x, begun n tr -> begun n (tr ++ [x]).
Proof. intros n tr x (es & p & ack & l & H). exists es, p, ack, l. apply in_or_app. auto. Qed.

Lemma begun_run : forall sv tk tr s, server_run sv tk tr s -> forall n, In n (keys (v_notes s)) \/ In n (map tk_call (v_tasks s)) -> begun n tr.
Proof.
  intros sv tk tr s H. unfold server_run in H. remember vstart as s0 eqn:E0. induction H; subst.
  - intros n [[]|[]].
  - specialize (IHvruns eq_refl). intros k Hk.
    assert (Fil : forall f, In k (map tk_call (filter f (v_tasks s1))) -> In k (map tk_call (v_tasks s1))).
    { intros f Hf. apply in_map_iff in Hf as (t & <- & Ht). apply filter_In in Ht as [Ht _]. now apply in_map. }
    assert (Old : In k (keys (v_notes s1)) \/ In k (map tk_call (v_tasks s1)) -> begun k (tr ++ [(o, l)])) by (intros X; apply begun_snoc; auto).
    destruct o; vstep H0; parts; auto; try solve [apply Old; destruct Hk as [Hk|Hk]; [now left|right; eapply Fil; exact Hk]].
    + destruct Hk as [Hk|Hk]; auto. rewrite map_app in Hk. apply in_app_or in Hk as [Hk|Hk]; auto.
      change (Task n (fst p) (TNew (snd p)) :: map (fun x => Task n (fst x) (TNew (snd x))) l0) with (map (fun x => Task n (fst x) (TNew (snd x))) (p :: l0)) in Hk.
      rewrite map_map in Hk. apply in_map_iff in Hk as (x & <- & _). cbn [tk_call]. exists es, persisted, true, []. apply in_or_app. right. now left.
    + destruct Hk as [Hk|Hk]; auto. unfold keys in Hk. rewrite map_app in Hk. apply in_app_or in Hk as [Hk|[<-|[]]]; auto.
      exists es, persisted, false, []. apply in_or_app. right. now left.
    + destruct Hk as [Hk|Hk]; auto. rewrite keys_nset_in in Hk; auto. apply nget_keys. eauto.
    + destruct Hk as [Hk|Hk]; auto. rewrite calls_set in Hk. auto.
    + destruct Hk as [Hk|Hk]; auto. rewrite calls_set in Hk. auto.
    + destruct Hk as [Hk|Hk]; auto. apply keys_ddel_incl in Hk. auto.
    + destruct Hk as [Hk|Hk]; auto. apply keys_ddel_incl in Hk. auto.
Qed.

Lemma final_C36_only : forall sv tk tr s c conv es' last, server_run sv tk tr s -> In (MEvents conv es' last) (sent_to c tr) ->
    exists a n es p ack l b, tr = a ++ (VNotify n es p ack, l) :: b /\ In (c, es', last) (notes n b).
Proof.
  intros sv tk tr s c conv es' last H Hin. apply In_sent_to, In_vouts in Hin as (a & o & l & b & -> & Hin).
  apply run_at in H as (s1 & s2 & H1 & Hx & _).
  assert (K : exists n, (In n (keys (v_notes s1)) \/ In n (map tk_call (v_tasks s1))) /\ step_of n o = true).
  { destruct o; vstep Hx; cbn [In] in Hin; try (match type of Hin with context [send] => unfold send in Hin; destruct (is_up _ _); cbn [In] in Hin end);
      try tauto; destruct Hin as [Hin|[]]; try discriminate.
    - exists n. split; [left; apply nget_keys; eauto|]. cbn. apply Nat.eqb_refl.
    - exists n. split; [right|cbn; apply Nat.eqb_refl]. unfold find_task in E. destruct (find _ _) eqn:Ef; [|discriminate].
      apply find_some in Ef as [Ef1 Ef2]. apply of_task_spec in Ef2 as [<- _]. now apply in_map. }
  destruct K as (n & Hk & Ho). destruct (begun_run _ _ _ _ H1 n Hk) as (es & p & ack & l0 & Hb).
  apply in_split in Hb as (a1 & a2 & ->). exists a1, n, es, p, ack, l0, (a2 ++ (o, l) :: b). split; [now rewrite <- app_assoc|].
  unfold notes. rewrite flat_map_app. apply in_or_app. right. cbn [flat_map]. apply in_or_app. left. cbn [fst snd]. rewrite Ho.
  apply in_flat_map. exists (Sent c (MEvents conv es' last)). split; auto. now left.
Qed.
