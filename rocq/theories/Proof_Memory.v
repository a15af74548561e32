From Coq Require Import String Bool ZArith Lia List.
From Verif Require Import Base Model_Types Model_Subscription Model_Order Proof_Subscription
  Spec_Subscription Spec_Order Proof_Order Keys Model_Memory Spec_Memory.
Import ListNotations.
Open Scope list_scope.
Open Scope Z_scope.

(** ** Executions *)

Lemma mb_call_given : forall es c, fst (mb_call es c) = es ++ given [(c, snd (mb_call es c))].
Proof. intros es [l|s|p|]; cbn; now rewrite ?app_nil_r. Qed.

Lemma given_app : forall a b, given (a ++ b) = given a ++ given b.
Proof. intros. apply flat_map_app. Qed.

Lemma given_cons : forall c o o' tr, given ((c, o) :: tr) = given [(c, o')] ++ given tr.
Proof. intros [l|s|p|] o o' tr; cbn; now rewrite ?app_nil_r. Qed.

Lemma mb_run_at : forall cs es tr c o tr', mb_run es cs = tr ++ (c, o) :: tr' ->
  o = snd (mb_call (es ++ given tr) c).
Proof.
  induction cs as [|c0 cs IH]; cbn [mb_run]; intros es tr c o tr' H.
  - destruct tr; discriminate.
  - destruct (mb_call es c0) as [es' o0] eqn:E.
    pose proof (mb_call_given es c0) as G. rewrite E in G. cbn [fst snd] in G.
    destruct tr as [|x tr]; cbn [app] in H; injection H as Hx Ht.
    + inversion Hx; subst. cbn [given flat_map]. now rewrite app_nil_r, E.
    + subst x. rewrite (IH _ _ _ _ _ Ht), G, <- app_assoc, <- given_app. reflexivity.
Qed.

(** ** Latest events *)

Lemma mb_step_keys : forall l d x, In x (keys (fold_left mb_latest_step l d)) <->
  In x (keys d) \/ In x (map ev_type l).
Proof.
  induction l as [|e l IH]; cbn [fold_left map In]; intros d x; [tauto|].
  rewrite IH. unfold mb_latest_step.
  assert (A : forall y, In y (keys (dset etype_eqb (ev_type e) e d)) <-> In y (keys d) \/ ev_type e = y).
  { intros y. rewrite keys_dset. destruct (dmem etype_eqb (ev_type e) d) eqn:E.
    - apply (dmem_In etype_eqb_spec) in E. split; [tauto|]. intros [H| <-]; auto.
    - rewrite in_app_iff. cbn [In]. tauto. }
  destruct (dget etype_eqb (ev_type e) d) as [p|] eqn:E.
  - destruct (ev_lt p e).
    + rewrite A. tauto.
    + apply (dget_In etype_eqb_spec) in E. apply (in_map fst) in E. cbn [fst] in E.
      split; [tauto|]. intros [H|[ <-|H]]; auto.
  - rewrite A. tauto.
Qed.

(** Every entry is an event of its type. *)
Definition mb_wf (d : list (etype * event)) (S : event -> Prop) : Prop :=
  NoDup (keys d) /\ forall t e, In (t, e) d -> ev_type e = t /\ S e.

Lemma mb_step_wf : forall d S e, mb_wf d S -> S e -> mb_wf (mb_latest_step d e) S.
Proof.
  intros d S e [N H] He. unfold mb_latest_step.
  assert (A : mb_wf (dset etype_eqb (ev_type e) e d) S).
  { split; [now apply (NoDup_dset etype_eqb_spec)|]. intros t x Hx.
    apply (In_dset_iff etype_eqb_spec _ _ _ _ _ N) in Hx.
    destruct Hx as [[-> ->]|[_ Hx]]; auto. }
  destruct (dget etype_eqb (ev_type e) d) as [p|]; [destruct (ev_lt p e)|]; auto. now split.
Qed.

Lemma mb_fold_wf : forall l d S, mb_wf d S -> Forall S l -> mb_wf (fold_left mb_latest_step l d) S.
Proof.
  induction l as [|e l IH]; cbn [fold_left]; intros d S H F; auto.
  inversion F; subst. apply IH; auto. now apply mb_step_wf.
Qed.

(** The newest event so far of every type. *)
Lemma newest_unique : forall l t a b, newest_given l t a -> newest_given l t b -> a = b.
Proof.
  intros l t a b (l1 & l2 & E & Ta & A1 & A2) (m1 & m2 & E' & Tb & B1 & B2).
  rewrite E in E'. revert m1 E' B1.
  assert (L : forall x y, ts_lt x y -> ts_le y x -> False).
  { intros x y. unfold ts_le, ts_lt. intros H [G|G]; [lia|]. subst. lia. }
  clear E. revert A1. induction l1 as [|x l1 IH]; intros A1 [|y m1] E' B1; cbn [app] in E'.
  - now injection E'.
  - injection E' as -> E'. exfalso.
    assert (G : In b l2) by (rewrite E'; apply in_elt).
    eapply L; [apply (A2 b G Tb)|]. apply B1; [now left|]. exact Ta.
  - injection E' as -> E'. exfalso.
    assert (G : In a m2) by (rewrite <- E'; apply in_elt).
    eapply L; [apply (B2 a G Ta)|]. apply A1; [now left|]. exact Tb.
  - injection E' as -> E'. apply (IH (fun z Hz => A1 z (or_intror Hz)) m1 E').
    intros z Hz. apply B1. now right.
Qed.

Lemma mb_fold_newest : forall l, in_order l ->
  forall t e, dget etype_eqb t (fold_left mb_latest_step l []) = Some e -> newest_given l t e.
Proof.
  intros l. induction l as [|x l IH] using rev_ind; intros O t e H.
  - discriminate.
  - rewrite fold_left_app in H. cbn [fold_left] in H.
    assert (O' : in_order l).
    { intros l1 a l2 b l3 -> S. apply (O l1 a l2 b (l3 ++ [x])); auto.
      rewrite <- !app_assoc. cbn [app]. now rewrite <- !app_assoc. }
    specialize (IH O'). unfold mb_latest_step in H at 1.
    set (d := fold_left mb_latest_step l []) in *.
    assert (LE : forall p, newest_given l (ev_type x) p -> ev_lt p x = true -> ts_le (ev_ts p) (ev_ts x)).
    { intros p (l1 & l2 & -> & _) Hl. unfold ev_lt in Hl.
      destruct (eid_eqb _ _); [discriminate|].
      destruct (eid_server (ev_id p) =? eid_server (ev_id x)) eqn:Es.
      - apply Z.eqb_eq in Es. apply (O l1 p l2 x []); auto. now rewrite <- app_assoc.
      - destruct (ts_eqb (ev_ts p) (ev_ts x)) eqn:Et; cbn [negb] in Hl.
        + right. unfold ts_eqb in Et. apply andb_true_iff in Et. destruct Et as [A B].
          apply Z.eqb_eq in A, B. destruct (ev_ts p), (ev_ts x); cbn in *; congruence.
        + left. now apply ts_ltb_spec. }
    assert (GT : forall p, newest_given l (ev_type x) p -> ev_lt p x = false -> ts_lt (ev_ts x) (ev_ts p)).
    { intros p (l1 & l2 & -> & _) Hl. unfold ev_lt in Hl.
      destruct (eid_server (ev_id p) =? eid_server (ev_id x)) eqn:Es.
      - exfalso. apply Z.eqb_eq in Es.
        assert (L : eid_lt (ev_id p) (ev_id x)).
        { apply (O l1 p l2 x []); auto. now rewrite <- app_assoc. }
        apply eid_ltb_spec in L. destruct (eid_eqb (ev_id p) (ev_id x)) eqn:Ei; [|congruence].
        assert (ev_id p = ev_id x).
        { unfold eid_eqb in Ei. apply andb_true_iff in Ei. destruct Ei as [Ei C].
          apply andb_true_iff in Ei. destruct Ei as [A B]. apply Z.eqb_eq in A, B, C.
          destruct (ev_id p), (ev_id x); cbn in *; congruence. }
        rewrite H0 in L. apply eid_ltb_spec in L. unfold eid_lt in L. lia.
      - destruct (eid_eqb (ev_id p) (ev_id x)) eqn:Ei.
        { exfalso. unfold eid_eqb in Ei. rewrite Es in Ei. discriminate. }
        destruct (ts_eqb (ev_ts p) (ev_ts x)) eqn:Et; cbn [negb] in Hl; [discriminate|].
        assert (N : ~ ts_lt (ev_ts p) (ev_ts x)).
        { intros G. apply ts_ltb_spec in G. congruence. }
        unfold ts_eqb in Et. unfold ts_lt in *.
        apply andb_false_iff in Et. destruct Et as [Et|Et]; apply Z.eqb_neq in Et; lia. }
    assert (T : forall a b c, ts_le a b -> ts_le b c -> ts_le a c).
    { intros a b c [A|A] [B|B]; subst; unfold ts_le; auto. left. unfold ts_lt in *. lia. }
    assert (NEW : forall p, (forall q, In q l -> ev_type q = ev_type x -> ts_le (ev_ts q) (ev_ts x)) ->
              e = x -> t = ev_type x -> p = x -> newest_given (l ++ [x]) t e).
    { intros p A -> -> _. exists l, []. repeat split; auto. intros y []. }
    assert (OLD : forall p, newest_given l t p -> (ev_type x = t -> ts_lt (ev_ts x) (ev_ts p)) ->
              newest_given (l ++ [x]) t p).
    { intros p (l1 & l2 & -> & Tp & A1 & A2) A. exists l1, (l2 ++ [x]). rewrite <- app_assoc. cbn [app].
      repeat split; auto. intros y Hy Ty. apply in_app_iff in Hy. destruct Hy as [Hy|[ <-|[]]]; auto. }
    assert (SAME : forall y, etype_eqb t y = true <-> t = y) by (intros; apply etype_eqb_spec).
    destruct (dget etype_eqb (ev_type x) d) as [p|] eqn:E.
    + specialize (IH _ _ E) as Np. destruct (ev_lt p x) eqn:El.
      * destruct (etype_eqb t (ev_type x)) eqn:Et.
        -- apply SAME in Et. subst t. rewrite (dget_dset_same etype_eqb_spec) in H. injection H as <-.
           apply (NEW x); auto. intros q Hq Tq. eapply T; [|apply (LE p Np El)].
           destruct Np as (l1 & l2 & -> & Tp & A1 & A2). apply in_app_iff in Hq.
           destruct Hq as [Hq|[ <-|Hq]]; [auto|now right|left; auto].
        -- rewrite (dget_dset_other etype_eqb_spec) in H; [|intros ->; rewrite (eqb_refl' etype_eqb_spec) in Et; discriminate].
           apply OLD; auto. intros <-. rewrite (eqb_refl' etype_eqb_spec) in Et. discriminate.
      * apply OLD; auto. intros Ht. subst t. rewrite E in H. injection H as <-. apply GT; auto.
    + destruct (etype_eqb t (ev_type x)) eqn:Et.
      * apply SAME in Et. subst t. rewrite (dget_dset_same etype_eqb_spec) in H. injection H as <-.
        apply (NEW x); auto. intros q Hq Tq. exfalso. apply (dget_None etype_eqb_spec) in E.
        apply E. apply mb_step_keys. right. rewrite <- Tq. now apply in_map.
      * rewrite (dget_dset_other etype_eqb_spec) in H; [|intros ->; rewrite (eqb_refl' etype_eqb_spec) in Et; discriminate].
        apply OLD; auto. intros <-. rewrite (eqb_refl' etype_eqb_spec) in Et. discriminate.
Qed.

Lemma filter_split : forall (A : Type) (f : A -> bool) l a e b, filter f l = a ++ e :: b ->
  exists l1 l2, l = l1 ++ e :: l2 /\ filter f l1 = a /\ filter f l2 = b.
Proof.
  intros A f. induction l as [|x l IH]; cbn [filter]; intros a e b H.
  - destruct a; discriminate.
  - destruct (f x) eqn:E.
    + destruct a as [|y a]; cbn [app] in H; injection H as -> H.
      * exists [], l. auto.
      * destruct (IH _ _ _ H) as (l1 & l2 & -> & <- & <-). exists (y :: l1), l2. cbn [filter]. rewrite E. auto.
    + destruct (IH _ _ _ H) as (l1 & l2 & -> & <- & <-). exists (x :: l1), l2. cbn [filter]. rewrite E. auto.
Qed.

Lemma in_order_filter : forall f l, in_order l -> in_order (filter f l).
Proof.
  intros f l O l1 a l2 b l3 E S.
  destruct (filter_split _ _ _ _ _ _ E) as (m1 & m2 & -> & _ & E2).
  destruct (filter_split _ _ _ _ _ _ E2) as (m3 & m4 & -> & _ & _).
  now apply (O m1 a m3 b m4).
Qed.

Lemma newest_filter : forall (g : etype -> bool) l t e, g t = true ->
  newest_given (filter (fun x => g (ev_type x)) l) t e -> newest_given l t e.
Proof.
  intros g l t e G (l1 & l2 & E & T & A & B).
  destruct (filter_split _ _ _ _ _ _ E) as (m1 & m2 & -> & <- & <-).
  exists m1, m2. repeat split; auto; intros x Hx Tx; [apply A|apply B]; auto;
    apply filter_In; (split; [exact Hx|]); now rewrite Tx.
Qed.

(** Events of asked types. *)
Lemma latest_source : forall es p, valid_types p ->
  exists g, (forall t, g t = true <-> asks p t) /\
    mb_query_latest es p = Ret (QRes (vals (fold_left mb_latest_step (filter (fun x => g (ev_type x)) es) [])) false).
Proof.
  intros es p V. unfold mb_query_latest, valid_types, asks in *. destruct (ql_types p) as [qs|].
  - destruct (create_valid qs V) as [n E]. exists (node_matches n). split; [now apply create_matches|].
    unfold filter_event_types. now rewrite E.
  - exists (fun _ => true). split; [tauto|]. repeat f_equal. induction es; cbn; congruence.
Qed.

Lemma vals_in : forall (d : list (etype * event)) e, In e (vals d) <-> exists t, In (t, e) d.
Proof.
  intros d e. unfold vals. rewrite in_map_iff. split.
  - intros ((t, x) & <- & H). now exists t. - intros (t & H). now exists (t, e).
Qed.

Lemma map_type_keys : forall d S, mb_wf d S -> map ev_type (vals d) = keys d.
Proof.
  intros d S [_ H]. induction d as [|[t e] d IH]; [reflexivity|].
  cbn. rewrite (proj1 (H t e (or_introl eq_refl))). f_equal. apply IH. intros; apply H; now right.
Qed.

Lemma final_C48_latest : forall cs tr p o tr', mb_run [] cs = tr ++ (BQuery (QPLatest p), o) :: tr' -> valid_types p ->
  exists res, o = BResult (Ret (QRes res false)) /\ NoDup (map ev_type res) /\
    (forall e, In e res -> In e (given tr) /\ asks p (ev_type e)) /\
    (forall x, In x (given tr) -> asks p (ev_type x) -> exists e, In e res /\ ev_type e = ev_type x).
Proof.
  intros cs tr p o tr' H V. apply mb_run_at in H. cbn [app mb_call mb_query snd] in H.
  destruct (latest_source (given tr) p V) as (g & G & E). rewrite E in H. eexists; split; [exact H|].
  set (l := filter _ _). set (d := fold_left mb_latest_step l []).
  assert (W : mb_wf d (fun e => In e l)).
  { apply mb_fold_wf; [split; [constructor|intros t e []]|]. now apply Forall_forall. }
  split; [rewrite (map_type_keys _ _ W); apply W|]. split.
  - intros e He. apply vals_in in He. destruct He as [t He]. apply W in He. destruct He as [_ He].
    apply filter_In in He. rewrite <- G. exact He.
  - intros x Hx Ax. apply G in Ax.
    assert (K : In (ev_type x) (keys d)).
    { apply mb_step_keys. right. apply in_map. now apply filter_In. }
    apply in_map_iff in K. destruct K as ((t, e) & Et & K). cbn [fst] in Et. subst t.
    exists e. split; [apply vals_in; eauto|]. now apply W in K.
Qed.

Lemma final_C48_newest : forall cs tr p o tr', mb_run [] cs = tr ++ (BQuery (QPLatest p), o) :: tr' -> valid_types p ->
  in_order (given tr) ->
  exists res, o = BResult (Ret (QRes res false)) /\
    forall e, In e res <-> asks p (ev_type e) /\ newest_given (given tr) (ev_type e) e.
Proof.
  intros cs tr p o tr' H V O. apply mb_run_at in H. cbn [app mb_call mb_query snd] in H.
  destruct (latest_source (given tr) p V) as (g & G & E). rewrite E in H. eexists; split; [exact H|].
  set (l := filter _ _). set (d := fold_left mb_latest_step l []).
  assert (W : mb_wf d (fun e => In e l)).
  { apply mb_fold_wf; [split; [constructor|intros t e []]|]. now apply Forall_forall. }
  assert (Ol : in_order l) by (now apply in_order_filter).
  assert (D : forall t e, In (t, e) d -> ev_type e = t /\ asks p t /\ newest_given (given tr) t e).
  { intros t e He. destruct (proj2 W t e He) as [T I]. apply filter_In in I. destruct I as [_ I]. rewrite T in I.
    repeat split; auto; [now apply G|]. apply (newest_filter g); auto.
    apply mb_fold_newest; auto. apply (In_dget etype_eqb_spec); auto. apply W. }
  intros e. rewrite vals_in. split.
  - intros (t & He). destruct (D _ _ He) as (<- & A & B). auto.
  - intros [A B].
    assert (I : In e (given tr)). { destruct B as (l1 & l2 & -> & _). apply in_elt. }
    assert (K : In (ev_type e) (keys d)).
    { apply mb_step_keys. right. apply in_map. apply filter_In. split; auto. now apply G. }
    apply in_map_iff in K. destruct K as ((t, x) & Et & K). cbn [fst] in Et. subst t.
    exists (ev_type e). destruct (D _ _ K) as (_ & _ & B'). pose proof (newest_unique _ _ _ _ B B') as Q.
    rewrite Q at 2. exact K.
Qed.

Lemma final_C48_register : forall cs tr es o tr', mb_run [] cs = tr ++ (BRegister es, o) :: tr' ->
  o = BRegistered es [es] [es].
Proof. intros cs tr es o tr' H. apply mb_run_at in H. exact H. Qed.

(** ** What does not work *)

Lemma final_C48_id : forall cs tr s o tr', mb_run [] cs = tr ++ (BLastId s, o) :: tr' ->
  o = BId (match given tr with [] => Ret (Eid s 0 0) | _ => Raise AttributeError end).
Proof. intros cs tr s o tr' H. apply mb_run_at in H. rewrite H. cbn. destruct (given tr); reflexivity. Qed.

Lemma final_C48_timeseries : forall cs tr p o tr', mb_run [] cs = tr ++ (BQuery (QPTimeseries p), o) :: tr' ->
  o = BResult (Raise UnboundLocalError).
Proof. intros cs tr p o tr' H. apply mb_run_at in H. rewrite H. cbn. unfold mb_query_timeseries. now destruct (qt_order_by p). Qed.

Lemma final_C48_server : forall cs tr p o tr', mb_run [] cs = tr ++ (BQuery (QPServer p), o) :: tr' ->
  o = BResult (match given tr with [] => Ret (QRes [] (match qs_max p with Some n => n <? 0 | None => false end)) | _ => Raise AttributeError end).
Proof.
  intros cs tr p o tr' H. apply mb_run_at in H. rewrite H. cbn. unfold mb_query_server, filter_server_id.
  destruct (given tr); [|reflexivity]. cbn. destruct (qs_last p), (qs_max p) as [n|]; cbn; auto;
  destruct (n <? 0); auto; now destruct (Z.to_nat n).
Qed.
