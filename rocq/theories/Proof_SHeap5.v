(** Proofs about the memory of the C subscription: all subscriptions of a
    program, the constructor and the destructor. *)
From Coq Require Import String Bool Arith ZArith Lia List.
From Verif Require Import Base Model_Types Model_Subscription Model_SHeap Spec_SHeap Proof_Subscription Proof_SHeap Proof_SHeap2 Proof_SHeap3 Proof_SHeap4.
Import ListNotations.
Open Scope string_scope.
Open Scope list_scope.

(** The memory is exactly these trees. *)
Record world (s : sst) (ts : list gtree) : Prop := {
  w_rep : Forall (rep (s_heap s)) ts;
  w_nodup : NoDup (flat_map fp ts);
  w_all : forall x, s_heap s x <> None -> In x (flat_map fp ts);
  w_lt : forall x, s_heap s x <> None -> (x < s_next s)%nat }.

Lemma world_tree : forall s ts1 t ts2, world s (ts1 ++ t :: ts2) -> tree s t.
Proof.
  intros s ts1 t ts2 [R N A L]. constructor; auto.
  - rewrite Forall_app in R. destruct R as [_ R]. now inversion R.
  - rewrite flat_map_app in N. cbn [flat_map] in N. apply NoDup_app_r, NoDup_app_l in N. exact N.
Qed.

Lemma world_changed : forall s s' ts1 t t' ts2, world s (ts1 ++ t :: ts2) -> changed s s' t t' -> world s' (ts1 ++ t' :: ts2).
Proof.
  intros s s' ts1 t t' ts2 W (C1 & C2 & C3 & C4 & C5 & C6). destruct W as [R N A L].
  rewrite flat_map_app in *. cbn [flat_map] in *.
  assert (SM : forall y, In y (flat_map fp ts1) \/ In y (flat_map fp ts2) -> s_heap s' y = s_heap s y).
  { intros y I. apply C5.
    - intros J. destruct I as [I|I].
      + eapply (NoDup_app_apart _ _ _ y N I). apply in_app_iff. auto.
      + apply NoDup_app_r in N. eapply NoDup_app_apart; eauto.
    - apply L. destruct I as [I|I]; apply in_flat_map in I; destruct I as (u & I & J); eapply rep_live; try exact J;
        rewrite Forall_forall in R; apply R; apply in_app_iff; cbn; auto. }
  constructor.
  - rewrite Forall_forall in *. intros u I. apply in_app_iff in I. cbn [In] in I. destruct I as [I|[<-|I]]; [|apply C2|].
    + eapply rep_frame; [apply R; apply in_app_iff; auto|]. intros y J. apply SM. left. apply in_flat_map. eauto.
    + eapply rep_frame; [apply R; apply in_app_iff; cbn; auto|]. intros y J. apply SM. right. apply in_flat_map. eauto.
  - rewrite flat_map_app. cbn [flat_map]. eapply NoDup_replace; [exact N|apply C2|]. intros y I. destruct (C4 y I) as [J|J]; auto.
    right. intros Q. assert (y < s_next s)%nat; [|lia]. apply L. apply in_app_iff in Q. rewrite Forall_forall in R.
    destruct Q as [Q|Q]; apply in_flat_map in Q; destruct Q as (u & Q & Q'); eapply rep_live; try exact Q'; apply R; apply in_app_iff; cbn; auto.
  - intros y H. rewrite flat_map_app. cbn [flat_map]. rewrite !in_app_iff. destruct (C6 y H) as [J|(J & Ly)]; auto.
    assert (H' := H). rewrite C5 in H' by auto. specialize (A y H'). rewrite !in_app_iff in A. tauto.
  - apply C2.
Qed.

Lemma world_rest : forall s s' ts, world s ts -> s_heap s' = s_heap s -> (s_next s <= s_next s')%nat -> world s' ts.
Proof.
  intros s s' ts [R N A L] E H. constructor; rewrite ?E; auto. intros x Q. specialize (L x Q). lia.
Qed.

(** A tree is made of a node. *)
Lemma world_new : forall s s' ts l x, world s ts -> s_heap s' = upd (s_heap s) (s_next s) (Some (SNode l x None)) ->
  s_next s' = S (s_next s) -> world s' (ts ++ [GT (s_next s) l x None []]).
Proof.
  intros s s' ts l x [R N A L] E En.
  assert (LT : forall y, In y (flat_map fp ts) -> (y < s_next s)%nat).
  { intros y I. apply L. apply in_flat_map in I. destruct I as (u & I & J). rewrite Forall_forall in R. eapply rep_live; eauto. }
  constructor.
  - apply Forall_app. split.
    + rewrite Forall_forall in *. intros u I. eapply rep_frame; [apply R; auto|]. intros y J. rewrite E. apply upd_other.
      assert (y < s_next s)%nat by (apply LT; apply in_flat_map; eauto). lia.
    + constructor; [|constructor]. apply rep_kids. rewrite E, upd_same. auto.
  - rewrite flat_map_app. apply NoDup_app_intro; auto.
    + cbn. constructor; [intros []|constructor].
    + cbn. intros y I [<-|[]]. specialize (LT _ I). lia.
  - intros y H. rewrite flat_map_app, in_app_iff. rewrite E in H. destruct (Nat.eq_dec y (s_next s)) as [->|Ny]; [right; now left|].
    rewrite upd_other in H by auto. auto.
  - intros y H. rewrite E in H. rewrite En. destruct (Nat.eq_dec y (s_next s)) as [->|Ny]; [lia|].
    rewrite upd_other in H by auto. apply L in H. lia.
Qed.

(** _csubscription.c:334-340 *)
Lemma dealloc_spec : forall s ts1 t ts2, world s (ts1 ++ t :: ts2) ->
  exists s', dealloc (groot t) s = Some (tt, s') /\ world s' (ts1 ++ ts2) /\ obj_same s s'.
Proof.
  intros s ts1 t ts2 W. assert (T := world_tree _ _ _ _ W). unfold dealloc.
  destruct (free_all_spec t s T) as (s1 & E1 & O1 & (l & x & F1 & F2) & D1 & G1).
  erewrite bind_at by exact E1. erewrite free_at by exact F2. eexists. split; [reflexivity|].
  split; [|eapply obj_trans; [exact O1|]; unfold obj_same; cbn; auto].
  destruct W as [R N A L]. rewrite flat_map_app in *. cbn [flat_map] in *.
  assert (H1 : forall y, In y (fp t) -> s_heap (set_heap (upd (s_heap s1) (groot t) None) s1) y = None).
  { intros y I. cbn [set_heap s_heap]. destruct (Nat.eq_dec y (groot t)) as [->|Ny]; [apply upd_same|]. rewrite upd_other by auto. auto. }
  assert (H2 : forall y, ~ In y (fp t) -> s_heap (set_heap (upd (s_heap s1) (groot t) None) s1) y = s_heap s y).
  { intros y I. cbn [set_heap s_heap]. rewrite upd_other; auto. intros ->. apply I, fp_root. }
  set (s2 := set_heap _ s1) in *.
  constructor.
  - rewrite Forall_forall in *. intros u I. apply in_app_iff in I. eapply rep_frame; [apply R; apply in_app_iff; cbn; tauto|].
    intros y J. apply H2. intros J'. destruct I as [I|I].
    + eapply (NoDup_app_apart _ _ _ y N); [apply in_flat_map; eauto|apply in_app_iff; auto].
    + apply NoDup_app_r in N. eapply (NoDup_app_apart _ _ _ y N); [auto|apply in_flat_map; eauto].
  - rewrite flat_map_app. change (flat_map fp ts1 ++ flat_map fp ts2) with (flat_map fp ts1 ++ [] ++ flat_map fp ts2).
    eapply NoDup_replace; [exact N|constructor|intros y []].
  - intros y H. rewrite flat_map_app, in_app_iff. destruct (in_dec Nat.eq_dec y (fp t)) as [I|I]; [rewrite H1 in H by auto; congruence|].
    rewrite H2 in H by auto. specialize (A y H). rewrite !in_app_iff in A. tauto.
  - intros y H. destruct O1 as (_ & O1 & _). cbn [s2 set_heap s_next]. rewrite O1.
    destruct (in_dec Nat.eq_dec y (fp t)) as [I|I]; [rewrite H1 in H by auto; congruence|]. rewrite H2 in H by auto. auto.
Qed.

Section New.
  Variable ok : nat -> bool.
  Notation fails := (fails ok).

  (** An object with the query types stays. *)
  Definition has_types (s : sst) (ext : addr -> Z) (qts : list addr) : Prop :=
    (exists q p, (1 <= ext q)%Z /\ s_objs s q = Some p /\ incl qts (o_items p)) /\
    forall x p, In x qts -> s_objs s x = Some p -> o_kind p = KTup.

  Lemma has_types_live : forall s ext qts x, has_types s ext qts -> sacc s ext -> In x qts -> exists p, s_objs s x = Some p.
  Proof. intros s ext qts x ((q & p & P & E & I) & _) A J. destruct (a_item _ _ _ A _ _ _ E (I x J)) as (r & Er & _). eauto. Qed.

  Lemma has_types_keep : forall s s' ext ext' qts, has_types s ext qts -> sacc s ext -> sacc s' ext' -> stable s s' ->
    (forall x, ext x <= ext' x)%Z -> has_types s' ext' qts.
  Proof.
    intros s s' ext ext' qts ((q & p & P & E & I) & K) A A' H L.
    destruct (stable_at s s' ext ext' q p H A E A') as (p' & E' & Kp & Ip); [specialize (L q); lia|]. split.
    - exists q, p'. split; [specialize (L q); lia|]. split; auto. now rewrite Ip.
    - intros x r J Ex. destruct (a_item _ _ _ A _ _ _ E (I x J)) as (r0 & Er0 & _).
      destruct (proj2 H x r (a_lt _ _ _ A x ltac:(congruence)) Ex) as (r1 & Er1 & K1 & _). rewrite <- K1. eapply K; eauto.
  Qed.

  Lemma has_types_same : forall s s' ext ext' qts, has_types s ext qts -> sacc s ext -> sacc s' ext' -> stable s s' ->
    (forall x, ext x <= ext' x)%Z -> forall x, In x qts -> given s' x = given s x.
  Proof.
    intros s s' ext ext' qts HT A A' H L x J. assert (HT' := has_types_keep _ _ _ _ _ HT A A' H L).
    destruct (has_types_live _ _ _ x HT A J) as (p & E). destruct (has_types_live _ _ _ x HT' A' J) as (p' & E').
    destruct (proj2 H x p' (a_lt _ _ _ A x ltac:(congruence)) E') as (p1 & E1 & K1 & I1). rewrite E in E1. injection E1 as <-.
    unfold given. f_equal.
    - eapply type_same; eauto.
    - unfold segs_of. now rewrite E, E'.
  Qed.

  Definition any_not_str (s : sst) (qts : list addr) : Prop :=
    exists q x p, In q qts /\ s_objs s q = Some p /\ In x (o_items p) /\ not_str s x.

  Lemma any_not_str_back : forall s s' ext ext' qts, has_types s ext qts -> sacc s ext -> sacc s' ext' -> stable s s' ->
    any_not_str s' qts -> any_not_str s qts.
  Proof.
    intros s s' ext ext' qts HT A A' H (q & x & p & I & E & J & r & Er & N). destruct (has_types_live _ _ _ q HT A I) as (p0 & E0).
    destruct (proj2 H q p (a_lt _ _ _ A q ltac:(congruence)) E) as (p1 & E1 & _ & I1). rewrite E0 in E1. injection E1 as <-.
    rewrite <- I1 in J. destruct (a_item _ _ _ A _ _ _ E0 J) as (r0 & Er0 & _).
    destruct (proj2 H x r (a_lt _ _ _ A x ltac:(congruence)) Er) as (r1 & Er1 & K1 & _).
    exists q, x, p0. split; auto. split; auto. split; auto. exists r1. split; auto. intros t. rewrite K1. auto.
  Qed.

  Lemma loop_spec : forall qts t s ext, tree s t -> sacc s ext -> has_types s ext qts ->
    exists r s' t' qs1 qs2 n1, new_loop ok (groot t) qts s = Some (r, s') /\ changed s s' t t' /\ stable s s' /\
      s_stars s' = s_stars s /\ qts = qs1 ++ qs2 /\ (r = false -> qs2 = [] /\ forget t' = n1 /\ (full t -> full t')) /\
      c_adds (forget t) (map fst (map (given s) qs1)) = Some n1 /\
      sacc s' (fun x => ext x + cntl x (leak_all (forget t) (map (given s) qs1)))%Z /\
      (r = true -> fails \/ any_not_str s qts \/ c_adds (forget t) (map fst (map (given s) qts)) = None).
  Proof.
    induction qts as [|q qts IH]; intros t s ext T A HT; cbn [new_loop].
    - exists false, s, t, [], [], (forget t). split; [reflexivity|]. split; [now apply changed_refl|]. split; [apply stable_refl|].
      split; auto. split; auto. split; auto. split; [reflexivity|]. split; [|discriminate].
      eapply sacc_eq; [exact A|]. intros x. cbn. lia.
    - destruct (has_types_live _ _ _ q HT A (or_introl eq_refl)) as (p & E).
      assert (Kq : o_kind p = KTup) by (destruct HT as (_ & K); eapply K; [now left|exact E]).
      destruct (incref_spec s ext q p A E) as (s1 & E1 & (Q1 & Q2 & Q3 & Q4) & H1 & A1). erewrite bind_at by exact E1.
      assert (Pq : (1 <= ext q + one q q)%Z). { rewrite one_same. assert (Z := a_ext _ _ _ A q). lia. }
      destruct (acc_live _ _ _ q A1 Pq) as (p1 & Ep1). destruct (H1 _ _ Ep1) as (p1' & Ep1' & K1 & I1). rewrite E in Ep1'. injection Ep1' as <-.
      assert (ST1 : stable s s1) by (apply stable_shrinks; auto; lia).
      destruct (get_iter_spec ok s1 _ q p1 A1 Ep1) as (pi & s2 & E2 & Q5 & Q6 & ST2 & F2). { rewrite <- K1, Kq. cbn. lia. }
      erewrite bind_at by exact E2. assert (ST02 : stable s s2) by (eapply stable_trans; eauto).
      assert (L02 : (s_next s <= s_next s2)%nat) by apply ST02.
      destruct pi as [i|].
      2:{ destruct F2 as (F & A2). destruct (decref_ok q s2 _ A2 Pq) as (s3 & E3 & (R1 & R2 & R3 & R4) & H3 & A3).
          erewrite bind_at by exact E3. exists true, s3, t, [], (q :: qts), (forget t). split; [reflexivity|].
          split; [apply changed_rest; auto; [congruence|lia]|].
          split; [eapply stable_trans; [exact ST02|]; apply stable_shrinks; auto; lia|]. split; [congruence|]. split; auto.
          split; [discriminate|]. split; [reflexivity|]. split; [|auto]. eapply sacc_eq; [exact A3|]. intros x. cbn. lia. }
      assert (Pq2 : (1 <= ext q + one q q + one i q)%Z). { assert (Z := one_pos i q). lia. }
      destruct (stable_at s s2 _ _ q p ST02 A E F2 Pq2) as (p2 & Ep2 & K2 & I2).
      unfold items_of. erewrite bind_at by (unfold bind, load_obj; rewrite Ep2; reflexivity).
      assert (T2 : tree s2 t) by (eapply tree_rest; [exact T|congruence|lia]).
      assert (HS2 : has_segs s2 (fun x => ext x + one q x + one i x)%Z (o_items p2)).
      { exists q, p2. split; [exact Pq2|]. split; auto. apply incl_refl. }
      destruct (add_spec ok (o_items p2) t s2 _ T2 F2 HS2) as (r & s3 & t3 & E3 & C3 & H3 & R3 & A3 & Y3 & N3).
      erewrite bind_at by exact E3.
      assert (G2 : given s2 q = given s q).
      { unfold given. f_equal; [eapply type_same; eauto|]. unfold segs_of. rewrite E, Ep2. auto. }
      assert (G : given s q = (map (text_of s2) (o_items p2), o_items p2)).
      { rewrite <- G2. unfold given, type_of, segs_of. now rewrite Ep2. }
      assert (Z3 : forall x, (0 <= (if r then 0 else cntl x (leak (forget t) (map (text_of s2) (o_items p2)) (o_items p2))))%Z).
      { intros x. destruct r; [lia|apply cntl_pos]. }
      destruct (decref_ok i s3 _ A3) as (s4 & E4 & (B1 & B2 & B3 & B4) & H4 & A4).
      { cbn beta. specialize (Z3 i). rewrite one_same. assert (Z := a_ext _ _ _ A i). assert (Z' := one_pos q i). lia. }
      erewrite bind_at by exact E4.
      destruct (decref_ok q s4 _ A4) as (s5 & E5 & (D1 & D2 & D3 & D4) & H5 & A5).
      { cbn beta. specialize (Z3 q). lia. }
      erewrite bind_at by exact E5.
      assert (L23 : (s_next s2 <= s_next s3)%nat) by apply C3.
      assert (ST35 : stable s2 s5).
      { apply stable_shrinks; [|lia]. eapply shrinks_trans; [exact H3|]. eapply shrinks_trans; eauto. }
      assert (ST05 : stable s s5) by (eapply stable_trans; eauto).
      assert (C05 : changed s s5 t t3).
      { eapply changed_trans; [apply (changed_rest s s2 t T); [congruence|lia]|]. eapply changed_trans; [exact C3|].
        apply changed_rest; [apply C3|congruence|lia]. }
      assert (A5' : sacc s5 (fun x => ext x + if r then 0 else cntl x (leak (forget t) (fst (given s q)) (snd (given s q))))%Z).
      { eapply sacc_eq; [exact A5|]. intros x. rewrite G. cbn [fst snd]. destruct r; lia. }
      assert (Y3' : r = false -> c_add (forget t) (fst (given s q)) = Some (forget t3)) by (intros Er; rewrite G; cbn [fst]; now apply Y3).
      assert (U3 : r = false -> full t -> full t3) by (intros Er; now apply Y3).
      destruct r.
      + exists true, s5, t3, [], (q :: qts), (forget t). split; [reflexivity|]. split; auto. split; auto. split; [congruence|].
        split; auto. split; [discriminate|]. split; [reflexivity|]. split; [eapply sacc_eq; [exact A5'|]; intros x; cbn; lia|].
        intros _. destruct (N3 eq_refl) as [F|[(x & J & F)|F]]; auto.
        * right. left. eapply (any_not_str_back s s2 ext); [exact HT|exact A|exact F2|exact ST02|].
          exists q, x, p2. split; [now left|]. auto.
        * right. right. cbn [map c_adds]. rewrite G. cbn [fst]. now rewrite F.
      + assert (LE : forall x, (ext x <= ext x + cntl x (leak (forget t) (fst (given s q)) (snd (given s q))))%Z).
        { intros x. assert (Z := cntl_pos x (leak (forget t) (fst (given s q)) (snd (given s q)))). lia. }
        assert (HTq : has_types s ext qts).
        { destruct HT as ((q0 & p0 & P0 & E0 & I0) & K). split.
          - exists q0, p0. split; auto. split; auto. intros y J. apply I0. now right.
          - intros x p0' J. apply K. now right. }
        assert (HT5 := has_types_keep _ _ _ _ _ HTq A A5' ST05 LE). assert (T5 : tree s5 t3) by apply C05.
        assert (GE : forall l, incl l qts -> map (given s5) l = map (given s) l).
        { intros l I. apply map_ext_in. intros x J. eapply (has_types_same s s5 ext _ qts); eauto. }
        destruct (IH t3 s5 _ T5 A5' HT5) as (r' & s6 & t6 & qs1 & qs2 & n1 & E6 & C6 & ST6 & R6 & Eq & F6 & Y6 & A6 & N6).
        replace (groot t3) with (groot t) in E6 by (symmetry; apply C05).
        rewrite E6. exists r', s6, t6, (q :: qs1), qs2, n1. split; [reflexivity|]. split; [eapply changed_trans; eauto|].
        split; [eapply stable_trans; eauto|]. split; [congruence|]. split; [cbn; congruence|]. split; [intros Er; destruct (F6 Er) as (V1 & V2 & V3); auto|].
        rewrite GE in Y6, A6 by (rewrite Eq; apply incl_appl, incl_refl). rewrite GE in N6 by apply incl_refl.
        specialize (Y3' eq_refl). split; [|split].
        * cbn [map c_adds]. rewrite Y3'. exact Y6.
        * eapply sacc_eq; [exact A6|]. intros x. cbn [map leak_all].
          destruct (given s q) as [tx sg] eqn:Gq. cbn [fst snd] in *. rewrite Y3', cntl_app. lia.
        * intros Er. destruct (N6 Er) as [F|[F|F]]; auto.
          -- right. left. eapply any_not_str_back in F; [|exact HTq|exact A|exact A5'|exact ST05].
             destruct F as (q0 & x & p0 & I0 & Q). exists q0, x, p0. split; [now right|auto].
          -- right. right. cbn [map c_adds]. rewrite Y3'. exact F.
  Qed.

  (** _csubscription.c:287-331 *)
  Lemma new_spec : forall s ts ext q p, world s ts -> sacc s ext -> (1 <= ext q)%Z -> s_objs s q = Some p -> o_kind p = KSeq ->
    (forall x p', In x (o_items p) -> s_objs s x = Some p' -> o_kind p' = KTup) ->
    exists r s' qs1 qs2 n1, subscription_new ok q s = Some (r, s') /\ stable s s' /\ s_stars s' = s_stars s /\
      o_items p = qs1 ++ qs2 /\ c_create (map fst (map (given s) qs1)) = Some n1 /\
      sacc s' (fun x => ext x + cntl x (leak_all (CNode false false []) (map (given s) qs1)))%Z /\
      match r with
      | Some a => qs2 = [] /\ exists t, groot t = a /\ forget t = n1 /\ full t /\ world s' (ts ++ [t])
      | None => world s' ts /\ (fails \/ any_not_str s (o_items p) \/ c_create (map fst (map (given s) (o_items p))) = None)
      end.
  Proof.
    intros s ts ext q p W A P E K Kt. unfold subscription_new.
    destruct (get_iter_spec ok s ext q p A E) as (pi & s1 & E1 & Q1 & Q2 & ST1 & F1). { rewrite K. cbn. lia. }
    erewrite bind_at by exact E1.
    assert (L01 : (s_next s <= s_next s1)%nat) by apply ST1.
    destruct pi as [i|].
    2:{ destruct F1 as (F & A1). exists None, s1, [], (o_items p), (CNode false false []). split; [reflexivity|]. split; auto. split; auto.
        split; auto. split; [reflexivity|]. split; [eapply sacc_eq; [exact A1|]; intros x; cbn; lia|].
        split; [eapply world_rest; eauto|auto]. }
    assert (W1 : world s1 ts) by (eapply world_rest; eauto).
    assert (PI : forall e, (0 <= e i)%Z -> (1 <= e i + one i i)%Z) by (intros; rewrite one_same; lia).
    unfold alloc. unfold bind at 1 2. unfold may_fail. destruct (ok (s_tries s1)) eqn:O1.
    2:{ set (s2 := Sst (s_heap s1) (s_objs s1) (s_next s1) (S (s_tries s1)) (s_stars s1)). cbn [ret].
        assert (A2 : sacc s2 (fun x => ext x + one i x)%Z) by exact F1.
        destruct (decref_ok i s2 _ A2) as (s3 & E3 & (R1 & R2 & R3 & R4) & H3 & A3). { apply PI. apply (a_ext _ _ _ A). }
        erewrite bind_at by exact E3. exists None, s3, [], (o_items p), (CNode false false []). split; [reflexivity|].
        split; [eapply stable_trans; [exact ST1|]; eapply stable_trans; [apply (stable_same s1 s2); auto|]; apply stable_shrinks; auto; cbn in *; lia|].
        split; [cbn in *; congruence|]. split; auto. split; [reflexivity|].
        split; [eapply sacc_eq; [exact A3|]; intros x; cbn; lia|].
        split; [|left; exists (s_tries s1); auto]. eapply world_rest; [exact W1|cbn in *; congruence|cbn in *; lia]. }
    cbn [s_next s_heap s_objs s_tries s_stars].
    set (s2 := Sst _ _ _ _ _). set (t0 := GT (s_next s1) false false None []).
    assert (W2 : world s2 (ts ++ [t0])) by (apply (world_new s1); auto).
    assert (A2 : sacc s2 (fun x => ext x + one i x)%Z) by (eapply sacc_next; [exact F1|auto|cbn; lia]).
    assert (ST2 : stable s s2) by (eapply stable_trans; [exact ST1|]; apply stable_same; auto; cbn; lia).
    assert (Pq : (1 <= ext q + one i q)%Z) by (assert (Z := one_pos i q); lia).
    destruct (stable_at s s2 _ _ q p ST2 A E A2 Pq) as (p2 & Ep2 & K2 & I2).
    unfold items_of. erewrite bind_at by (unfold bind, load_obj; rewrite Ep2; reflexivity).
    assert (LE : forall x, (ext x <= ext x + one i x)%Z) by (intros x; assert (Z := one_pos i x); lia).
    assert (HT : has_types s ext (o_items p)).
    { split; [exists q, p; split; auto; split; auto; apply incl_refl|]. intros x p' J Ex. eapply Kt; eauto. }
    assert (HT2 := has_types_keep _ _ _ _ _ HT A A2 ST2 LE).
    rewrite I2. assert (T2 : tree s2 t0) by (eapply world_tree; exact W2).
    destruct (loop_spec (o_items p) t0 s2 _ T2 A2 HT2) as (r & s3 & t3 & qs1 & qs2 & n1 & E3 & C3 & ST3 & R3 & Eq & F3 & Y3 & A3 & N3).
    assert (GE : forall l, incl l (o_items p) -> map (given s2) l = map (given s) l).
    { intros l I. apply map_ext_in. intros x J. eapply (has_types_same s s2 ext _ (o_items p)); eauto. }
    rewrite GE in Y3, A3 by (rewrite Eq; apply incl_appl, incl_refl). rewrite GE in N3 by apply incl_refl.
    change (s_next s1) with (groot t0). erewrite bind_at by exact E3.
    assert (W3 : world s3 (ts ++ [t3])) by (eapply world_changed; eauto).
    set (lk := leak_all (forget t0) (map (given s) qs1)) in *.
    assert (Pi3 : (1 <= ext i + one i i + cntl i lk)%Z).
    { rewrite one_same. assert (Z := a_ext _ _ _ A i). assert (Z' := cntl_pos i lk). lia. }
    destruct r.
    - assert (Er : groot t0 = groot t3) by (symmetry; apply C3). rewrite Er.
      destruct (dealloc_spec s3 ts t3 [] W3) as (s4 & E4 & W4 & (O4 & O5 & O6 & O7)). erewrite bind_at by exact E4.
      rewrite app_nil_r in W4. assert (A4 : sacc s4 (fun x => ext x + one i x + cntl x lk)%Z) by (eapply sacc_next; [exact A3|auto|lia]).
      destruct (decref_ok i s4 _ A4 Pi3) as (s5 & E5 & (D1 & D2 & D3 & D4) & H5 & A5). erewrite bind_at by exact E5.
      exists None, s5, qs1, qs2, n1. split; [reflexivity|].
      split; [eapply stable_trans; [exact ST2|]; eapply stable_trans; [exact ST3|]; apply stable_shrinks; [rewrite <- O4; auto|lia]|].
      split; [cbn in *; congruence|]. split; auto. split; [exact Y3|].
      split; [eapply sacc_eq; [exact A5|]; intros x; cbn beta; unfold lk; cbn [forget t0 map]; lia|].
      split; [eapply world_rest; [exact W4|congruence|lia]|].
      destruct (N3 eq_refl) as [F|[F|F]]; auto. right. left. eapply any_not_str_back; [exact HT|exact A|exact A2|exact ST2|exact F].
    - destruct (F3 eq_refl) as (-> & Ff & Fu).
      destruct (decref_ok i s3 _ A3 Pi3) as (s5 & E5 & (D1 & D2 & D3 & D4) & H5 & A5). erewrite bind_at by exact E5.
      exists (Some (groot t0)), s5, qs1, [], n1. split; [reflexivity|].
      split; [eapply stable_trans; [exact ST2|]; eapply stable_trans; [exact ST3|]; apply stable_shrinks; auto; lia|].
      split; [cbn in *; congruence|]. split; auto. split; [exact Y3|].
      split; [eapply sacc_eq; [exact A5|]; intros x; cbn beta; unfold lk; cbn [forget t0 map]; lia|].
      split; auto. exists t3. split; [apply C3|]. split; auto. split; [apply Fu, full_kids; split; [congruence|constructor]|]. eapply world_rest; [exact W3|congruence|lia].
  Qed.
End New.
