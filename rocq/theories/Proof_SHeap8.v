(** Proofs about the memory of the C subscription: a program that uses
    subscriptions. *)
From Coq Require Import String Bool Arith ZArith Lia List.
From Verif Require Import Base Model_Types Model_Subscription Model_SHeap Spec_Subscription Spec_SHeap
  Proof_Subscription Proof_Subscription2 Proof_SHeap Proof_SHeap2 Proof_SHeap3 Proof_SHeap4 Proof_SHeap5 Proof_SHeap6 Proof_SHeap7.
Import ListNotations.
Open Scope string_scope.
Open Scope list_scope.

Lemma leak_in : forall q n segs x, In x (leak n q segs) -> In x segs.
Proof.
  induction q as [|k q IH]; intros [l s ch] segs x I; destruct s; cbn [leak] in I; try destruct I.
  destruct segs as [|y segs]; [destruct I|]. destruct (c_is_star k).
  - destruct q; [|destruct I]. destruct I as [<-|[]]. now left.
  - right. eapply IH. exact I.
Qed.
Lemma leak_all_in : forall qs n x, In x (leak_all n qs) -> In x (flat_map snd qs).
Proof.
  induction qs as [|[q segs] qs IH]; intros n x I; cbn [leak_all] in I; [destruct I|]. cbn [flat_map snd]. rewrite in_app_iff in *.
  destruct I as [I|I]; [left; eapply leak_in; eauto|]. destruct (c_add n q); [|destruct I]. right. eapply IH. exact I.
Qed.

Lemma split_nth : forall A B (f : A -> B) l i b, nth_error (map f l) i = Some b ->
  exists l1 x l2, l = l1 ++ x :: l2 /\ length l1 = i /\ f x = b.
Proof.
  induction l as [|a l IH]; intros [|i] b E; try discriminate E.
  - injection E as <-. exists [], a, l. auto.
  - destruct (IH i b E) as (l1 & x & l2 & -> & L & Q). exists (a :: l1), x, l2. cbn. auto.
Qed.
Lemma firstn_at : forall A (l1 : list A) x l2, firstn (length l1) (l1 ++ x :: l2) = l1.
Proof. intros. rewrite firstn_app, Nat.sub_diag, firstn_all. cbn. apply app_nil_r. Qed.
Lemma skipn_at : forall A (l1 : list A) x l2, skipn (S (length l1)) (l1 ++ x :: l2) = l2.
Proof. induction l1 as [|a l1 IH]; intros x l2; [reflexivity|exact (IH x l2)]. Qed.
Lemma nth_map_at : forall A B (f : A -> B) l1 x l2, nth_error (map f (l1 ++ x :: l2)) (length l1) = Some (f x).
Proof. induction l1; intros; cbn; auto. Qed.

Section Calls.
  Variable ok okt : nat -> bool.
  Notation fails := (fails ok).
  Hypothesis okt_all : forall i, okt i = true.
  Variable s0 : sst.
  Variable ext0 : addr -> Z.
  Hypothesis counted : sacc s0 ext0.

  (** The subscriptions are in memory and references to [lk] are lost. *)
  Definition inv (s : sst) (ts : list gtree) (lk : list addr) : Prop :=
    world s ts /\ Forall full ts /\ stable s0 s /\ sacc s (fun x => ext0 x + cntl x lk)%Z /\ forall x, In x lk -> s_objs s0 x <> None.

  Lemma inv_same : forall s s' ts lk, inv s ts lk -> s_heap s' = s_heap s -> stable s s' -> sacc s' (fun x => ext0 x + cntl x lk)%Z -> inv s' ts lk.
  Proof.
    intros s s' ts lk (W & F & ST & A & L) H ST' A'. split; [eapply world_rest; [exact W|auto|apply ST']|]. split; auto.
    split; [eapply stable_trans; eauto|]. auto.
  Qed.

  Lemma inv_tree : forall s ts lk i a, inv s ts lk -> nth_error (map groot ts) i = Some a ->
    exists t, nth_error (map forget ts) i = Some (forget t) /\ groot t = a /\ tree s t /\ full t.
  Proof.
    intros s ts lk i a (W & F & _) E. destruct (split_nth _ _ _ _ _ _ E) as (ts1 & t & ts2 & -> & <- & Q). exists t.
    split; [apply nth_map_at|]. split; auto. split; [eapply world_tree; exact W|]. apply Forall_app in F. destruct F as [_ F]. now inversion F.
  Qed.
  Lemma inv_none : forall A B (f : gtree -> A) (g : gtree -> B) ts i, nth_error (map f ts) i = None -> (length (map g ts) <= i)%nat.
  Proof. intros A B f g ts i E. apply nth_error_None in E. rewrite map_length in *. exact E. Qed.
  Lemma nth_some : forall A (l : list A) i x, nth_error l i = Some x -> (i < length l)%nat.
  Proof. intros A l i x E. apply nth_error_Some. congruence. Qed.

  Lemma new_call : forall s ts lk q, inv s ts lk -> passes s0 ext0 (SNew q) ->
    exists x ts' s' lk', call ok okt (map groot ts) (SNew q) s = Some ((x, map groot ts'), s') /\ inv s' ts' (lk ++ lk') /\
      outcome fails s0 (map forget ts) (SNew q) x (map forget ts') lk'.
  Proof.
    intros s ts lk q (W & F & ST & A & L) (Pq & (p0 & E0 & K0) & Kt). cbn [call].
    assert (SG : segs_of s0 q = o_items p0) by (unfold segs_of; now rewrite E0).
    assert (P : (1 <= ext0 q + cntl q lk)%Z) by (assert (Z := cntl_pos q lk); lia).
    destruct (stable_at s0 s _ _ q p0 ST counted E0 A P) as (p & E & K & I).
    assert (HT : has_types s0 ext0 (o_items p)).
    { split; [exists q, p0; rewrite I; split; auto; split; auto; apply incl_refl|]. intros x p' J Ex. rewrite I, <- SG in J.
      destruct (Kt x J) as (p1 & E1 & K1). congruence. }
    assert (LE : forall x, (ext0 x <= ext0 x + cntl x lk)%Z) by (intros x; assert (Z := cntl_pos x lk); lia).
    assert (HT1 := has_types_keep _ _ _ _ _ HT counted A ST LE).
    assert (GE : forall l, incl l (o_items p) -> map (given s) l = map (given s0) l).
    { intros l Il. apply map_ext_in. intros x J. eapply (has_types_same s0 s ext0 _ (o_items p)); eauto. }
    destruct (new_spec ok s ts _ q p W A P E) as (r & s' & qs1 & qs2 & n1 & E1 & ST1 & R1 & Eq & Y1 & A1 & F1); [congruence| |].
    { intros x p' J Ex. eapply HT1; eauto. }
    erewrite bind_at by exact E1.
    rewrite GE in Y1, A1 by (rewrite Eq; apply incl_appl, incl_refl).
    set (lk' := leak_all (CNode false false []) (map (given s0) qs1)) in *.
    assert (CT : container s0 q = map (given s0) (qs1 ++ qs2)) by (unfold container; rewrite SG, <- I, Eq; reflexivity).
    assert (Lv : forall x, In x (flat_map snd (container s0 q)) -> s_objs s0 x <> None).
    { intros x J. unfold container in J. rewrite SG in J. apply in_flat_map in J. destruct J as (e & J & J'). apply in_map_iff in J. destruct J as (y & <- & J).
      destruct (a_item _ _ _ counted _ _ _ E0 J) as (py & Ey & _). cbn [given snd] in J'. unfold segs_of in J'. rewrite Ey in J'.
      destruct (a_item _ _ _ counted _ _ _ Ey J') as (px & Ex & _). congruence. }
    assert (LST : lk' = lost [] (map (given s0) qs1) 0).
    { unfold lk'. eapply leak_all_lost; [exact Y1| |].
      - intros e J. apply in_map_iff in J. destruct J as (y & <- & J). cbn [given fst snd]. unfold type_of, segs_of.
        destruct (s_objs s0 y); auto. now rewrite map_length.
      - intros q0. cbn [existsb]. apply covered_empty. }
    assert (IN : forall x, In x (lk ++ lk') -> s_objs s0 x <> None).
    { intros x J. apply in_app_iff in J. destruct J as [J|J]; auto. apply leak_all_in in J. apply Lv. rewrite CT, map_app, flat_map_app, in_app_iff. auto. }
    assert (A1' : sacc s' (fun x => ext0 x + cntl x (lk ++ lk'))%Z) by (eapply sacc_eq; [exact A1|]; intros x; cbn beta; rewrite cntl_app; lia).
    destruct r as [a|].
    - destruct F1 as (-> & t & <- & Ft & Fu & W1). rewrite app_nil_r in CT. exists RNew, (ts ++ [t]), s', lk'. rewrite !map_app. cbn [map].
      split; [reflexivity|]. split.
      + split; auto. split; [apply Forall_app; split; auto|]. split; [eapply stable_trans; eauto|]. auto.
      + rewrite LST, Ft, <- CT. apply o_new. now rewrite CT.
    - destruct F1 as (W1 & F1). exists RRaised, ts, s', lk'. split; [reflexivity|]. split.
      + split; auto. split; auto. split; [eapply stable_trans; eauto|]. auto.
      + rewrite LST. apply (o_new_raised _ _ _ q _ (map (given s0) qs2)); [now rewrite CT, map_app|rewrite Y1; discriminate|].
        rewrite GE in F1 by apply incl_refl. rewrite CT, <- Eq. destruct F1 as [F1|[F1|F1]]; auto.
        right. left. intros AS. eapply any_not_str_back in F1; [|exact HT|exact counted|exact A|exact ST].
        destruct F1 as (y & x & py & J & Ey & Jx & px & Ex & Nx).
        destruct (AS x) as (px' & t & Ex' & Kx).
        { apply in_flat_map. exists (given s0 y). split; [now apply in_map|]. cbn [given snd]. unfold segs_of. now rewrite Ey. }
        rewrite Ex in Ex'. injection Ex' as <-. exact (Nx t Kx).
  Qed.

  Lemma call_spec : forall s ts lk c, inv s ts lk -> passes s0 ext0 c ->
    exists x ts' s' lk', call ok okt (map groot ts) c s = Some ((x, map groot ts'), s') /\ inv s' ts' (lk ++ lk') /\
      outcome fails s0 (map forget ts) c x (map forget ts') lk'.
  Proof.
    intros s ts lk [q|i|i|i t|i j] V P; [now apply new_call|..]; cbn [call].
    - destruct (nth_error (map groot ts) i) as [a|] eqn:E.
      + assert (LT := nth_some _ _ _ _ E). rewrite map_length in LT.
        destruct (split_nth _ _ _ _ _ _ E) as (ts1 & t & ts2 & -> & <- & <-). destruct V as (W & F & ST & A & L).
        destruct (dealloc_spec s ts1 t ts2 W) as (s1 & E1 & W1 & (O1 & O2 & O3 & O4)). erewrite bind_at by exact E1.
        exists RDropped, (ts1 ++ ts2), s1, []. split; [|split].
        * rewrite !map_app. cbn [map]. rewrite <- (map_length groot ts1) at 1 2. rewrite firstn_at, skipn_at. reflexivity.
        * rewrite app_nil_r. split; auto. split; [apply Forall_app; apply Forall_app in F; destruct F as [F1 F2]; inversion F2; auto|].
          split; [eapply stable_trans; [exact ST|]; apply stable_same; auto; lia|]. split; auto. eapply sacc_next; [exact A|auto|lia].
        * replace (map forget (ts1 ++ ts2)) with (firstn (length ts1) (map forget (ts1 ++ t :: ts2)) ++ skipn (S (length ts1)) (map forget (ts1 ++ t :: ts2))).
          { apply o_drop. now rewrite map_length. }
          rewrite !map_app. cbn [map]. rewrite <- (map_length forget ts1) at 1 2. now rewrite firstn_at, skipn_at.
      + exists RNothing, ts, s, []. rewrite app_nil_r. split; [reflexivity|]. split; auto. apply o_nothing. eapply inv_none; eauto.
    - destruct (nth_error (map groot ts) i) as [a|] eqn:E.
      + destruct (inv_tree _ _ _ _ _ V E) as (t & En & <- & T & Fu).
        destruct (sub_get_spec ok okt okt_all t s (fun x => ext0 x + cntl x lk)%Z T) as (r & s1 & E1 & H1 & ST1 & F1); [apply V|].
        erewrite bind_at by exact E1. destruct r as [d|].
        * destruct F1 as (A1 & Ld & Ty). destruct (decref_ok d s1 _ A1) as (s2 & E2 & (Q1 & Q2 & Q3 & Q4) & H2 & A2).
          { rewrite one_same. assert (Z : (0 <= ext0 d + cntl d lk)%Z) by (apply (a_ext _ _ _ (proj1 (proj2 (proj2 (proj2 V)))))). lia. }
          erewrite bind_at by exact E2. rewrite Ty. exists (RTypes (c_query_types (forget t))), ts, s2, []. rewrite app_nil_r.
          split; [reflexivity|]. split; [|now apply o_get]. eapply inv_same; [exact V|congruence| |].
          -- eapply stable_trans; [exact ST1|]. apply stable_shrinks; auto. lia.
          -- eapply sacc_eq; [exact A2|]. intros x. cbn beta. lia.
        * destruct F1 as (A1 & F1). exists RRaised, ts, s1, []. rewrite app_nil_r. split; [reflexivity|].
          split; [eapply inv_same; eauto|]. apply o_get_raised; auto. eapply nth_some; eauto.
      + exists RNothing, ts, s, []. rewrite app_nil_r. split; [reflexivity|]. split; auto. apply o_nothing. eapply inv_none; eauto.
    - destruct (nth_error (map groot ts) i) as [a|] eqn:E.
      + destruct (inv_tree _ _ _ _ _ V E) as (tr & En & <- & T & Fu). cbn [passes] in P.
        assert (V0 := V). destruct V0 as (W & F & ST & A & L).
        destruct (acc_live _ _ _ t counted P) as (p0 & E0).
        assert (P1 : (1 <= ext0 t + cntl t lk)%Z) by (assert (Z := cntl_pos t lk); lia).
        destruct (stable_at s0 s _ _ t p0 ST counted E0 A P1) as (p & Ep & K & I).
        destruct (sub_matches_spec ok tr s t p T Ep) as (r & s1 & E1 & (Q1 & Q2 & Q3 & Q4) & F1).
        { intros x J. destruct (a_item _ _ _ A _ _ _ Ep J) as (px & Ex & _). eauto. }
        erewrite bind_at by exact E1.
        assert (V1 : inv s1 ts lk).
        { eapply inv_same; [exact V|auto| |]; [apply stable_same; auto; lia|eapply sacc_next; [exact A|auto|lia]]. }
        assert (TY : type_of s t = type_of s0 t) by (eapply type_same; [exact ST|exact counted|exact A|exact E0|exact Ep|exact I]).
        eexists _, ts, s1, []. split; [reflexivity|]. rewrite app_nil_r. split; auto. destruct r as [b|].
        * destruct F1 as (K1 & ->). rewrite TY. apply o_matches; auto. exists p0. split; congruence.
        * apply o_matches_raised; [eapply nth_some; eauto|]. destruct F1 as [F1|[F1|(x & J & px & Ex & Nx)]]; auto.
          -- right. left. intros (p1 & Ep1 & K1). apply F1. congruence.
          -- right. right. intros AS. rewrite I in J. destruct (AS x) as (px0 & tx & Ex0 & Kx); [unfold segs_of; now rewrite E0|].
             destruct (proj2 ST x px (a_lt _ _ _ counted x ltac:(congruence)) Ex) as (px1 & Ex1 & Kx1 & _).
             apply (Nx tx). congruence.
      + exists RNothing, ts, s, []. rewrite app_nil_r. split; [reflexivity|]. split; auto. apply o_nothing. eapply inv_none; eauto.
    - destruct (nth_error (map groot ts) i) as [a|] eqn:Ei.
      2:{ exists RNothing, ts, s, []. rewrite app_nil_r. split; [reflexivity|]. split; auto. apply o_nothing. left. eapply inv_none; eauto. }
      destruct (nth_error (map groot ts) j) as [b|] eqn:Ej.
      2:{ exists RNothing, ts, s, []. rewrite app_nil_r. split; [reflexivity|]. split; auto. apply o_nothing. right. eapply inv_none; eauto. }
      destruct (inv_tree _ _ _ _ _ V Ei) as (t1 & En1 & <- & T1 & Fu1). destruct (inv_tree _ _ _ _ _ V Ej) as (t2 & En2 & <- & T2 & Fu2).
      erewrite bind_at by (apply sub_disjoint_spec; auto). eexists _, ts, s, []. split; [reflexivity|]. rewrite app_nil_r. split; auto.
      now apply o_disjoint.
  Qed.

  Lemma calls_spec : forall cs s ts lk, inv s ts lk -> Forall (passes s0 ext0) cs ->
    exists xs ts' s' lk', calls ok okt (map groot ts) cs s = Some ((xs, map groot ts'), s') /\ inv s' ts' (lk ++ lk') /\
      outcomes fails s0 (map forget ts) cs xs (map forget ts') lk'.
  Proof.
    induction cs as [|c cs IH]; intros s ts lk V P; cbn [calls].
    - exists [], ts, s, []. rewrite app_nil_r. split; [reflexivity|]. split; auto. constructor.
    - inversion P; subst. destruct (call_spec s ts lk c V H1) as (x & ts1 & s1 & l1 & E1 & V1 & O1). erewrite bind_at by exact E1. cbv beta iota.
      destruct (IH s1 ts1 _ V1 H2) as (xs & ts2 & s2 & l2 & E2 & V2 & O2). erewrite bind_at by exact E2. cbv beta iota.
      exists (x :: xs), ts2, s2, (l1 ++ l2). split; [reflexivity|]. rewrite app_assoc. split; auto. econstructor; eauto.
  Qed.
End Calls.

Section Final.
  Variable ok okt : nat -> bool.
  Notation fails := (fails ok).

  Lemma main : forall s ext cs, (forall i, okt i = true) -> sacc s ext -> (forall x, s_heap s x = None) -> Forall (passes s ext) cs ->
    exists xs subs s' ns lk, calls ok okt [] cs s = Some ((xs, subs), s') /\ outcomes fails s [] cs xs ns lk /\
      length subs = length ns /\ counts_more s s' lk /\ (ns = [] -> forall x, s_heap s' x = None).
  Proof.
    intros s ext cs OK A H P.
    assert (V : inv s ext s [] []).
    { split; [constructor; [constructor|constructor|intros x Q; rewrite H in Q; congruence|intros x Q; rewrite H in Q; congruence]|].
      split; [constructor|]. split; [apply stable_refl|]. split; [|intros x []]. eapply sacc_eq; [exact A|]. intros x. cbn. lia. }
    destruct (calls_spec ok okt OK s ext A cs s [] [] V P) as (xs & ts & s' & lk & E & (W & F & ST & A' & L) & O). cbn [app] in *.
    exists xs, (map groot ts), s', (map forget ts), lk. split; auto. split; auto. split; [now rewrite !map_length|]. split.
    - intros x. apply (acc_unique (s_objs s) (s_next s) ext (s_objs s') (s_next s') (fun x => cntl x lk)); auto.
      + apply ST.
      + intros y. apply cntl_pos.
      + intros y N. apply cntl_notin. intros I. exact (L y I N).
      + intros y p p' Ep Ep'. destruct (proj2 ST y p' (a_lt _ _ _ A y ltac:(congruence)) Ep') as (p2 & E2 & K & I). rewrite Ep in E2. injection E2 as <-. auto.
    - intros N. assert (ts = []) by (destruct ts; auto; discriminate). subst ts. intros x. destruct (s_heap s' x) eqn:Q; auto.
      exfalso. apply (w_all _ _ W x). congruence.
  Qed.

  Lemma outcome_expected : forall s ns c x ns' lk, outcome False s ns c x ns' lk -> well_typed s c -> (x, ns') = expected s ns c.
  Proof.
    intros s ns c x ns' lk O T. destruct O; cbn [well_typed expected] in *.
    - now rewrite H.
    - destruct H1 as [[]|[H1|H1]]; [contradiction|]. now rewrite H1.
    - apply Nat.ltb_lt in H. now rewrite H.
    - now rewrite H.
    - contradiction.
    - now rewrite H.
    - destruct H0 as [[]|[H0|H0]]; tauto.
    - now rewrite H, H0.
    - destruct c; try contradiction; cbn [expected].
      + apply Nat.ltb_ge in H. now rewrite H.
      + apply nth_error_None in H. now rewrite H.
      + apply nth_error_None in H. now rewrite H.
      + destruct H as [H|H]; apply nth_error_None in H; rewrite H; auto. destruct (nth_error ns i); auto.
  Qed.
  Lemma outcomes_expected : forall s ns cs xs ns' lk, outcomes False s ns cs xs ns' lk -> Forall (well_typed s) cs -> (xs, ns') = expecteds s ns cs.
  Proof.
    intros s ns cs xs ns' lk O. induction O; intros T; cbn [expecteds]; auto. inversion T; subst.
    rewrite <- (outcome_expected _ _ _ _ _ _ H H2). rewrite <- IHO by auto. reflexivity.
  Qed.
  Lemma outcome_mono : forall (P Q : Prop) s ns c x ns' lk, (P -> Q) -> outcome P s ns c x ns' lk -> outcome Q s ns c x ns' lk.
  Proof. intros P Q s ns c x ns' lk H O. destruct O; econstructor; eauto; intuition. Qed.
  Lemma outcomes_mono : forall (P Q : Prop) s ns cs xs ns' lk, (P -> Q) -> outcomes P s ns cs xs ns' lk -> outcomes Q s ns cs xs ns' lk.
  Proof. intros P Q s ns cs xs ns' lk H O. induction O; econstructor; eauto using outcome_mono. Qed.

  Lemma final_C66_memory : forall s ext cs, (forall i, okt i = true) -> sacc s ext -> (forall x, s_heap s x = None) -> Forall (passes s ext) cs ->
    exists xs subs s', calls ok okt [] cs s = Some ((xs, subs), s') /\ length xs = length cs /\ (subs = [] -> forall x, s_heap s' x = None).
  Proof.
    intros s ext cs OK A H P. destruct (main s ext cs OK A H P) as (xs & subs & s' & ns & lk & E & O & L & C & N).
    exists xs, subs, s'. split; auto. split.
    - clear - O. induction O; cbn [length]; congruence.
    - intros ->. apply N. destruct ns; auto. discriminate.
  Qed.

  Lemma final_C66_answers : forall s ext cs xs subs s', (forall i, okt i = true) -> sacc s ext -> (forall x, s_heap s x = None) ->
    Forall (passes s ext) cs -> calls ok okt [] cs s = Some ((xs, subs), s') ->
    exists ns lk, outcomes (exists i, ok i = false) s [] cs xs ns lk /\ length subs = length ns /\ counts_more s s' lk.
  Proof.
    intros s ext cs xs subs s' OK A H P E. destruct (main s ext cs OK A H P) as (xs' & subs' & s1 & ns & lk & E' & O & L & C & N).
    rewrite E in E'. injection E' as <- <- <-. exists ns, lk. auto.
  Qed.

  Lemma final_C66_exact : forall s ext cs, (forall i, ok i = true) -> (forall i, okt i = true) -> sacc s ext -> (forall x, s_heap s x = None) ->
    Forall (passes s ext) cs -> Forall (well_typed s) cs ->
    exists subs s', calls ok okt [] cs s = Some ((fst (expecteds s [] cs), subs), s') /\ length subs = length (snd (expecteds s [] cs)).
  Proof.
    intros s ext cs OK OKT A H P T. destruct (main s ext cs OKT A H P) as (xs & subs & s' & ns & lk & E & O & L & C & N).
    exists subs, s'. assert (X : (xs, ns) = expecteds s [] cs).
    { eapply outcomes_expected; [|exact T]. eapply outcomes_mono; [|exact O]. intros (i & F). rewrite OK in F. discriminate. }
    rewrite <- X. auto.
  Qed.

  Lemma lost_none : forall (qs : list (etype * list addr)) seen d, (forall e, In e qs -> star_prefix (fst e) = None) -> lost seen qs d = [].
  Proof.
    induction qs as [|[q segs] qs IH]; intros seen d H; cbn [lost]; auto. assert (Hq := H (q, segs) (or_introl eq_refl)). cbn [fst] in Hq. rewrite Hq.
    apply IH. intros e I. apply H. now right.
  Qed.

  Lemma final_C66_references : forall s ext cs xs subs s', (forall i, okt i = true) -> sacc s ext -> (forall x, s_heap s x = None) ->
    Forall (passes s ext) cs -> (forall q e, In (SNew q) cs -> In e (container s q) -> star_prefix (fst e) = None) ->
    calls ok okt [] cs s = Some ((xs, subs), s') -> forall x, s_objs s' x = s_objs s x.
  Proof.
    intros s ext cs xs subs s' OK A H P NS E. destruct (main s ext cs OK A H P) as (xs' & subs' & s1 & ns & lk & E' & O & L & C & N).
    rewrite E in E'. injection E' as <- <- <-.
    assert (Z : lk = []).
    { clear - O NS. induction O; auto. rewrite IHO by (intros; eapply NS; [right|]; eauto). rewrite app_nil_r.
      destruct H; auto.
      - apply lost_none. intros e I. eapply NS; [now left|exact I].
      - apply lost_none. intros e I. eapply NS; [now left|]. rewrite H. apply in_app_iff. now left. }
    intros x. rewrite C, Z. destruct (s_objs s x) as [[k i r]|]; auto. cbn. now rewrite Z.add_0_r.
  Qed.

  Lemma final_C66_matches : forall s ext q t b subs s', (forall i, okt i = true) -> sacc s ext -> (forall x, s_heap s x = None) ->
    passes s ext (SNew q) -> (1 <= ext t)%Z -> Forall no_nuls (map fst (container s q)) ->
    calls ok okt [] [SNew q; SMatches 0 t] s = Some (([RNew; RBool b], subs), s') ->
    (b = true <-> selects (map fst (container s q)) (type_of s t)).
  Proof.
    intros s ext q t b subs s' OK A H P Pt NN E.
    destruct (main s ext [SNew q; SMatches 0 t] OK A H) as (xs' & subs' & s1 & ns & lk & E' & O & _). { repeat constructor; auto; apply P. }
    rewrite E in E'. injection E' as <- <- <-.
    inversion O as [|? ? ? ? ? ? ? ? ? O1 O2]; subst. inversion O1; subst.
    inversion O2 as [|? ? ? ? ? ? ? ? ? O3 O4]; subst. inversion O3; subst.
    match goal with H : nth_error _ 0 = Some _ |- _ => cbn in H; injection H as <- end.
    match goal with H : c_create _ = Some _ |- _ => rename H into CC end.
    assert (F := final_C06 _ NN). rewrite CC in F. destruct (py_create (map fst (container s q))) as [m|] eqn:PC; [|destruct F].
    destruct F as (F & _). rewrite F. apply (proj2 (final_C01 _) m PC).
  Qed.
End Final.

(** ** A concrete program *)

Definition objs66 : list pobj :=
  [PObj (KStr "a") [] 2; PObj (KStr "*") [] 1; PObj (KStr "b") [] 2; PObj KTup [0; 1] 1; PObj KTup [2] 3; PObj KTup [0; 2] 2;
   PObj KSeq [4; 3] 1; PObj KSeq [4; 5] 1]%nat.
Definition s66 : sst := Sst (fun _ => None) (nth_error objs66) 8 0 0.
Definition ext66 (x : addr) : Z := if Nat.eqb x 4 || Nat.eqb x 5 || Nat.eqb x 6 || Nat.eqb x 7 then 1%Z else 0%Z.

Lemma s66_counted : sacc s66 ext66.
Proof.
  constructor; cbn [s66 s_objs s_next].
  - intros x H. apply nth_error_Some in H. exact H.
  - intros x p E. destruct x as [|[|[|[|[|[|[|[|x]]]]]]]]; [injection E as <-|injection E as <-|injection E as <-|injection E as <-|injection E as <-|injection E as <-|injection E as <-|injection E as <-|destruct x; discriminate E]; reflexivity.
  - intros x p E. destruct x as [|[|[|[|[|[|[|[|x]]]]]]]]; [injection E as <-|injection E as <-|injection E as <-|injection E as <-|injection E as <-|injection E as <-|injection E as <-|injection E as <-|destruct x; discriminate E]; cbn; lia.
  - intros x p y E I. destruct x as [|[|[|[|[|[|[|[|x]]]]]]]]; [injection E as <-|injection E as <-|injection E as <-|injection E as <-|injection E as <-|injection E as <-|injection E as <-|injection E as <-|destruct x; discriminate E]; cbn in I; repeat (destruct I as [<-|I]; [eexists; split; [reflexivity|cbn; lia]|]); destruct I.
  - intros x E. apply nth_error_None in E. cbn in E. unfold ext66. do 8 (destruct x as [|x]; [lia|]). reflexivity.
  - intros x. unfold ext66. destruct (_ || _); lia.
Qed.

Lemma s66_tuple : forall x, In x [3; 4; 5]%nat -> is_tuple s66 x.
Proof. intros x [<-|[<-|[<-|[]]]]; eexists; split; reflexivity. Qed.
Lemma s66_seq6 : passes s66 ext66 (SNew 6).
Proof.
  split; [cbn; lia|]. split; [eexists; split; reflexivity|]. intros x I. apply s66_tuple. cbn in *. tauto.
Qed.
Lemma s66_seq7 : passes s66 ext66 (SNew 7).
Proof.
  split; [cbn; lia|]. split; [eexists; split; reflexivity|]. intros x I. apply s66_tuple. cbn in *. tauto.
Qed.
Lemma s66_str : forall l, incl l [0; 1; 2]%nat -> all_str s66 l.
Proof. intros l H x I. apply H in I. destruct I as [<-|[<-|[<-|[]]]]; eexists; eexists; split; reflexivity. Qed.
Lemma s66_str6 : well_typed s66 (SNew 6).
Proof. apply s66_str. intros x I. cbn in *. tauto. Qed.
Lemma s66_str7 : well_typed s66 (SNew 7).
Proof. apply s66_str. intros x I. cbn in *. tauto. Qed.
Lemma s66_type : forall i, well_typed s66 (SMatches i 5) /\ well_typed s66 (SMatches i 4).
Proof.
  intros i. split; (split; [apply s66_tuple; cbn; tauto|]); apply s66_str; intros x I; cbn in *; tauto.
Qed.

Lemma final_C66_null : exists ok okt s ext cs, (forall i, ok i = true) /\ sacc s ext /\ (forall x, s_heap s x = None) /\ Forall (passes s ext) cs /\
  calls ok okt [] cs s = None.
Proof.
  exists (fun _ => true), (fun _ => false), s66, ext66, [SNew 6; SGet 0]. split; [reflexivity|]. split; [exact s66_counted|]. split; [reflexivity|].
  split; [constructor; [exact s66_seq6|repeat constructor]|]. vm_compute. reflexivity.
Qed.

Lemma final_C66_leak : exists s ext q x p, sacc s ext /\ (forall y, s_heap s y = None) /\ passes s ext (SNew q) /\
  s_objs s x = Some p /\ o_kind p = KStr "*" /\
  forall (ok okt : nat -> bool), (forall i, ok i = true) -> (forall i, okt i = true) -> forall n,
  exists xs s', calls ok okt [] (concat (repeat [SNew q; SDrop 0] n)) s = Some ((xs, []), s') /\
    s_objs s' x = Some (PObj (KStr "*") (o_items p) (o_rc p + Z.of_nat n)).
Proof.
  exists s66, ext66, 6%nat, 1%nat, (PObj (KStr "*") [] 1). split; [exact s66_counted|]. split; [reflexivity|]. split; [exact s66_seq6|].
  split; [reflexivity|]. split; [reflexivity|]. intros ok okt OK OKT n.
  destruct (main ok okt s66 ext66 (concat (repeat [SNew 6; SDrop 0] n)) OKT s66_counted) as (xs & subs & s' & ns & lk & E & O & L & C & _); [reflexivity| |].
  { apply Forall_concat. apply Forall_forall. intros l I. apply repeat_spec in I. subst l. constructor; [exact s66_seq6|repeat constructor]. }
  assert (K : forall n xs ns lk, outcomes (exists i, ok i = false) s66 [] (concat (repeat [SNew 6; SDrop 0] n)) xs ns lk ->
    ns = [] /\ cntl 1 lk = Z.of_nat n).
  { clear - OK. assert (NF : ~ exists i, ok i = false) by (intros (i & F); rewrite OK in F; discriminate).
    induction n as [|n IH]; intros xs ns lk O; cbn [repeat concat app] in O.
    - inversion O; subst. auto.
    - inversion O as [|? ? ? ? ? ? ? ? ? O1 O2]; subst. inversion O1; subst.
      + inversion O2 as [|? ? ? ? ? ? ? ? ? O3 O4]; subst. inversion O3; subst.
        * cbn [app firstn skipn] in O4. destruct (IH _ _ _ O4) as (-> & R). split; auto. rewrite !cntl_app, R.
          cbn [cntl]. replace (cntl 1 (lost [] (container s66 6) 0)) with 1%Z by reflexivity. lia.
        * match goal with H : (length _ <= 0)%nat |- _ => cbn in H; lia end.
      + match goal with H : _ \/ _ |- _ => destruct H as [H|[H|H]] end; [contradiction| |discriminate].
        exfalso. match goal with H : ~ all_str _ _ |- _ => exact (H s66_str6) end.
      + contradiction. }
  destruct (K n xs ns lk O) as (-> & R). exists xs, s'. destruct subs; [|discriminate]. split; auto. rewrite C. cbn [s66 s_objs nth_error objs66 o_kind o_items o_rc].
  now rewrite R.
Qed.
