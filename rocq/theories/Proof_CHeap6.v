(** Proofs about the memory of the C event type collection: histories. *)
From Coq Require Import String Bool Arith ZArith Lia Permutation List.
From Verif Require Import Base Model_Types Model_Subscription Model_Collection Model_CHeap Spec_Subscription Spec_Collection Spec_CHeap
  Proof_Subscription Proof_Subscription2 Proof_Collection Proof_CHeap Proof_CHeap2 Proof_CHeap3 Proof_CHeap4 Proof_CHeap5.
Import ListNotations.
Open Scope string_scope.
Open Scope list_scope.

Section CHeapColl.
  Variable V : Type.
  Variable veqb : V -> V -> bool.
  Hypothesis veqb_spec : forall a b, veqb a b = true <-> a = b.
  Variable ok : nat -> bool.

  Notation heap := (addr -> option (cell V)).
  Notation inv := (inv V veqb).
  Notation tinv := (tinv V).
  Notation rinv := (rinv V).
  Notation cinv := (cinv V veqb).
  Notation ghost := (ghost V).
  Notation rset := (rset V veqb).
  Notation freed := (freed V veqb).

  Lemma inv_R : forall s root g R R' X, inv s root g R X -> (forall v, R' v = R v) -> inv s root g R' X.
  Proof.
    intros s root g R R' X [T Rr D C] E. constructor; auto.
    - constructor; try apply Rr.
      + intros v r. rewrite E. apply Rr.
      + intros p w x v Hi. rewrite E. now apply Rr.
      + intros v r v' r' l w x l' w'. rewrite !E. apply Rr.
      + intros v. rewrite E. apply Rr.
      + intros v r. rewrite E. apply Rr.
    - intros x H. destruct (D x H) as [H0|[H0|[H0|[(v & H0)|H0]]]]; auto. right; right; right; left. exists v. now rewrite E.
  Qed.

  Lemma inv_loose : forall s s' root g R X, inv s root g R X -> freed s s' (fun x => In x X) -> inv s' root g R [].
  Proof.
    intros s s' root g R X [T Rr D C] [F1 F2 F3 F4 F5].
    assert (KX : forall x c, c_heap s x = Some c -> tkind V c = true -> ~ In x X).
    { intros x c E K Hi. destruct (r_loose _ _ _ _ _ Rr x Hi) as (? & ? & ? & E'). rewrite E in E'. injection E' as ->. discriminate. }
    constructor.
    - eapply tinv_frame; [exact T|lia|]. intros x c E K. rewrite F2; auto. eapply KX; eauto.
    - constructor; try apply Rr.
      + intros v r Hr. destruct (r_ref _ _ _ _ _ Rr _ _ Hr) as (p & l & w & x & E1 & E2 & E3). exists p, l, w, x. split; auto.
        rewrite F2; auto. eapply (r_apart _ _ _ _ _ Rr); eauto.
      + intros p w x v Hi. destruct (r_all _ _ _ _ _ Rr _ _ _ _ Hi) as (r & l & E1 & E2 & E3). exists r, l. split; auto. split; auto.
        rewrite F2; auto. eapply (r_apart _ _ _ _ _ Rr); eauto.
      + intros v r v' r' l w x l' w' Hr Hr' E E'. rewrite F2 in E by (eapply (r_apart _ _ _ _ _ Rr); eauto).
        rewrite F2 in E' by (eapply (r_apart _ _ _ _ _ Rr); eauto). eapply (r_inj _ _ _ _ _ Rr v r v' r'); eauto.
      + intros r [].
      + constructor.
      + intros v r _ [].
    - intros x H. assert (NX : ~ In x X) by (intros Hi; apply H; auto). rewrite F2 in H by auto.
      destruct (D x H) as [H0|[H0|[H0|[H0|H0]]]]; auto. contradiction.
    - auto.
  Qed.

  (** [v] is in the list at a path. *)
  Definition hv (g : ghost) (v : V) (p : etype) (w : bool) : Prop := exists x, In (x, v) (g_lst V g p w).

  Lemma removes_spec : forall rs s root g R X v, inv s root g R X -> R v = rs ->
    exists s' g', each (collection_remove veqb) rs s = Some (tt, s') /\ inv s' root g' (rset R v []) (rev rs ++ X) /\
      forall u p w, hv g' u p w <-> hv g u p w /\ u <> v.
  Proof.
    induction rs as [|r rs IH]; intros s root g R X v I E.
    - exists s, g. split; [reflexivity|]. split.
      + apply (inv_R _ _ _ R); auto. intros u. destruct (v_dec _ veqb veqb_spec u v) as [->|N]; [rewrite rset_same; auto|now rewrite rset_other].
      + intros u p w. split; [|tauto]. intros (x & Hi). split; [exists x; auto|]. intros ->.
        destruct (r_all _ _ _ _ _ (i_r _ _ _ _ _ _ _ I) _ _ _ _ Hi) as (r & l & Hr & _). rewrite E in Hr. destruct Hr.
    - destruct (remove_spec V veqb veqb_spec s root g R X v r rs I E) as (s1 & g1 & x & E1 & I1 & Q1 & (p0 & w0 & Hx)).
      cbn [each]. erewrite bind_some by exact E1. fold (@each V addr).
      destruct (IH s1 root g1 _ _ v I1 (rset_same V veqb veqb_spec _ _ _)) as (s2 & g2 & E2 & I2 & Q2).
      exists s2, g2. split; auto. split.
      + cbn [rev]. rewrite <- app_assoc. cbn [app]. eapply inv_R; [exact I2|]. intros u.
        destruct (v_dec _ veqb veqb_spec u v) as [->|N]; [now rewrite !rset_same|now rewrite !rset_other].
      + intros u p w. rewrite Q2. split.
        * intros [(y & Hi) N]. split; auto. exists y. now apply Q1 in Hi.
        * intros [(y & Hi) N]. split; auto. exists y. apply Q1. split; auto. intros ->.
          destruct (lst_kind _ _ _ _ _ _ _ _ _ (i_t _ _ _ _ _ _ _ I) Hi) as (? & ? & K).
          destruct (lst_kind _ _ _ _ _ _ _ _ _ (i_t _ _ _ _ _ _ _ I) Hx) as (? & ? & K'). congruence.
  Qed.

  (** ** The Python object *)

  Definition cok (s : cst V) (c : hcoll V) (g : ghost) : Prop :=
    inv s (hc_root c) g (refs_of veqb c) [] /\ NoDup (keys (hc_refs c)).

  Lemma refs_set : forall root refs v l u, refs_of veqb (Hc root (dset veqb v l refs)) u = rset (refs_of veqb (Hc root refs)) v l u.
  Proof.
    intros. unfold refs_of, Proof_CHeap2.rset. cbn [hc_refs]. destruct (veqb u v) eqn:E.
    - apply veqb_spec in E. subst. now rewrite (dget_dset_same veqb_spec).
    - rewrite (dget_dset_other veqb_spec); auto. intros ->. rewrite (v_eqb_refl V veqb veqb_spec) in E. discriminate.
  Qed.
  Lemma refs_del : forall root refs v u, NoDup (keys refs) ->
    refs_of veqb (Hc root (ddel veqb v refs)) u = rset (refs_of veqb (Hc root refs)) v [] u.
  Proof.
    intros. unfold refs_of, Proof_CHeap2.rset. cbn [hc_refs]. destruct (veqb u v) eqn:E.
    - apply veqb_spec in E. subst. now rewrite (dget_ddel_same veqb_spec).
    - rewrite (dget_ddel_other veqb_spec); auto. intros ->. rewrite (v_eqb_refl V veqb veqb_spec) in E. discriminate.
  Qed.

  Lemma coll_add_spec : forall qs c v s g, cok s c g ->
    exists b c' s' g', coll_add veqb ok c qs v s = Some ((b, c'), s') /\ cok s' c' g' /\ hc_root c' = hc_root c /\
      (forall u p w, hv g u p w -> hv g' u p w) /\
      (forall u p w, hv g' u p w -> hv g u p w \/ (u = v /\ exists q, In q qs /\ place q = (p, w))) /\
      (b = true -> forall q, In q qs -> hv g' v (fst (place q)) (snd (place q))) /\
      (b = false -> exists i, ok i = false).
  Proof.
    induction qs as [|q qs IH]; intros c v s g [I ND]; cbn [coll_add].
    - exists true, c, s, g. split; [reflexivity|]. split; [split; auto|]. repeat split; auto; [intros _ q []|discriminate].
    - destruct (add_tree_spec V veqb veqb_spec ok q s _ g _ _ [] _ v I (t_root _ _ _ _ _ (i_t _ _ _ _ _ _ _ I))) as (r & s1 & E1 & g1 & H1).
      erewrite bind_some by exact E1. destruct r as [r|].
      + destruct H1 as (x & I1 & L1). cbn [app] in L1.
        set (c1 := Hc (hc_root c) (dset veqb v (refs_of veqb c v ++ [r]) (hc_refs c))).
        assert (O1 : cok s1 c1 g1).
        { split; [|apply NoDup_dset; auto]. eapply inv_R; [exact I1|]. intros u. unfold c1. rewrite refs_set. destruct c; reflexivity. }
        destruct (IH c1 v s1 g1 O1) as (b & c' & s' & g' & E2 & O2 & RT & M & B & Tr & Fa).
        assert (HV1 : forall u p w, hv g1 u p w <-> hv g u p w \/ (u = v /\ place q = (p, w))).
        { intros u p w. unfold hv. rewrite L1.
          destruct (lset_cases V (g_lst V g) (fst (place q)) (snd (place q)) ((x, v) :: g_lst V g (fst (place q)) (snd (place q))) p w) as [(Ep & Ew & E)|E]; rewrite E.
          - split.
            + intros (y & [Hi|Hi]); [injection Hi as -> ->; right; split; auto; subst; now destruct (place q)|]. left. exists y. now subst.
            + intros [(y & Hi)|[-> _]]; [exists y; right; now subst|exists x; now left].
          - split; [auto|]. intros [H|[-> Ep]]; auto. rewrite Ep in E. cbn [fst snd] in E. rewrite lset_same in E. rewrite <- E. exists x. now left. }
        exists b, c', s', g'. split; [exact E2|]. split; auto. split; [exact RT|]. split; [|split; [|split]]; auto.
        * intros u p w H. apply M, HV1. auto.
        * intros u p w H. apply B in H. destruct H as [H|(-> & q' & Hq & Ep)]; [|right; split; auto; exists q'; split; auto; now right].
          apply HV1 in H. destruct H as [H|[-> Ep]]; auto. right. split; auto. exists q. split; auto. now left.
        * intros Eb q' [<-|Hq]; [|auto]. apply M, HV1. right. split; auto. now destruct (place q).
      + destruct H1 as (I1 & L1 & F). exists false, c, s1, g1. split; [reflexivity|]. split; [split; auto|]. split; auto.
        split; [|split; [|split]]; auto; try discriminate.
        * intros u p w (x & Hi). exists x. now rewrite L1.
        * intros u p w (x & Hi). left. exists x. now rewrite <- L1.
  Qed.

  Lemma coll_remove_spec : forall c v s g, cok s c g ->
    exists c' s' g', coll_remove veqb c v s = Some (c', s') /\ cok s' c' g' /\ hc_root c' = hc_root c /\
      forall u p w, hv g' u p w <-> hv g u p w /\ u <> v.
  Proof.
    intros c v s g [I ND]. unfold coll_remove.
    destruct (removes_spec (refs_of veqb c v) s _ g _ [] v I eq_refl) as (s1 & g1 & E1 & I1 & Q1).
    rewrite app_nil_r in I1. erewrite bind_some by exact E1.
    destruct (free_refs_spec V veqb (refs_of veqb c v) s1) as (s2 & E2 & F2).
    { apply (r_nodup _ _ _ _ _ (i_r _ _ _ _ _ _ _ I)). }
    { intros r Hr. apply (r_loose _ _ _ _ _ (i_r _ _ _ _ _ _ _ I1)). now apply in_rev in Hr. }
    erewrite bind_some by exact E2.
    eexists. exists s2, g1. split; [reflexivity|]. split; [|split; [reflexivity|exact Q1]]. split; [|apply NoDup_ddel; auto].
    cbn [hc_root]. apply (inv_R _ _ _ (rset (refs_of veqb c) v [])); [|intros u; rewrite refs_del by auto; destruct c; reflexivity].
    eapply inv_loose; [exact I1|]. destruct F2 as [G1 G2 G3 G4 G5]. constructor; auto.
    - intros x Hx. apply G1. now apply in_rev.
    - intros x Hx. apply G2. intros Hi. apply Hx. now apply in_rev in Hi.
  Qed.

  Lemma coll_free_spec : forall c s g, cok s c g ->
    exists s', coll_free veqb c s = Some (tt, s') /\ (forall x, c_heap s' x = None) /\ forall v, c_refs s' v = 0%Z.
  Proof.
    intros c s g [I ND]. unfold coll_free. assert (T := i_t _ _ _ _ _ _ _ I).
    destruct (free_tree_spec V veqb veqb_spec (c_heap s) (c_next s) (hc_root c) g T (c_next s) [] (hc_root c) s) as (s1 & E1 & F1); auto.
    { apply (t_root _ _ _ _ _ T). } { cbn. lia. }
    erewrite bind_some by exact E1.
    assert (RI : forall r, In r (flat_map snd (hc_refs c)) <-> exists v, In r (refs_of veqb c v)).
    { intros r. rewrite in_flat_map. split.
      - intros ([v l] & Hi & Hr). exists v. unfold refs_of. rewrite (In_dget veqb_spec v l) by auto. exact Hr.
      - intros (v & Hr). unfold refs_of in Hr. destruct (dget veqb v (hc_refs c)) as [l|] eqn:E; [|destruct Hr].
        apply (dget_In veqb_spec) in E. exists (v, l). auto. }
    assert (RR := i_r _ _ _ _ _ _ _ I).
    assert (NOWN : forall r v, In r (refs_of veqb c v) -> ~ own V g [] r).
    { intros r v Hr (q & H). destruct (r_ref _ _ _ _ _ RR _ _ Hr) as (p & l & w & x & E & _). cbn [app] in H.
      destruct H as [H|[H|(w' & v' & H)]].
      - destruct (node_kind _ _ _ _ _ _ _ T H) as (? & ? & ? & ? & ?). congruence.
      - destruct (ht_kind _ _ _ _ _ _ _ T H) as (? & ?). congruence.
      - destruct (lst_kind _ _ _ _ _ _ _ _ _ T H) as (? & ? & ?). congruence. }
    destruct (free_refs_spec V veqb (flat_map snd (hc_refs c)) s1) as (s2 & E2 & F2).
    { assert (SUB : forall e, In e (hc_refs c) -> forall r, In r (snd e) -> In r (refs_of veqb c (fst e))).
      { intros [v l] Hi r Hr. unfold refs_of. cbn [fst snd] in *. now rewrite (In_dget veqb_spec v l). }
      assert (SN : forall e, In e (hc_refs c) -> NoDup (snd e)).
      { intros [v l] Hi. assert (N := r_nodup _ _ _ _ _ RR v). unfold refs_of in N. now rewrite (In_dget veqb_spec v l) in N. }
      assert (AP : forall u v r, In r (refs_of veqb c u) -> In r (refs_of veqb c v) -> u = v) by (intros; eapply ref_value; eauto).
      clear RI. revert ND SUB SN. induction (hc_refs c) as [|[v l] d IHd]; intros ND SUB SN; [constructor|]. cbn [flat_map snd]. cbn in ND. inversion ND; subst.
      apply NoDup_app_intro.
      - apply (SN (v, l)). now left.
      - apply IHd; [assumption|intros e He; apply SUB; now right|intros e He; apply SN; now right].
      - intros r Hr Hr'. apply in_flat_map in Hr'. destruct Hr' as ([v' l'] & Hi & Hr').
        assert (v = v'). { apply (AP v v' r); [apply (SUB (v, l)); auto; now left|apply (SUB (v', l')); auto; now right]. }
        subst v'. apply H1. apply in_map_iff. exists (v, l'). auto. }
    { intros r Hr. apply RI in Hr. destruct Hr as (v & Hr). destruct (r_ref _ _ _ _ _ RR _ _ Hr) as (p & l & w & x & E & _).
      do 3 eexists. rewrite (f_keep _ _ _ _ _ F1); [exact E|]. eapply NOWN; eauto. }
    exists s2. split; auto.
    assert (EMP : forall x, c_heap s2 x = None).
    { intros x. destruct (c_heap s x) as [cl|] eqn:E; [|apply (f_none _ _ _ _ _ F2), (f_none _ _ _ _ _ F1); exact E].
      assert (OWN : own V g [] x -> c_heap s2 x = None) by (intros H; apply (f_none _ _ _ _ _ F2), (f_gone _ _ _ _ _ F1); exact H).
      destruct (i_d _ _ _ _ _ _ _ I x) as [(p & H0)|[(p & H0)|[(p & w & v & H0)|[H0|H0]]]]; [congruence| | | | |].
      - apply OWN. exists p. auto.
      - apply OWN. exists p. auto.
      - apply OWN. exists p. right; right. eauto.
      - apply (f_gone _ _ _ _ _ F2). now apply RI.
      - destruct H0. }
    split; auto. intros v. destruct (f_c _ _ _ _ _ F2 (f_c _ _ _ _ _ F1 (i_c _ _ _ _ _ _ _ I))) as [_ C]. rewrite C. now apply cnt_empty.
  Qed.

  Lemma coll_new_spec : exists r s, coll_new ok cst0 = Some (r, s) /\
    match r with
    | Some c => exists g, cok s c g /\ forall v p w, ~ hv g v p w
    | None => (forall x, c_heap s x = None) /\ (forall v, c_refs s v = 0%Z) /\ exists i, ok i = false
    end.
  Proof.
    unfold coll_new, cst0. unfold bind at 1. unfold may_fail. cbn [c_heap c_next c_tries c_refs]. destruct (ok 0) eqn:O0.
    2: { eexists. eexists. split; [reflexivity|]. cbn [c_heap c_refs]. eauto. }
    unfold create_tree_node, bind at 1 2. rewrite malloc_at. destruct (ok 1) eqn:O1.
    2: { eexists. eexists. split; [reflexivity|]. cbn [c_heap c_refs]. eauto. }
    erewrite bind_some by (eapply store_at; apply upd_same). unfold ret at 1. eexists. eexists. split; [reflexivity|].
    set (g := G V (fun p => match p with [] => Some 0 | _ => None end) (fun _ => None) (fun _ _ => [])).
    exists g. split; [|intros v p w (x & [])]. split; [|constructor]. cbn [hc_root].
    assert (GN : forall p a, g_node V g p = Some a -> p = [] /\ a = 0). { intros [|k p] a E; cbn in E; [injection E as <-; auto|discriminate]. }
    constructor; cbn [c_heap c_next c_refs].
    - constructor; cbn [g_node g_ht g_lst g]; auto; try discriminate.
      + intros p p' a E E'. destruct (GN _ _ E), (GN _ _ E'). congruence.
      + intros p a E. destruct (GN _ _ E) as [-> ->]. reflexivity.
      + intros p k _ _. now destruct p.
      + intros p _. split; auto. split; auto. now destruct p.
      + intros p w. exact Logic.I.
      + intros p w p' w' x v v' [].
      + intros. constructor.
      + intros p. now destruct p.
      + intros p a E. destruct (GN _ _ E) as [-> _]. cbn. lia.
    - constructor; cbn [g_lst g].
      + intros v r [].
      + intros p w x v [].
      + intros v r v' r' l w x l' w' [].
      + intros v. constructor.
      + intros r [].
      + constructor.
      + intros v r [].
    - intros x E. left. exists []. destruct (Nat.eq_dec x 0) as [->|N]; [reflexivity|].
      exfalso. apply E. unfold upd. now rewrite (proj2 (Nat.eqb_neq _ _) N).
    - split; cbn [c_heap c_next c_refs].
      + intros x E. destruct (Nat.eq_dec x 0) as [->|N]; [lia|].
        exfalso. apply E. unfold upd. now rewrite (proj2 (Nat.eqb_neq _ _) N).
      + intros v. reflexivity.
  Qed.

  (** ** Histories *)

  Lemma place_sel : forall q t, valid_query q -> (sel (fst (place q)) (snd (place q)) t <-> qmatch q t).
  Proof.
    induction q as [|k q IH]; intros t VQ; cbn [place].
    - cbn. split.
      + intros [H|H]; [discriminate|]. subst. constructor.
      + intros H. inversion H; subst. auto.
    - assert (VQ' : valid_query q). { intros p r E. apply (VQ (k :: p) r). cbn. now rewrite E. }
      destruct (k =? "*") eqn:E.
      + apply String.eqb_eq in E. subst k. assert (q = []) by (apply (VQ [] q); reflexivity). subst q. cbn. split; auto. intros _. constructor.
      + apply String.eqb_neq in E. specialize (IH (tl t) VQ'). destruct (place q) as [p w]. cbn [fst snd] in *. destruct t as [|k' t]; cbn.
        * split; [intros []|]. intros H. inversion H; subst; congruence.
        * cbn in IH. rewrite IH. split.
          -- intros [[->| ->] H]; [now constructor|constructor; auto].
          -- intros H. inversion H; subst; [congruence|auto|auto].
  Qed.

  Definition has (g : ghost) (v : V) (t : etype) : Prop := exists p w, hv g v p w /\ sel p w t.

  Record hist (ops : list (coll_op V)) (bs : list bool) (s : cst V) (c : hcoll V) : Prop := {
    hi_len : length bs = length ops;
    hi_g : exists g, cok s c g /\
      (forall v p w, hv g v p w -> active V ops v) /\
      (ops_ok ops -> forall v t, has g v t -> selected ops v t) /\
      (ops_ok ops -> forall v t, returned ops bs v t -> has g v t) }.

  Lemma combine_app_eq : forall A B (l1 l2 : list A) (m1 m2 : list B), length m1 = length l1 ->
    combine (l1 ++ l2) (m1 ++ m2) = combine l1 m1 ++ combine l2 m2.
  Proof. induction l1 as [|x l1 IH]; intros l2 [|y m1] m2 L; try discriminate; cbn; [reflexivity|]. rewrite IH; auto. Qed.

  Lemma returned_add : forall ops bs s (v' : V) b (v : V) t, length bs = length ops -> returned (ops ++ [OpAdd s v']) (bs ++ [b]) v t ->
    (v = v' /\ b = true /\ node_matches s t = true) \/ returned ops bs v t.
  Proof.
    intros ops bs s v' b v t L (B & s' & A & E & N & Mt). rewrite combine_app_eq in E by auto. cbn [combine] in E.
    apply snoc_split in E. destruct E as [(-> & _ & E)|(A' & -> & E)].
    - injection E as -> -> ->. auto.
    - right. exists B, s', A'. split; auto. split; auto. intros Hi. apply N. rewrite map_app. apply in_app_iff. auto.
  Qed.
  Lemma returned_remove : forall ops bs (v' : V) b (v : V) t, length bs = length ops -> returned (ops ++ [OpRemove v']) (bs ++ [b]) v t ->
    v <> v' /\ returned ops bs v t.
  Proof.
    intros ops bs v' b v t L (B & s' & A & E & N & Mt). rewrite combine_app_eq in E by auto. cbn [combine] in E.
    apply snoc_split in E. destruct E as [(-> & _ & E)|(A' & -> & E)]; [discriminate|].
    rewrite map_app in N. split; [intros ->; apply N, in_app_iff; right; now left|].
    exists B, s', A'. split; auto. split; auto. intros Hi. apply N, in_app_iff. auto.
  Qed.

  Lemma step_hist : forall ops bs s c op, hist ops bs s c ->
    exists b c' s', coll_step veqb ok c op s = Some ((b, c'), s') /\ hist (ops ++ [op]) (bs ++ [b]) s' c' /\ hc_root c' = hc_root c /\
      (b = false -> exists i, ok i = false).
  Proof.
    intros ops bs s c op [L (g & O & AC & SO & CO)]. destruct op as [sub v|v]; cbn [coll_step].
    - destruct (coll_add_spec (node_to_query_types sub) c v s g O) as (b & c' & s' & g' & E & O' & RT & M & B & Tr & Fa).
      exists b, c', s'. split; auto. split; [|auto]. constructor; [rewrite !app_length; cbn; lia|]. exists g'. split; auto. split; [|split].
      + intros u p w H. apply active_snoc_add. apply B in H. destruct H as [H|[-> _]]; eauto.
      + intros OK u t (p & w & H & Hs). apply selected_add. apply B in H. destruct H as [H|(-> & q & Hq & Ep)].
        * right. apply SO; [now apply ops_ok_snoc in OK|]. exists p, w. auto.
        * left. split; auto. assert (PS := ops_ok_last _ _ _ _ OK). apply listed_match; auto. exists q. split; auto.
          assert (VQ : valid_query q). { assert (F := to_qts_valid _ (py_subscription_wf _ PS)). rewrite Forall_forall in F. auto. }
          apply mqt_qmatch; auto. apply place_sel; auto. rewrite Ep. exact Hs.
      + intros OK u t H. apply returned_add in H; auto. destruct H as [(-> & Eb & H)|H].
        * assert (PS := ops_ok_last _ _ _ _ OK). apply listed_match in H; auto. destruct H as (q & Hq & Hm).
          assert (VQ : valid_query q). { assert (F := to_qts_valid _ (py_subscription_wf _ PS)). rewrite Forall_forall in F. auto. }
          exists (fst (place q)), (snd (place q)). split; [auto|]. apply place_sel; auto. apply mqt_qmatch; auto.
        * apply CO in H; [|now apply ops_ok_snoc in OK]. destruct H as (p & w & H & Hs). exists p, w. split; auto.
    - destruct (coll_remove_spec c v s g O) as (c' & s' & g' & E & O' & RT & Q).
      erewrite bind_some by exact E. exists true, c', s'. split; [reflexivity|]. split; [|split; [auto|discriminate]].
      constructor; [rewrite !app_length; cbn; lia|]. exists g'. split; auto. split; [|split].
      + intros u p w H. apply Q in H. destruct H as [H N]. apply active_snoc_remove; eauto.
      + intros OK u t (p & w & H & Hs). apply Q in H. destruct H as [H N]. apply selected_remove. split; auto.
        apply SO; [now apply ops_ok_snoc in OK|]. exists p, w. auto.
      + intros OK u t H. apply returned_remove in H; auto. destruct H as [N H].
        apply CO in H; [|now apply ops_ok_snoc in OK]. destruct H as (p & w & H & Hs). exists p, w. split; auto. now apply Q.
  Qed.

  Lemma steps_hist : forall ops ops0 bs0 s c, hist ops0 bs0 s c ->
    exists bs c' s', coll_steps veqb ok c ops s = Some ((bs, c'), s') /\ hist (ops0 ++ ops) (bs0 ++ bs) s' c' /\ hc_root c' = hc_root c /\
      length bs = length ops /\ (In false bs -> exists i, ok i = false).
  Proof.
    induction ops as [|op ops IH]; intros ops0 bs0 s c H; cbn [coll_steps].
    - exists [], c, s. rewrite !app_nil_r. split; [reflexivity|]. split; auto. split; auto. split; auto. intros [].
    - destruct (step_hist ops0 bs0 s c op H) as (b & c1 & s1 & E1 & H1 & R1 & F1). erewrite bind_some by exact E1. cbn beta iota.
      destruct (IH _ _ _ _ H1) as (bs & c2 & s2 & E2 & H2 & R2 & L2 & F2). erewrite bind_some by exact E2. cbn beta iota.
      exists (b :: bs), c2, s2. split; [reflexivity|]. rewrite <- !app_assoc in H2. cbn [app] in H2. split; auto. split; [congruence|].
      split; [cbn; lia|]. intros [->|Hi]; auto.
  Qed.

  Lemma new_hist : forall c s g, cok s c g -> (forall v p w, ~ hv g v p w) -> hist [] [] s c.
  Proof.
    intros c s g O N. constructor; [reflexivity|]. exists g. split; auto. split; [|split].
    - intros v p w H. now apply N in H.
    - intros _ v t (p & w & H & _). now apply N in H.
    - intros _ v t (B & s' & A & E & _). destruct B; discriminate.
  Qed.

  Lemma cnt_nonneg : forall (h : heap) n v, (0 <= cnt V veqb h n v)%Z.
  Proof.
    intros h n v. induction n as [|n IH]; cbn [cnt]; [lia|]. unfold weight. destruct (h n) as [[]|]; try lia. destruct (veqb obj v); lia.
  Qed.
  Lemma cnt_zero : forall (h : heap) n v, (forall x a b, h x <> Some (CObj a b v)) -> cnt V veqb h n v = 0%Z.
  Proof.
    intros h n v H. induction n as [|n IH]; cbn [cnt]; [reflexivity|]. rewrite IH. unfold weight. specialize (H n).
    destruct (h n) as [[]|]; try reflexivity. destruct (veqb obj v) eqn:E; auto. apply veqb_spec in E. subst. exfalso. eapply H; reflexivity.
  Qed.
  Lemma cnt_pos : forall (h : heap) n v x a b, h x = Some (CObj a b v) -> x < n -> (0 < cnt V veqb h n v)%Z.
  Proof.
    intros h n v x a b E. induction n as [|n IH]; intros L; [lia|]. cbn [cnt]. assert (P := cnt_nonneg h n v).
    destruct (Nat.eq_dec x n) as [->|N].
    - rewrite E. cbn [weight]. rewrite (v_eqb_refl V veqb veqb_spec). lia.
    - specialize (IH ltac:(lia)). unfold weight. destruct (h n) as [[]|]; try lia. destruct (veqb obj v); lia.
  Qed.

  (** Counts at any time. *)
  Lemma hist_counts : forall ops bs s c, hist ops bs s c ->
    (forall v, (0 <= c_refs s v)%Z) /\ (forall v, absent ops v -> c_refs s v = 0%Z) /\
    forall t, exists l, coll_get c t s = Some (l, s) /\ (forall v, In v l -> (0 < c_refs s v)%Z) /\
      (ops_ok ops -> (forall v, In v l -> selected ops v t) /\ forall v, returned ops bs v t -> In v l).
  Proof.
    intros ops bs s c [L (g & [I ND] & AC & SO & CO)]. assert (T := i_t _ _ _ _ _ _ _ I). destruct (i_c _ _ _ _ _ _ _ I) as [C1 C2].
    split; [intros v; rewrite C2; apply cnt_nonneg|]. split.
    - intros v Ab. rewrite C2. apply cnt_zero. intros x a b E.
      destruct (i_d _ _ _ _ _ _ _ I x) as [(p & H0)|[(p & H0)|[(p & w & u & H0)|[(u & H0)|H0]]]]; [congruence| | | | |].
      + destruct (node_kind _ _ _ _ _ _ _ T H0) as (? & ? & ? & ? & ?). congruence.
      + destruct (ht_kind _ _ _ _ _ _ _ T H0) as (? & ?). congruence.
      + assert (u = v) by (destruct (lst_kind _ _ _ _ _ _ _ _ _ T H0) as (? & ? & ?); congruence). subst u.
        destruct (AC v p w) as (B & s' & A & E' & N); [exists x; auto|]. apply N. eapply Ab. exact E'.
      + destruct (r_ref _ _ _ _ _ (i_r _ _ _ _ _ _ _ I) _ _ H0) as (? & ? & ? & ? & E' & _). congruence.
      + destruct H0.
    - intros t. destruct (get_values_spec V t s _ g [] _ T (t_root _ _ _ _ _ T)) as (l & E & Q). cbn [app] in Q. exists l. split; [exact E|]. split.
      + intros v Hv. apply Q in Hv. destruct Hv as (q & w & x & Hi & _). destruct (lst_kind _ _ _ _ _ _ _ _ _ T Hi) as (a & b & E').
        rewrite C2. eapply cnt_pos; [exact E'|]. apply C1. congruence.
      + intros OK. split.
        * intros v Hv. apply Q in Hv. destruct Hv as (q & w & x & Hi & Hs). apply SO; auto. exists q, w. split; auto. exists x. auto.
        * intros v Hv. apply CO in Hv; auto. destruct Hv as (p & w & (x & Hi) & Hs). apply Q. exists p, w, x. auto.
  Qed.

  Lemma hist_free : forall ops bs s c, hist ops bs s c ->
    exists s', coll_free veqb c s = Some (tt, s') /\ (forall x, c_heap s' x = None) /\ forall v, c_refs s' v = 0%Z.
  Proof. intros ops bs s c [L (g & O & _)]. eapply coll_free_spec; eauto. Qed.

  (** Everything together. *)
  Lemma final_C65 : forall ops, exists r s0, coll_new ok cst0 = Some (r, s0) /\
    match r with
    | None => (exists i, ok i = false) /\ (forall x, c_heap s0 x = None) /\ forall v, c_refs s0 v = 0%Z
    | Some c => exists bs c' s, coll_steps veqb ok c ops s0 = Some ((bs, c'), s) /\ length bs = length ops /\
        (In false bs -> exists i, ok i = false) /\ hist ops bs s c'
    end.
  Proof.
    intros ops. destruct coll_new_spec as (r & s0 & E & H). exists r, s0. split; auto. destruct r as [c|].
    - destruct H as (g & O & N). destruct (steps_hist ops [] [] s0 c (new_hist _ _ _ O N)) as (bs & c' & s & E' & H' & _ & L & F). exists bs, c', s. auto.
    - destruct H as (H1 & H2 & H3). auto.
  Qed.
End CHeapColl.

Lemma final_C65_memory : forall (V : Type) (veqb : V -> V -> bool), (forall a b, veqb a b = true <-> a = b) ->
  forall (ok : nat -> bool) (ops : list (coll_op V)),
  exists r s0, coll_new ok cst0 = Some (r, s0) /\
    match r with
    | None => (exists i, ok i = false) /\ (forall x, c_heap s0 x = None) /\ forall v, c_refs s0 v = 0%Z
    | Some c => exists bs c' s, coll_steps veqb ok c ops s0 = Some ((bs, c'), s) /\ length bs = length ops /\
        (In false bs -> exists i, ok i = false) /\
        (forall t, exists l, coll_get c' t s = Some (l, s)) /\
        exists s', coll_free veqb c' s = Some (tt, s') /\ (forall x, c_heap s' x = None) /\ forall v, c_refs s' v = 0%Z
    end.
Proof.
  intros V veqb VS ok ops. destruct (final_C65 V veqb VS ok ops) as (r & s0 & E & H). exists r, s0. split; auto. destruct r as [c|]; auto.
  destruct H as (bs & c' & s & E' & L & F & H). exists bs, c', s. split; auto. split; auto. split; auto. split.
  - intros t. destruct (hist_counts V veqb VS _ _ _ _ H) as (_ & _ & G). destruct (G t) as (l & El & _). eauto.
  - eapply hist_free; eauto.
Qed.

Lemma run_hist : forall (V : Type) (veqb : V -> V -> bool), (forall a b, veqb a b = true <-> a = b) ->
  forall (ok : nat -> bool) (ops : list (coll_op V)) c s0 bs c' s,
  coll_new ok cst0 = Some (Some c, s0) -> coll_steps veqb ok c ops s0 = Some ((bs, c'), s) -> hist V veqb ops bs s c'.
Proof.
  intros V veqb VS ok ops c s0 bs c' s E E'. destruct (final_C65 V veqb VS ok ops) as (r & s0' & E0 & H).
  rewrite E in E0. injection E0 as <- <-. destruct H as (bs1 & c1 & s1 & E1 & _ & _ & H). rewrite E' in E1. injection E1 as <- <- <-. exact H.
Qed.

Lemma final_C65_references : forall (V : Type) (veqb : V -> V -> bool), (forall a b, veqb a b = true <-> a = b) ->
  forall (ok : nat -> bool) (ops : list (coll_op V)) c s0 bs c' s,
  coll_new ok cst0 = Some (Some c, s0) -> coll_steps veqb ok c ops s0 = Some ((bs, c'), s) ->
  (forall v, (0 <= c_refs s v)%Z) /\ (forall v, absent ops v -> c_refs s v = 0%Z) /\
  forall t l s', coll_get c' t s = Some (l, s') -> s' = s /\ forall v, In v l -> (0 < c_refs s v)%Z.
Proof.
  intros V veqb VS ok ops c s0 bs c' s E E'. assert (H := run_hist V veqb VS ok ops c s0 bs c' s E E').
  destruct (hist_counts V veqb VS _ _ _ _ H) as (H1 & H2 & H3). split; auto. split; auto.
  intros t l s' G. destruct (H3 t) as (l' & El & P & _). rewrite El in G. injection G as <- <-. auto.
Qed.

Lemma final_C65_content : forall (V : Type) (veqb : V -> V -> bool), (forall a b, veqb a b = true <-> a = b) ->
  forall (ok : nat -> bool) (ops : list (coll_op V)) c s0 bs c' s, ops_ok ops ->
  coll_new ok cst0 = Some (Some c, s0) -> coll_steps veqb ok c ops s0 = Some ((bs, c'), s) ->
  forall t l s', coll_get c' t s = Some (l, s') ->
    (forall v, In v l -> selected ops v t) /\ (forall v, returned ops bs v t -> In v l).
Proof.
  intros V veqb VS ok ops c s0 bs c' s OK E E' t l s' G. assert (H := run_hist V veqb VS ok ops c s0 bs c' s E E').
  destruct (hist_counts V veqb VS _ _ _ _ H) as (_ & _ & H3). destruct (H3 t) as (l' & El & _ & P). rewrite El in G. injection G as <- <-. auto.
Qed.

Lemma final_C65_exact : forall (V : Type) (veqb : V -> V -> bool), (forall a b, veqb a b = true <-> a = b) ->
  forall (ok : nat -> bool) (ops : list (coll_op V)), (forall i, ok i = true) -> ops_ok ops ->
  exists c s0 c' s, coll_new ok cst0 = Some (Some c, s0) /\
    coll_steps veqb ok c ops s0 = Some ((repeat true (length ops), c'), s) /\
    forall t, exists l, coll_get c' t s = Some (l, s) /\ forall v, In v l <-> selected ops v t.
Proof.
  intros V veqb VS ok ops A OK. destruct (final_C65 V veqb VS ok ops) as (r & s0 & E & H). destruct r as [c|].
  - destruct H as (bs & c' & s & E' & L & F & H). exists c, s0, c', s. split; auto.
    assert (EB : bs = repeat true (length ops)).
    { rewrite <- L. assert (NF : ~ In false bs) by (intros Hi; destruct (F Hi) as (i & Ei); rewrite A in Ei; discriminate). clear -NF.
      induction bs as [|[] bs IH]; cbn; auto; [f_equal; apply IH; intros Hi; apply NF; now right|exfalso; apply NF; now left]. }
    rewrite <- EB. split; auto. intros t. destruct (hist_counts V veqb VS _ _ _ _ H) as (_ & _ & H3). destruct (H3 t) as (l & El & _ & P).
    exists l. split; auto. destruct (P OK) as [P1 P2]. intros v. split; auto. intros (B & s1 & A1 & E1 & N & Mt). apply P2.
    rewrite EB, E1. exists (combine B (repeat true (length B))), s1, (combine A1 (repeat true (length A1))). split; [|split; auto].
    + rewrite app_length. cbn [length]. rewrite repeat_app. cbn [repeat]. rewrite combine_app_eq; [reflexivity|]. now rewrite repeat_length.
    + intros Hi. apply N. apply in_map_iff in Hi. destruct Hi as ([op b] & Eo & Hi). cbn in Eo. subst. apply in_combine_l in Hi. exact Hi.
  - destruct H as ((i & Hi) & _). rewrite A in Hi. discriminate.
Qed.
