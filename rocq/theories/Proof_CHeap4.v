(** Proofs about the memory of the C event type collection: removing and looking
    up. *)
From Coq Require Import String Bool Arith ZArith Lia Permutation List.
From Verif Require Import Base Model_Types Model_Subscription Model_Collection Model_CHeap Proof_Subscription Proof_CHeap Proof_CHeap2 Proof_CHeap3.
Import ListNotations.
Open Scope string_scope.
Open Scope list_scope.

Section CHeapRemove.
  Variable V : Type.
  Variable veqb : V -> V -> bool.
  Hypothesis veqb_spec : forall a b, veqb a b = true <-> a = b.

  Notation heap := (addr -> option (cell V)).
  Notation inv := (inv V veqb).
  Notation tinv := (tinv V).
  Notation rinv := (rinv V).
  Notation dinv := (dinv V).
  Notation cinv := (cinv V veqb).
  Notation ghost := (ghost V).
  Notation hdp := (hdp V).
  Notation lastp := (lastp V).
  Notation rset := (rset V veqb).

  (** ** Lists *)

  Lemma nodup_split : forall (l1 l1' l2 l2' : list (addr * V)) x v v',
    NoDup (map fst (l1 ++ (x, v) :: l2)) -> l1 ++ (x, v) :: l2 = l1' ++ (x, v') :: l2' -> l1 = l1' /\ v = v' /\ l2 = l2'.
  Proof.
    induction l1 as [|[y u] l1 IH]; intros [|[y' u'] l1'] l2 l2' x v v' ND E; cbn [app] in E.
    - injection E as -> ->. auto.
    - injection E as -> -> ->. cbn in ND. inversion ND as [|? ? N _]; subst. exfalso. apply N.
      rewrite map_app, in_app_iff. right. now left.
    - injection E as -> -> <-. cbn in ND. inversion ND as [|? ? N _]; subst. exfalso. apply N.
      rewrite map_app, in_app_iff. right. now left.
    - injection E as -> -> E. cbn in ND. inversion ND; subst. destruct (IH l1' l2 l2' x v v') as (-> & -> & ->); auto.
  Qed.

  Lemma lastp_snoc : forall l pr e, lastp pr (l ++ [e]) = Some (fst e).
  Proof. intros. unfold Proof_CHeap.lastp. now rewrite fold_left_app. Qed.
  Lemma lastp_some : forall l y, lastp None l = Some y -> exists l' u, l = l' ++ [(y, u)].
  Proof.
    intros l y. destruct l as [|[z u] l _] using rev_ind; [discriminate|]. rewrite lastp_snoc. intros [= <-]. eauto.
  Qed.
  Lemma lastp_none : forall l, lastp None l = None -> l = [].
  Proof. intros l. destruct l as [|e l _] using rev_ind; auto. rewrite lastp_snoc. discriminate. Qed.
  Lemma hdp_some : forall l y, hdp l = Some y -> exists u l', l = (y, u) :: l'.
  Proof. intros [|[z u] l] y; cbn; [discriminate|]. intros [= ->]. eauto. Qed.

  Lemma pcase : forall (q : ptr) y, q = Some y \/ q <> Some y.
  Proof. intros [z|] y; [|right; discriminate]. destruct (Nat.eq_dec z y) as [->|N]; [now left|right; congruence]. Qed.

  (** One element, seen from another. *)
  Lemma follows : forall l1 l2 L1 L2 x v y u, NoDup (map fst (l1 ++ (x, v) :: l2)) -> l1 ++ (x, v) :: l2 = L1 ++ (y, u) :: L2 ->
    lastp None L1 = Some x -> hdp l2 = Some y.
  Proof.
    intros l1 l2 L1 L2 x v y u ND E H. apply lastp_some in H. destruct H as (L & v' & ->). rewrite <- app_assoc in E. cbn [app] in E.
    destruct (nodup_split _ _ _ _ _ _ _ ND E) as (_ & _ & ->). reflexivity.
  Qed.
  Lemma precedes : forall l1 l2 L1 L2 x v y u, NoDup (map fst (l1 ++ (x, v) :: l2)) -> l1 ++ (x, v) :: l2 = L1 ++ (y, u) :: L2 ->
    hdp L2 = Some x -> lastp None l1 = Some y.
  Proof.
    intros l1 l2 L1 L2 x v y u ND E H. apply hdp_some in H. destruct H as (v' & L & ->).
    replace (L1 ++ (y, u) :: (x, v') :: L) with ((L1 ++ [(y, u)]) ++ (x, v') :: L) in E by now rewrite <- app_assoc.
    destruct (nodup_split _ _ _ _ _ _ _ ND E) as (-> & _ & _). now rewrite lastp_snoc.
  Qed.

  (** A value is at one address only. *)
  Lemma ref_value : forall (h : heap) n root g R X r u v, tinv h n root g -> rinv h g R X -> In r (R u) -> In r (R v) -> u = v.
  Proof.
    intros h n root g R X r u v T Rr Hu Hv. destruct (r_ref _ _ _ _ _ Rr _ _ Hu) as (p & l & w & x & E1 & _ & E2).
    destruct (r_ref _ _ _ _ _ Rr _ _ Hv) as (p' & l' & w' & x' & E1' & _ & E2').
    rewrite E1 in E1'. injection E1' as <- <- <-.
    destruct (lst_kind _ _ _ _ _ _ _ _ _ T E2) as (? & ? & E3). destruct (lst_kind _ _ _ _ _ _ _ _ _ T E2') as (? & ? & E3'). congruence.
  Qed.

  (** _ctree.c:269-288 *)
  Lemma remove_spec : forall s root g R X v r rs, inv s root g R X -> R v = r :: rs ->
    exists s' g' x, collection_remove veqb r s = Some (tt, s') /\ inv s' root g' (rset R v rs) (r :: X) /\
      (forall p w y u, In (y, u) (g_lst V g' p w) <-> In (y, u) (g_lst V g p w) /\ y <> x) /\
      (exists p w, In (x, v) (g_lst V g p w)).
  Proof.
    intros s root g R X v r rs I ER.
    assert (Hr : In r (R v)) by (rewrite ER; now left).
    destruct (r_ref _ _ _ _ _ (i_r _ _ _ _ _ _ _ I) _ _ Hr) as (p & a & w & x & Cr & Ea & Hx).
    assert (T := i_t _ _ _ _ _ _ _ I).
    assert (Ca := t_cell _ _ _ _ _ T p a Ea).
    destruct (in_split _ _ Hx) as (l1 & l2 & El).
    assert (ND := t_nodup _ _ _ _ _ T p w). rewrite El in ND.
    assert (DL := t_dll _ _ _ _ _ T p w). rewrite El in DL.
    assert (Cx := dll_at _ _ _ _ _ _ _ DL).
    assert (CE : forall y u, In (y, u) (l1 ++ l2) -> exists L1 L2, l1 ++ (x, v) :: l2 = L1 ++ (y, u) :: L2 /\ c_heap s y = Some (CObj (lastp None L1) (hdp L2) u)).
    { intros y u Hy. assert (Hy' : In (y, u) (l1 ++ (x, v) :: l2)). { apply in_app_iff in Hy. apply in_app_iff. destruct Hy; auto. right. now right. }
      destruct (in_split _ _ Hy') as (L1 & L2 & E). exists L1, L2. split; auto. rewrite E in DL. now apply dll_at in DL. }
    assert (NX : ~ In x (map fst (l1 ++ l2))). { rewrite map_app in *. cbn in ND. now apply NoDup_remove_2 in ND. }
    assert (ND2 : NoDup (map fst (l1 ++ l2))). { rewrite map_app in *. cbn in ND. now apply NoDup_remove_1 in ND. }
    assert (LX : x < c_next s). { destruct (i_c _ _ _ _ _ _ _ I) as [C1 _]. apply (C1 x). congruence. }
    set (prev := lastp None l1) in *. set (next := hdp l2) in *.
    destruct s as [h n t rc]. cbn [c_heap c_next c_tries c_refs] in *.
    unfold collection_remove.
    erewrite bind_some by (apply load_ref_at; exact Cr). cbn beta iota.
    erewrite bind_some by (apply load_obj_at; exact Cx). cbn beta iota.
    (* cells of the neighbours *)
    assert (CP : forall y, prev = Some y -> exists pp u, In (y, u) l1 /\ h y = Some (CObj pp (Some x) u) /\ pp <> Some x /\ y <> x /\ next <> Some y).
    { intros y Ep. destruct (lastp_some _ _ Ep) as (l & u & E1). destruct (CE y u) as (L1 & L2 & E & Cy).
      { apply in_app_iff. left. rewrite E1. apply in_app_iff. right. now left. }
      assert (E2 : l1 ++ (x, v) :: l2 = l ++ (y, u) :: (x, v) :: l2) by (rewrite E1, <- app_assoc; reflexivity).
      assert (ND' := ND). rewrite E in ND'. rewrite E in E2. destruct (nodup_split _ _ _ _ _ _ _ ND' E2) as (-> & _ & ->). cbn [Proof_CHeap.hdp] in Cy.
      assert (Ny : next <> Some y).
      { intros En. apply hdp_some in En. destruct En as (u' & l' & El2). rewrite E1, El2 in ND2. rewrite !map_app in ND2. cbn in ND2.
        rewrite <- app_assoc in ND2. apply NoDup_remove_2 in ND2. apply ND2. apply in_app_iff. right. now left. }
      exists (lastp None l), u. split; [rewrite E1; apply in_app_iff; right; now left|]. split; auto. split; [|split; auto].
      - intros E3. apply Ny. eapply follows; [exact ND| |exact E3]. rewrite E1, <- app_assoc. reflexivity.
      - intros ->. apply NX. rewrite E1. rewrite !map_app. cbn. apply in_app_iff. left. apply in_app_iff. right. now left. }
    assert (CN : forall y, next = Some y -> exists nn u, In (y, u) l2 /\ h y = Some (CObj (Some x) nn u) /\ nn <> Some x /\ y <> x /\ prev <> Some y).
    { intros y En. destruct (hdp_some _ _ En) as (u & l & E1). destruct (CE y u) as (L1 & L2 & E & Cy).
      { apply in_app_iff. right. rewrite E1. now left. }
      assert (E2 : l1 ++ (x, v) :: l2 = (l1 ++ [(x, v)]) ++ (y, u) :: l) by (rewrite E1, <- app_assoc; reflexivity).
      assert (ND' := ND). rewrite E in ND'. assert (E3 := E). rewrite E3 in E2. destruct (nodup_split _ _ _ _ _ _ _ ND' E2) as (-> & _ & ->).
      rewrite lastp_snoc in Cy. cbn [fst] in Cy.
      assert (Ny : prev <> Some y). { intros Ep. destruct (CP y Ep) as (? & ? & _ & _ & _ & _ & N). congruence. }
      exists (hdp l), u. split; [rewrite E1; now left|]. split; auto. split; [|split; auto].
      - intros E4. apply Ny. eapply precedes; [exact ND|exact E|exact E4].
      - intros ->. apply NX. rewrite E1. rewrite !map_app. cbn. apply in_app_iff. right. now left. }
    set (ca := if w then @CTree V (hdp (g_lst V g p false)) next (g_ht V g p) (g_node V g (p ++ ["?"]))
               else @CTree V next (hdp (g_lst V g p true)) (g_ht V g p) (g_node V g (p ++ ["?"]))).
    set (h1 := match prev with
               | Some y => match h y with Some (CObj pp _ u) => upd h y (Some (CObj pp next u)) | _ => h end
               | None => upd h a (Some ca) end).
    erewrite (bind_some _ unit unit _ _ _ tt (Cst h1 n t rc)).
    2: { unfold h1. destruct prev as [y|] eqn:Ep.
         - destruct (CP y eq_refl) as (pp & u & _ & Cy & _). rewrite Cy.
           erewrite bind_some by (apply load_obj_at; exact Cy). cbn beta iota. eapply store_at. exact Cy.
         - eapply set_head_at. exact Ca. }
    assert (Nax : a <> x) by congruence.
    assert (H1x : h1 x = h x).
    { unfold h1. destruct prev as [y|] eqn:Ep; [|now rewrite upd_other by auto].
      destruct (CP y eq_refl) as (pp & u & _ & Cy & _ & N & _). rewrite Cy. now rewrite upd_other by auto. }
    assert (H1n : forall y, next = Some y -> h1 y = h y).
    { intros z Ez. destruct (CN z Ez) as (nn & uz & _ & Cz & _ & Nz & Nz'). unfold h1. destruct prev as [y|] eqn:Ep.
      - destruct (CP y eq_refl) as (pp & u & _ & Cy & _ & N & _). rewrite Cy. rewrite upd_other by congruence. reflexivity.
      - rewrite upd_other by congruence. reflexivity. }
    set (h2 := match next with
               | Some y => match h y with Some (CObj _ nn u) => upd h1 y (Some (CObj prev nn u)) | _ => h1 end
               | None => h1 end).
    erewrite (bind_some _ unit unit _ _ _ tt (Cst h2 n t rc)).
    2: { unfold h2. destruct next as [y|] eqn:En; [|reflexivity]. destruct (CN y eq_refl) as (nn & u & _ & Cy & _). rewrite Cy.
         assert (C1 := H1n y eq_refl). rewrite Cy in C1.
         erewrite bind_some by (apply load_obj_at; exact C1). cbn beta iota. eapply store_at. exact C1. }
    assert (H2x : h2 x = h x).
    { unfold h2. destruct next as [y|] eqn:En; auto. destruct (CN y eq_refl) as (nn & u & _ & Cy & _ & N & _). rewrite Cy.
      rewrite upd_other by auto. auto. }
    unfold decref. erewrite bind_some by apply count_at.
    erewrite free_at by (rewrite H2x; exact Cx).
    set (h' := upd h2 x None).
    (* the heap afterwards *)
    assert (Ax : h' x = None) by apply upd_same.
    assert (Ap : forall y pp d u, prev = Some y -> h y = Some (CObj pp d u) -> h' y = Some (CObj pp next u)).
    { intros y pp d u Ep Cy. destruct (CP y Ep) as (pp' & u' & _ & Cy' & _ & N & N'). unfold h'. rewrite upd_other by auto. unfold h2.
      assert (E1 : h1 y = Some (CObj pp next u)). { unfold h1. rewrite Ep, Cy. apply upd_same. }
      destruct next as [z|] eqn:En; auto. destruct (CN z eq_refl) as (nn & uz & _ & Cz & _). rewrite Cz. rewrite upd_other by congruence. exact E1. }
    assert (An : forall y c nn u, next = Some y -> h y = Some (CObj c nn u) -> h' y = Some (CObj prev nn u)).
    { intros y c nn u En Cy. destruct (CN y En) as (nn' & u' & _ & Cy' & _ & N & N'). unfold h'. rewrite upd_other by auto. unfold h2.
      rewrite En, Cy. apply upd_same. }
    assert (Aa : h' a = Some (CTree (if w then hdp (g_lst V g p false) else hdp (l1 ++ l2)) (if w then hdp (l1 ++ l2) else hdp (g_lst V g p true))
                   (g_ht V g p) (g_node V g (p ++ ["?"])))).
    { assert (E2 : h2 a = h1 a).
      { unfold h2. destruct next as [y|] eqn:En; auto. destruct (CN y eq_refl) as (nn & u & _ & Cy & _ & N & _). rewrite Cy.
        rewrite upd_other; auto. congruence. }
      unfold h'. rewrite upd_other by auto. rewrite E2. unfold h1. destruct prev as [y|] eqn:Ep.
      - destruct (CP y eq_refl) as (pp & u & _ & Cy & _ & N & _). rewrite Cy. rewrite upd_other by congruence. rewrite Ca.
        destruct (lastp_some _ _ Ep) as (l & u' & E1).
        assert (EH : hdp (g_lst V g p w) = hdp (l1 ++ l2)). { rewrite El, E1. destruct l as [|[? ?] ?]; reflexivity. }
        destruct w; rewrite <- EH; reflexivity.
      - rewrite upd_same. unfold ca. apply lastp_none in Ep. subst l1. cbn [app]. fold next. destruct w; reflexivity. }
    assert (Ao : forall y, y <> x -> prev <> Some y -> next <> Some y -> y <> a -> h' y = h y).
    { intros y N1 N2 N3 N4. unfold h'. rewrite upd_other by auto. unfold h2.
      assert (E1 : h1 y = h y).
      { unfold h1. destruct prev as [z|] eqn:Ep; [|now rewrite upd_other by auto].
        destruct (CP z eq_refl) as (pp & u & _ & Cy & _ & N & _). rewrite Cy. rewrite upd_other by congruence. reflexivity. }
      destruct next as [z|] eqn:En; auto. destruct (CN z eq_refl) as (nn & u & _ & Cy & _ & N & _). rewrite Cy. rewrite upd_other by congruence. auto. }
    assert (AR : forall y c, h y = Some c -> tkind V c = false -> h' y = Some c).
    { intros y c E K. rewrite Ao; auto.
      - intros ->. rewrite Cx in E. injection E as <-. discriminate.
      - intros Ep. destruct (CP y Ep) as (? & ? & _ & E' & _). rewrite E' in E. injection E as <-. discriminate.
      - intros Ep. destruct (CN y Ep) as (? & ? & _ & E' & _). rewrite E' in E. injection E as <-. discriminate.
      - intros ->. rewrite Ca in E. injection E as <-. discriminate. }
    assert (AN : forall y, y <> x -> (h' y <> None <-> h y <> None)).
    { intros y N. destruct (pcase prev y) as [Ep|N2].
      { destruct (CP y Ep) as (pp & u & _ & Cy & _). rewrite (Ap y pp (Some x) u Ep Cy), Cy. split; discriminate. }
      destruct (pcase next y) as [En|N3].
      { destruct (CN y En) as (pp & u & _ & Cy & _). rewrite (An y (Some x) pp u En Cy), Cy. split; discriminate. }
      destruct (Nat.eq_dec y a) as [->|N4]; [rewrite Aa, Ca; split; discriminate|]. rewrite Ao by auto. reflexivity. }
    assert (IN : forall p' w' y u, In (y, u) (lset V (g_lst V g) p w (l1 ++ l2) p' w') <-> In (y, u) (g_lst V g p' w') /\ y <> x).
    { intros p' w' y u. destruct (lset_cases V (g_lst V g) p w (l1 ++ l2) p' w') as [(-> & -> & E)|E].
      - rewrite E, El. split.
        + intros Hi. split; [apply in_app_iff in Hi; apply in_app_iff; destruct Hi; auto; right; now right|].
          intros ->. apply NX. apply in_map_iff. exists (x, u). auto.
        + intros [Hi N]. apply in_app_iff in Hi. apply in_app_iff. destruct Hi as [|[Hi|]]; auto. congruence.
      - split; [|rewrite E; tauto]. rewrite E. intros Hi. split; auto. intros ->.
        destruct (t_uniq _ _ _ _ _ T _ _ _ _ _ _ _ Hi Hx) as [-> ->]. rewrite lset_same in E. rewrite <- E in Hi.
        apply NX. apply in_map_iff. exists (x, u). auto. }
    exists (Cst h' n t (fun u => if veqb u v then (rc u + -1)%Z else rc u)), (G V (g_node V g) (g_ht V g) (lset V (g_lst V g) p w (l1 ++ l2))), x.
    split; [reflexivity|]. split; [|split; [exact IN|eauto]].
    destruct I as [_ Rr D [C1 C2]]. cbn [c_heap c_next c_refs] in *.
    assert (RN : forall u r', In r' (rset R v rs u) -> In r' (R u) /\ r' <> r).
    { intros u r' Hi. assert (N := r_nodup _ _ _ _ _ Rr v). rewrite ER in N. inversion N; subst.
      destruct (v_dec _ veqb veqb_spec u v) as [->|Nu].
      - rewrite rset_same in Hi by auto. split; [rewrite ER; now right|congruence].
      - rewrite rset_other in Hi by auto. split; auto. intros ->. apply Nu. eapply ref_value; eauto. }
    constructor; cbn [c_heap c_next c_refs].
    - eapply (tinv_remove V h h' n root g p w a x v l1 l2); auto.
      + intros y u c d Hi Cy. destruct (CE y u Hi) as (L1 & L2 & E & Cy'). rewrite Cy in Cy'. injection Cy' as -> ->.
        fold prev next.
        destruct (pcase prev y) as [Ep|N2].
        { destruct (CP y Ep) as (pp & u' & _ & Cy' & Np & _). rewrite Cy in Cy'. injection Cy' as E1 E2 E3. rewrite E2.
          rewrite swapp_same. rewrite swapp_other by congruence. eapply Ap; [exact Ep|]. rewrite Cy. reflexivity. }
        rewrite (swapp_other (hdp L2)). 2: { intros E'. apply N2. eapply precedes; eauto. }
        destruct (pcase next y) as [En|N3].
        { destruct (CN y En) as (nn & u' & _ & Cy' & Nn & _). rewrite Cy in Cy'. injection Cy' as E1 E2 E3. rewrite E1.
          rewrite swapp_same. eapply An; [exact En|]. rewrite Cy. reflexivity. }
        rewrite swapp_other. 2: { intros E'. apply N3. eapply follows; eauto. }
        rewrite Ao; auto; [|congruence]. intros ->. apply NX. apply in_map_iff. exists (x, u). auto.
      + intros y c E K N1 N2. rewrite Ao; auto.
        * intros ->. apply N2. apply in_map_iff. exists (x, v). auto.
        * intros E'. destruct (CP y E') as (? & u & Hi & _). apply N2. rewrite El. apply in_map_iff. exists (y, u). split; auto. apply in_app_iff. auto.
        * intros E'. destruct (CN y E') as (? & u & Hi & _). apply N2. rewrite El. apply in_map_iff. exists (y, u). split; auto. apply in_app_iff. right. now right.
    - assert (NV : forall u r' x', In r' (rset R v rs u) -> (exists l' w', h r' = Some (CRef l' w' x')) -> x' <> x).
      { intros u r' x' Hi (l' & w' & E) ->. destruct (RN _ _ Hi) as [Hi' N]. apply N. eapply (r_inj _ _ _ _ _ Rr u r' v r); eauto. }
      constructor.
      + intros u r' Hi. destruct (RN _ _ Hi) as [Hi' N]. destruct (r_ref _ _ _ _ _ Rr _ _ Hi') as (p' & l' & w' & x' & E1 & E2 & E3).
        exists p', l', w', x'. split; [now apply AR|]. split; auto. cbn [g_lst]. apply IN. split; auto. eapply NV; eauto.
      + intros p' w' y u Hi. cbn [g_lst] in Hi. apply IN in Hi. destruct Hi as [Hi N].
        destruct (r_all _ _ _ _ _ Rr _ _ _ _ Hi) as (r' & l' & E1 & E2 & E3). exists r', l'. split; [|split; auto].
        destruct (v_dec _ veqb veqb_spec u v) as [->|Nu]; [|now rewrite rset_other by auto].
        rewrite rset_same by auto. rewrite ER in E1. destruct E1 as [<-|E1]; auto. congruence.
      + intros u r1 u' r2 l3 w3 y l4 w4 H1 H2 E1 E2. destruct (RN _ _ H1) as [H1' _]. destruct (RN _ _ H2) as [H2' _].
        destruct (r_ref _ _ _ _ _ Rr _ _ H1') as (? & ? & ? & ? & E3 & _). destruct (r_ref _ _ _ _ _ Rr _ _ H2') as (? & ? & ? & ? & E4 & _).
        rewrite (AR _ _ E3 eq_refl) in E1. rewrite (AR _ _ E4 eq_refl) in E2. rewrite E1 in E3. rewrite E2 in E4.
        eapply (r_inj _ _ _ _ _ Rr u r1 u' r2); eauto.
      + intros u. destruct (v_dec _ veqb veqb_spec u v) as [->|Nu]; [rewrite rset_same by auto|rewrite rset_other by auto; apply (r_nodup _ _ _ _ _ Rr)].
        assert (N := r_nodup _ _ _ _ _ Rr v). rewrite ER in N. now inversion N.
      + intros r' [<-|Hi]; [do 3 eexists; apply AR; [exact Cr|reflexivity]|].
        destruct (r_loose _ _ _ _ _ Rr r' Hi) as (? & ? & ? & E). do 3 eexists. apply AR; [exact E|reflexivity].
      + constructor; [|apply (r_xnodup _ _ _ _ _ Rr)]. exact (r_apart _ _ _ _ _ Rr _ _ Hr).
      + intros u r' Hi [<-|HX]; destruct (RN _ _ Hi) as [Hi' N]; [congruence|]. exact (r_apart _ _ _ _ _ Rr _ _ Hi' HX).
    - intros y E. destruct (Nat.eq_dec y x) as [->|N]; [congruence|]. apply AN in E; auto. cbn [g_node g_ht g_lst].
      destruct (D y E) as [H0|[H0|[(p' & w' & u & H0)|[(u & H0)|H0]]]]; auto.
      + right; right; left. exists p', w', u. apply IN. auto.
      + destruct (Nat.eq_dec y r) as [->|N']; [right; right; right; right; now left|]. right; right; right; left. exists u.
        destruct (v_dec _ veqb veqb_spec u v) as [->|Nu]; [|now rewrite rset_other by auto]. rewrite rset_same by auto.
        rewrite ER in H0. destruct H0; auto. congruence.
      + right; right; right; right. now right.
    - split; cbn [c_heap c_next c_refs].
      + intros y E. destruct (Nat.eq_dec y x) as [->|N]; [congruence|]. apply AN in E; auto.
      + intros u. rewrite (cnt_weight V veqb (upd h x None)).
        * rewrite cnt_upd by auto. rewrite Cx. cbn [weight]. rewrite C2.
          assert (EV : veqb v u = veqb u v).
          { destruct (v_dec _ veqb veqb_spec u v) as [->|Nu]; [reflexivity|]. rewrite !(v_eqb_ne _ veqb veqb_spec) by auto. reflexivity. }
          rewrite EV. destruct (veqb u v); lia.
        * intros y. destruct (Nat.eq_dec y x) as [->|N]; [now rewrite Ax, upd_same|]. rewrite upd_other by auto.
          destruct (pcase prev y) as [Ep|N2]; [destruct (CP y Ep) as (pp & u' & _ & Cy & _); now rewrite (Ap y pp (Some x) u' Ep Cy), Cy|].
          destruct (pcase next y) as [En|N3]; [destruct (CN y En) as (pp & u' & _ & Cy & _); now rewrite (An y (Some x) pp u' En Cy), Cy|].
          destruct (Nat.eq_dec y a) as [->|N4]; [now rewrite Aa, Ca|]. now rewrite Ao.
  Qed.
End CHeapRemove.
