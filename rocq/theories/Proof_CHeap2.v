(** Proofs about the memory of the C event type collection: adding values. *)
From Coq Require Import String Bool Arith ZArith Lia List.
From Verif Require Import Base Model_Types Model_Subscription Model_Collection Model_CHeap Proof_Subscription Proof_CHeap.
Import ListNotations.
Open Scope string_scope.
Open Scope list_scope.

Section CHeapAdd.
  Variable V : Type.
  Variable veqb : V -> V -> bool.
  Hypothesis veqb_spec : forall a b, veqb a b = true <-> a = b.
  Variable ok : nat -> bool.

  Notation heap := (addr -> option (cell V)).
  Notation inv := (inv V veqb).
  Notation tinv := (tinv V).
  Notation rinv := (rinv V).
  Notation dinv := (dinv V).
  Notation cinv := (cinv V veqb).
  Notation ghost := (ghost V).
  Notation hdp := (hdp V).

  Lemma v_eqb_refl : forall v, veqb v v = true.
  Proof. intros. now apply veqb_spec. Qed.
  Lemma v_dec : forall a b : V, a = b \/ a <> b.
  Proof.
    intros a b. destruct (veqb a b) eqn:E; [left; now apply veqb_spec|right]. intros ->. rewrite v_eqb_refl in E. discriminate.
  Qed.
  Lemma v_eqb_ne : forall a b, a <> b -> veqb a b = false.
  Proof. intros a b N. destruct (veqb a b) eqn:E; auto. apply veqb_spec in E. congruence. Qed.

  (** ** Steps *)

  Lemma bind_some : forall A B (m : M V A) (f : A -> M V B) s a s', m s = Some (a, s') -> bind m f s = f a s'.
  Proof. intros A B m f s a s' E. unfold bind. now rewrite E. Qed.

  Lemma load_tree_at : forall (h : heap) n t r a x y z u, h a = Some (CTree x y z u) ->
    load_tree a (Cst h n t r) = Some ((x, y, z, u), Cst h n t r).
  Proof. intros. unfold load_tree, bind, load. cbn [c_heap]. now rewrite H. Qed.
  Lemma load_obj_at : forall (h : heap) n t r a x y v, h a = Some (CObj x y v) ->
    load_obj a (Cst h n t r) = Some ((x, y, v), Cst h n t r).
  Proof. intros. unfold load_obj, bind, load. cbn [c_heap]. now rewrite H. Qed.
  Lemma load_ref_at : forall (h : heap) n t r a x y v, h a = Some (CRef x y v) ->
    load_ref a (Cst h n t r) = Some ((x, y, v), Cst h n t r).
  Proof. intros. unfold load_ref, bind, load. cbn [c_heap]. now rewrite H. Qed.
  Lemma load_ht_at : forall (h : heap) n t r a es, h a = Some (CHt es) ->
    load_ht a (Cst h n t r) = Some (es, Cst h n t r).
  Proof. intros. unfold load_ht, bind, load. cbn [c_heap]. now rewrite H. Qed.
  Lemma store_at : forall (h : heap) n t r a c c', h a = Some c ->
    store a c' (Cst h n t r) = Some (tt, Cst (upd h a (Some c')) n t r).
  Proof. intros. unfold store, set_heap. cbn [c_heap c_next c_tries c_refs]. now rewrite H. Qed.
  Lemma free_at : forall (h : heap) n t r a c, h a = Some c ->
    free a (Cst h n t r) = Some (tt, Cst (upd h a None) n t r).
  Proof. intros. unfold free, set_heap. cbn [c_heap c_next c_tries c_refs]. now rewrite H. Qed.
  Lemma head_at : forall (h : heap) n t r a w x y z u, h a = Some (CTree x y z u) ->
    head a w (Cst h n t r) = Some ((if w then y else x), Cst h n t r).
  Proof. intros. unfold head. erewrite bind_some by (apply load_tree_at; eassumption). reflexivity. Qed.
  Lemma set_head_at : forall (h : heap) n t r a w p x y z u, h a = Some (CTree x y z u) ->
    set_head a w p (Cst h n t r) = Some (tt, Cst (upd h a (Some (if w then CTree x p z u else CTree p y z u))) n t r).
  Proof. intros. unfold set_head. erewrite bind_some by (apply load_tree_at; eassumption). cbn beta iota. eapply store_at; eassumption. Qed.
  Lemma malloc_at : forall (h : heap) n t r, malloc ok (Cst h n t r) =
    if ok t then Some (Some n, Cst (upd h n (Some CRaw)) (S n) (S t) r) else Some (None, Cst h n (S t) r).
  Proof. reflexivity. Qed.
  Lemma count_at : forall (h : heap) n t r v d,
    count veqb v d (Cst h n t r) = Some (tt, Cst h n t (fun u => if veqb u v then (r u + d)%Z else r u)).
  Proof. reflexivity. Qed.

  (** ** Invariant *)

  Lemma cnt_more : forall (h : heap) n v k, (forall x, n <= x -> h x = None) -> cnt V veqb h (k + n) v = cnt V veqb h n v.
  Proof.
    intros h n v k H. induction k as [|k IH]; [reflexivity|]. cbn [Nat.add cnt]. rewrite IH, H by lia. cbn. lia.
  Qed.

  Lemma inv_ext : forall s s' root g R X, inv s root g R X -> (forall x, c_heap s' x = c_heap s x) -> c_next s <= c_next s' ->
    (forall v, c_refs s' v = c_refs s v) -> inv s' root g R X.
  Proof.
    intros s s' root g R X [T Rr D [C1 C2]] H N Q. constructor.
    - eapply tinv_frame; [exact T|exact N|]. intros x c E _. now rewrite H.
    - eapply rinv_frame; [exact Rr|]. intros x c E _. now rewrite H.
    - intros x E. apply D. now rewrite <- H.
    - split.
      + intros x E. rewrite H in E. specialize (C1 x E). lia.
      + intros v. rewrite Q, C2. replace (c_next s') with ((c_next s' - c_next s) + c_next s) by lia.
        rewrite (cnt_ext V veqb (c_heap s) (c_heap s')) by (intros; apply H). symmetry. apply cnt_more.
        intros x L. destruct (c_heap s x) eqn:E; auto. specialize (C1 x). rewrite E in C1. specialize (C1 ltac:(discriminate)). lia.
  Qed.

  Lemma fresh_none : forall s root g R X x, inv s root g R X -> c_next s <= x -> c_heap s x = None.
  Proof.
    intros s root g R X x I L. destruct (c_heap s x) eqn:E; auto. destruct (i_c _ _ _ _ _ _ _ I) as [C1 _].
    specialize (C1 x). rewrite E in C1. specialize (C1 ltac:(discriminate)). lia.
  Qed.

  Definition rset (R : V -> list addr) (v : V) (l : list addr) : V -> list addr := fun u => if veqb u v then l else R u.
  Lemma rset_same : forall R v l, rset R v l v = l.
  Proof. intros. unfold rset. now rewrite v_eqb_refl. Qed.
  Lemma rset_other : forall R v l u, u <> v -> rset R v l u = R u.
  Proof. intros R v l u N. unfold rset. now rewrite v_eqb_ne. Qed.

  (** _ctree.c:87-120 *)
  Lemma add_list_spec : forall s root g R X p a w v, inv s root g R X -> g_node V g p = Some a ->
    exists r s', add_value_to_list veqb ok a w v s = Some (r, s') /\
      match r with
      | None => inv s' root g R X
      | Some r => exists x,
          inv s' root (G V (g_node V g) (g_ht V g) (lset V (g_lst V g) p w ((x, v) :: g_lst V g p w))) (rset R v (R v ++ [r])) X
      end /\
      (r = None -> exists i, ok i = false).
  Proof.
    intros s root g R X p a w v I Ea. assert (FR := fun x => fresh_none _ _ _ _ _ x I).
    destruct s as [h n t rc]. cbn [c_next c_heap] in FR. unfold add_value_to_list.
    assert (Ca := t_cell _ _ _ _ _ (i_t _ _ _ _ _ _ _ I) p a Ea). cbn [c_heap] in Ca.
    assert (Na : a < n). { destruct (i_c _ _ _ _ _ _ _ I) as [C1 _]. apply (C1 a). cbn [c_heap]. congruence. }
    unfold bind at 1. rewrite malloc_at. destruct (ok t) eqn:O1.
    2: { exists None, (Cst h n (S t) rc). split; [reflexivity|]. split; [|intros _; eauto].
         apply (inv_ext (Cst h n t rc)); auto. }
    unfold bind at 1. rewrite malloc_at. destruct (ok (S t)) eqn:O2.
    2: { erewrite bind_some by (eapply free_at; apply upd_same). eexists. eexists. split; [reflexivity|]. split; [|intros _; eauto].
         apply (inv_ext (Cst h n t rc)); cbn [c_heap c_next c_refs]; auto. intros x. unfold upd. destruct (Nat.eqb x n) eqn:E; auto.
         apply Nat.eqb_eq in E. subst. symmetry. apply FR. lia. }
    unfold bind at 1. unfold may_fail at 1. cbn [c_heap c_next c_tries c_refs].
    set (h2 := upd (upd h n (Some CRaw)) (S n) (Some CRaw)).
    assert (H2n : h2 n = Some CRaw). { unfold h2. rewrite upd_other by lia. apply upd_same. }
    assert (H2m : h2 (S n) = Some CRaw) by apply upd_same.
    assert (H2o : forall x, x <> n -> x <> S n -> h2 x = h x). { intros. unfold h2. now rewrite !upd_other. }
    destruct (ok (S (S t))) eqn:O3.
    2: { erewrite bind_some by (eapply free_at; exact H2n). erewrite bind_some by (eapply free_at; rewrite upd_other by lia; exact H2m).
         eexists. eexists. split; [reflexivity|]. split; [|intros _; eauto].
         apply (inv_ext (Cst h n t rc)); cbn [c_heap c_next c_refs]; auto. intros x.
         unfold upd at 1. destruct (Nat.eqb x (S n)) eqn:E; [apply Nat.eqb_eq in E; subst; symmetry; apply FR; lia|].
         unfold upd at 1. destruct (Nat.eqb x n) eqn:E'; [apply Nat.eqb_eq in E'; subst; symmetry; apply FR; lia|].
         apply Nat.eqb_neq in E, E'. now apply H2o. }
    erewrite bind_some by apply count_at.
    erewrite bind_some by (eapply head_at; rewrite H2o by lia; exact Ca).
    set (l := g_lst V g p w).
    assert (EL : (if w then hdp (g_lst V g p true) else hdp (g_lst V g p false)) = hdp l) by (unfold l; now destruct w).
    rewrite EL.
    erewrite bind_some by (eapply store_at; exact H2n).
    set (h3 := upd h2 n (Some (CObj None (hdp l) v))).
    assert (DL := t_dll _ _ _ _ _ (i_t _ _ _ _ _ _ _ I) p w). fold l in DL. cbn [c_heap] in DL.
    assert (HY : forall y u l', l = (y, u) :: l' -> h y = Some (CObj None (hdp l') u) /\ y < n /\ y <> a).
    { intros y u l' El. rewrite El in DL. cbn [dll] in DL. destruct DL as [D1 _]. split; auto. split; [|congruence].
      destruct (i_c _ _ _ _ _ _ _ I) as [C1 _]. apply (C1 y). cbn [c_heap]. congruence. }
    (* the former head *)
    set (h4 := match l with [] => h3 | (y, u) :: l' => upd h3 y (Some (CObj (Some n) (hdp l') u)) end).
    erewrite (bind_some unit ptr _ _ _ tt (Cst h4 (S (S n)) (S (S (S t))) (fun u : V => if veqb u v then (rc u + 1)%Z else rc u))).
    2: { unfold h4. destruct l as [|[y u] l'] eqn:El; cbn [hdp]; [reflexivity|].
         destruct (HY y u l' eq_refl) as (HY1 & HY2 & HY3).
         erewrite bind_some by (eapply load_obj_at; unfold h3; rewrite upd_other by lia; rewrite H2o by lia; exact HY1).
         cbn beta iota. eapply store_at. unfold h3. rewrite upd_other by lia. rewrite H2o by lia. exact HY1. }
    assert (H4a : h4 a = h a).
    { unfold h4. destruct l as [|[y u] l'] eqn:El; [|destruct (HY y u l' eq_refl) as (_ & _ & HY3); rewrite upd_other by congruence];
        unfold h3; rewrite upd_other by lia; apply H2o; lia. }
    erewrite bind_some by (eapply set_head_at; rewrite H4a; exact Ca).
    set (ca := if w then CTree (hdp (g_lst V g p false)) (Some n) (g_ht V g p) (g_node V g (p ++ ["?"]))
               else CTree (Some n) (hdp (g_lst V g p true)) (g_ht V g p) (g_node V g (p ++ ["?"]))).
    assert (H4m : h4 (S n) = Some CRaw).
    { unfold h4. destruct l as [|[y u] l'] eqn:El; [|destruct (HY y u l' eq_refl) as (_ & HY2 & _); rewrite upd_other by lia];
        unfold h3; rewrite upd_other by lia; exact H2m. }
    erewrite bind_some by (eapply store_at; rewrite upd_other by lia; exact H4m).
    set (h6 := upd (upd h4 a (Some ca)) (S n) (Some (CRef a w n))).
    assert (E6n : h6 n = Some (CObj None (hdp l) v)).
    { unfold h6. rewrite !upd_other by lia. unfold h4. destruct l as [|[y u] l'] eqn:El.
      - apply upd_same.
      - destruct (HY y u l' eq_refl) as (_ & HY2 & _). rewrite upd_other by lia. apply upd_same. }
    assert (E6a : h6 a = Some ca). { unfold h6. rewrite upd_other by lia. apply upd_same. }
    assert (E6r : h6 (S n) = Some (CRef a w n)) by apply upd_same.
    assert (E6y : forall y u l', l = (y, u) :: l' -> h6 y = Some (CObj (Some n) (hdp l') u)).
    { intros y u l' El. destruct (HY y u l' El) as (_ & HY2 & HY3). unfold h6. rewrite !upd_other by lia. unfold h4. rewrite El. apply upd_same. }
    assert (E6o : forall x, x <> n -> x <> S n -> x <> a -> hdp l <> Some x -> h6 x = h x).
    { intros x N1 N2 N3 N4. unfold h6. rewrite !upd_other by auto. unfold h4. destruct l as [|[y u] l'] eqn:El.
      - unfold h3. rewrite upd_other by auto. now apply H2o.
      - cbn [Proof_CHeap.hdp] in N4. rewrite upd_other by congruence. unfold h3. rewrite upd_other by auto. now apply H2o. }
    exists (Some (S n)). eexists. split; [reflexivity|]. split; [|discriminate]. exists n.
    assert (HK : forall y c, h y = Some c -> y <> n /\ y <> S n).
    { intros y c E. split; intros ->; rewrite FR in E by lia; discriminate. }
    assert (HD : forall y, hdp l = Some y -> exists z u, h y = Some (CObj None z u)).
    { intros y. destruct l as [|[y' u] l'] eqn:El; cbn; [discriminate|]. intros [= <-]. destruct (HY y' u l' eq_refl) as (E & _). eauto. }
    assert (KR : forall y c, h y = Some c -> tkind V c = false -> h6 y = Some c).
    { intros y c E K. destruct (HK _ _ E). rewrite E6o; auto.
      - intros ->. rewrite Ca in E. injection E as <-. discriminate.
      - intros E'. destruct (HD _ E') as (? & ? & E''). rewrite E'' in E. injection E as <-. discriminate. }
    destruct I as [T Rr D [C1 C2]]. cbn [c_heap c_next c_refs] in *. constructor; cbn [c_heap c_next c_refs].
    - eapply (tinv_insert V h h6 n (S (S n)) root g p w a n v); auto; try lia.
      + rewrite E6a. unfold ca, l. now destruct w.
      + intros y c E K N1 N2. destruct (HK _ _ E). rewrite E6o; auto.
    - constructor.
      + intros u r Hr. destruct (v_dec u v) as [->|Nu].
        * rewrite rset_same in Hr. apply in_app_iff in Hr. destruct Hr as [Hr|[<-|[]]].
          -- destruct (r_ref _ _ _ _ _ Rr _ _ Hr) as (p' & l' & w' & x' & E1 & E2 & E3). exists p', l', w', x'.
             split; [now apply KR|]. split; auto. cbn [g_lst].
             destruct (lset_cases V (g_lst V g) p w ((n, v) :: l) p' w') as [(-> & -> & E)|E]; rewrite E; auto. now right.
          -- exists p, a, w, n. split; auto. split; auto. cbn [g_lst]. rewrite lset_same. now left.
        * rewrite rset_other in Hr by auto. destruct (r_ref _ _ _ _ _ Rr _ _ Hr) as (p' & l' & w' & x' & E1 & E2 & E3). exists p', l', w', x'.
          split; [now apply KR|]. split; auto. cbn [g_lst].
          destruct (lset_cases V (g_lst V g) p w ((n, v) :: l) p' w') as [(-> & -> & E)|E]; rewrite E; auto. now right.
      + cbn [g_lst]. intros p' w' x u Hi.
        assert (OLD : In (x, u) (g_lst V g p' w') -> exists r l0, In r (rset R v (R v ++ [S n]) u) /\ g_node V g p' = Some l0 /\ h6 r = Some (CRef l0 w' x)).
        { intros Hi'. destruct (r_all _ _ _ _ _ Rr _ _ _ _ Hi') as (r & l0 & E1 & E2 & E3). exists r, l0. split; [|split; auto].
          destruct (v_dec u v) as [->|Nu]; [rewrite rset_same; apply in_app_iff; auto|rewrite rset_other; auto]. }
        destruct (lset_cases V (g_lst V g) p w ((n, v) :: l) p' w') as [(-> & -> & E)|E]; rewrite E in Hi; auto.
        destruct Hi as [Hi|Hi]; auto. injection Hi as <- <-. exists (S n), a. rewrite rset_same. split; [apply in_app_iff; right; now left|]. auto.
      + intros u r u' r' l1 w1 x l2 w2 Hr Hr' E E'.
        assert (Q : forall u r, In r (rset R v (R v ++ [S n]) u) -> r = S n \/ In r (R u)).
        { intros u0 r0 H0. destruct (v_dec u0 v) as [->|Nu]; [rewrite rset_same in H0; apply in_app_iff in H0; destruct H0 as [|[|[]]]; auto|rewrite rset_other in H0; auto]. }
        assert (Q' : forall u0 r0 l0 w0 x0, In r0 (R u0) -> h6 r0 = Some (CRef l0 w0 x0) -> h r0 = Some (CRef l0 w0 x0) /\ x0 <> n).
        { intros u0 r0 l0 w0 x0 H0 H1. destruct (r_ref _ _ _ _ _ Rr _ _ H0) as (p' & l' & w' & x' & E1 & E2 & E3).
          rewrite (KR _ _ E1 eq_refl) in H1. injection H1 as <- <- <-. split; auto. intros ->.
          destruct (lst_kind _ _ _ _ _ _ _ _ _ T E3) as (? & ? & E4). rewrite FR in E4 by lia. discriminate. }
        destruct (Q _ _ Hr) as [->|Hr1]; destruct (Q _ _ Hr') as [->|Hr1']; auto.
        * destruct (Q' _ _ _ _ _ Hr1' E') as [_ N]. rewrite E6r in E. congruence.
        * destruct (Q' _ _ _ _ _ Hr1 E) as [_ N]. rewrite E6r in E'. congruence.
        * destruct (Q' _ _ _ _ _ Hr1 E). destruct (Q' _ _ _ _ _ Hr1' E'). eapply (r_inj _ _ _ _ _ Rr u r u' r'); eauto.
      + intros u. destruct (v_dec u v) as [->|Nu]; [rewrite rset_same|rewrite rset_other by auto; apply (r_nodup _ _ _ _ _ Rr)].
        apply NoDup_snoc; [apply (r_nodup _ _ _ _ _ Rr)|]. intros Hr. destruct (r_ref _ _ _ _ _ Rr _ _ Hr) as (? & ? & ? & ? & E1 & _).
        destruct (HK _ _ E1). congruence.
      + intros r Hr. destruct (r_loose _ _ _ _ _ Rr r Hr) as (? & ? & ? & E). do 3 eexists. apply KR; [exact E|reflexivity].
      + apply (r_xnodup _ _ _ _ _ Rr).
      + intros u r Hr HX. destruct (r_loose _ _ _ _ _ Rr r HX) as (? & ? & ? & E). destruct (HK _ _ E).
        destruct (v_dec u v) as [->|Nu].
        * rewrite rset_same in Hr. apply in_app_iff in Hr. destruct Hr as [Hr|[Hr|[]]]; [|congruence]. exact (r_apart _ _ _ _ _ Rr _ _ Hr HX).
        * rewrite rset_other in Hr by auto. exact (r_apart _ _ _ _ _ Rr _ _ Hr HX).
    - intros x E. cbn [g_node g_ht g_lst].
      destruct (Nat.eq_dec x n) as [->|N1].
      { right; right; left. exists p, w, v. rewrite lset_same. now left. }
      destruct (Nat.eq_dec x (S n)) as [->|N2].
      { right; right; right; left. exists v. rewrite rset_same. apply in_app_iff. right. now left. }
      assert (E' : h x <> None).
      { intros E'. destruct (Nat.eq_dec x a) as [->|N3]; [congruence|]. destruct (hdp l) as [y|] eqn:Eh.
        - destruct (Nat.eq_dec x y) as [->|N4]; [destruct (HD y eq_refl) as (? & ? & E3); congruence|]. rewrite E6o in E by (auto; congruence). auto.
        - rewrite E6o in E by (auto; congruence). auto. }
      destruct (D x E') as [H0|[H0|[(p' & w' & u & H0)|[(u & H0)|H0]]]]; auto.
      + right; right; left. exists p', w', u. destruct (lset_cases V (g_lst V g) p w ((n, v) :: l) p' w') as [(-> & -> & E1)|E1]; rewrite E1; auto. now right.
      + right; right; right; left. exists u. destruct (v_dec u v) as [->|Nu]; [rewrite rset_same; apply in_app_iff; auto|rewrite rset_other; auto].
    - split; cbn [c_heap c_next c_refs].
      + intros x E. destruct (Nat.eq_dec x n) as [->|N1]; [lia|]. destruct (Nat.eq_dec x (S n)) as [->|N2]; [lia|].
        destruct (Nat.eq_dec x a) as [->|N3]; [lia|].
        destruct (hdp l) as [y|] eqn:Eh.
        * destruct (Nat.eq_dec x y) as [->|N4]; [destruct (HD y eq_refl) as (? & ? & E3)|].
          -- specialize (C1 y). rewrite E3 in C1. specialize (C1 ltac:(discriminate)). lia.
          -- rewrite E6o in E by (auto; congruence). specialize (C1 x E). lia.
        * rewrite E6o in E by (auto; congruence). specialize (C1 x E). lia.
      + intros u.
        assert (EC : cnt V veqb h6 (S (S n)) u = (cnt V veqb h n u + if veqb u v then 1 else 0)%Z).
        { unfold h6. rewrite cnt_upd by lia. rewrite upd_other by lia. rewrite H4m. rewrite cnt_upd by lia. rewrite H4a, Ca.
          assert (W : weight V veqb (Some ca) u = 0%Z) by (unfold ca; now destruct w). rewrite W. cbn [weight].
          assert (E4 : cnt V veqb h4 (S (S n)) u = cnt V veqb h3 (S (S n)) u).
          { unfold h4. destruct l as [|[y z] l'] eqn:El; [reflexivity|]. destruct (HY y z l' eq_refl) as (HY1 & HY2 & _).
            rewrite cnt_upd by lia. unfold h3 at 2. rewrite upd_other by lia. rewrite H2o by lia. rewrite HY1. cbn [weight]. lia. }
          rewrite E4. unfold h3. rewrite cnt_upd by lia. rewrite H2n. unfold h2. rewrite cnt_upd by lia. rewrite upd_other by lia.
          rewrite cnt_upd by lia. rewrite (FR n) by lia. rewrite (FR (S n)) by lia. cbn [weight].
          replace (S (S n)) with (2 + n) by lia. rewrite cnt_more by (intros; apply FR; lia).
          assert (EV : veqb v u = veqb u v).
          { destruct (v_dec u v) as [->|Nu]; [reflexivity|]. rewrite !v_eqb_ne by auto. reflexivity. }
          rewrite EV. lia. }
        rewrite EC, C2. destruct (veqb u v); lia.
  Qed.
End CHeapAdd.
