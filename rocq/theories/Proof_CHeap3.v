(** Proofs about the memory of the C event type collection: adding values to the
    tree. *)
From Coq Require Import String Bool Arith ZArith Lia List.
From Verif Require Import Base Model_Types Model_Subscription Model_Collection Model_CHeap Proof_Subscription Proof_CHeap Proof_CHeap2.
Import ListNotations.
Open Scope string_scope.
Open Scope list_scope.

Section CHeapTree.
  Variable V : Type.
  Variable veqb : V -> V -> bool.
  Hypothesis veqb_spec : forall a b, veqb a b = true <-> a = b.
  Variable ok : nat -> bool.

  Notation heap := (addr -> option (cell V)).
  Notation inv := (inv V veqb).
  Notation tinv := (tinv V).
  Notation rinv := (rinv V).
  Notation dinv := (dinv V).
  Notation cinv := (cinv V veqb).
  Notation ghost := (ghost V).
  Notation hdp := (hdp V).
  Notation rset := (rset V veqb).

  Lemma rinv_mono : forall h g g' R X, rinv h g R X ->
    (forall p l, g_node V g p = Some l -> g_node V g' p = Some l) -> (forall p w, g_lst V g' p w = g_lst V g p w) -> rinv h g' R X.
  Proof.
    intros h g g' R X Rr N L. constructor; try apply Rr.
    - intros v r Hr. destruct (r_ref _ _ _ _ _ Rr _ _ Hr) as (p & l & w & x & E1 & E2 & E3). exists p, l, w, x. rewrite L. auto.
    - intros p w x v. rewrite L. intros Hi. destruct (r_all _ _ _ _ _ Rr _ _ _ _ Hi) as (r & l & E1 & E2 & E3). exists r, l. auto.
  Qed.

  Lemma cnt_weight : forall (h h' : heap) n v, (forall x, weight V veqb (h' x) v = weight V veqb (h x) v) -> cnt V veqb h' n v = cnt V veqb h n v.
  Proof. intros h h' n v H. induction n as [|n IH]; cbn [cnt]; [reflexivity|]. now rewrite IH, H. Qed.

  Lemma inv_new_node : forall s s' root g R X p a k c, inv s root g R X ->
    g_node V g p = Some a -> g_node V g (p ++ [k]) = None -> k <> "*" -> c_heap s c = None -> c < c_next s' -> c_next s < c_next s' ->
    c_heap s' c = Some (CTree None None None None) ->
    (k = "?" -> c_heap s' a = Some (CTree (hdp (g_lst V g p false)) (hdp (g_lst V g p true)) (g_ht V g p) (Some c))) ->
    (k <> "?" -> c_heap s' a = c_heap s a /\ exists b es, g_ht V g p = Some b /\ c_heap s b = Some (CHt es) /\ c_heap s' b = Some (CHt (sset k c es))) ->
    (forall x, x <> c -> (k = "?" -> x <> a) -> (k <> "?" -> g_ht V g p <> Some x) -> c_heap s' x = c_heap s x) ->
    (forall v, c_refs s' v = c_refs s v) ->
    inv s' root (G V (gset (g_node V g) (p ++ [k]) (Some c)) (g_ht V g) (g_lst V g)) R X.
  Proof.
    intros s s' root g R X p a k c I Ea Ek Nk Ec Lc Ln Hc Hq Hn Ho Hr.
    assert (FR := fun x => fresh_none _ _ _ _ _ _ _ x I). destruct I as [T Rr D [C1 C2]].
    assert (Ca := t_cell _ _ _ _ _ T p a Ea).
    assert (CH : forall x, c_heap s' x = c_heap s x \/ x = c \/ (exists u1 u2 u3 u4 v1 v2 v3 v4, c_heap s x = Some (CTree u1 u2 u3 u4) /\ c_heap s' x = Some (CTree v1 v2 v3 v4))
               \/ (exists e1 e2, c_heap s x = Some (CHt e1) /\ c_heap s' x = Some (CHt e2))).
    { intros x. destruct (Nat.eq_dec x c) as [|N]; auto. destruct (string_dec k "?") as [Eq|Nq].
      - destruct (Nat.eq_dec x a) as [->|N']; [right; right; left; rewrite Ca, (Hq Eq); do 8 eexists; split; reflexivity|].
        left. apply Ho; auto; intros; congruence.
      - destruct (Hn Nq) as (_ & b & es & B1 & B2 & B3). destruct (Nat.eq_dec x b) as [->|N']; [right; right; right; eauto|].
        left. apply Ho; auto; intros; congruence. }
    constructor.
    - eapply (tinv_new_node V (c_heap s) (c_heap s') (c_next s)); eauto.
    - apply rinv_mono with (g := g).
      + eapply rinv_frame; [exact Rr|]. intros x y E K. destruct (CH x) as [E1|[->|[(?&?&?&?&?&?&?&?&E1&E2)|(?&?&E1&E2)]]]; try congruence.
        * rewrite E in E1. injection E1 as ->. discriminate.
        * rewrite E in E1. injection E1 as ->. discriminate.
      + intros p' l E. cbn [g_node]. rewrite gset_other; [auto|]. intros ->. congruence.
      + reflexivity.
    - intros x E. cbn [g_node g_ht g_lst]. destruct (Nat.eq_dec x c) as [->|N]; [left; exists (p ++ [k]); apply gset_same|].
      assert (E' : c_heap s x <> None). { destruct (CH x) as [E1|[->|[(?&?&?&?&?&?&?&?&E1&E2)|(?&?&E1&E2)]]]; congruence. }
      destruct (D x E') as [(p' & H0)|H0]; [left|right; exact H0]. exists p'. rewrite gset_other; auto. intros ->. congruence.
    - split.
      + intros x E. destruct (Nat.eq_dec x c) as [->|N]; auto.
        assert (E' : c_heap s x <> None). { destruct (CH x) as [E1|[->|[(?&?&?&?&?&?&?&?&E1&E2)|(?&?&E1&E2)]]]; congruence. }
        specialize (C1 x E'). lia.
      + intros v. rewrite Hr, C2. symmetry. replace (c_next s') with ((c_next s' - c_next s) + c_next s) by lia.
        rewrite (cnt_weight (c_heap s)). { apply cnt_more. intros. now apply FR. }
        intros x. destruct (CH x) as [E1|[->|[(?&?&?&?&?&?&?&?&E1&E2)|(?&?&E1&E2)]]]; [congruence|now rewrite Hc, Ec|now rewrite E1, E2|now rewrite E1, E2].
  Qed.

  Lemma inv_new_ht : forall s s' root g R X p a b, inv s root g R X ->
    g_node V g p = Some a -> g_ht V g p = None -> c_heap s b = None -> b < c_next s' -> c_next s < c_next s' ->
    c_heap s' b = Some (CHt []) ->
    c_heap s' a = Some (CTree (hdp (g_lst V g p false)) (hdp (g_lst V g p true)) (Some b) (g_node V g (p ++ ["?"]))) ->
    (forall x, x <> b -> x <> a -> c_heap s' x = c_heap s x) ->
    (forall v, c_refs s' v = c_refs s v) ->
    inv s' root (G V (g_node V g) (gset (g_ht V g) p (Some b)) (g_lst V g)) R X.
  Proof.
    intros s s' root g R X p a b I Ea Eh Eb Lb Ln Hb Ha Ho Hr.
    assert (FR := fun x => fresh_none _ _ _ _ _ _ _ x I). destruct I as [T Rr D [C1 C2]].
    assert (Ca := t_cell _ _ _ _ _ T p a Ea).
    constructor.
    - eapply (tinv_new_ht V (c_heap s) (c_heap s') (c_next s)); eauto.
    - apply rinv_mono with (g := g); auto. eapply rinv_frame; [exact Rr|]. intros x y E K. rewrite Ho; auto; [congruence|].
      intros ->. rewrite Ca in E. injection E as <-. discriminate.
    - intros x E. cbn [g_node g_ht g_lst]. destruct (Nat.eq_dec x b) as [->|N]; [right; left; exists p; apply gset_same|].
      assert (E' : c_heap s x <> None). { destruct (Nat.eq_dec x a) as [->|N']; [congruence|]. rewrite Ho in E; auto. }
      destruct (D x E') as [H0|[(p' & H0)|H0]]; [auto|right; left|auto]. exists p'. rewrite gset_other; auto. intros ->. congruence.
    - split.
      + intros x E. destruct (Nat.eq_dec x b) as [->|N]; auto.
        assert (E' : c_heap s x <> None). { destruct (Nat.eq_dec x a) as [->|N']; [congruence|]. rewrite Ho in E; auto. }
        specialize (C1 x E'). lia.
      + intros v. rewrite Hr, C2. symmetry. replace (c_next s') with ((c_next s' - c_next s) + c_next s) by lia.
        rewrite (cnt_weight (c_heap s)). { apply cnt_more. intros. now apply FR. }
        intros x. destruct (Nat.eq_dec x b) as [->|N]; [now rewrite Hb, Eb|]. destruct (Nat.eq_dec x a) as [->|N']; [now rewrite Ca, Ha|now rewrite Ho].
  Qed.

  (** Where a query type's value is put, under the node where it is added. *)
  Fixpoint place (q : etype) : etype * bool :=
    match q with
    | [] => ([], false)
    | k :: q' => if k =? "*" then ([], true) else let '(p, w) := place q' in (k :: p, w)
    end.

  Definition added (s' : cst V) root (g : ghost) R X p q v (r : ptr) : Prop :=
    exists g',
      match r with
      | None => inv s' root g' R X /\ (forall p' w', g_lst V g' p' w' = g_lst V g p' w') /\ exists i, ok i = false
      | Some r => exists x, inv s' root g' (rset R v (R v ++ [r])) X /\
          forall p' w', g_lst V g' p' w' =
            lset V (g_lst V g) (p ++ fst (place q)) (snd (place q)) ((x, v) :: g_lst V g (p ++ fst (place q)) (snd (place q))) p' w'
      end.

  Lemma added_cons : forall s' root g R X p k q v r, k <> "*" -> added s' root g R X (p ++ [k]) q v r -> added s' root g R X p (k :: q) v r.
  Proof.
    intros s' root g R X p k q v r N (g' & H). exists g'. destruct r as [r|]; auto. destruct H as (x & H1 & H2). exists x. split; auto.
    cbn [place]. destruct (k =? "*") eqn:E; [apply String.eqb_eq in E; congruence|]. destruct (place q) as [p0 w0]. cbn [fst snd] in *.
    now rewrite <- app_assoc in H2.
  Qed.

  Lemma added_ghost : forall s' root g g0 R X p q v r, (forall p' w', g_lst V g0 p' w' = g_lst V g p' w') ->
    added s' root g0 R X p q v r -> added s' root g R X p q v r.
  Proof.
    intros s' root g g0 R X p q v r L (g' & H). exists g'. destruct r as [r|].
    - destruct H as (x & H1 & H2). exists x. split; auto. intros p' w'. rewrite H2. unfold lset. rewrite !L. reflexivity.
    - destruct H as (H1 & H2 & H3). split; auto. split; auto. intros. now rewrite H2.
  Qed.

  (** _ctree.c:123-173 *)
  Lemma add_tree_spec : forall q s root g R X p a v, inv s root g R X -> g_node V g p = Some a ->
    exists r s', add_value_to_tree veqb ok a q v s = Some (r, s') /\ added s' root g R X p q v r.
  Proof.
    induction q as [|k q IH]; intros s root g R X p a v I Ea.
    - cbn [add_value_to_tree]. destruct (add_list_spec V veqb veqb_spec ok s root g R X p a false v I Ea) as (r & s' & E & H & F).
      exists r, s'. split; auto. destruct r as [r|].
      + destruct H as (x & H). eexists. exists x. split; [exact H|]. cbn [place fst snd]. rewrite app_nil_r. reflexivity.
      + exists g. auto.
    - cbn [add_value_to_tree]. destruct (k =? "*") eqn:Es.
      { destruct (add_list_spec V veqb veqb_spec ok s root g R X p a true v I Ea) as (r & s' & E & H & F).
        exists r, s'. split; auto. destruct r as [r|].
        + destruct H as (x & H). eexists. exists x. split; [exact H|]. cbn [place]. rewrite Es. cbn [fst snd]. rewrite app_nil_r. reflexivity.
        + exists g. auto. }
      apply String.eqb_neq in Es.
      assert (FR := fun x => fresh_none _ _ _ _ _ _ _ x I). assert (T := i_t _ _ _ _ _ _ _ I).
      assert (Ca := t_cell _ _ _ _ _ T p a Ea).
      assert (La : a < c_next s). { destruct (i_c _ _ _ _ _ _ _ I) as [C1 _]. apply (C1 a). congruence. }
      destruct (k =? "?") eqn:Eq.
      + apply String.eqb_eq in Eq. subst k. destruct s as [h n t rc]. cbn [c_heap c_next c_tries c_refs] in *.
        erewrite bind_some by (apply load_tree_at; exact Ca). cbn beta iota.
        destruct (g_node V g (p ++ ["?"])) as [c|] eqn:Ec.
        * destruct (IH _ root g R X (p ++ ["?"]) c v I Ec) as (r & s' & E & H). exists r, s'. split; auto. now apply added_cons.
        * unfold create_tree_node, bind at 1 2. rewrite malloc_at. destruct (ok t) eqn:O.
          -- erewrite bind_some by (eapply store_at; apply upd_same). unfold ret at 1.
             erewrite bind_some by (eapply store_at; rewrite !upd_other by lia; exact Ca).
             set (h' := upd _ a _).
             assert (I' : inv (Cst h' (S n) (S t) rc) root (G V (gset (g_node V g) (p ++ ["?"]) (Some n)) (g_ht V g) (g_lst V g)) R X).
             { eapply (inv_new_node (Cst h n t rc)); cbn [c_heap c_next c_refs]; eauto.
               - unfold h'. rewrite upd_other by lia. apply upd_same.
               - intros _. unfold h'. apply upd_same.
               - intros N. congruence.
               - intros x N1 N2 _. unfold h'. rewrite !upd_other by auto. reflexivity. }
             destruct (IH _ root _ R X (p ++ ["?"]) n v I' (gset_same _ _ _ _)) as (r & s' & E & H). exists r, s'. split; auto.
             apply added_cons; [assumption|]. eapply added_ghost; [|exact H]. reflexivity.
          -- unfold ret at 1. erewrite bind_some by (eapply store_at; exact Ca). eexists. eexists. split; [reflexivity|].
             exists g. split; [|eauto]. apply (inv_ext V veqb (Cst h n t rc)); cbn [c_heap c_next c_refs]; auto.
             intros x. unfold upd. destruct (Nat.eqb x a) eqn:E; auto. apply Nat.eqb_eq in E. now subst.
      + apply String.eqb_neq in Eq.
        (* the child in the hash table *)
        assert (CHILD : forall s0 g0 b, inv s0 root g0 R X -> g_node V g0 p = Some a -> g_ht V g0 p = Some b ->
          (forall p' w', g_lst V g0 p' w' = g_lst V g p' w') ->
          exists r s', bind (ht_get b k) (fun pc => match pc with
              | Some c => add_value_to_tree veqb ok c q v
              | None =>
                  bind (create_tree_node ok) (fun pc =>
                  match pc with
                  | None => ret None
                  | Some c =>
                      bind (ht_set ok b k c) (fun fine : bool =>
                      if fine then add_value_to_tree veqb ok c q v
                      else bind (fun s => free_tree_node veqb (c_next s) c s) (fun _ => ret None))
                  end)
              end) s0 = Some (r, s') /\ added s' root g R X p (k :: q) v r).
        { intros s0 g0 b I0 Ea0 Eb0 L0. assert (FR0 := fun x => fresh_none _ _ _ _ _ _ _ x I0). assert (T0 := i_t _ _ _ _ _ _ _ I0).
          destruct (t_ht _ _ _ _ _ T0 p b Eb0) as (es & Hb & ND & Q).
          assert (Lb : b < c_next s0). { destruct (i_c _ _ _ _ _ _ _ I0) as [C1 _]. apply (C1 b). congruence. }
          assert (Ca0 := t_cell _ _ _ _ _ T0 p a Ea0).
          assert (La0 : a < c_next s0). { destruct (i_c _ _ _ _ _ _ _ I0) as [C1 _]. apply (C1 a). congruence. }
          assert (Nab : a <> b) by congruence.
          destruct s0 as [h n t rc]. cbn [c_heap c_next c_tries c_refs] in *.
          rewrite (bind_some _ _ _ _ _ _ (sget k es) (Cst h n t rc)).
          2: { unfold ht_get. erewrite bind_some by (apply load_ht_at; exact Hb). reflexivity. }
          destruct (sget k es) as [c|] eqn:Ec.
          - apply Q in Ec. destruct Ec as [_ Ec]. destruct (IH _ root g0 R X (p ++ [k]) c v I0 Ec) as (r & s' & E & H). exists r, s'.
            split; auto. apply added_cons; [assumption|]. eapply added_ghost; [|exact H]. auto.
          - assert (Ek : g_node V g0 (p ++ [k]) = None).
            { destruct (g_node V g0 (p ++ [k])) as [c|] eqn:E; auto. assert (Ec' : sget k es = Some c) by (apply Q; auto). congruence. }
            unfold create_tree_node, bind at 1 2. rewrite malloc_at. destruct (ok t) eqn:O.
            + erewrite bind_some by (eapply store_at; apply upd_same). unfold ret at 1.
              set (h1 := upd (upd h n _) n _).
              assert (H1o : forall x, x <> n -> h1 x = h x) by (intros; unfold h1; now rewrite !upd_other).
              unfold ht_set. unfold bind at 1. erewrite bind_some by (apply load_ht_at; rewrite H1o by lia; exact Hb).
              unfold bind at 1. unfold may_fail. cbn [c_heap c_next c_tries c_refs]. destruct (ok (S t)) eqn:O2.
              * erewrite bind_some by (eapply store_at; rewrite H1o by lia; exact Hb). unfold ret at 1.
                set (h' := upd h1 b _).
                assert (I' : inv (Cst h' (S n) (S (S t)) rc) root (G V (gset (g_node V g0) (p ++ [k]) (Some n)) (g_ht V g0) (g_lst V g0)) R X).
                { eapply (inv_new_node (Cst h n t rc)); cbn [c_heap c_next c_refs]; eauto.
                  - unfold h'. rewrite upd_other by lia. apply upd_same.
                  - intros N. congruence.
                  - intros _. split; [unfold h'; rewrite upd_other by auto; apply H1o; lia|]. exists b, es. split; auto. split; auto.
                    unfold h'. apply upd_same.
                  - intros x N1 _ N3. unfold h'. rewrite upd_other; [apply H1o; auto|]. specialize (N3 Eq). congruence. }
                destruct (IH _ root _ R X (p ++ [k]) n v I' (gset_same _ _ _ _)) as (r & s' & E & H). exists r, s'. split; auto.
                apply added_cons; [assumption|]. eapply added_ghost; [|exact H]. exact L0.
              * unfold ret at 1. unfold bind at 1. cbn [c_next free_tree_node].
                erewrite bind_some by (apply load_tree_at; apply upd_same). cbn beta iota.
                destruct n as [|n']; [lia|]. unfold free_obj_list.
                do 4 (erewrite bind_some by reflexivity).
                erewrite free_at by apply upd_same. eexists. eexists. split; [reflexivity|].
                exists g0. split; [|eauto]. apply (inv_ext V veqb (Cst h (S n') t rc)); cbn [c_heap c_next c_refs]; auto.
                intros x. destruct (Nat.eq_dec x (S n')) as [->|N]; [rewrite upd_same; symmetry; apply FR0; lia|].
                rewrite upd_other by auto. now apply H1o.
            + unfold ret at 1. eexists. eexists. split; [reflexivity|]. exists g0. split; [|eauto].
              apply (inv_ext V veqb (Cst h n t rc)); cbn [c_heap c_next c_refs]; auto. }
        destruct s as [h n t rc]. cbn [c_heap c_next c_tries c_refs] in *.
        erewrite bind_some by (apply load_tree_at; exact Ca). cbn beta iota.
        destruct (g_ht V g p) as [b|] eqn:Eb.
        * erewrite bind_some by reflexivity. cbn beta iota. eapply CHILD; eauto.
        * unfold ht_create, bind at 1 2 3. rewrite malloc_at. destruct (ok t) eqn:O.
          -- erewrite bind_some by (eapply store_at; apply upd_same). unfold ret at 1.
             erewrite bind_some by (eapply store_at; rewrite !upd_other by lia; exact Ca). unfold ret at 1.
             set (h' := upd _ a _).
             assert (I' : inv (Cst h' (S n) (S t) rc) root (G V (g_node V g) (gset (g_ht V g) p (Some n)) (g_lst V g)) R X).
             { eapply (inv_new_ht (Cst h n t rc)); cbn [c_heap c_next c_refs]; eauto.
               - unfold h'. rewrite upd_other by lia. apply upd_same.
               - unfold h'. apply upd_same.
               - intros x N1 N2. unfold h'. rewrite !upd_other by auto. reflexivity. }
             eapply CHILD; [exact I'|exact Ea|apply gset_same|reflexivity].
          -- unfold ret at 1. erewrite bind_some by (eapply store_at; exact Ca). unfold ret at 1. eexists. eexists. split; [reflexivity|].
             exists g. split; [|eauto]. apply (inv_ext V veqb (Cst h n t rc)); cbn [c_heap c_next c_refs]; auto.
             intros x. unfold upd. destruct (Nat.eqb x a) eqn:E; auto. apply Nat.eqb_eq in E. now subst.
  Qed.
End CHeapTree.
