(** Proofs about the memory of the C event type collection: the invariant and
    its preservation by changes of the heap. *)
From Coq Require Import String Bool Arith ZArith Lia List.
From Verif Require Import Base Model_Types Model_Subscription Model_Collection Model_CHeap Proof_Subscription.
Import ListNotations.
Open Scope string_scope.
Open Scope list_scope.

Section CHeapInv.
  Variable V : Type.
  Variable veqb : V -> V -> bool.
  Hypothesis veqb_spec : forall a b, veqb a b = true <-> a = b.

  Notation heap := (addr -> option (cell V)).

  (** Where everything is: tree nodes and hash tables by path, lists by path and
      kind. *)
  Record ghost := G { g_node : etype -> ptr; g_ht : etype -> ptr; g_lst : etype -> bool -> list (addr * V) }.

  Definition hdp (l : list (addr * V)) : ptr := match l with [] => None | (a, _) :: _ => Some a end.
  Fixpoint dll (h : heap) (prev : ptr) (l : list (addr * V)) : Prop :=
    match l with
    | [] => True
    | (a, v) :: l' => h a = Some (CObj prev (hdp l') v) /\ dll h (Some a) l'
    end.

  Record tinv (h : heap) (n : nat) (root : addr) (g : ghost) : Prop := {
    t_root : g_node g [] = Some root;
    t_inj : forall p p' a, g_node g p = Some a -> g_node g p' = Some a -> p = p';
    t_cell : forall p a, g_node g p = Some a ->
      h a = Some (CTree (hdp (g_lst g p false)) (hdp (g_lst g p true)) (g_ht g p) (g_node g (p ++ ["?"])));
    t_ht : forall p b, g_ht g p = Some b -> exists es, h b = Some (CHt es) /\ NoDup (keys es) /\
      forall k c, sget k es = Some c <-> k <> "?" /\ g_node g (p ++ [k]) = Some c;
    t_noht : forall p k, g_ht g p = None -> k <> "?" -> g_node g (p ++ [k]) = None;
    t_none : forall p, g_node g p = None ->
      g_ht g p = None /\ (forall w, g_lst g p w = []) /\ forall k, g_node g (p ++ [k]) = None;
    t_htinj : forall p p' b, g_ht g p = Some b -> g_ht g p' = Some b -> p = p';
    t_dll : forall p w, dll h None (g_lst g p w);
    t_uniq : forall p w p' w' x v v', In (x, v) (g_lst g p w) -> In (x, v') (g_lst g p' w') -> p = p' /\ w = w';
    t_nodup : forall p w, NoDup (map fst (g_lst g p w));
    t_star : forall p, g_node g (p ++ ["*"]) = None;
    t_depth : forall p a, g_node g p = Some a -> length p < n;
    t_length : forall p w, length (g_lst g p w) <= n }.

  (** The references [R v] of the values, and references [X] that are not used any
      more. *)
  Record rinv (h : heap) (g : ghost) (R : V -> list addr) (X : list addr) : Prop := {
    r_ref : forall v r, In r (R v) -> exists p l w x,
      h r = Some (CRef l w x) /\ g_node g p = Some l /\ In (x, v) (g_lst g p w);
    r_all : forall p w x v, In (x, v) (g_lst g p w) -> exists r l, In r (R v) /\ g_node g p = Some l /\ h r = Some (CRef l w x);
    r_inj : forall v r v' r' l w x l' w', In r (R v) -> In r' (R v') ->
      h r = Some (CRef l w x) -> h r' = Some (CRef l' w' x) -> r = r';
    r_nodup : forall v, NoDup (R v);
    r_loose : forall r, In r X -> exists l w x, h r = Some (CRef l w x);
    r_xnodup : NoDup X;
    r_apart : forall v r, In r (R v) -> ~ In r X }.

  (** Everything allocated is one of these. *)
  Definition dinv (h : heap) (g : ghost) (R : V -> list addr) (X : list addr) : Prop :=
    forall x, h x <> None ->
      (exists p, g_node g p = Some x) \/ (exists p, g_ht g p = Some x) \/ (exists p w v, In (x, v) (g_lst g p w)) \/
      (exists v, In x (R v)) \/ In x X.

  (** Number of list elements with a value. *)
  Definition weight (c : option (cell V)) (v : V) : Z :=
    match c with Some (CObj _ _ u) => if veqb u v then 1 else 0 | _ => 0 end.
  Fixpoint cnt (h : heap) (n : nat) (v : V) : Z :=
    match n with O => 0 | S m => cnt h m v + weight (h m) v end.
  Definition cinv (s : cst V) : Prop :=
    (forall x, c_heap s x <> None -> x < c_next s) /\ forall v, c_refs s v = cnt (c_heap s) (c_next s) v.

  Record inv (s : cst V) (root : addr) (g : ghost) (R : V -> list addr) (X : list addr) : Prop := {
    i_t : tinv (c_heap s) (c_next s) root g;
    i_r : rinv (c_heap s) g R X;
    i_d : dinv (c_heap s) g R X;
    i_c : cinv s }.

  (** ** Heap updates *)

  Lemma upd_same : forall (h : heap) a c, upd h a c a = c.
  Proof. intros. unfold upd. now rewrite Nat.eqb_refl. Qed.
  Lemma upd_other : forall (h : heap) a c x, x <> a -> upd h a c x = h x.
  Proof. intros h a c x H. unfold upd. apply Nat.eqb_neq in H. now rewrite H. Qed.

  Lemma cnt_ext : forall h h' n v, (forall x, x < n -> h' x = h x) -> cnt h' n v = cnt h n v.
  Proof. intros h h' n v. induction n as [|n IH]; intros H; cbn [cnt]; [reflexivity|]. rewrite IH, H by auto. reflexivity. Qed.

  Lemma cnt_upd : forall h a c n v, a < n -> (cnt (upd h a c) n v = cnt h n v - weight (h a) v + weight c v)%Z.
  Proof.
    intros h a c n v. induction n as [|n IH]; intros H; [lia|]. cbn [cnt].
    destruct (Nat.eq_dec a n) as [->|N].
    - rewrite upd_same. rewrite (cnt_ext h) by (intros; apply upd_other; lia). lia.
    - rewrite IH by lia. rewrite upd_other by auto. lia.
  Qed.

  Lemma cnt_empty : forall h n v, (forall x, h x = None) -> cnt h n v = 0%Z.
  Proof. intros h n v H. induction n as [|n IH]; cbn [cnt]; [reflexivity|]. now rewrite IH, H. Qed.

  Lemma cnt_fresh : forall h n v, h n = None -> cnt h (S n) v = cnt h n v.
  Proof. intros h n v H. cbn [cnt]. rewrite H. cbn. lia. Qed.

  (** ** Frames *)

  Definition tkind (c : cell V) : bool := match c with CObj _ _ _ | CTree _ _ _ _ | CHt _ => true | _ => false end.

  Lemma dll_frame : forall (h h' : heap) l prev, dll h prev l ->
    (forall x v c, In (x, v) l -> h x = Some c -> h' x = Some c) -> dll h' prev l.
  Proof.
    intros h h'. induction l as [|[a v] l IH]; intros prev D F; cbn [dll] in *; auto. destruct D as [D1 D2]. split.
    - eapply F; [left; reflexivity|exact D1].
    - apply IH; auto. intros x u c I E. eapply F; [right; exact I|exact E].
  Qed.

  Lemma dll_cell : forall (h : heap) l prev x v, dll h prev l -> In (x, v) l -> exists p n, h x = Some (CObj p n v).
  Proof.
    intros h. induction l as [|[a u] l IH]; intros prev x v D I; [destruct I|]. destruct D as [D1 D2].
    destruct I as [E|I]; [injection E as -> ->; eauto|eauto].
  Qed.

  Lemma tinv_frame : forall h h' n n' root g, tinv h n root g -> n <= n' ->
    (forall x c, h x = Some c -> tkind c = true -> h' x = Some c) -> tinv h' n' root g.
  Proof.
    intros h h' n n' root g T L F. destruct T. constructor; auto.
    - intros p b H. destruct (t_ht0 p b H) as (es & E & ND & Q). exists es. split; auto.
    - intros p w. eapply dll_frame; [apply t_dll0|]. intros x v c I E.
      apply F; auto. destruct (dll_cell _ _ _ _ _ (t_dll0 p w) I) as (q & m & E'). rewrite E in E'. now injection E' as ->.
    - intros p a H. specialize (t_depth0 p a H). lia.
    - intros p w. specialize (t_length0 p w). lia.
  Qed.

  Lemma rinv_frame : forall h h' g R X, rinv h g R X -> (forall x c, h x = Some c -> tkind c = false -> h' x = Some c) ->
    rinv h' g R X.
  Proof.
    intros h h' g R X T F.
    assert (K : forall v r, In r (R v) -> forall l w x, h' r = Some (CRef l w x) -> h r = Some (CRef l w x)).
    { intros v r I l w x E. destruct (r_ref _ _ _ _ T v r I) as (p & l0 & w0 & x0 & E0 & _).
      rewrite (F _ _ E0 eq_refl) in E. now rewrite <- E. }
    destruct T. constructor; auto.
    - intros v r I. destruct (r_ref0 v r I) as (p & l & w & x & E & Q). exists p, l, w, x. split; auto.
    - intros p w x v I. destruct (r_all0 p w x v I) as (r & l & A & B & C). exists r, l. auto.
    - intros v r v' r' l w x l' w' I I' E E'. eapply (r_inj0 v r v' r' l w x); eauto.
    - intros r I. destruct (r_loose0 r I) as (l & w & x & E). exists l, w, x. auto.
  Qed.

  (** Kinds of the addresses of the ghost. *)
  Lemma node_kind : forall h n root g p a, tinv h n root g -> g_node g p = Some a -> exists x y z u, h a = Some (CTree x y z u).
  Proof. intros h n root g p a T E. rewrite (t_cell _ _ _ _ T p a E). eauto. Qed.
  Lemma ht_kind : forall h n root g p b, tinv h n root g -> g_ht g p = Some b -> exists es, h b = Some (CHt es).
  Proof. intros h n root g p b T E. destruct (t_ht _ _ _ _ T p b E) as (es & Q & _). eauto. Qed.
  Lemma lst_kind : forall h n root g p w x v, tinv h n root g -> In (x, v) (g_lst g p w) -> exists a b, h x = Some (CObj a b v).
  Proof. intros h n root g p w x v T I. exact (dll_cell _ _ _ _ _ (t_dll _ _ _ _ T p w) I). Qed.
  Lemma lst_node : forall h n root g p w x v, tinv h n root g -> In (x, v) (g_lst g p w) -> exists a, g_node g p = Some a.
  Proof.
    intros h n root g p w x v T I. destruct (g_node g p) as [a|] eqn:E; [eauto|].
    destruct (t_none _ _ _ _ T p E) as (_ & L & _). rewrite L in I. destruct I.
  Qed.
  Lemma ht_node : forall h n root g p b, tinv h n root g -> g_ht g p = Some b -> exists a, g_node g p = Some a.
  Proof.
    intros h n root g p b T I. destruct (g_node g p) as [a|] eqn:E; [eauto|].
    destruct (t_none _ _ _ _ T p E) as (L & _ & _). congruence.
  Qed.

  (** ** Ghost updates *)

  Definition pdec := list_eq_dec string_dec.
  Definition gset {A} (f : etype -> A) (p : etype) (a : A) : etype -> A := fun p' => if pdec p' p then a else f p'.
  Lemma gset_same : forall A (f : etype -> A) p a, gset f p a p = a.
  Proof. intros. unfold gset. now destruct (pdec p p). Qed.
  Lemma gset_other : forall A (f : etype -> A) p a p', p' <> p -> gset f p a p' = f p'.
  Proof. intros A f p a p' N. unfold gset. now destruct (pdec p' p). Qed.

  Definition lset (f : etype -> bool -> list (addr * V)) (p : etype) (w : bool) (l : list (addr * V)) :
      etype -> bool -> list (addr * V) :=
    fun p' w' => if pdec p' p then (if Bool.eqb w' w then l else f p' w') else f p' w'.
  Lemma lset_same : forall f p w l, lset f p w l p w = l.
  Proof. intros. unfold lset. destruct (pdec p p); [|congruence]. now rewrite Bool.eqb_reflx. Qed.
  Lemma lset_path : forall f p w l p' w', p' <> p -> lset f p w l p' w' = f p' w'.
  Proof. intros f p w l p' w' N. unfold lset. now destruct (pdec p' p). Qed.
  Lemma lset_kind : forall f p w l w', w' <> w -> lset f p w l p w' = f p w'.
  Proof. intros f p w l w' N. unfold lset. destruct (pdec p p); auto. destruct (Bool.eqb w' w) eqn:E; auto. apply Bool.eqb_prop in E. congruence. Qed.
  Lemma lset_cases : forall f p w l p' w', (p' = p /\ w' = w /\ lset f p w l p' w' = l) \/ lset f p w l p' w' = f p' w'.
  Proof.
    intros f p w l p' w'. unfold lset. destruct (pdec p' p) as [->|]; auto. destruct (Bool.eqb w' w) eqn:E; auto.
    apply Bool.eqb_prop in E. auto.
  Qed.

  Lemma snoc_ne : forall (p : etype) k, p ++ [k] <> p.
  Proof. intros p k E. apply (f_equal (@length _)) in E. rewrite app_length in E. cbn in E. lia. Qed.
  Lemma snoc_inj : forall (p p' : etype) k k', p ++ [k] = p' ++ [k'] -> p = p' /\ k = k'.
  Proof. intros p p' k k' E. now apply app_inj_tail in E. Qed.

  Lemma some_ne : forall (h : heap) x y c, h x = Some c -> h y = None -> x <> y.
  Proof. intros h x y c E N ->. congruence. Qed.

  (** A tree node is created below a node. *)
  Lemma tinv_new_node : forall h h' n n' root g p a k c,
    tinv h n root g -> g_node g p = Some a -> g_node g (p ++ [k]) = None -> k <> "*" -> h c = None -> n < n' ->
    h' c = Some (CTree None None None None) ->
    (* the parent's cell, or its hash table, has the child *)
    (k = "?" -> h' a = Some (CTree (hdp (g_lst g p false)) (hdp (g_lst g p true)) (g_ht g p) (Some c))) ->
    (k <> "?" -> h' a = h a /\ exists b es, g_ht g p = Some b /\ h b = Some (CHt es) /\ h' b = Some (CHt (sset k c es))) ->
    (forall x, x <> c -> (k = "?" -> x <> a) -> (k <> "?" -> g_ht g p <> Some x) -> h' x = h x) ->
    tinv h' n' root (G (gset (g_node g) (p ++ [k]) (Some c)) (g_ht g) (g_lst g)).
  Proof.
    intros h h' n n' root g p a k c T Ea Ek Ks Hc Ln H'c Hq Hk F.
    assert (NE : forall p', g_node g p' = Some c -> False).
    { intros p' E. destruct (node_kind _ _ _ _ _ _ T E) as (? & ? & ? & ? & E'). congruence. }
    assert (FO : forall x v p' w', In (x, v) (g_lst g p' w') -> h' x = h x).
    { intros x v p' w' I. destruct (lst_kind _ _ _ _ _ _ _ _ T I) as (y & z & E). apply F.
      - intros ->. congruence.
      - intros _ ->. destruct (node_kind _ _ _ _ _ _ T Ea) as (? & ? & ? & ? & E'). congruence.
      - intros _ E'. destruct (ht_kind _ _ _ _ _ _ T E') as (? & E''). congruence. }
    assert (FH : forall p' b, g_ht g p' = Some b -> (k <> "?" -> p' <> p) -> h' b = h b).
    { intros p' b E N. destruct (ht_kind _ _ _ _ _ _ T E) as (es & E'). apply F.
      - intros ->. congruence.
      - intros _ ->. destruct (node_kind _ _ _ _ _ _ T Ea) as (? & ? & ? & ? & E''). congruence.
      - intros K E''. apply (N K). eapply (t_htinj _ _ _ _ T); eauto. }
    assert (FN : forall p' x, g_node g p' = Some x -> (k = "?" -> p' <> p) -> h' x = h x).
    { intros p' x E N. destruct (node_kind _ _ _ _ _ _ T E) as (? & ? & ? & ? & E'). apply F.
      - intros ->. congruence.
      - intros K ->. apply (N K). eapply (t_inj _ _ _ _ T); eauto.
      - intros K E''. destruct (ht_kind _ _ _ _ _ _ T E'') as (? & E3). congruence. }
    constructor; cbn [g_node g_ht g_lst].
    - rewrite gset_other; [apply (t_root _ _ _ _ T)|]. destruct p; discriminate.
    - intros p1 p2 x E1 E2. unfold gset in *. destruct (pdec p1 (p ++ [k])) as [->|N1]; destruct (pdec p2 (p ++ [k])) as [->|N2]; auto.
      + injection E1 as <-. destruct (NE _ E2).
      + injection E2 as <-. destruct (NE _ E1).
      + eapply (t_inj _ _ _ _ T); eauto.
    - intros p' x E. destruct (pdec p' (p ++ [k])) as [->|N'].
      + rewrite gset_same in E. injection E as <-. rewrite H'c. destruct (t_none _ _ _ _ T _ Ek) as (E1 & E2 & E3).
        rewrite E1, !E2. rewrite gset_other by apply snoc_ne. now rewrite E3.
      + rewrite gset_other in E by auto. destruct (pdec p' p) as [->|Np].
        * rewrite Ea in E. injection E as <-. destruct (string_dec k "?") as [->|K].
          -- rewrite gset_same. auto.
          -- destruct (Hk K) as (-> & _). rewrite gset_other; [apply (t_cell _ _ _ _ T); auto|].
             intros E. apply snoc_inj in E. intuition.
        * rewrite gset_other by (intros E'; apply snoc_inj in E'; intuition).
          rewrite (FN p' x E) by auto. now apply (t_cell _ _ _ _ T).
    - intros p' b E. destruct (pdec p' p) as [->|Np].
      + destruct (string_dec k "?") as [->|K].
        * destruct (t_ht _ _ _ _ T _ _ E) as (es & E1 & ND & Q). exists es.
          rewrite (FH p b E) by congruence. split; auto. split; auto. intros k' c'. rewrite Q. split.
          -- intros (K' & E'). split; auto. rewrite gset_other; auto. intros E''. apply snoc_inj in E''. intuition.
          -- intros (K' & E'). split; auto. rewrite gset_other in E'; auto. intros E''. apply snoc_inj in E''. intuition.
        * destruct (Hk K) as (_ & b' & es & Eb & E1 & E2). rewrite E in Eb. injection Eb as <-.
          destruct (t_ht _ _ _ _ T _ _ E) as (es' & E1' & ND & Q). rewrite E1 in E1'. injection E1' as <-.
          exists (sset k c es). split; auto. split; [now apply (NoDup_dset seqb_spec)|].
          intros k' c'. destruct (string_dec k' k) as [->|K'].
          -- rewrite (dget_dset_same seqb_spec), gset_same. intuition.
          -- rewrite (dget_dset_other seqb_spec) by auto. rewrite Q. rewrite gset_other; [reflexivity|].
             intros E''. apply snoc_inj in E''. intuition.
      + destruct (t_ht _ _ _ _ T _ _ E) as (es & E1 & ND & Q). exists es. rewrite (FH p' b E) by auto.
        split; auto. split; auto. intros k' c'. rewrite Q, gset_other; [reflexivity|].
        intros E''. apply snoc_inj in E''. intuition.
    - intros p' k' E K'. rewrite gset_other; [now apply (t_noht _ _ _ _ T)|].
      intros E'. apply snoc_inj in E' as [-> ->]. destruct (Hk K') as (_ & b & _ & Eb & _). congruence.
    - intros p' E. destruct (pdec p' (p ++ [k])) as [->|N']; [rewrite gset_same in E; discriminate|].
      rewrite gset_other in E by auto. destruct (t_none _ _ _ _ T _ E) as (E1 & E2 & E3). split; auto. split; auto.
      intros k'. rewrite gset_other; auto. intros E'. apply snoc_inj in E' as [-> ->]. congruence.
    - apply (t_htinj _ _ _ _ T).
    - intros p' w'. eapply dll_frame; [apply (t_dll _ _ _ _ T)|]. intros x v c' I E. rewrite <- E. eapply FO; eauto.
    - apply (t_uniq _ _ _ _ T).
    - apply (t_nodup _ _ _ _ T).
    - intros p'. rewrite gset_other; [apply (t_star _ _ _ _ T)|]. intros E. apply snoc_inj in E. intuition.
    - intros p' x E. unfold gset in E. destruct (pdec p' (p ++ [k])) as [->|N'].
      + specialize (t_depth _ _ _ _ T _ _ Ea). rewrite app_length. cbn. lia.
      + specialize (t_depth _ _ _ _ T _ _ E). lia.
    - intros p' w'. specialize (t_length _ _ _ _ T p' w'). lia.
  Qed.

  (** A hash table is created. *)
  Lemma tinv_new_ht : forall h h' n n' root g p a b,
    tinv h n root g -> g_node g p = Some a -> g_ht g p = None -> h b = None -> n < n' ->
    h' b = Some (CHt []) ->
    h' a = Some (CTree (hdp (g_lst g p false)) (hdp (g_lst g p true)) (Some b) (g_node g (p ++ ["?"]))) ->
    (forall x, x <> b -> x <> a -> h' x = h x) ->
    tinv h' n' root (G (g_node g) (gset (g_ht g) p (Some b)) (g_lst g)).
  Proof.
    intros h h' n n' root g p a b T Ea Ep Hb Ln H'b H'a F.
    assert (NE : forall p', g_ht g p' = Some b -> False).
    { intros p' E. destruct (ht_kind _ _ _ _ _ _ T E) as (? & E'). congruence. }
    assert (FO : forall x c, h x = Some c -> x <> a -> h' x = h x).
    { intros x c E N. apply F; auto. intros ->. congruence. }
    assert (AK : exists y z u t, h a = Some (CTree y z u t)) by (eapply node_kind; eauto).
    destruct AK as (y & z & u & t & AK).
    constructor; cbn [g_node g_ht g_lst].
    - apply (t_root _ _ _ _ T).
    - apply (t_inj _ _ _ _ T).
    - intros p' x E. destruct (pdec p' p) as [->|N'].
      + rewrite gset_same. rewrite Ea in E. now injection E as <-.
      + rewrite gset_other by auto. rewrite <- (t_cell _ _ _ _ T p' x E).
        apply (FO _ _ (t_cell _ _ _ _ T p' x E)). intros ->. apply N'. eapply (t_inj _ _ _ _ T); eauto.
    - intros p' b' E. unfold gset in E. destruct (pdec p' p) as [->|N'].
      + injection E as <-. exists []. split; auto. split; [constructor|]. intros k c. split; [discriminate|].
        intros (K & E). rewrite (t_noht _ _ _ _ T p k Ep K) in E. discriminate.
      + destruct (t_ht _ _ _ _ T _ _ E) as (es & E1 & Q). exists es. split; auto. rewrite <- E1. apply (FO _ _ E1). congruence.
    - intros p' k E K. unfold gset in E. destruct (pdec p' p) as [->|N']; [discriminate|]. now apply (t_noht _ _ _ _ T).
    - intros p' E. destruct (t_none _ _ _ _ T _ E) as (E1 & E2). split; auto. rewrite gset_other; auto. congruence.
    - intros p1 p2 x E1 E2. unfold gset in *. destruct (pdec p1 p) as [->|N1]; destruct (pdec p2 p) as [->|N2]; auto.
      + injection E1 as <-. destruct (NE _ E2).
      + injection E2 as <-. destruct (NE _ E1).
      + eapply (t_htinj _ _ _ _ T); eauto.
    - intros p' w'. eapply dll_frame; [apply (t_dll _ _ _ _ T)|]. intros x v c' I E. rewrite <- E. apply (FO _ _ E).
      destruct (lst_kind _ _ _ _ _ _ _ _ T I) as (? & ? & E'). congruence.
    - apply (t_uniq _ _ _ _ T).
    - apply (t_nodup _ _ _ _ T).
    - apply (t_star _ _ _ _ T).
    - intros p' x E. specialize (t_depth _ _ _ _ T _ _ E). lia.
    - intros p' w'. specialize (t_length _ _ _ _ T p' w'). lia.
  Qed.

  (** An element is put in front of a list. *)
  Lemma tinv_insert : forall h h' n n' root g p w a x v,
    tinv h n root g -> g_node g p = Some a -> h x = None -> n < n' ->
    h' x = Some (CObj None (hdp (g_lst g p w)) v) ->
    (forall y u l, g_lst g p w = (y, u) :: l -> h' y = Some (CObj (Some x) (hdp l) u)) ->
    h' a = Some (CTree (if w then hdp (g_lst g p false) else Some x) (if w then Some x else hdp (g_lst g p true))
                   (g_ht g p) (g_node g (p ++ ["?"]))) ->
    (forall y c, h y = Some c -> tkind c = true -> y <> a -> hdp (g_lst g p w) <> Some y -> h' y = Some c) ->
    tinv h' n' root (G (g_node g) (g_ht g) (lset (g_lst g) p w ((x, v) :: g_lst g p w))).
  Proof.
    intros h h' n n' root g p w a x v T Ea Hx Ln H'x Hh H'a F.
    assert (NX : forall p' w' u, In (x, u) (g_lst g p' w') -> False).
    { intros p' w' u I. destruct (lst_kind _ _ _ _ _ _ _ _ T I) as (? & ? & E'). congruence. }
    assert (HD : forall y, hdp (g_lst g p w) = Some y -> exists u, In (y, u) (g_lst g p w)).
    { intros y. destruct (g_lst g p w) as [|[y' u] l]; cbn; [discriminate|]. intros [= ->]. exists u. now left. }
    assert (AK : exists y z u t, h a = Some (CTree y z u t)) by (eapply node_kind; eauto).
    destruct AK as (ay & az & au & at' & AK).
    constructor; cbn [g_node g_ht g_lst].
    - apply (t_root _ _ _ _ T).
    - apply (t_inj _ _ _ _ T).
    - intros p' y E. destruct (pdec p' p) as [->|N'].
      + rewrite Ea in E. injection E as <-. rewrite H'a. destruct w.
        * rewrite lset_same, lset_kind by discriminate. reflexivity.
        * rewrite lset_same, lset_kind by discriminate. reflexivity.
      + rewrite !lset_path by auto. apply F; [now apply (t_cell _ _ _ _ T)|reflexivity| |].
        * intros ->. apply N'. eapply (t_inj _ _ _ _ T); eauto.
        * intros E'. destruct (HD _ E') as (u & I). destruct (lst_kind _ _ _ _ _ _ _ _ T I) as (? & ? & E1).
          rewrite (t_cell _ _ _ _ T p' y E) in E1. discriminate.
    - intros p' b E. destruct (t_ht _ _ _ _ T _ _ E) as (es & E1 & Q). exists es. split; auto.
      apply F; auto; [congruence|]. intros E'. destruct (HD _ E') as (u & I).
      destruct (lst_kind _ _ _ _ _ _ _ _ T I) as (? & ? & E2). congruence.
    - apply (t_noht _ _ _ _ T).
    - intros p' E. destruct (t_none _ _ _ _ T _ E) as (E1 & E2 & E3). split; auto. split; auto.
      intros w'. rewrite lset_path by congruence. auto.
    - apply (t_htinj _ _ _ _ T).
    - intros p' w'. destruct (lset_cases (g_lst g) p w ((x, v) :: g_lst g p w) p' w') as [(-> & -> & E)|E]; rewrite E.
      + assert (D := t_dll _ _ _ _ T p w). assert (ND := t_nodup _ _ _ _ T p w). cbn [dll]. split; auto.
        assert (FX : forall y c, h y = Some c -> tkind c = true -> y <> a -> hdp (g_lst g p w) <> Some y -> h' y = Some c) by exact F.
        destruct (g_lst g p w) as [|[y u] l] eqn:EL; cbn [dll]; auto. cbn [dll] in D. destruct D as [D1 D2]. split; [now apply Hh|].
        eapply dll_frame; [exact D2|]. intros z t c I E'. destruct (dll_cell _ _ _ _ _ D2 I) as (? & ? & E2).
        rewrite E' in E2. injection E2 as ->. apply FX; auto; [congruence|].
        cbn [hdp]. intros E2. injection E2 as <-. cbn [map fst] in ND. inversion ND as [|? ? NI _]; subst. apply NI.
        apply in_map_iff. exists (y, t). auto.
      + destruct (Bool.bool_dec w' w) as [->|Nw]; [destruct (pdec p' p) as [->|Np]|].
        * rewrite lset_same in E. exfalso. apply (f_equal (@length _)) in E. cbn in E. lia.
        * eapply dll_frame; [apply (t_dll _ _ _ _ T)|]. intros z t c I E'. destruct (lst_kind _ _ _ _ _ _ _ _ T I) as (? & ? & E1).
          rewrite E' in E1. injection E1 as ->. apply F; auto; [congruence|]. intros E2. destruct (HD _ E2) as (u & I').
          destruct (t_uniq _ _ _ _ T _ _ _ _ _ _ _ I I'). congruence.
        * eapply dll_frame; [apply (t_dll _ _ _ _ T)|]. intros z t c I E'. destruct (lst_kind _ _ _ _ _ _ _ _ T I) as (? & ? & E1).
          rewrite E' in E1. injection E1 as ->. apply F; auto; [congruence|]. intros E2. destruct (HD _ E2) as (u & I').
          destruct (t_uniq _ _ _ _ T _ _ _ _ _ _ _ I I'). congruence.
    - intros p1 w1 p2 w2 y u u' I1 I2.
      destruct (lset_cases (g_lst g) p w ((x, v) :: g_lst g p w) p1 w1) as [(-> & -> & E1)|E1];
        destruct (lset_cases (g_lst g) p w ((x, v) :: g_lst g p w) p2 w2) as [(-> & -> & E2)|E2]; auto; rewrite E1 in I1; rewrite E2 in I2.
      + destruct I1 as [I1|I1]; [injection I1 as <- <-; destruct (NX _ _ _ I2)|]. eapply (t_uniq _ _ _ _ T); eauto.
      + destruct I2 as [I2|I2]; [injection I2 as <- <-; destruct (NX _ _ _ I1)|]. eapply (t_uniq _ _ _ _ T); eauto.
      + eapply (t_uniq _ _ _ _ T); eauto.
    - intros p' w'. destruct (lset_cases (g_lst g) p w ((x, v) :: g_lst g p w) p' w') as [(-> & -> & E)|E]; rewrite E.
      + cbn [map fst]. constructor; [|apply (t_nodup _ _ _ _ T)]. intros I. apply in_map_iff in I. destruct I as ([y u] & E' & I).
        cbn in E'. subst y. eapply NX; eauto.
      + apply (t_nodup _ _ _ _ T).
    - apply (t_star _ _ _ _ T).
    - intros p' y E. specialize (t_depth _ _ _ _ T _ _ E). lia.
    - intros p' w'. destruct (lset_cases (g_lst g) p w ((x, v) :: g_lst g p w) p' w') as [(-> & -> & E)|E]; rewrite E.
      + specialize (t_length _ _ _ _ T p w). cbn [length]. lia.
      + specialize (t_length _ _ _ _ T p' w'). lia.
  Qed.

  (** ** Removal from a list *)

  Definition lastp (pr : ptr) (l : list (addr * V)) : ptr := fold_left (fun _ e => Some (fst e)) l pr.
  Definition swapp (q : ptr) (x : addr) (to : ptr) : ptr :=
    match q with Some y => if Nat.eqb y x then to else q | None => None end.
  Lemma swapp_same : forall x to, swapp (Some x) x to = to.
  Proof. intros. cbn. now rewrite Nat.eqb_refl. Qed.
  Lemma swapp_other : forall q x to, q <> Some x -> swapp q x to = q.
  Proof. intros [y|] x to N; cbn; auto. destruct (Nat.eqb y x) eqn:E; auto. apply Nat.eqb_eq in E. congruence. Qed.

  Lemma hdp_in : forall l x, hdp l = Some x -> In x (map fst l).
  Proof. intros [|[a v] l] x; cbn; [discriminate|]. intros [= ->]. now left. Qed.

  Lemma dll_same : forall (h h' : heap) x pv nx l pr, dll h pr l -> pr <> Some x -> ~ In x (map fst l) ->
    (forall y u a b, In (y, u) l -> h y = Some (CObj a b u) -> h' y = Some (CObj (swapp a x pv) (swapp b x nx) u)) ->
    dll h' pr l.
  Proof.
    intros h h' x pv nx. induction l as [|[y u] l IH]; intros pr D N NI F; cbn [dll] in *; auto. destruct D as [D1 D2]. split.
    - rewrite (F y u _ _ (or_introl eq_refl) D1). rewrite !swapp_other; auto.
      intros E. apply NI. right. now apply hdp_in.
    - apply IH; auto.
      + intros [= ->]. apply NI. now left.
      + intros I. apply NI. now right.
      + intros z t a b I. apply F. now right.
  Qed.

  Lemma dll_at : forall (h : heap) l1 pr x v l2, dll h pr (l1 ++ (x, v) :: l2) -> h x = Some (CObj (lastp pr l1) (hdp l2) v).
  Proof.
    intros h. induction l1 as [|[y u] l1 IH]; intros pr x v l2 D; cbn [app dll] in D; destruct D as [D1 D2]; auto.
    exact (IH _ _ _ _ D2).
  Qed.

  Lemma dll_remove : forall (h h' : heap) x v l2 pv l1 pr, dll h pr (l1 ++ (x, v) :: l2) -> pr <> Some x ->
    NoDup (map fst (l1 ++ (x, v) :: l2)) -> pv = lastp pr l1 ->
    (forall y u a b, In (y, u) (l1 ++ l2) -> h y = Some (CObj a b u) -> h' y = Some (CObj (swapp a x pv) (swapp b x (hdp l2)) u)) ->
    dll h' pr (l1 ++ l2).
  Proof.
    intros h h' x v l2 pv. induction l1 as [|[y u] l1 IH]; intros pr D N ND EP F; cbn [app dll map fst] in *.
    - destruct D as [D1 D2]. cbn in EP. subst pv. inversion ND as [|? ? NI ND']; subst.
      destruct l2 as [|[z t] l3]; cbn [dll] in *; auto. destruct D2 as [D2 D3].
      split.
      + rewrite (F z t _ _ (or_introl eq_refl) D2). rewrite swapp_same, swapp_other; auto.
        intros E. apply NI. right. now apply hdp_in.
      + eapply (dll_same h h' x); [exact D3| | |].
        * intros [= ->]. apply NI. now left.
        * intros I. apply NI. now right.
        * intros y u a b I. apply F. now right.
    - destruct D as [D1 D2]. inversion ND as [|? ? NI ND']; subst. split.
      + rewrite (F y u _ _ (or_introl eq_refl) D1). rewrite (swapp_other pr) by auto. do 3 f_equal.
        destruct l1 as [|[z t] l1]; cbn [app hdp]; [apply swapp_same|]. apply swapp_other. intros [= ->].
        cbn [app map fst] in ND'. inversion ND' as [|? ? NI' _]; subst. apply NI'. rewrite map_app, in_app_iff. right. now left.
      + apply IH; auto.
        * intros [= ->]. apply NI. rewrite map_app, in_app_iff. right. now left.
        * intros z t a b I. apply F. now right.
  Qed.

  Lemma lastp_in : forall l pr y, lastp pr l = Some y -> pr = Some y \/ In y (map fst l).
  Proof.
    induction l as [|[a v] l IH]; intros pr y E; cbn in *; auto. destruct (IH _ _ E) as [E'|I]; auto. injection E' as ->. auto.
  Qed.

  Lemma tinv_remove : forall h h' n root g p w a x v l1 l2,
    tinv h n root g -> g_node g p = Some a -> g_lst g p w = l1 ++ (x, v) :: l2 ->
    (forall y u c d, In (y, u) (l1 ++ l2) -> h y = Some (CObj c d u) ->
       h' y = Some (CObj (swapp c x (lastp None l1)) (swapp d x (hdp l2)) u)) ->
    h' a = Some (CTree (if w then hdp (g_lst g p false) else hdp (l1 ++ l2)) (if w then hdp (l1 ++ l2) else hdp (g_lst g p true))
                   (g_ht g p) (g_node g (p ++ ["?"]))) ->
    (forall y c, h y = Some c -> tkind c = true -> y <> a -> ~ In y (map fst (g_lst g p w)) -> h' y = Some c) ->
    tinv h' n root (G (g_node g) (g_ht g) (lset (g_lst g) p w (l1 ++ l2))).
  Proof.
    intros h h' n root g p w a x v l1 l2 T Ea EL Hl H'a F.
    assert (AK : exists y z u t, h a = Some (CTree y z u t)) by (eapply node_kind; eauto).
    destruct AK as (ay & az & au & at' & AK).
    assert (IL : forall y u, In (y, u) (l1 ++ l2) -> In (y, u) (g_lst g p w)).
    { intros y u I. rewrite EL. apply in_app_iff. apply in_app_iff in I. cbn. intuition. }
    assert (IM : forall y, In y (map fst (g_lst g p w)) -> exists u, In (y, u) (g_lst g p w)).
    { intros y I. apply in_map_iff in I. destruct I as ([y' u] & E & I). cbn in E. subst y'. eauto. }
    constructor; cbn [g_node g_ht g_lst].
    - apply (t_root _ _ _ _ T).
    - apply (t_inj _ _ _ _ T).
    - intros p' y E. destruct (pdec p' p) as [->|N'].
      + rewrite Ea in E. injection E as <-. rewrite H'a. destruct w.
        * rewrite lset_same, lset_kind by discriminate. reflexivity.
        * rewrite lset_same, lset_kind by discriminate. reflexivity.
      + rewrite !lset_path by auto. apply F; [now apply (t_cell _ _ _ _ T)|reflexivity| |].
        * intros ->. apply N'. eapply (t_inj _ _ _ _ T); eauto.
        * intros E'. destruct (IM _ E') as (u & I). destruct (lst_kind _ _ _ _ _ _ _ _ T I) as (? & ? & E1).
          rewrite (t_cell _ _ _ _ T p' y E) in E1. discriminate.
    - intros p' b E. destruct (t_ht _ _ _ _ T _ _ E) as (es & E1 & Q). exists es. split; auto.
      apply F; auto; [congruence|]. intros E'. destruct (IM _ E') as (u & I).
      destruct (lst_kind _ _ _ _ _ _ _ _ T I) as (? & ? & E2). congruence.
    - apply (t_noht _ _ _ _ T).
    - intros p' E. destruct (t_none _ _ _ _ T _ E) as (E1 & E2 & E3). split; auto. split; auto.
      intros w'. rewrite lset_path by congruence. auto.
    - apply (t_htinj _ _ _ _ T).
    - intros p' w'. destruct (pdec p' p) as [->|Np]; [destruct (Bool.bool_dec w' w) as [->|Nw]|].
      + rewrite lset_same. eapply (dll_remove h h' x v l2 (lastp None l1)); auto; try discriminate.
        * rewrite <- EL. apply (t_dll _ _ _ _ T).
        * rewrite <- EL. apply (t_nodup _ _ _ _ T).
      + rewrite lset_kind by auto. eapply dll_frame; [apply (t_dll _ _ _ _ T)|]. intros z t c I E'.
        destruct (lst_kind _ _ _ _ _ _ _ _ T I) as (? & ? & E1).
        rewrite E' in E1. injection E1 as ->. apply F; auto; [congruence|]. intros E2. destruct (IM _ E2) as (u & I').
        destruct (t_uniq _ _ _ _ T _ _ _ _ _ _ _ I I'). congruence.
      + rewrite lset_path by auto. eapply dll_frame; [apply (t_dll _ _ _ _ T)|]. intros z t c I E'.
        destruct (lst_kind _ _ _ _ _ _ _ _ T I) as (? & ? & E1).
        rewrite E' in E1. injection E1 as ->. apply F; auto; [congruence|]. intros E2. destruct (IM _ E2) as (u & I').
        destruct (t_uniq _ _ _ _ T _ _ _ _ _ _ _ I I'). congruence.
    - intros p1 w1 p2 w2 y u u' I1 I2.
      assert (J : forall p' w' u0, In (y, u0) (lset (g_lst g) p w (l1 ++ l2) p' w') -> In (y, u0) (g_lst g p' w')).
      { intros p' w' u0 I. destruct (lset_cases (g_lst g) p w (l1 ++ l2) p' w') as [(-> & -> & E)|E]; rewrite E in I; auto. }
      eapply (t_uniq _ _ _ _ T); eauto.
    - intros p' w'. destruct (lset_cases (g_lst g) p w (l1 ++ l2) p' w') as [(-> & -> & E)|E]; rewrite E; [|apply (t_nodup _ _ _ _ T)].
      assert (ND := t_nodup _ _ _ _ T p w). rewrite EL, map_app in ND. cbn [map fst] in ND. rewrite map_app. now apply NoDup_remove_1 in ND.
    - apply (t_star _ _ _ _ T).
    - apply (t_depth _ _ _ _ T).
    - intros p' w'. destruct (lset_cases (g_lst g) p w (l1 ++ l2) p' w') as [(-> & -> & E)|E]; rewrite E; [|apply (t_length _ _ _ _ T)].
      specialize (t_length _ _ _ _ T p w). rewrite EL, !app_length. cbn [length]. lia.
  Qed.
End CHeapInv.
