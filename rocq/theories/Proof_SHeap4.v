(** Proofs about the memory of the C subscription: the constructor and the
    destructor. *)
From Coq Require Import String Bool Arith ZArith Lia List.
From Verif Require Import Base Model_Types Model_Subscription Model_SHeap Spec_SHeap Proof_Subscription Proof_SHeap Proof_SHeap2 Proof_SHeap3.
Import ListNotations.
Open Scope string_scope.
Open Scope list_scope.

(** ** Lost references, as a function of the tree and as specified *)

Fixpoint leak_all (n : cnode) (qs : list (etype * list addr)) : list addr :=
  match qs with
  | [] => []
  | (q, segs) :: qs' => leak n q segs ++ match c_add n q with Some n' => leak_all n' qs' | None => [] end
  end.

Fixpoint covered (n : cnode) (p : etype) : bool :=
  let 'CNode _ star ch := n in
  star || match p with
          | [] => false
          | k :: p' => match sget k ch with Some c => covered c p' | None => false end
          end.

Lemma star_prefix_cons : forall k q, q <> [] -> star_prefix (k :: q) = option_map (cons k) (star_prefix q).
Proof. intros k [|h q] N; [congruence|reflexivity]. Qed.

Lemma covered_empty : forall p, covered (CNode false false []) p = false.
Proof. intros [|k p]; reflexivity. Qed.

Lemma c_add_star : forall l ch q, c_add (CNode l true ch) q = Some (CNode l true ch).
Proof. intros l ch [|k q]; reflexivity. Qed.

Lemma covered_add : forall q n n' p, c_add n q = Some n' ->
  covered n' p = covered n p || match star_prefix q with Some p' => is_prefix p' p | None => false end.
Proof.
  induction q as [|k q IH]; intros [l s ch] n' p E; destruct s.
  - injection E as <-. cbn. now rewrite orb_false_r.
  - injection E as <-. cbn [star_prefix]. rewrite orb_false_r. destruct p; reflexivity.
  - rewrite c_add_star in E. injection E as <-. destruct p; reflexivity.
  - cbn [c_add] in E. destruct (c_is_star k) eqn:ST.
    + destruct q; [|discriminate]. injection E as <-. cbn [star_prefix]. rewrite ST. cbn [is_prefix]. rewrite orb_true_r. destruct p; reflexivity.
    + set (c := match sget k ch with Some c => c | None => CNode false false [] end) in *.
      destruct (c_add c q) as [c'|] eqn:Ec; [|discriminate]. injection E as <-.
      assert (SP : match star_prefix (k :: q) with Some p' => is_prefix p' p | None => false end =
        match p with h :: p0 => String.eqb k h && match star_prefix q with Some p' => is_prefix p' p0 | None => false end | [] => false end).
      { destruct q as [|h q]; [cbn [star_prefix]; rewrite ST; destruct p; auto; now rewrite andb_false_r|].
        rewrite (star_prefix_cons k (h :: q)) by discriminate. destruct (star_prefix (h :: q)) as [p'|]; cbn [option_map].
        - destruct p; reflexivity.
        - destruct p; auto. now rewrite andb_false_r. }
      rewrite SP. destruct p as [|h p]; [reflexivity|]. cbn [covered orb].
      destruct (String.eqb k h) eqn:K.
      * apply seqb_spec in K. subst h. rewrite (dget_dset_same seqb_spec). rewrite (IH c c' p Ec). cbn [andb]. f_equal.
        unfold c. destruct (sget k ch) as [c0|]; auto. apply covered_empty.
      * rewrite (dget_dset_other seqb_spec); [|intros ->; rewrite String.eqb_refl in K; discriminate].
        cbn [andb]. now rewrite orb_false_r.
Qed.

Lemma leak_lost : forall q n n' segs d, c_add n q = Some n' -> length segs = length q ->
  leak n q segs = match star_prefix q with Some p => if covered n p then [] else [last segs d] | None => [] end.
Proof.
  induction q as [|k q IH]; intros [l s ch] n' segs d E L; destruct s.
  - reflexivity.
  - reflexivity.
  - cbn [leak]. destruct (star_prefix (k :: q)) as [p|]; auto. destruct p; reflexivity.
  - destruct segs as [|x segs]; [discriminate L|]. cbn [c_add] in E. cbn [leak]. destruct (c_is_star k) eqn:ST.
    + destruct q; [|discriminate E]. destruct segs; [|discriminate L]. cbn [star_prefix]. now rewrite ST.
    + set (c := match sget k ch with Some c => c | None => CNode false false [] end) in *.
      destruct (c_add c q) as [c'|] eqn:Ec; [|discriminate]. cbn [length] in L. injection L as L.
      rewrite (IH c c' segs d Ec L). destruct q as [|h q]; [cbn [star_prefix]; now rewrite ST|].
      rewrite (star_prefix_cons k (h :: q)) by discriminate. destruct (star_prefix (h :: q)) as [p|]; cbn [option_map]; auto.
      assert (Cv : covered (CNode l false ch) (k :: p) = covered c p).
      { cbn [covered orb]. unfold c. destruct (sget k ch); auto. symmetry. apply covered_empty. }
      rewrite Cv. destruct (covered c p); auto. destruct segs as [|y segs]; [discriminate L|]. reflexivity.
Qed.

Lemma leak_all_lost : forall qs n n' seen d, c_adds n (map fst qs) = Some n' -> (forall e, In e qs -> length (snd e) = length (fst e)) ->
  (forall p, covered n p = existsb (fun p' => is_prefix p' p) seen) -> leak_all n qs = lost seen qs d.
Proof.
  induction qs as [|[q segs] qs IH]; intros n n' seen d E L C; cbn [leak_all lost map fst]; auto.
  cbn [map fst c_adds] in E. destruct (c_add n q) as [n1|] eqn:E1; [|discriminate].
  assert (Lq := L (q, segs) (or_introl eq_refl)). cbn [fst snd] in Lq.
  rewrite (leak_lost q n n1 segs d E1 Lq). assert (CA := fun p => covered_add q n n1 p E1).
  destruct (star_prefix q) as [p|].
  - rewrite C. f_equal. apply (IH n1 n'); auto.
    + intros e I. apply L. now right.
    + intros p'. rewrite CA, C. cbn [existsb]. apply orb_comm.
  - apply (IH n1 n'); auto.
    + intros e I. apply L. now right.
    + intros p'. now rewrite CA, C, orb_false_r.
Qed.

(** ** Frames with new objects *)

Definition stable (s s' : sst) : Prop :=
  (s_next s <= s_next s')%nat /\
  forall x p', (x < s_next s)%nat -> s_objs s' x = Some p' -> exists p, s_objs s x = Some p /\ o_kind p = o_kind p' /\ o_items p = o_items p'.
Lemma stable_refl : forall s, stable s s.
Proof. intros s. split; eauto. Qed.
Lemma stable_trans : forall a b c, stable a b -> stable b c -> stable a c.
Proof.
  intros a b c (L1 & H1) (L2 & H2). split; [lia|]. intros x p Lx E. destruct (H2 x p ltac:(lia) E) as (q & Eq & K & I).
  destruct (H1 x q Lx Eq) as (r & Er & K' & I'). exists r. split; auto. split; congruence.
Qed.
Lemma stable_shrinks : forall s s', shrinks (s_objs s) (s_objs s') -> (s_next s <= s_next s')%nat -> stable s s'.
Proof. intros s s' H L. split; auto. Qed.
Lemma stable_same : forall s s', s_objs s' = s_objs s -> (s_next s <= s_next s')%nat -> stable s s'.
Proof. intros s s' H L. apply stable_shrinks; auto. rewrite H. apply shrinks_refl. Qed.

Lemma stable_at : forall s s' ext ext' x p, stable s s' -> sacc s ext -> s_objs s x = Some p -> sacc s' ext' -> (1 <= ext' x)%Z ->
  exists p', s_objs s' x = Some p' /\ o_kind p' = o_kind p /\ o_items p' = o_items p.
Proof.
  intros s s' ext ext' x p (L & H) A E A' P. destruct (acc_live _ _ _ x A' P) as (p' & E'). exists p'. split; auto.
  destruct (H x p' (a_lt _ _ _ A x ltac:(congruence)) E') as (p2 & E2 & K & I). rewrite E in E2. injection E2 as <-. auto.
Qed.

Lemma text_same : forall s s' x p p', s_objs s x = Some p -> s_objs s' x = Some p' -> o_kind p' = o_kind p -> text_of s' x = text_of s x.
Proof. intros s s' x [k i r] [k' i' r'] E E' K. cbn in K. subst k'. unfold text_of. now rewrite E, E'. Qed.

(** An object that is held keeps what it is made of. *)
Lemma type_same : forall s s' ext ext' x p p', stable s s' -> sacc s ext -> sacc s' ext' ->
  s_objs s x = Some p -> s_objs s' x = Some p' -> o_items p' = o_items p -> type_of s' x = type_of s x.
Proof.
  intros s s' ext ext' x p p' (L & H) A A' E E' I. unfold type_of. rewrite E, E', I. apply map_ext_in. intros y J.
  assert (J' := J). rewrite <- I in J'. destruct (a_item _ _ _ A' _ _ _ E' J') as (q' & Eq' & _).
  destruct (a_item _ _ _ A _ _ _ E J) as (q & Eq & _).
  destruct (H y q' (a_lt _ _ _ A y ltac:(congruence)) Eq') as (q2 & Eq2 & K & _). rewrite Eq in Eq2. injection Eq2 as <-.
  eapply text_same; eauto.
Qed.

Section New.
  Variable ok : nat -> bool.
  Notation fails := (fails ok).

  Lemma new_obj_spec : forall s ext k, sacc s ext ->
    exists r s', new_obj ok k s = Some (r, s') /\ s_heap s' = s_heap s /\ s_stars s' = s_stars s /\ stable s s' /\
      match r with
      | Some o => o = s_next s /\ s_objs s o = None /\ s_objs s' = upd (s_objs s) o (Some (PObj k [] 1)) /\ sacc s' (fun x => ext x + one o x)%Z
      | None => fails /\ s_objs s' = s_objs s /\ sacc s' ext
      end.
  Proof.
    intros s ext k A. unfold new_obj, bind, may_fail.
    assert (N : s_objs s (s_next s) = None).
    { destruct (s_objs s (s_next s)) eqn:E; auto. assert (L : (s_next s < s_next s)%nat) by (apply (a_lt _ _ _ A); congruence). lia. }
    destruct (ok (s_tries s)) eqn:O.
    - unfold new_obj_raw. cbn [s_next s_objs s_heap s_tries s_stars]. eexists _, _. split; [reflexivity|]. split; auto. split; auto. split.
      + split; [cbn; lia|]. intros x p' L E. cbn [s_objs] in E. rewrite upd_other in E by lia. eauto.
      + split; auto. split; auto. split; auto. unfold sacc. cbn [s_objs s_next]. now apply acc_new.
    - eexists _, _. split; [reflexivity|]. split; auto. split; auto. split; [apply stable_same; auto|].
      split; [exists (s_tries s); auto|]. split; auto.
  Qed.

  Lemma set_item_spec : forall s ext o y p q, sacc s ext -> s_objs s o = Some p -> s_objs s y = Some q ->
    (level (o_kind q) < level (o_kind p))%nat -> (1 <= ext y)%Z ->
    exists s', set_item o y s = Some (tt, s') /\ rest_same s s' /\
      s_objs s' = upd (s_objs s) o (Some (PObj (o_kind p) (o_items p ++ [y]) (o_rc p))) /\ sacc s' (fun x => ext x - one y x)%Z.
  Proof.
    intros s ext o y p q A E Ey L P. unfold set_item, bind, load_obj, store_obj. rewrite E. eexists. split; [reflexivity|].
    split; [unfold rest_same; cbn; auto|]. split; [reflexivity|]. unfold sacc. cbn [set_objs s_objs s_next]. eapply acc_set; eauto.
  Qed.

  Lemma get_iter_spec : forall s ext q p, sacc s ext -> s_objs s q = Some p -> (level (o_kind p) < 3)%nat ->
    exists r s', get_iter ok q s = Some (r, s') /\ s_heap s' = s_heap s /\ s_stars s' = s_stars s /\ stable s s' /\
      match r with
      | Some i => sacc s' (fun x => ext x + one i x)%Z
      | None => fails /\ sacc s' ext
      end.
  Proof.
    intros s ext q p A E L. unfold get_iter.
    destruct (new_obj_spec s ext KIter A) as (r & s1 & E1 & H1 & S1 & ST1 & F1). erewrite bind_at by exact E1.
    destruct r as [i|].
    2:{ exists None, s1. destruct F1 as (F & O & A1). split; [reflexivity|]. split; auto. }
    destruct F1 as (-> & N & O1 & A1).
    assert (Nq : q <> s_next s) by congruence.
    assert (E1q : s_objs s1 q = Some p) by (rewrite O1, upd_other; auto).
    destruct (incref_spec s1 _ q p A1 E1q) as (s2 & E2 & (R1 & R2 & R3 & R4) & H2 & A2). erewrite bind_at by exact E2.
    assert (Pi : (1 <= ext (s_next s) + one (s_next s) (s_next s) + one q (s_next s))%Z).
    { rewrite one_same. assert (Z := a_ext _ _ _ A (s_next s)). assert (Z' := one_pos q (s_next s)). lia. }
    destruct (acc_live _ _ _ _ A2 Pi) as (pi & Ei2).
    destruct (H2 _ _ Ei2) as (pi1 & Ei1 & Ki & Ii). rewrite O1, upd_same in Ei1. injection Ei1 as <-. cbn [o_kind o_items] in Ki, Ii.
    assert (Pq : (1 <= ext q + one (s_next s) q + one q q)%Z).
    { rewrite one_same. assert (Z := a_ext _ _ _ A q). assert (Z' := one_pos (s_next s) q). lia. }
    destruct (acc_live _ _ _ _ A2 Pq) as (pq & Eq2).
    destruct (H2 _ _ Eq2) as (pq1 & Eq1 & Kq & Iq). rewrite E1q in Eq1. injection Eq1 as <-.
    destruct (set_item_spec s2 _ (s_next s) q pi pq A2 Ei2 Eq2) as (s3 & E3 & (Q1 & Q2 & Q3 & Q4) & O3 & A3).
    - rewrite <- Ki, <- Kq. cbn. exact L.
    - exact Pq.
    - erewrite bind_at by exact E3. exists (Some (s_next s)), s3. split; [reflexivity|]. split; [congruence|]. split; [congruence|]. split.
      + split; [destruct ST1; lia|]. intros x p' Lx Ex. rewrite O3, upd_other in Ex by lia.
        destruct (H2 _ _ Ex) as (p1 & Ep1 & K & I). exists p1. split; auto. rewrite O1, upd_other in Ep1 by lia. exact Ep1.
      + eapply sacc_eq; [exact A3|]. intros x. cbn beta. lia.
  Qed.
End New.
