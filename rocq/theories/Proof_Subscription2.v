(** Intersection, disjointness and the C implementation. *)
From Coq Require Import String Ascii Bool Arith Lia List.
From Verif Require Import Base Model_Types Model_Subscription Spec_Subscription Proof_Subscription.
Import ListNotations.
Open Scope string_scope.
Open Scope list_scope.

(** * Height *)

Lemma height_child : forall l ch k c, In (k, c) ch -> height c < height (Node l ch).
Proof.
  intros l ch k c Hin. cbn. apply Nat.lt_succ_r.
  induction ch as [|[k' c'] ch IH]; [easy|].
  destruct Hin as [[= -> ->]|Hin]; [lia|]. specialize (IH Hin). lia.
Qed.

Lemma height_pos : forall n, 0 < height n.
Proof. destruct n; cbn; lia. Qed.

(** * Explicit leaves *)

(** A node with '*' is also a leaf. *)
Inductive ex : node -> Prop :=
| ex_i : forall l ch, (smem "*" ch = true -> l = true) ->
                      (forall k c, In (k, c) ch -> ex c) -> ex (Node l ch).

Lemma ex_inv : forall l ch, ex (Node l ch) ->
    (smem "*" ch = true -> l = true) /\ (forall k c, In (k, c) ch -> ex c).
Proof. intros l ch H. inversion H; auto. Qed.

Lemma ex_star : ex (Node true [("*", Node true [])]).
Proof.
  constructor; auto. intros k c [[= <- <-]|[]]. constructor; auto. easy.
Qed.

Lemma union_ex : forall n2 n1, ex n1 -> ex n2 -> ex (node_union n1 n2).
Proof.
  induction n2 as [l2 c2 IH] using node_ind'. intros [l1 c1] H1 H2. rewrite union_eq.
  apply ex_inv in H1 as [S1 C1]. apply ex_inv in H2 as [S2 C2].
  destruct (smem "*" c1 || smem "*" c2) eqn:E.
  { replace (l1 || l2) with true; [apply ex_star|]. apply orb_true_iff in E as [E|E].
    - now rewrite S1. - now rewrite S2, orb_true_r. }
  apply orb_false_iff in E as [E1 E2].
  assert (Hm : forall c2 c1,
     Forall (fun kc => forall n1, ex n1 -> ex (snd kc) -> ex (node_union n1 (snd kc))) c2 ->
     (forall k c, In (k, c) c1 -> ex c) -> (forall k c, In (k, c) c2 -> ex c) ->
     smem "*" c1 = false -> smem "*" c2 = false ->
     (forall k c, In (k, c) (union_loop c2 c1) -> ex c) /\ smem "*" (union_loop c2 c1) = false).
  { clear. induction c2 as [|[k c] c2 IH]; intros c1 HF H1 H2 E1 E2; cbn [union_loop]; auto.
    inversion HF; subst; clear HF. cbn [snd] in H3.
    assert (Hk : k <> "*") by (intros ->; discriminate).
    apply IH; auto.
    - intros k' c' Hin. apply (In_dset seqb_spec) in Hin as [[-> ->]|[_ Hin]]; eauto.
      destruct (sget k c1) eqn:Eg.
      + apply (dget_In seqb_spec) in Eg. apply H3; eauto. eapply H2; left; eauto.
      + eapply H2; left; eauto.
    - intros k' c' Hin. eapply H2; right; eauto.
    - rewrite smem_sset; auto.
    - apply smem_not_In. apply smem_not_In in E2. intros Hc. apply E2; cbn; auto. }
  destruct (Hm c2 c1) as [Hx Hs]; auto. constructor; auto. congruence.
Qed.

(** * Intersection *)

Definition rname (name other : string) : string := if negb (name =? "?") then name else other.

Lemma cand_in : forall name other k c, NoDup (keys other) ->
    (In (k, c) (inter_candidates name other) <->
     In (k, c) other /\ (name = "?" \/ k = name \/ k = "?")).
Proof.
  intros name other k c Hnd. unfold inter_candidates.
  destruct (name =? "?") eqn:E.
  { apply seqb_spec in E. intuition. }
  apply String.eqb_neq in E.
  assert (Hc : forall x, In x (match sget name other with Some x => [(name, x)] | None => [] end) <->
               In x other /\ fst x = name).
  { intros [k' c']; cbn. destruct (sget name other) eqn:Eg.
    - split.
      + intros [[= <- <-]|[]]. split; auto. now apply (dget_In seqb_spec).
      + intros [Hin ->]. apply (In_dget seqb_spec) in Hin; auto. rewrite Eg in Hin. inversion Hin; cbn; auto.
    - split; [easy|]. intros [Hin ->]. apply (dget_None seqb_spec) in Eg. apply Eg.
      apply in_map_iff. now exists (name, c'). }
  destruct (sget "?" other) eqn:Eq.
  - rewrite (In_dset_iff seqb_spec).
    2:{ destruct (sget name other); repeat constructor; auto. }
    rewrite Hc. cbn. split.
    + intros [[-> ->]|[Hn [Hin ->]]]; auto. split; auto. now apply (dget_In seqb_spec).
    + intros [Hin [?|[->| ->]]]; [easy|right|left]; auto.
      apply (In_dget seqb_spec) in Hin; auto. rewrite Eq in Hin. inversion Hin; auto.
  - rewrite Hc. cbn. split; [intuition|]. intros [Hin [?|[->| ->]]]; [easy|auto|].
    apply (dget_None seqb_spec) in Eq. exfalso. apply Eq. apply in_map_iff. now exists ("?", c).
Qed.

(** Children dictionaries built by the loops: well formed, no '*'. *)
Definition wfc (ch : list (string * node)) : Prop :=
  NoDup (keys ch) /\ smem "*" ch = false /\ forall k c, In (k, c) ch -> wf c.

Lemma wfc_wf : forall l ch, wfc ch -> wf (Node l ch).
Proof.
  intros l ch (H1 & H2 & H3). apply wf_node; auto. now apply smem_not_In.
Qed.

Lemma wfc_sset : forall k c ch, wfc ch -> k <> "*" -> wf c -> wfc (sset k c ch).
Proof.
  intros k c ch (H1 & H2 & H3) Hk Hc. repeat split.
  - now apply (NoDup_dset seqb_spec).
  - now rewrite smem_sset by auto.
  - intros k' c' Hin. apply (In_dset seqb_spec) in Hin as [[-> ->]|[_ Hin]]; eauto.
Qed.

Lemma inter_loop_spec : forall rec name child cands children,
    wfc children -> name <> "*" ->
    (forall k c, In (k, c) cands -> k <> "*" /\ wf (rec child c)) ->
    wfc (inter_loop rec name child cands children) /\
    forall h t, existsb (kmatch h t) (inter_loop rec name child cands children) =
                existsb (kmatch h t) children ||
                existsb (fun oc => kmatch h t (rname name (fst oc), rec child (snd oc))) cands.
Proof.
  induction cands as [|[o oc] cands IH]; intros children Hw Hn Hc; cbn [inter_loop].
  - split; auto. intros; cbn. now rewrite orb_false_r.
  - fold (rname name o). set (rn := rname name o).
    assert (Hrn : rn <> "*").
    { unfold rn, rname. destruct (name =? "?"); cbn; auto. eapply Hc; left; eauto. }
    assert (Hwr : wf (rec child oc)) by (eapply Hc; left; eauto).
    set (value := match sget rn children with Some prev => node_union prev (rec child oc)
                  | None => rec child oc end).
    assert (Hwv : wf value).
    { unfold value. destruct (sget rn children) eqn:E; auto.
      apply union_spec; auto. apply (dget_In seqb_spec) in E. destruct Hw as (_ & _ & Hw). eauto. }
    destruct (IH (sset rn value children)) as [Hw' Hm'].
    + apply wfc_sset; auto.
    + auto.
    + intros k c Hin. eapply Hc; right; eauto.
    + split; auto. intros h t. rewrite Hm'. cbn [existsb fst snd].
      fold rn. rewrite orb_assoc. f_equal.
      destruct Hw as (Hnd & Hs & Hch).
      rewrite existsb_sset by auto. rewrite (existsb_split (kmatch h t) rn children) by auto.
      assert (kmatch h t (rn, value) =
        (match sget rn children with Some c0 => kmatch h t (rn, c0) | None => false end)
        || kmatch h t (rn, rec child oc)) as ->.
      { unfold value, kmatch; cbn. destruct (sget rn children) as [p|] eqn:Eg; auto.
        apply (dget_In seqb_spec) in Eg.
        rewrite (proj2 (union_spec (rec child oc) p (Hch _ _ Eg) Hwr)).
        destruct ((rn =? "?") || (h =? rn)); auto. }
      rewrite <- !orb_assoc. f_equal. apply orb_comm.
Qed.

Lemma inter_items_spec : forall rec items other children,
    wfc children -> wfc other -> ~ In "*" (keys items) ->
    (forall k c k' c', In (k, c) items -> In (k', c') other -> wf (rec c c')) ->
    wfc (inter_items rec items other children) /\
    forall h t, existsb (kmatch h t) (inter_items rec items other children) =
                existsb (kmatch h t) children ||
                existsb (fun it => existsb (fun oc => kmatch h t (rname (fst it) (fst oc), rec (snd it) (snd oc)))
                                           (inter_candidates (fst it) other)) items.
Proof.
  induction items as [|[name child] items IH]; intros other children Hw Ho Hn Hr; cbn [inter_items].
  - split; auto. intros; cbn. now rewrite orb_false_r.
  - destruct (inter_loop_spec rec name child (inter_candidates name other) children) as [Hw1 Hm1]; auto.
    + intros ->. apply Hn; cbn; auto.
    + intros k c Hin. apply cand_in in Hin as [Hin _]; [|apply Ho]. split.
      * intros ->. destruct Ho as (_ & Hs & _). apply smem_not_In in Hs. apply Hs.
        apply in_map_iff. now exists ("*", c).
      * eapply Hr; [left; eauto|eauto].
    + destruct (IH other (inter_loop rec name child (inter_candidates name other) children)) as [Hw2 Hm2]; auto.
      * intros Hc. apply Hn; cbn; auto.
      * intros. eapply Hr; eauto. right; eauto.
      * split; auto. intros h t. rewrite Hm2, Hm1. cbn [existsb fst snd]. now rewrite orb_assoc.
Qed.

Lemma inter_loop_ex : forall rec name child cands children,
    (forall k c, In (k, c) children -> ex c) ->
    (forall k c, In (k, c) cands -> ex (rec child c)) ->
    forall k c, In (k, c) (inter_loop rec name child cands children) -> ex c.
Proof.
  induction cands as [|[o oc] cands IH]; intros children H1 H2 k c; cbn [inter_loop]; eauto.
  apply IH.
  - intros k' c' Hin. apply (In_dset seqb_spec) in Hin as [[-> ->]|[_ Hin]]; eauto.
    destruct (sget _ children) eqn:Eg.
    + apply (dget_In seqb_spec) in Eg. apply union_ex; eauto. eapply H2; left; eauto.
    + eapply H2; left; eauto.
  - intros k' c' Hin. eapply H2; right; eauto.
Qed.

Lemma inter_items_ex : forall rec items other children, NoDup (keys other) ->
    (forall k c, In (k, c) children -> ex c) ->
    (forall k c k' c', In (k, c) items -> In (k', c') other -> ex (rec c c')) ->
    forall k c, In (k, c) (inter_items rec items other children) -> ex c.
Proof.
  induction items as [|[name child] items IH]; intros other children Hnd H1 H2 k c; cbn [inter_items]; eauto.
  apply IH; auto.
  - apply inter_loop_ex; auto. intros k' c' Hin. apply cand_in in Hin as [Hin _]; auto.
    eapply H2; [left; eauto|eauto].
  - intros. eapply H2; eauto. right; eauto.
Qed.

Lemma kmatch_in : forall l ch h t, NoDup (keys ch) -> smem "*" ch = false ->
    (node_matches (Node l ch) (h :: t) = true <->
     exists k c, In (k, c) ch /\ (k = "?" \/ k = h) /\ node_matches c t = true).
Proof.
  intros. rewrite matches_existsb, existsb_exists by auto. split.
  - intros [[k c] [Hin Hk]]. unfold kmatch in Hk; cbn in Hk.
    apply andb_true_iff in Hk as [Hk Hc]. apply orb_true_iff in Hk as [Hk|Hk]; apply seqb_spec in Hk; eauto 6.
  - intros (k & c & Hin & Hk & Hc). exists (k, c). split; auto. unfold kmatch; cbn.
    rewrite Hc, andb_true_r, orb_true_iff, !seqb_spec. intuition.
Qed.

Lemma star_matches : forall l ch t, smem "*" ch = true -> node_matches (Node l ch) t = true.
Proof. intros l ch [|h t] H; cbn; now rewrite H. Qed.

Lemma matches_cons_leaf : forall l l' ch h t, node_matches (Node l ch) (h :: t) = node_matches (Node l' ch) (h :: t).
Proof. reflexivity. Qed.

Lemma inter_spec : forall f a b, wf a -> wf b -> height a <= f \/ height b <= f ->
    wf (inter_fuel f a b) /\
    (forall t, node_matches (inter_fuel f a b) t = true ->
               node_matches a t = true /\ node_matches b t = true) /\
    (ex a -> ex b -> ex (inter_fuel f a b) /\
       forall t, node_matches a t = true -> node_matches b t = true ->
                 node_matches (inter_fuel f a b) t = true).
Proof.
  induction f as [|f IH]; intros [l1 c1] [l2 c2] Hw1 Hw2 Hf.
  { pose proof (height_pos (Node l1 c1)). pose proof (height_pos (Node l2 c2)). lia. }
  cbn [inter_fuel].
  destruct (smem "*" c1) eqn:E1.
  { split; [eapply wf_leaf; eauto|]. split.
    - intros [|h t] H.
      + split; [now apply star_matches|]. rewrite matches_nil in *.
        apply orb_true_iff in H as [->|H]; auto. apply andb_true_iff in H as [_ ->]. apply orb_true_r.
      + split; [now apply star_matches|exact H].
    - intros Hx1 Hx2. apply ex_inv in Hx1 as [Hs1 Hx1]. apply ex_inv in Hx2 as [Hs2 Hx2].
      rewrite Hs1 by auto. cbn. split; [now constructor|]. intros t _ H. exact H. }
  destruct (smem "*" c2) eqn:E2.
  { split; [eapply wf_leaf; eauto|]. split.
    - intros [|h t] H.
      + split; [|now apply star_matches]. rewrite matches_nil in *.
        apply orb_true_iff in H as [->|H]; auto. apply andb_true_iff in H as [-> _]. apply orb_true_r.
      + split; [exact H|now apply star_matches].
    - intros Hx1 Hx2. apply ex_inv in Hx1 as [Hs1 Hx1]. apply ex_inv in Hx2 as [Hs2 Hx2].
      rewrite Hs2 by auto. rewrite andb_true_r. split; [constructor; auto; congruence|]. intros t H _. exact H. }
  destruct (wf_inv _ _ Hw1) as [->|(_ & Hnd1 & Hch1)]; [discriminate|].
  destruct (wf_inv _ _ Hw2) as [->|(_ & Hnd2 & Hch2)]; [discriminate|].
  assert (W1 : wfc c1) by (split; auto). assert (W2 : wfc c2) by (split; auto).
  assert (W0 : wfc []) by (repeat split; cbn; [constructor|easy]).
  assert (Hh12 : forall k c k' c', In (k, c) c1 -> In (k', c') c2 -> height c <= f \/ height c' <= f).
  { intros. pose proof (height_child l1 _ _ _ H). pose proof (height_child l2 _ _ _ H0). lia. }
  destruct (inter_items_spec (inter_fuel f) c1 c2 []) as [Wa Ma]; auto.
  { now apply smem_not_In. }
  { intros. eapply IH; eauto. }
  destruct (inter_items_spec (inter_fuel f) c2 c1 (inter_items (inter_fuel f) c1 c2 [])) as [Wb Mb]; auto.
  { now apply smem_not_In. }
  { intros. apply IH; eauto. specialize (Hh12 _ _ _ _ H0 H). lia. }
  set (res := inter_items (inter_fuel f) c2 c1 (inter_items (inter_fuel f) c1 c2 [])) in *.
  destruct Wb as (Rnd & Rs & Rch).
  assert (Hsound : forall x y, wfc x -> wfc y ->
     (forall k c k' c', In (k, c) x -> In (k', c') y -> height c <= f \/ height c' <= f) ->
     forall h t, existsb (fun it => existsb (fun oc => kmatch h t (rname (fst it) (fst oc), inter_fuel f (snd it) (snd oc)))
                                           (inter_candidates (fst it) y)) x = true ->
     existsb (kmatch h t) x = true /\ existsb (kmatch h t) y = true).
  { intros x y (Xn & Xs & Xc) (Yn & Ys & Yc) Hh h t H.
    apply existsb_exists in H as [[n c] [Hin H]]. apply existsb_exists in H as [[m d] [Hin' H]].
    cbn [fst snd] in *. apply cand_in in Hin' as [Hin' Hm]; auto.
    unfold kmatch in H; cbn [fst snd] in H. apply andb_true_iff in H as [Hk Hr].
    destruct (IH c d) as (_ & Hs & _); eauto. apply Hs in Hr as [Hc Hd].
    assert (Hnm : (n = "?" \/ n = h) /\ (m = "?" \/ m = h)).
    { apply orb_true_iff in Hk. rewrite !seqb_spec in Hk. unfold rname in Hk.
      destruct (n =? "?") eqn:En; cbn in Hk.
      - apply seqb_spec in En. split; auto. intuition.
      - apply String.eqb_neq in En. intuition; subst; auto. }
    rewrite !existsb_exists. split; [exists (n, c)|exists (m, d)]; split; auto; unfold kmatch; cbn;
      rewrite ?Hc, ?Hd, andb_true_r, orb_true_iff, !seqb_spec; intuition. }
  assert (Ht : forall h t, node_matches (Node (l1 && l2) res) (h :: t) = true ->
     node_matches (Node l1 c1) (h :: t) = true /\ node_matches (Node l2 c2) (h :: t) = true).
  { intros h t H. rewrite matches_existsb in H by auto.
    rewrite (matches_existsb l1), (matches_existsb l2) by auto.
    rewrite Mb, Ma in H. cbn in H. apply orb_true_iff in H as [H|H].
    - apply (Hsound c1 c2); auto.
    - apply Hsound in H; auto; [intuition|]. intros. specialize (Hh12 _ _ _ _ H1 H0). lia. }
  split; [now apply wfc_wf|]. split.
  - intros [|h t] H; auto. rewrite !matches_nil, Rs, E1, E2 in *. cbn in *. now apply andb_true_iff.
  - intros Hx1 Hx2. apply ex_inv in Hx1 as [_ Hx1]. apply ex_inv in Hx2 as [_ Hx2]. split.
    + constructor; [congruence|]. apply inter_items_ex; auto.
      * apply inter_items_ex; auto; [easy|]. intros. apply IH; eauto.
      * intros. apply IH; eauto. specialize (Hh12 _ _ _ _ H0 H). lia.
    + intros [|h t] Ha Hb.
      * rewrite !matches_nil, Rs, E1, E2 in *. cbn in *. now rewrite Ha, Hb.
      * rewrite matches_existsb by auto. rewrite Mb, Ma. cbn [existsb orb].
        apply orb_true_iff. left.
        apply kmatch_in in Ha as (n & c & Hin & Hn & Hc); auto.
        apply kmatch_in in Hb as (m & d & Hin' & Hm & Hd); auto.
        apply existsb_exists. exists (n, c). split; auto. apply existsb_exists. exists (m, d). cbn [fst snd].
        split.
        { apply cand_in; auto. split; auto. destruct Hn as [->| ->]; auto. destruct Hm as [->| ->]; auto. }
        destruct (IH c d) as (_ & _ & Hcomp); eauto. destruct Hcomp as [_ Hcomp]; eauto.
        unfold kmatch; cbn. rewrite Hcomp, andb_true_r, orb_true_iff, !seqb_spec by auto.
        unfold rname. destruct (n =? "?") eqn:En; cbn; [intuition|].
        apply String.eqb_neq in En. intuition.
Qed.

Lemma intersection_spec : forall a b, wf a -> wf b ->
    wf (node_intersection a b) /\
    (forall t, node_matches (node_intersection a b) t = true ->
               node_matches a t = true /\ node_matches b t = true) /\
    (ex a -> ex b -> ex (node_intersection a b) /\
       forall t, node_matches a t = true -> node_matches b t = true ->
                 node_matches (node_intersection a b) t = true).
Proof. intros. apply inter_spec; auto. lia. Qed.

Lemma py_intersection_sound : forall others n, wf n -> Forall wf others ->
    wf (py_intersection n others) /\
    forall t, node_matches (py_intersection n others) t = true ->
              Forall (fun m => node_matches m t = true) (n :: others).
Proof.
  unfold py_intersection. induction others as [|o others IH]; cbn [fold_left]; intros n Hw Ho.
  - split; auto.
  - inversion Ho; subst. destruct (intersection_spec n o) as (Hwi & Hs & _); auto.
    destruct (IH (node_intersection n o)) as [Hw' Hm']; auto. split; auto.
    intros t H. apply Hm' in H. inversion H; subst. apply Hs in H4 as [? ?]. auto.
Qed.

Lemma py_intersection_exact : forall others n, wf n -> Forall wf others -> ex n -> Forall ex others ->
    forall t, node_matches (py_intersection n others) t = true <->
              Forall (fun m => node_matches m t = true) (n :: others).
Proof.
  intros others n Hw Ho Hx Hox t. split; [apply py_intersection_sound; auto|].
  revert n Hw Hx. unfold py_intersection.
  induction others as [|o others IH]; cbn [fold_left]; intros n Hw Hx H.
  - inversion H; auto.
  - inversion Ho; subst. inversion Hox; subst. inversion H; subst. inversion H7; subst.
    destruct (intersection_spec n o) as (Hwi & _ & Hc); auto. destruct Hc as [Hxi Hc]; auto.
Qed.

(** Trees built from lists in which every star is announced are explicit. *)

Fixpoint sat (n : node) (p : etype) : bool :=
  let 'Node l ch := n in
  if smem "*" ch then true
  else match p with
       | [] => l
       | h :: p' => match sget h ch with Some c => sat c p' | None => false end
       end.

Lemma sat_empty_add : forall q n n' p, add_query_type n q = Some n' -> sat n p = true -> sat n' p = true.
Proof.
  induction q as [|h q IH]; intros [l ch] n' p H Hs; cbn [add_query_type] in H.
  - destruct (smem "*" ch) eqn:E; inversion H; subst; auto. destruct p; cbn in *; rewrite E in *; auto.
  - destruct (smem "*" ch) eqn:E; [inversion H; subst; auto|].
    destruct (h =? "*") eqn:Eh.
    + destruct q; inversion H; subst. destruct p; reflexivity.
    + apply String.eqb_neq in Eh.
      destruct (add_query_type _ q) as [c|] eqn:Ec; inversion H; subst; clear H.
      destruct p as [|x p]; cbn in Hs; rewrite E in Hs; cbn; rewrite smem_sset, E by auto; auto.
      destruct (string_dec x h) as [->|Hn].
      * rewrite (dget_dset_same seqb_spec). destruct (sget h ch); [|discriminate]. eapply IH; eauto.
      * rewrite (dget_dset_other seqb_spec) by auto. exact Hs.
Qed.

Lemma sat_add : forall q n n', add_query_type n q = Some n' -> sat n' q = true.
Proof.
  induction q as [|h q IH]; intros [l ch] n' H; cbn [add_query_type] in H.
  - destruct (smem "*" ch) eqn:E; inversion H; subst; cbn; rewrite E; auto.
  - destruct (smem "*" ch) eqn:E; [inversion H; subst; cbn; now rewrite E|].
    destruct (h =? "*") eqn:Eh.
    + destruct q; inversion H; subst. reflexivity.
    + apply String.eqb_neq in Eh.
      destruct (add_query_type _ q) as [c|] eqn:Ec; inversion H; subst; clear H.
      cbn. rewrite smem_sset, E, (dget_dset_same seqb_spec) by auto. eauto.
Qed.

Lemma ex_empty : ex (Node false []).
Proof. constructor; [discriminate|easy]. Qed.

Lemma ex_add : forall q n n', add_query_type n q = Some n' -> ex n ->
    (forall p, q = p ++ ["*"] -> sat n p = true) -> ex n'.
Proof.
  induction q as [|h q IH]; intros [l ch] n' H Hx Hp; cbn [add_query_type] in H.
  - destruct (smem "*" ch) eqn:E; inversion H; subst; auto. apply ex_inv in Hx as [Hs Hx]. constructor; auto.
  - destruct (smem "*" ch) eqn:E; [inversion H; subst; auto|].
    destruct (h =? "*") eqn:Eh.
    + destruct q; inversion H; subst. apply seqb_spec in Eh; subst.
      specialize (Hp [] eq_refl). cbn in Hp. rewrite E in Hp. subst. apply ex_star.
    + apply String.eqb_neq in Eh.
      destruct (add_query_type _ q) as [c|] eqn:Ec; inversion H; subst; clear H.
      apply ex_inv in Hx as [Hs Hx].
      assert (Hxc : ex c).
      { eapply IH; [exact Ec| |].
        - destruct (sget h ch) eqn:Eg; [|apply ex_empty]. apply (dget_In seqb_spec) in Eg. eauto.
        - intros p ->. specialize (Hp (h :: p) eq_refl). cbn in Hp. rewrite E in Hp.
          destruct (sget h ch); auto. discriminate. }
      constructor.
      * rewrite smem_sset by auto. congruence.
      * intros k' c' Hin. apply (In_dset seqb_spec) in Hin as [[-> ->]|[_ Hin]]; eauto.
Qed.

Lemma ex_adds : forall qs pre n n', add_query_types n qs = Some n' -> ex n ->
    (forall p, In p pre -> sat n p = true) -> stars_announced (pre ++ qs) ->
    ex n'.
Proof.
  induction qs as [|q qs IH]; intros pre n n' H Hx Hp Ha; cbn in H.
  - inversion H; subst; auto.
  - destruct (add_query_type n q) as [m|] eqn:E; [|discriminate].
    apply (IH (pre ++ [q]) m n'); auto.
    + eapply ex_add; eauto. intros p ->. apply Hp. eapply Ha. reflexivity.
    + intros p Hin. apply in_app_or in Hin as [Hin|[<-|[]]].
      * eapply sat_empty_add; eauto. * eapply sat_add; eauto.
    + rewrite <- app_assoc. exact Ha.
Qed.

Lemma create_ex : forall qs n, py_create qs = Some n -> stars_announced qs -> ex n.
Proof.
  intros. eapply (ex_adds qs []); eauto using ex_empty. all: easy.
Qed.

Lemma starless_announced : forall qs, Forall starless qs -> stars_announced qs.
Proof.
  intros qs H l p r ->. exfalso. rewrite Forall_forall in H.
  apply (H (p ++ ["*"])); apply in_or_app; cbn; auto.
Qed.

(** * Disjointness *)

Inductive live : node -> Prop :=
| live_i : forall l ch, (forall k c, In (k, c) ch -> live c /\ (n_leaf c = true \/ n_children c <> [])) ->
                        live (Node l ch).

Lemma live_inv : forall l ch, live (Node l ch) ->
    forall k c, In (k, c) ch -> live c /\ (n_leaf c = true \/ n_children c <> []).
Proof. intros l ch H. inversion H; auto. Qed.

Lemma live_match : forall n, wf n -> live n -> n_leaf n = true \/ n_children n <> [] ->
    exists t, node_matches n t = true.
Proof.
  induction n as [l ch IH] using node_ind'. intros Hw Hl Ha. cbn in Ha.
  destruct l.
  { exists []. rewrite matches_nil. apply orb_true_r. }
  destruct Ha as [|Ha]; [discriminate|]. destruct ch as [|[k c] ch]; [easy|].
  destruct (wf_inv _ _ Hw) as [He|(Hs & Hnd & Hch)].
  { exists []. rewrite He. reflexivity. }
  inversion IH; subst. destruct (live_inv _ _ Hl k c) as [Hl' Ha']; [left; auto|].
  destruct (H1 (Hch _ _ (or_introl eq_refl)) Hl' Ha') as [t Ht].
  exists (k :: t). apply kmatch_in; auto. exists k, c. cbn; auto.
Qed.

Lemma add_live : forall q n n', add_query_type n q = Some n' -> live n ->
    live n' /\ (n_leaf n' = true \/ n_children n' <> []).
Proof.
  induction q as [|h q IH]; intros [l ch] n' H Hl; cbn [add_query_type] in H.
  - destruct (smem "*" ch) eqn:E; inversion H; subst; cbn.
    + split; auto. right. intros ->. discriminate.
    + split; auto. constructor. exact (live_inv _ _ Hl).
  - destruct (smem "*" ch) eqn:E.
    { inversion H; subst; cbn. split; auto. right. intros ->. discriminate. }
    destruct (h =? "*") eqn:Eh.
    + destruct q; inversion H; subst. split; [|cbn; right; discriminate].
      constructor. intros k c [[= <- <-]|[]]. split; cbn; auto. constructor. easy.
    + destruct (add_query_type _ q) as [c|] eqn:Ec; inversion H; subst; clear H.
      pose proof (live_inv _ _ Hl) as Hl'.
      apply IH in Ec.
      2:{ destruct (sget h ch) eqn:Eg; [|constructor; easy]. apply (dget_In seqb_spec) in Eg. eapply Hl'; eauto. }
      split.
      * constructor. intros k' c' Hin. apply (In_dset seqb_spec) in Hin as [[-> ->]|[_ Hin]]; eauto.
      * right. cbn. destruct ch as [|[k' c'] ch]; cbn; [discriminate|]. destruct (h =? k'); discriminate.
Qed.

Lemma adds_live : forall qs n n', add_query_types n qs = Some n' -> live n -> live n'.
Proof.
  induction qs as [|q qs IH]; cbn; intros n n' H Hl; [inversion H; subst; auto|].
  destruct (add_query_type n q) eqn:E; [|discriminate]. eapply IH; eauto. eapply add_live; eauto.
Qed.

Lemma create_live : forall qs n, py_create qs = Some n -> live n.
Proof. intros. eapply adds_live; eauto. constructor; easy. Qed.

Definition common (a b : node) : Prop := exists t, node_matches a t = true /\ node_matches b t = true.

Lemma common_sym : forall a b, common a b -> common b a.
Proof. intros a b [t [H1 H2]]. now exists t. Qed.

Lemma disjoint_spec : forall f a b, wf a -> wf b -> height a <= f \/ height b <= f ->
    (disjoint_fuel f a b = true -> ~ common a b) /\
    (live a -> live b -> disjoint_fuel f a b = false -> common a b).
Proof.
  induction f as [|f IH]; intros [l1 c1] [l2 c2] Hw1 Hw2 Hf.
  { pose proof (height_pos (Node l1 c1)). pose proof (height_pos (Node l2 c2)). lia. }
  cbn [disjoint_fuel].
  destruct (l1 && l2) eqn:El.
  { split; [discriminate|]. intros _ _ _. exists []. rewrite !matches_nil.
    apply andb_true_iff in El as [-> ->]. now rewrite !orb_true_r. }
  match goal with |- context[if ?x then false else _] => destruct x eqn:Es end.
  { split; [discriminate|]. intros Hl1 Hl2 _.
    apply orb_true_iff in Es as [Es|Es]; apply andb_true_iff in Es as [Es Ha].
    - destruct (live_match (Node l2 c2)) as [t Ht]; auto.
      { cbn. destruct l2; auto. right. destruct c2; [discriminate|easy]. }
      exists t. split; auto. now apply star_matches.
    - destruct (live_match (Node l1 c1)) as [t Ht]; auto.
      { cbn. destruct l1; auto. right. destruct c1; [discriminate|easy]. }
      exists t. split; auto. now apply star_matches. }
  apply orb_false_iff in Es as [Es1 Es2].
  (* if one side has '*' the other matches nothing *)
  destruct (smem "*" c1) eqn:E1.
  { cbn in Es1. destruct c2; [|discriminate]. destruct l2; [discriminate|]. cbn [sget dget].
    assert (Hno : forall t, node_matches (Node false []) t = false) by apply nomatch_empty.
    split.
    - intros _ [t [_ Ht]]. rewrite Hno in Ht. discriminate.
    - intros _ _ H. exfalso.
      destruct (sget "?" c1); cbn in H.
      + revert H. assert (forallb (fun kc => if fst kc =? "?" then true else true) c1 = true) as ->; [|discriminate].
        apply forallb_forall. intros x _. destruct (fst x =? "?"); auto.
      + revert H. assert (forallb (fun kc => if fst kc =? "?" then true else true) c1 = true) as ->; [|discriminate].
        apply forallb_forall. intros x _. destruct (fst x =? "?"); auto. }
  destruct (smem "*" c2) eqn:E2.
  { cbn in Es2. destruct c1; [|discriminate]. destruct l1; [discriminate|]. cbn [sget dget].
    split.
    - intros _ [t [Ht _]]. rewrite nomatch_empty in Ht. discriminate.
    - intros _ _ H. exfalso. destruct (sget "?" c2); cbn in H; discriminate. }
  destruct (wf_inv _ _ Hw1) as [->|(_ & Hnd1 & Hch1)]; [discriminate|].
  destruct (wf_inv _ _ Hw2) as [->|(_ & Hnd2 & Hch2)]; [discriminate|].
  assert (Hh12 : forall k c k' c', In (k, c) c1 -> In (k', c') c2 -> height c <= f \/ height c' <= f).
  { intros. pose proof (height_child l1 _ _ _ H). pose proof (height_child l2 _ _ _ H0). lia. }
  assert (Hlift : forall k c k' c' h, In (k, c) c1 -> In (k', c') c2 -> (k = "?" \/ k = h) -> (k' = "?" \/ k' = h) ->
     common c c' -> common (Node l1 c1) (Node l2 c2)).
  { intros k c k' c' h H H0 Hk Hk' [t [Ht Ht']]. exists (h :: t). split; apply kmatch_in; eauto 8. }
  assert (Hl12 : forall k c, live (Node l1 c1) -> In (k, c) c1 -> live c) by (intros; eapply live_inv; eauto).
  assert (Hl22 : forall k c, live (Node l2 c2) -> In (k, c) c2 -> live c) by (intros; eapply live_inv; eauto).
  match goal with |- context[if ?x then false else _] => destruct x eqn:Eq1 end.
  { split; [discriminate|]. intros Hl1 Hl2 _.
    destruct (sget "?" c1) as [q|] eqn:Eg; [|discriminate]. apply negb_true_iff in Eq1.
    apply (dget_In seqb_spec) in Eg.
    assert (exists kc, In kc c2 /\ disjoint_fuel f q (snd kc) = false) as [[k c] [Hin Hd]].
    { clear -Eq1. induction c2 as [|x c2 IHc]; [discriminate|]. cbn in Eq1.
      apply andb_false_iff in Eq1 as [H|H]; [exists x; cbn; auto|].
      destruct (IHc H) as [y [Hy Hd]]. exists y; cbn; auto. }
    apply (Hlift "?" q k c k); auto. eapply IH; eauto. }
  match goal with |- context[if ?x then false else _] => destruct x eqn:Eq2 end.
  { split; [discriminate|]. intros Hl1 Hl2 _.
    destruct (sget "?" c2) as [q|] eqn:Eg; [|discriminate]. apply negb_true_iff in Eq2.
    apply (dget_In seqb_spec) in Eg.
    assert (exists kc, In kc c1 /\ disjoint_fuel f q (snd kc) = false) as [[k c] [Hin Hd]].
    { clear -Eq2. induction c1 as [|x c2 IHc]; [discriminate|]. cbn in Eq2.
      apply andb_false_iff in Eq2 as [H|H].
      - exists x. cbn; split; auto. destruct (fst x =? "?"); auto. discriminate.
      - destruct (IHc H) as [y [Hy Hd]]. exists y; cbn; auto. }
    apply (Hlift k c "?" q k); auto. apply common_sym. eapply (IH q c); eauto.
    specialize (Hh12 _ _ _ _ Hin Eg). lia. }
  split.
  - intros H3 [[|h t] [Ha Hb]].
    + rewrite matches_nil, E1 in Ha. rewrite matches_nil, E2 in Hb. cbn in *. subst. discriminate.
    + apply kmatch_in in Ha as (n & c & Hin & Hn & Hc); auto.
      apply kmatch_in in Hb as (m & d & Hin' & Hm & Hd); auto.
      destruct (string_dec n "?") as [->|Hnq].
      { rewrite (In_dget seqb_spec _ _ _ Hnd1 Hin) in Eq1. apply negb_false_iff in Eq1.
        rewrite forallb_forall in Eq1. specialize (Eq1 _ Hin'). cbn in Eq1.
        eapply (IH c d); eauto. now exists t. }
      destruct Hn as [?|Hn]; [easy|]. subst n.
      destruct (string_dec m "?") as [->|Hmq].
      { rewrite (In_dget seqb_spec _ _ _ Hnd2 Hin') in Eq2. apply negb_false_iff in Eq2.
        rewrite forallb_forall in Eq2. specialize (Eq2 _ Hin). cbn [fst snd] in Eq2.
        apply String.eqb_neq in Hnq. rewrite Hnq in Eq2.
        eapply (IH d c); eauto; [|now exists t]. specialize (Hh12 _ _ _ _ Hin Hin'). lia. }
      destruct Hm as [?|Hm]; [easy|]. subst m.
      rewrite forallb_forall in H3. specialize (H3 _ Hin). cbn [fst snd] in H3.
      apply String.eqb_neq in Hnq. rewrite Hnq in H3.
      rewrite (In_dget seqb_spec _ _ _ Hnd2 Hin') in H3.
      eapply (IH c d); eauto. now exists t.
  - intros Hl1 Hl2 H3.
    match type of H3 with forallb ?g c1 = false =>
      assert (exists kc, In kc c1 /\ g kc = false) as [[k c] [Hin Hd]] end.
    { clear -H3. induction c1 as [|x c1 IHc]; [discriminate|]. cbn [forallb] in H3.
      apply andb_false_iff in H3 as [H|H]; [exists x; cbn; auto|].
      destruct (IHc H) as [y [Hy Hd]]. exists y; cbn; auto. }
    cbn [fst snd] in Hd. destruct (k =? "?"); [discriminate|].
    destruct (sget k c2) as [d|] eqn:Eg; [|discriminate]. apply (dget_In seqb_spec) in Eg.
    apply (Hlift k c k d k); auto. eapply IH; eauto.
Qed.

Lemma isdisjoint_exact : forall a b, wf a -> wf b -> live a -> live b ->
    (node_isdisjoint a b = true <-> ~ common a b).
Proof.
  intros a b Ha Hb La Lb. unfold node_isdisjoint.
  destruct (disjoint_spec (height a + height b) a b) as [H1 H2]; auto; [lia|].
  split; [exact H1|]. intros H. destruct (disjoint_fuel _ a b) eqn:E; [reflexivity|].
  exfalso. apply H. apply H2; auto.
Qed.

(** * C implementation *)

Section CNodeInd.
  Variable P : cnode -> Prop.
  Hypothesis H : forall l s ch, Forall (fun kc => P (snd kc)) ch -> P (CNode l s ch).
  Fixpoint cnode_ind' (n : cnode) : P n :=
    match n with
    | CNode l s ch =>
        H l s ch ((fix go (ch : list (string * cnode)) : Forall (fun kc => P (snd kc)) ch :=
                     match ch with
                     | [] => Forall_nil _
                     | kc :: ch' => Forall_cons kc (cnode_ind' (snd kc)) (go ch')
                     end) ch)
    end.
End CNodeInd.

(** The C tree mirrors the Python tree; with '*' it is a childless leaf. *)
Inductive sim : cnode -> node -> Prop :=
| sim_star : forall l, sim (CNode true true []) (Node l [("*", Node true [])])
| sim_node : forall l ch ch', smem "*" ch' = false ->
    Forall2 (fun kc kn => fst kc = fst kn /\ sim (snd kc) (snd kn)) ch ch' ->
    sim (CNode l false ch) (Node l ch').

Section SimInd.
  Variable P : cnode -> node -> Prop.
  Hypothesis H1 : forall l, P (CNode true true []) (Node l [("*", Node true [])]).
  Hypothesis H2 : forall l ch ch', smem "*" ch' = false ->
    Forall2 (fun kc kn => fst kc = fst kn /\ sim (snd kc) (snd kn)) ch ch' ->
    Forall2 (fun kc kn => fst kc = fst kn /\ P (snd kc) (snd kn)) ch ch' ->
    P (CNode l false ch) (Node l ch').
  Lemma sim_ind' : forall c n, sim c n -> P c n.
  Proof.
    induction c as [l s ch IH] using cnode_ind'. intros n Hs. inversion Hs as [|? ? ? Hsm HF]; subst; auto.
    apply H2; auto. clear -IH HF. revert IH. induction HF as [|x y xs ys [Hk Hx] Hxs IHf]; intros IH; constructor.
    - inversion IH; subst. auto.
    - inversion IH; subst. auto.
  Qed.
End SimInd.

Lemma no_nul_star : forall s, no_nul s -> c_is_star s = (s =? "*").
Proof.
  intros s Hs. destruct s as [|a s]; [reflexivity|].
  destruct (Ascii.eqb a "*") eqn:Ea.
  - apply Ascii.eqb_eq in Ea. subst. destruct s as [|b s]; [reflexivity|].
    destruct (Ascii.eqb b "000") eqn:Eb.
    + apply Ascii.eqb_eq in Eb. subst. exfalso. apply (Hs "*" s). reflexivity.
    + transitivity false; [|reflexivity].
      destruct b as [[] [] [] [] [] [] [] []]; try reflexivity; discriminate.
  - transitivity false.
    + destruct a as [[] [] [] [] [] [] [] []]; try reflexivity; discriminate.
    + cbn. now rewrite Ea.
Qed.

Lemma sim_get : forall k ch ch', Forall2 (fun kc kn => fst kc = fst kn /\ sim (snd kc) (snd kn)) ch ch' ->
    match sget k ch, sget k ch' with
    | Some c, Some n => sim c n
    | None, None => True
    | _, _ => False
    end.
Proof.
  intros k ch ch' H. induction H as [|[k1 c1] [k2 c2] ch ch' [Hk Hs] H IH]; cbn in *; auto.
  subst. destruct (k =? k2); auto.
Qed.

Lemma sim_set : forall k c n ch ch', sim c n ->
    Forall2 (fun kc kn => fst kc = fst kn /\ sim (snd kc) (snd kn)) ch ch' ->
    Forall2 (fun kc kn => fst kc = fst kn /\ sim (snd kc) (snd kn)) (sset k c ch) (sset k n ch').
Proof.
  intros k c n ch ch' Hs H. induction H as [|[k1 c1] [k2 c2] ch ch' [Hk Hs'] H IH]; cbn in *.
  - repeat constructor; auto.
  - subst. destruct (k =? k2); constructor; auto.
Qed.

Lemma sim_add : forall q c n, no_nuls q -> sim c n ->
    match c_add c q, add_query_type n q with
    | Some c', Some n' => sim c' n'
    | None, None => True
    | _, _ => False
    end.
Proof.
  induction q as [|h q IH]; intros c n Hq Hs.
  - inversion Hs; subst; cbn.
    + constructor.
    + rewrite H. constructor; auto.
  - inversion Hq as [|? ? Hh Hq']; subst. inversion Hs; subst; cbn [c_add add_query_type].
    + constructor.
    + rewrite H, no_nul_star by auto. destruct (h =? "*") eqn:Eh.
      * destruct q; auto. constructor.
      * pose proof (sim_get h _ _ H0) as Hg.
        assert (Hc : sim (match sget h ch with Some c => c | None => CNode false false [] end)
                         (match sget h ch' with Some c => c | None => Node false [] end)).
        { destruct (sget h ch), (sget h ch'); try easy. constructor; auto. }
        specialize (IH _ _ Hq' Hc). destruct (c_add _ q), (add_query_type _ q); try easy.
        apply String.eqb_neq in Eh. constructor; [rewrite smem_sset; auto|]. now apply sim_set.
Qed.

Lemma sim_adds : forall qs c n, Forall no_nuls qs -> sim c n ->
    match c_adds c qs, add_query_types n qs with
    | Some c', Some n' => sim c' n'
    | None, None => True
    | _, _ => False
    end.
Proof.
  induction qs as [|q qs IH]; intros c n Hq Hs; cbn; auto.
  inversion Hq; subst. pose proof (sim_add q c n H1 Hs) as Ha.
  destruct (c_add c q), (add_query_type n q); try easy. apply IH; auto.
Qed.

Lemma sim_create : forall qs, Forall no_nuls qs ->
    match c_create qs, py_create qs with
    | Some c, Some n => sim c n
    | None, None => True
    | _, _ => False
    end.
Proof. intros. apply sim_adds; auto. constructor; auto. Qed.

Lemma sim_matches : forall c n, sim c n -> forall t, c_matches c t = node_matches n t.
Proof.
  intros c n H. induction H as [l|l ch ch' Hs HF IH] using sim_ind'; intros t.
  - destruct t; reflexivity.
  - destruct t as [|h t]; cbn; rewrite Hs; auto.
    assert (Hg : forall k, match sget k ch with Some c => c_matches c t | None => false end =
                      match sget k ch' with Some c => node_matches c t | None => false end).
    { intros k. clear -IH. induction IH as [|[k1 c1] [k2 c2] ch ch' [Hk Hx] H IHf]; cbn in *; auto.
      subst. destruct (k =? k2); auto. }
    now rewrite !Hg.
Qed.

Lemma sim_qts : forall c n, sim c n -> c_query_types c = node_to_query_types n.
Proof.
  intros c n H. induction H as [l|l ch ch' Hs HF IH] using sim_ind'.
  - destruct l; reflexivity.
  - cbn. rewrite Hs. rewrite andb_true_r. f_equal. clear -IH.
    induction IH as [|[k1 c1] [k2 c2] ch ch' [Hk Hx] H IHf]; cbn in *; auto.
    subst. now rewrite Hx, IHf.
Qed.

(** Disjointness in C *)

Lemma cheight_child : forall l s ch k c, In (k, c) ch -> cheight c < cheight (CNode l s ch).
Proof.
  intros l s ch k c Hin. cbn. apply Nat.lt_succ_r.
  induction ch as [|[k' c'] ch IH]; [easy|].
  destruct Hin as [[= -> ->]|Hin]; [lia|]. specialize (IH Hin). lia.
Qed.

Lemma cheight_pos : forall n, 0 < cheight n.
Proof. destruct n; cbn; lia. Qed.

Inductive cwf : cnode -> Prop :=
| cwf_star : cwf (CNode true true [])
| cwf_node : forall l ch, NoDup (keys ch) -> (forall k c, In (k, c) ch -> cwf c) -> cwf (CNode l false ch).

Lemma sim_cwf : forall c n, sim c n -> wf n -> cwf c.
Proof.
  intros c n H. induction H as [l|l ch ch' Hs HF IH] using sim_ind'; intros Hw.
  - constructor.
  - destruct (wf_inv _ _ Hw) as [->|(_ & Hnd & Hch)]; [discriminate|].
    constructor.
    + assert (keys ch = keys ch') as ->; auto. clear -HF.
      unfold keys. induction HF as [|[] [] ? ? [Hk _]]; cbn in *; auto. now rewrite Hk, IHHF.
    + clear -IH Hch. intros k c Hin.
      induction IH as [|[k1 c1] [k2 c2] ch ch' [Hk Hx] H IHf]; cbn in *; [easy|].
      destruct Hin as [[= -> ->]|Hin]; [eapply Hx, Hch; left; reflexivity|].
      apply IHf; auto. intros. eapply Hch; right; eauto.
Qed.

Lemma ckmatch_in : forall l ch h t, NoDup (keys ch) ->
    (c_matches (CNode l false ch) (h :: t) = true <->
     exists k c, In (k, c) ch /\ (k = "?" \/ k = h) /\ c_matches c t = true).
Proof.
  intros l ch h t Hnd. cbn [c_matches]. split.
  - destruct (sget h ch) as [c|] eqn:Eh.
    + apply (dget_In seqb_spec) in Eh. destruct (c_matches c t) eqn:Ec; eauto 6.
      destruct (sget "?" ch) as [d|] eqn:Eq; [|discriminate].
      apply (dget_In seqb_spec) in Eq. eauto 6.
    + destruct (sget "?" ch) as [d|] eqn:Eq; [|discriminate].
      apply (dget_In seqb_spec) in Eq. eauto 6.
  - intros (k & c & Hin & Hk & Hc). apply (In_dget seqb_spec) in Hin; auto.
    destruct Hk as [->| ->]; rewrite Hin, Hc; auto.
    destruct (sget h ch) as [c'|]; auto. destruct (c_matches c' t); auto.
Qed.

Definition ccommon (a b : cnode) : Prop := exists t, c_matches a t = true /\ c_matches b t = true.

Lemma forallb_false_ex : forall (A : Type) (g : A -> bool) l, forallb g l = false -> exists x, In x l /\ g x = false.
Proof.
  induction l as [|x l IH]; cbn; [discriminate|]. intros H.
  apply andb_false_iff in H as [H|H]; [exists x; auto|]. destruct (IH H) as [y [Hy Hg]]. exists y; auto.
Qed.

Lemma c_empty_nomatch : forall s ch t, cwf (CNode false s ch) -> ch = [] -> c_matches (CNode false s ch) t = false.
Proof. intros s ch t H ->. inversion H; subst. destruct t; reflexivity. Qed.

Lemma c_disjoint_sound : forall f a b, cwf a -> cwf b -> cheight a <= f \/ cheight b <= f ->
    c_disjoint_fuel f a b = true -> ~ ccommon a b.
Proof.
  induction f as [|f IH]; intros [l1 s1 c1] [l2 s2 c2] Hw1 Hw2 Hf.
  { pose proof (cheight_pos (CNode l1 s1 c1)). pose proof (cheight_pos (CNode l2 s2 c2)). lia. }
  cbn [c_disjoint_fuel].
  destruct (l1 && l2) eqn:El; [discriminate|].
  destruct s1.
  { intros H [t [_ Ht]]. apply andb_true_iff in H as [Hl Hc]. apply negb_true_iff in Hl. subst.
    destruct c2; [|discriminate]. rewrite c_empty_nomatch in Ht; auto. discriminate. }
  destruct s2.
  { intros H [t [Ht _]]. apply andb_true_iff in H as [Hl Hc]. apply negb_true_iff in Hl. subst.
    destruct c1; [|discriminate]. rewrite c_empty_nomatch in Ht; auto. discriminate. }
  destruct c1 as [|kc1 c1'] eqn:Ec1.
  { intros H [t [Ht Ht']]. destruct t; [|discriminate]. cbn in *. subst. discriminate. }
  destruct c2 as [|kc2 c2'] eqn:Ec2.
  { intros H [t [Ht Ht']]. destruct t; [|discriminate]. cbn in *. subst. discriminate. }
  rewrite <- Ec1, <- Ec2 in *. clear Ec1 Ec2.
  inversion Hw1 as [|? ? Hnd1 Hch1]; subst. inversion Hw2 as [|? ? Hnd2 Hch2]; subst.
  assert (Hh12 : forall k c k' c', In (k, c) c1 -> In (k', c') c2 -> cheight c <= f \/ cheight c' <= f).
  { intros. pose proof (cheight_child l1 false _ _ _ H). pose proof (cheight_child l2 false _ _ _ H0). lia. }
  match goal with |- context[if ?x then false else _] => destruct x eqn:Eq1 end; [discriminate|].
  match goal with |- context[if ?x then false else _] => destruct x eqn:Eq2 end; [discriminate|].
  match goal with |- context[if ?x then false else _] => destruct x eqn:Eq3 end; [discriminate|].
  intros _ [[|h t] [Ha Hb]].
  { cbn in *. subst. discriminate. }
  apply ckmatch_in in Ha as (n & c & Hin & Hn & Hc); auto.
  apply ckmatch_in in Hb as (m & d & Hin' & Hm & Hd); auto.
  destruct (string_dec n "?") as [->|Hnq].
  { rewrite (In_dget seqb_spec _ _ _ Hnd1 Hin) in Eq1. apply negb_false_iff in Eq1.
    rewrite forallb_forall in Eq1. specialize (Eq1 _ Hin'). cbn in Eq1.
    eapply (IH c d); eauto. now exists t. }
  destruct Hn as [?|Hn]; [easy|]. subst n.
  destruct (string_dec m "?") as [->|Hmq].
  { rewrite (In_dget seqb_spec _ _ _ Hnd2 Hin') in Eq2. apply negb_false_iff in Eq2.
    rewrite forallb_forall in Eq2. specialize (Eq2 _ Hin). cbn [fst snd] in Eq2.
    eapply (IH c d); eauto. now exists t. }
  destruct Hm as [?|Hm]; [easy|]. subst m.
  apply negb_false_iff in Eq3.
  rewrite forallb_forall in Eq3. specialize (Eq3 _ Hin). cbn [fst snd] in Eq3.
  apply String.eqb_neq in Hnq. rewrite Hnq in Eq3.
  rewrite (In_dget seqb_spec _ _ _ Hnd2 Hin') in Eq3.
  eapply (IH c d); eauto. now exists t.
Qed.

(** Trees in which only '*' nodes are leaves. *)
Inductive starry : cnode -> Prop :=
| starry_star : starry (CNode true true [])
| starry_node : forall ch, (forall k c, In (k, c) ch -> starry c /\ exists t, c_matches c t = true) ->
                           starry (CNode false false ch).

Lemma c_disjoint_complete : forall f a b, cwf a -> cwf b -> starry a -> starry b ->
    cheight a <= f \/ cheight b <= f ->
    c_disjoint_fuel f a b = false -> ccommon a b.
Proof.
  induction f as [|f IH]; intros [l1 s1 c1] [l2 s2 c2] Hw1 Hw2 Hy1 Hy2 Hf.
  { pose proof (cheight_pos (CNode l1 s1 c1)). pose proof (cheight_pos (CNode l2 s2 c2)). lia. }
  cbn [c_disjoint_fuel].
  inversion Hy1 as [|? Hc1]; subst; inversion Hy2 as [|? Hc2]; subst; cbn [andb].
  - intros _. exists []. auto.
  - cbn [negb]. destruct c2 as [|[k c] c2]; [discriminate|]. intros _.
    destruct (Hc2 k c) as [_ [t Ht]]; [left; auto|]. exists (k :: t). split; auto.
    inversion Hw2; subst. apply ckmatch_in; auto. exists k, c. cbn; auto.
  - cbn [negb]. destruct c1 as [|[k c] c1]; [discriminate|]. intros _.
    destruct (Hc1 k c) as [_ [t Ht]]; [left; auto|]. exists (k :: t). split; auto.
    inversion Hw1; subst. apply ckmatch_in; auto. exists k, c. cbn; auto.
  - destruct c1 as [|kc1 c1'] eqn:Ec1; [discriminate|].
    destruct c2 as [|kc2 c2'] eqn:Ec2; [discriminate|].
    rewrite <- Ec1, <- Ec2 in *. clear Ec1 Ec2.
    inversion Hw1 as [|? ? Hnd1 Hch1]; subst. inversion Hw2 as [|? ? Hnd2 Hch2]; subst.
    assert (Hh12 : forall k c k' c', In (k, c) c1 -> In (k', c') c2 -> cheight c <= f \/ cheight c' <= f).
    { intros. pose proof (cheight_child false false _ _ _ H). pose proof (cheight_child false false _ _ _ H0). lia. }
    assert (Hlift : forall k c k' c' h, In (k, c) c1 -> In (k', c') c2 -> (k = "?" \/ k = h) -> (k' = "?" \/ k' = h) ->
       c_disjoint_fuel f c c' = false -> ccommon (CNode false false c1) (CNode false false c2)).
    { intros k c k' c' h H H0 Hk Hk' Hd. apply (IH c c') in Hd as [t [Ht Ht']]; eauto.
      - exists (h :: t). split; apply ckmatch_in; eauto 8.
      - eapply Hc1; eauto. - eapply Hc2; eauto. }
    match goal with |- context[if ?x then false else _] => destruct x eqn:Eq1 end.
    { intros _. destruct (sget "?" c1) as [q|] eqn:Eg; [|discriminate]. apply negb_true_iff in Eq1.
      apply (dget_In seqb_spec) in Eg. apply forallb_false_ex in Eq1 as [[k c] [Hin Hd]].
      apply (Hlift "?" q k c k); auto. }
    match goal with |- context[if ?x then false else _] => destruct x eqn:Eq2 end.
    { intros _. destruct (sget "?" c2) as [q|] eqn:Eg; [|discriminate]. apply negb_true_iff in Eq2.
      apply (dget_In seqb_spec) in Eg. apply forallb_false_ex in Eq2 as [[k c] [Hin Hd]].
      apply (Hlift k c "?" q k); auto. }
    match goal with |- context[if ?x then false else _] => destruct x eqn:Eq3 end.
    { intros _. apply negb_true_iff in Eq3. apply forallb_false_ex in Eq3 as [[k c] [Hin Hd]].
      cbn [fst snd] in Hd. destruct (k =? "?"); [discriminate|].
      destruct (sget k c2) as [d|] eqn:Eg; [|discriminate]. apply (dget_In seqb_spec) in Eg.
      apply (Hlift k c k d k); auto. }
    intros H. apply forallb_false_ex in H as [[k c] [Hin Hd]].
    cbn [fst snd] in Hd. destruct (k =? "?"); [discriminate|].
    destruct (sget k c1) as [d|] eqn:Eg; [|discriminate]. apply (dget_In seqb_spec) in Eg.
    apply (Hlift k d k c k); auto.
Qed.

Lemma starry_matches : forall c, cwf c -> starry c -> cn_children c <> [] -> exists t, c_matches c t = true.
Proof.
  intros [l s ch] Hw Hs Hn. cbn in Hn. inversion Hs as [|? Hc]; subst; [easy|].
  destruct ch as [|[k c] ch]; [easy|]. destruct (Hc k c) as [_ [t Ht]]; [left; auto|].
  inversion Hw; subst. exists (k :: t). apply ckmatch_in; auto. exists k, c; cbn; auto.
Qed.

Lemma starry_add : forall p c c', cwf c -> starry c -> c_add c (p ++ ["*"]) = Some c' ->
    cwf c' /\ starry c' /\ exists t, c_matches c' t = true.
Proof.
  induction p as [|h p IH]; intros [l s ch] c' Hw Hs H.
  - cbn in H. destruct s.
    + inversion H; subst. split; auto. split; auto. exists []. auto.
    + inversion H; subst. repeat split; try constructor. exists []. auto.
  - cbn [app c_add] in H. destruct s.
    { inversion H; subst. split; auto. split; auto. exists []. auto. }
    destruct (c_is_star h).
    { destruct p; discriminate. }
    inversion Hs as [|? Hc]; subst. inversion Hw as [|? ? Hnd Hch]; subst.
    destruct (c_add _ (p ++ ["*"])) as [d|] eqn:Ed; inversion H; subst; clear H.
    apply IH in Ed as (Hwd & Hsd & Hmd).
    + assert (Hnd' : NoDup (keys (sset h d ch))) by now apply (NoDup_dset seqb_spec).
      split; [|split].
      * constructor; auto. intros k' c' Hin. apply (In_dset seqb_spec) in Hin as [[-> ->]|[_ Hin]]; eauto.
      * constructor. intros k' c' Hin. apply (In_dset seqb_spec) in Hin as [[-> ->]|[_ Hin]]; eauto.
      * destruct Hmd as [t Ht]. exists (h :: t). apply ckmatch_in; auto. exists h, d. split; auto.
        apply (In_dset_iff seqb_spec); auto.
    + destruct (sget h ch) eqn:Eg; [apply (dget_In seqb_spec) in Eg; eauto|]. constructor; [constructor|easy].
    + destruct (sget h ch) eqn:Eg; [apply (dget_In seqb_spec) in Eg; eapply Hc; eauto|]. constructor. easy.
Qed.

Lemma starry_adds : forall qs c c', cwf c -> starry c ->
    Forall (fun q => exists p, q = p ++ ["*"]) qs -> c_adds c qs = Some c' -> cwf c' /\ starry c'.
Proof.
  induction qs as [|q qs IH]; cbn; intros c c' Hw Hs Hq H; [inversion H; subst; auto|].
  inversion Hq as [|? ? [p ->] Hq']; subst. destruct (c_add c (p ++ ["*"])) eqn:E; [|discriminate].
  apply starry_add in E as (Hw' & Hs' & _); eauto.
Qed.

Lemma starry_create : forall qs c, Forall (fun q => exists p, q = p ++ ["*"]) qs ->
    c_create qs = Some c -> cwf c /\ starry c.
Proof. intros. eapply starry_adds; eauto; constructor; try easy. constructor. Qed.

Lemma c_isdisjoint_sound : forall a b, cwf a -> cwf b -> c_isdisjoint a b = true -> ~ ccommon a b.
Proof.
  intros a b Ha Hb H. apply (c_disjoint_sound (cheight a + cheight b)); auto. lia.
Qed.

Lemma c_isdisjoint_exact : forall a b, cwf a -> cwf b -> starry a -> starry b ->
    (c_isdisjoint a b = true <-> ~ ccommon a b).
Proof.
  intros a b Ha Hb Sa Sb. split; [now apply c_isdisjoint_sound|]. intros H.
  destruct (c_isdisjoint a b) eqn:E; auto. exfalso. apply H.
  apply (c_disjoint_complete (cheight a + cheight b)); auto. lia.
Qed.

(** * Union and intersection in the C implementation *)

Section Allk.
  Variable P : string -> Prop.
  Inductive allk : node -> Prop :=
  | allk_i : forall l ch, (forall k c, In (k, c) ch -> P k /\ allk c) -> allk (Node l ch).

  Lemma allk_inv : forall l ch, allk (Node l ch) -> forall k c, In (k, c) ch -> P k /\ allk c.
  Proof. intros l ch H. inversion H; auto. Qed.

  Lemma allk_star : forall l, P "*" -> allk (Node l [("*", Node true [])]).
  Proof. intros l Pstar. constructor. intros k c [[= <- <-]|[]]. split; auto. constructor. easy. Qed.

  Lemma allk_add : forall q n n', Forall P q -> allk n -> add_query_type n q = Some n' -> allk n'.
  Proof.
    induction q as [|h q IH]; intros [l ch] n' Hq Hn H; cbn in H.
    - destruct (smem "*" ch); inversion H; subst; auto. constructor. exact (allk_inv _ _ Hn).
    - inversion Hq; subst. destruct (smem "*" ch) eqn:Es; [inversion H; subst; auto|].
      destruct (h =? "*") eqn:E.
      + destruct q; inversion H; subst. apply seqb_spec in E. subst. now apply allk_star.
      + destruct (add_query_type _ q) as [c|] eqn:Ec; inversion H; subst.
        pose proof (allk_inv _ _ Hn) as Hn'.
        constructor. intros k' c' Hin. apply (In_dset seqb_spec) in Hin as [[-> ->]|[_ Hin]]; auto.
        split; auto. eapply IH; [auto| |exact Ec].
        destruct (sget h ch) eqn:Eg; [|constructor; easy].
        apply (dget_In seqb_spec) in Eg. eapply Hn'; eauto.
  Qed.

  Lemma allk_adds : forall qs n n', Forall (Forall P) qs -> allk n -> add_query_types n qs = Some n' -> allk n'.
  Proof.
    induction qs as [|q qs IH]; cbn; intros n n' Hq Hn H; [inversion H; subst; auto|].
    inversion Hq; subst. destruct (add_query_type n q) eqn:E; [|discriminate].
    eapply IH; [auto| |eauto]. eapply allk_add; [|exact Hn|eauto]; auto.
  Qed.

  Lemma allk_union : forall n2 n1, allk n1 -> allk n2 -> allk (node_union n1 n2).
  Proof.
    induction n2 as [l2 c2 IH] using node_ind'. intros [l1 c1] H1 H2. rewrite union_eq.
    pose proof (allk_inv _ _ H1) as C1. pose proof (allk_inv _ _ H2) as C2. clear H1 H2.
    destruct (smem "*" c1 || smem "*" c2) eqn:Es.
    { apply allk_star. apply orb_true_iff in Es as [Es|Es]; apply smem_In, in_map_iff in Es as [[k c] [Hk Hin]];
        cbn in Hk; subst; [eapply C1|eapply C2]; eauto. }
    clear Es.
    constructor. revert c1 C1. induction c2 as [|[k c] c2 IHc]; intros c1 C1; cbn [union_loop]; auto.
    inversion IH; subst. destruct (C2 k c (or_introl eq_refl)) as [Pk Ac]. apply IHc; auto.
    - intros. eapply C2; right; eauto.
    - intros k' c' Hin. apply (In_dset seqb_spec) in Hin as [[-> ->]|[_ Hin]]; auto.
      split; auto. destruct (sget k c1) eqn:Eg; auto.
      apply H1; auto. apply (dget_In seqb_spec) in Eg. eapply C1; eauto.
  Qed.

  Lemma allk_loop : forall rec name child cands children,
      (forall k c, In (k, c) children -> P k /\ allk c) -> P name ->
      (forall k c, In (k, c) cands -> P k /\ allk (rec child c)) ->
      forall k c, In (k, c) (inter_loop rec name child cands children) -> P k /\ allk c.
  Proof.
    induction cands as [|[o oc] cands IH]; intros children H1 Hn H2 k c; cbn [inter_loop]; eauto.
    destruct (H2 o oc (or_introl eq_refl)) as [Po Ao].
    apply IH; auto.
    - intros k' c' Hin. apply (In_dset seqb_spec) in Hin as [[-> ->]|[_ Hin]]; auto.
      split; [destruct (name =? "?"); auto|].
      destruct (sget _ children) eqn:Eg; auto.
      apply (dget_In seqb_spec) in Eg. apply allk_union; auto. eapply H1; eauto.
    - intros k' c' Hin. eapply H2; right; eauto.
  Qed.

  Lemma allk_items : forall rec items other children, NoDup (keys other) ->
      (forall k c, In (k, c) children -> P k /\ allk c) ->
      (forall k c, In (k, c) items -> P k) ->
      (forall k c, In (k, c) other -> P k) ->
      (forall k c k' c', In (k, c) items -> In (k', c') other -> allk (rec c c')) ->
      forall k c, In (k, c) (inter_items rec items other children) -> P k /\ allk c.
  Proof.
    induction items as [|[name child] items IH]; intros other children Hnd H1 Hi Ho H2 k c; cbn [inter_items]; eauto.
    apply IH; auto.
    - apply allk_loop; auto.
      + eapply Hi; left; eauto.
      + intros k' c' Hin. apply cand_in in Hin as [Hin _]; auto. split; eauto.
        eapply H2; [left; eauto|eauto].
    - intros. eapply Hi; right; eauto.
    - intros. eapply H2; eauto. right; eauto.
  Qed.

  Lemma allk_inter : forall f a b, wf a -> wf b -> allk a -> allk b -> allk (inter_fuel f a b).
  Proof.
    induction f as [|f IH]; intros [l1 c1] [l2 c2] Hw1 Hw2 H1 H2; [constructor; easy|].
    cbn [inter_fuel].
    pose proof (allk_inv _ _ H1) as C1. pose proof (allk_inv _ _ H2) as C2.
    destruct (smem "*" c1) eqn:E1; [constructor; auto|].
    destruct (smem "*" c2) eqn:E2; [constructor; auto|].
    destruct (wf_inv _ _ Hw1) as [->|(_ & Hnd1 & Hch1)]; [discriminate|].
    destruct (wf_inv _ _ Hw2) as [->|(_ & Hnd2 & Hch2)]; [discriminate|].
    constructor. apply allk_items; auto.
    - apply allk_items; auto; try easy.
      + intros; eapply C1; eauto. + intros; eapply C2; eauto.
      + intros. apply IH; eauto; [eapply C1|eapply C2]; eauto.
    - intros; eapply C2; eauto. - intros; eapply C1; eauto.
    - intros. apply IH; eauto; [eapply C2|eapply C1]; eauto.
  Qed.

  Lemma allk_to : forall n, allk n -> Forall (Forall P) (node_to_query_types n).
  Proof.
    induction n as [l ch IH] using node_ind'. intros Hn. pose proof (allk_inv _ _ Hn) as C.
    cbn [node_to_query_types]. apply Forall_app. split.
    - destruct (l && negb (smem "*" ch)); repeat constructor.
    - apply Forall_forall. intros q Hq. apply in_flat_map in Hq as [[k c] [Hin Hq]].
      apply in_map_iff in Hq as [q' [<- Hq]]. cbn in *.
      rewrite Forall_forall in IH. destruct (C _ _ Hin) as [Pk Ac]. constructor; auto.
      specialize (IH _ Hin Ac). rewrite Forall_forall in IH. auto.
  Qed.
End Allk.

(** What every C subscription looks like from outside. *)
Definition c_good (c : cnode) : Prop :=
  exists n, sim c n /\ wf n /\ allk no_nul n.

Lemma c_create_good : forall qs c, Forall no_nuls qs -> c_create qs = Some c -> c_good c.
Proof.
  intros qs c Hq Hc. pose proof (sim_create _ Hq) as Hs. rewrite Hc in Hs.
  destruct (py_create qs) as [n|] eqn:E; [|easy]. exists n. split; auto.
  split; [eapply create_wf; eauto|].
  eapply allk_adds; [exact Hq| |exact E]. constructor; easy.
Qed.

Lemma c_good_node : forall c, c_good c ->
    exists n, node_from_query_types (c_query_types c) = Some n /\ wf n /\ allk no_nul n /\
              forall t, node_matches n t = c_matches c t.
Proof.
  intros c (n & Hs & Hw & Ha). rewrite (sim_qts _ _ Hs).
  destruct (roundtrip_wf n Hw) as (n' & Hn' & Hm). exists n'. split; auto.
  split; [eapply create_wf; eauto|]. split.
  - eapply allk_adds; [apply allk_to; exact Ha| |exact Hn']. constructor; easy.
  - intros t. rewrite Hm. symmetry. now apply sim_matches.
Qed.

Lemma c_from_node : forall n, wf n -> allk no_nul n ->
    exists c, c_create (node_to_query_types n) = Some c /\ c_good c /\
              forall t, c_matches c t = node_matches n t.
Proof.
  intros n Hw Ha. destruct (roundtrip_wf n Hw) as (n' & Hn' & Hm).
  pose proof (sim_create _ (allk_to _ _ Ha)) as Hs. rewrite Hn' in Hs.
  destruct (c_create (node_to_query_types n)) as [c|] eqn:E; [|easy].
  exists c. split; auto. split.
  - eapply c_create_good; [|eauto]. now apply allk_to.
  - intros t. rewrite <- Hm. now apply sim_matches.
Qed.

Lemma c_union_spec : forall c others, c_good c -> Forall c_good others ->
    exists r, c_union c others = Some r /\ c_good r /\
              forall t, c_matches r t = existsb (fun m => c_matches m t) (c :: others).
Proof.
  intros c others Hc Ho. unfold c_union.
  destruct (c_good_node _ Hc) as (n & -> & Hw & Ha & Hm).
  assert (Hf : forall others n, Forall c_good others -> wf n -> allk no_nul n ->
    exists r, fold_left (fun acc o =>
                 match acc, node_from_query_types (c_query_types o) with
                 | Some a, Some b => Some (node_union a b)
                 | _, _ => None
                 end) others (Some n) = Some r /\ wf r /\ allk no_nul r /\
      forall t, node_matches r t = node_matches n t || existsb (fun m => c_matches m t) others).
  { clear. induction others as [|o others IH]; intros n Ho Hw Ha; cbn [fold_left].
    - exists n. repeat split; auto. intros; cbn. now rewrite orb_false_r.
    - inversion Ho; subst. destruct (c_good_node _ H1) as (m & -> & Hwm & Ham & Hmm).
      destruct (union_spec m n) as [Hwu Hmu]; auto.
      destruct (IH (node_union n m)) as (r & Hr & Hwr & Har & Hmr); auto.
      { apply allk_union; auto. }
      exists r. repeat split; auto. intros t. rewrite Hmr, Hmu, Hmm. cbn. now rewrite orb_assoc. }
  destruct (Hf others n Ho Hw Ha) as (r & -> & Hwr & Har & Hmr).
  destruct (c_from_node r Hwr Har) as (c' & Hc' & Hg' & Hm').
  exists c'. repeat split; auto. intros t. rewrite Hm', Hmr, Hm. reflexivity.
Qed.

Lemma c_intersection_spec : forall c others, c_good c -> Forall c_good others ->
    exists r, c_intersection c others = Some r /\ c_good r /\
              forall t, c_matches r t = true -> Forall (fun m => c_matches m t = true) (c :: others).
Proof.
  intros c others Hc Ho. unfold c_intersection.
  destruct (c_good_node _ Hc) as (n & -> & Hw & Ha & Hm).
  assert (Hf : forall others n, Forall c_good others -> wf n -> allk no_nul n ->
    exists r, fold_left (fun acc o =>
                 match acc, node_from_query_types (c_query_types o) with
                 | Some a, Some b => Some (node_intersection a b)
                 | _, _ => None
                 end) others (Some n) = Some r /\ wf r /\ allk no_nul r /\
      forall t, node_matches r t = true -> node_matches n t = true /\ Forall (fun m => c_matches m t = true) others).
  { clear. induction others as [|o others IH]; intros n Ho Hw Ha; cbn [fold_left].
    - exists n. repeat split; auto.
    - inversion Ho; subst. destruct (c_good_node _ H1) as (m & -> & Hwm & Ham & Hmm).
      destruct (intersection_spec n m) as (Hwu & Hmu & _); auto.
      destruct (IH (node_intersection n m)) as (r & Hr & Hwr & Har & Hmr); auto.
      { apply allk_inter; auto. }
      exists r. split; auto. split; auto. split; auto.
      intros t Ht. apply Hmr in Ht as [Ht Hall]. apply Hmu in Ht as [Ht1 Ht2]. rewrite Hmm in Ht2. auto. }
  destruct (Hf others n Ho Hw Ha) as (r & -> & Hwr & Har & Hmr).
  destruct (c_from_node r Hwr Har) as (c' & Hc' & Hg' & Hm').
  exists c'. split; auto. split; auto. intros t Ht. rewrite Hm' in Ht. apply Hmr in Ht as [Ht Hall].
  rewrite Hm in Ht. auto.
Qed.

(** Star free C subscriptions. *)
Definition nostar (k : string) : Prop := k <> "*".

Lemma starless_nostar : forall q, starless q <-> Forall nostar q.
Proof.
  intros q. unfold starless, nostar. rewrite Forall_forall. split.
  - intros H x Hx ->. auto.
  - intros H Hin. now apply (H _ Hin).
Qed.

Definition c_starless (c : cnode) : Prop := exists n, sim c n /\ wf n /\ allk no_nul n /\ allk nostar n.

Lemma nostar_ex : forall n, allk nostar n -> ex n.
Proof.
  induction n as [l ch IH] using node_ind'. intros H. pose proof (allk_inv _ _ _ H) as C. constructor.
  - intros Hs. apply smem_In, in_map_iff in Hs as [[k c] [Hk Hin]]. cbn in Hk. subst.
    exfalso. now apply (C "*" c).
  - intros k c Hin. rewrite Forall_forall in IH. apply (IH _ Hin). eapply C; eauto.
Qed.

Lemma c_starless_create : forall qs c, Forall no_nuls qs -> Forall starless qs ->
    c_create qs = Some c -> c_starless c.
Proof.
  intros qs c Hq Hs Hc. pose proof (sim_create _ Hq) as Hsim. rewrite Hc in Hsim.
  destruct (py_create qs) as [n|] eqn:E; [|easy]. exists n. split; auto.
  split; [eapply create_wf; eauto|]. split.
  - eapply allk_adds; [exact Hq| |exact E]. constructor; easy.
  - eapply allk_adds; [| |exact E]; [|constructor; easy].
    eapply Forall_impl; [|exact Hs]. intros q. apply starless_nostar.
Qed.

Lemma c_starless_node : forall c, c_starless c ->
    exists n, node_from_query_types (c_query_types c) = Some n /\ wf n /\ allk no_nul n /\ allk nostar n /\
              forall t, node_matches n t = c_matches c t.
Proof.
  intros c (n & Hs & Hw & Ha & Hns). rewrite (sim_qts _ _ Hs).
  destruct (roundtrip_wf n Hw) as (n' & Hn' & Hm). exists n'. split; auto.
  split; [eapply create_wf; eauto|]. split; [|split].
  - eapply allk_adds; [apply allk_to; exact Ha| |exact Hn']. constructor; easy.
  - eapply allk_adds; [apply allk_to; exact Hns| |exact Hn']. constructor; easy.
  - intros t. rewrite Hm. symmetry. now apply sim_matches.
Qed.

Lemma c_intersection_exact : forall c others, c_starless c -> Forall c_starless others ->
    exists r, c_intersection c others = Some r /\
              forall t, c_matches r t = true <-> Forall (fun m => c_matches m t = true) (c :: others).
Proof.
  intros c others Hc Ho. unfold c_intersection.
  destruct (c_starless_node _ Hc) as (n & -> & Hw & Ha & Hns & Hm).
  assert (Hf : forall others n, Forall c_starless others -> wf n -> allk no_nul n -> allk nostar n ->
    exists r, fold_left (fun acc o =>
                 match acc, node_from_query_types (c_query_types o) with
                 | Some a, Some b => Some (node_intersection a b)
                 | _, _ => None
                 end) others (Some n) = Some r /\ wf r /\ allk no_nul r /\
      forall t, node_matches r t = true <-> node_matches n t = true /\ Forall (fun m => c_matches m t = true) others).
  { clear. induction others as [|o others IH]; intros n Ho Hw Ha Hns; cbn [fold_left].
    - exists n. split; auto. split; auto. split; auto. intros t; split; [|easy]. auto.
    - inversion Ho; subst. destruct (c_starless_node _ H1) as (m & -> & Hwm & Ham & Hsm & Hmm).
      destruct (intersection_spec n m) as (Hwu & Hmu & Hex); auto.
      destruct Hex as [_ Hex]; auto using nostar_ex.
      destruct (IH (node_intersection n m)) as (r & Hr & Hwr & Har & Hmr); auto.
      { apply allk_inter; auto. } { apply allk_inter; auto. }
      exists r. split; auto. split; auto. split; auto.
      intros t. rewrite Hmr, Forall_cons_iff, <- Hmm. split.
      + intros [Ht Hall]. apply Hmu in Ht as [? ?]; auto.
      + intros [? [? ?]]; auto. }
  destruct (Hf others n Ho Hw Ha Hns) as (r & -> & Hwr & Har & Hmr).
  destruct (c_from_node r Hwr Har) as (c' & Hc' & Hg' & Hm').
  exists c'. split; auto. intros t. rewrite Hm', Hmr, Forall_cons_iff, Hm. reflexivity.
Qed.

(** * Any Python subscription *)

Lemma py_subscription_wf : forall n, py_subscription n -> wf n.
Proof.
  fix IH 2. intros n H. destruct H as [qs n H|n others Hn Ho|n others Hn Ho].
  - eapply create_wf; eauto.
  - apply py_union_spec; [apply IH; exact Hn|].
    revert others Ho. fix IHo 2. intros others Ho. destruct Ho as [|o others Ho Hos]; constructor.
    + apply IH; exact Ho. + apply IHo; exact Hos.
  - apply py_intersection_sound; [apply IH; exact Hn|].
    revert others Ho. fix IHo 2. intros others Ho. destruct Ho as [|o others Ho Hos]; constructor.
    + apply IH; exact Ho. + apply IHo; exact Hos.
Qed.

Lemma py_subscriptions_wf : forall l, Forall py_subscription l -> Forall wf l.
Proof. intros l H. eapply Forall_impl; [apply py_subscription_wf|exact H]. Qed.

Lemma existsb_exists_match : forall t l,
    existsb (fun m => node_matches m t) l = true <-> Exists (fun m => node_matches m t = true) l.
Proof. intros. rewrite existsb_exists, Exists_exists. reflexivity. Qed.

Lemma existsb_exists_cmatch : forall t l,
    existsb (fun m => c_matches m t) l = true <-> Exists (fun m => c_matches m t = true) l.
Proof. intros. rewrite existsb_exists, Exists_exists. reflexivity. Qed.

(** * Final forms *)

Lemma final_C01 : forall qs,
    (Forall valid_query qs -> exists n, py_create qs = Some n) /\
    (forall n, py_create qs = Some n -> forall t, node_matches n t = true <-> selects qs t).
Proof. intros. split; [apply create_valid|]. intros. now apply create_matches. Qed.

Lemma final_C02 : forall n, py_subscription n ->
    Forall valid_query (node_to_query_types n) /\
    exists n', py_create (node_to_query_types n) = Some n' /\
               forall t, node_matches n' t = node_matches n t.
Proof.
  intros n H. apply py_subscription_wf in H. split; [now apply to_qts_valid|now apply roundtrip_wf].
Qed.

Lemma final_C03 : forall n others, py_subscription n -> Forall py_subscription others ->
    forall t, node_matches (py_union n others) t = true <->
              Exists (fun m => node_matches m t = true) (n :: others).
Proof.
  intros. rewrite <- existsb_exists_match.
  rewrite (proj2 (py_union_spec others n (py_subscription_wf _ H) (py_subscriptions_wf _ H0))). reflexivity.
Qed.

Lemma c_creates_good : forall qss cs, Forall (Forall no_nuls) qss ->
    Forall2 (fun qs c => c_create qs = Some c) qss cs -> Forall c_good cs.
Proof.
  intros qss cs H HF. induction HF; constructor; inversion H; subst; auto.
  eapply c_create_good; eauto.
Qed.

Lemma c_creates_starless : forall qss cs, Forall (Forall no_nuls) qss -> Forall (Forall starless) qss ->
    Forall2 (fun qs c => c_create qs = Some c) qss cs -> Forall c_starless cs.
Proof.
  intros qss cs H Hs HF. induction HF; constructor; inversion H; inversion Hs; subst; auto.
  eapply (c_starless_create x); eauto.
Qed.

Lemma final_C03_c : forall qs qss c others,
    Forall (Forall no_nuls) (qs :: qss) ->
    Forall2 (fun qs c => c_create qs = Some c) (qs :: qss) (c :: others) ->
    exists r, c_union c others = Some r /\
      forall t, c_matches r t = true <-> Exists (fun m => c_matches m t = true) (c :: others).
Proof.
  intros qs qss c others Hn HF. pose proof (c_creates_good _ _ Hn HF) as Hg. inversion Hg; subst.
  destruct (c_union_spec c others) as (r & Hr & _ & Hm); auto. exists r. split; auto.
  intros t. now rewrite Hm, existsb_exists_cmatch.
Qed.

Lemma final_C04_sound : forall n others, py_subscription n -> Forall py_subscription others ->
    forall t, node_matches (py_intersection n others) t = true ->
              Forall (fun m => node_matches m t = true) (n :: others).
Proof.
  intros n others H Ho. apply py_intersection_sound; auto using py_subscription_wf, py_subscriptions_wf.
Qed.

Lemma final_C04_exact : forall qs qss n others,
    Forall stars_announced (qs :: qss) ->
    Forall2 (fun qs n => py_create qs = Some n) (qs :: qss) (n :: others) ->
    forall t, node_matches (py_intersection n others) t = true <->
              Forall (fun m => node_matches m t = true) (n :: others).
Proof.
  intros qs qss n others Ha HF.
  assert (H : Forall (fun n => wf n /\ ex n) (n :: others)).
  { revert Ha HF. generalize (qs :: qss) (n :: others). intros l l' Ha HF.
    induction HF; constructor; inversion Ha; subst; auto.
    split; [eapply create_wf; eauto|eapply create_ex; eauto]. }
  inversion H as [|? ? [Hw Hx] Ho]; subst. apply py_intersection_exact; auto;
    eapply Forall_impl; try exact Ho; cbn; intuition.
Qed.

Lemma final_C04_c_sound : forall qs qss c others,
    Forall (Forall no_nuls) (qs :: qss) ->
    Forall2 (fun qs c => c_create qs = Some c) (qs :: qss) (c :: others) ->
    exists r, c_intersection c others = Some r /\
      forall t, c_matches r t = true -> Forall (fun m => c_matches m t = true) (c :: others).
Proof.
  intros qs qss c others Hn HF. pose proof (c_creates_good _ _ Hn HF) as Hg. inversion Hg; subst.
  destruct (c_intersection_spec c others) as (r & Hr & _ & Hm); eauto.
Qed.

Lemma final_C04_c_exact : forall qs qss c others,
    Forall (Forall no_nuls) (qs :: qss) -> Forall (Forall starless) (qs :: qss) ->
    Forall2 (fun qs c => c_create qs = Some c) (qs :: qss) (c :: others) ->
    exists r, c_intersection c others = Some r /\
      forall t, c_matches r t = true <-> Forall (fun m => c_matches m t = true) (c :: others).
Proof.
  intros qs qss c others Hn Hs HF. pose proof (c_creates_starless _ _ Hn Hs HF) as Hg. inversion Hg; subst.
  apply c_intersection_exact; auto.
Qed.

Lemma final_C05 : forall qs1 qs2 a b, py_create qs1 = Some a -> py_create qs2 = Some b ->
    (node_isdisjoint a b = true <-> forall t, ~ (selects qs1 t /\ selects qs2 t)).
Proof.
  intros qs1 qs2 a b Ha Hb.
  rewrite isdisjoint_exact by eauto using create_wf, create_live.
  unfold common. split.
  - intros H t [H1 H2]. apply H. exists t.
    rewrite (create_matches _ _ Ha), (create_matches _ _ Hb). auto.
  - intros H [t [H1 H2]]. apply (H t). rewrite (create_matches _ _ Ha) in H1.
    rewrite (create_matches _ _ Hb) in H2. auto.
Qed.

Lemma final_C05_sound : forall a b, py_subscription a -> py_subscription b ->
    node_isdisjoint a b = true ->
    forall t, ~ (node_matches a t = true /\ node_matches b t = true).
Proof.
  intros a b Ha Hb H t Ht. unfold node_isdisjoint in H.
  apply disjoint_spec in H; auto using py_subscription_wf; [|lia]. apply H. now exists t.
Qed.

Lemma final_C06 : forall qs, Forall no_nuls qs ->
    match c_create qs, py_create qs with
    | Some c, Some n => (forall t, c_matches c t = node_matches n t) /\
                        (forall q, In q (c_query_types c) <-> In q (node_to_query_types n))
    | None, None => True
    | _, _ => False
    end.
Proof.
  intros qs Hq. pose proof (sim_create qs Hq) as H.
  destruct (c_create qs), (py_create qs); auto. split.
  - now apply sim_matches.
  - now rewrite (sim_qts _ _ H).
Qed.

Lemma final_C06_disjoint : forall qs1 qs2 a b a' b', Forall no_nuls qs1 -> Forall no_nuls qs2 ->
    c_create qs1 = Some a -> c_create qs2 = Some b ->
    py_create qs1 = Some a' -> py_create qs2 = Some b' ->
    c_isdisjoint a b = true -> node_isdisjoint a' b' = true.
Proof.
  intros qs1 qs2 a b a' b' H1 H2 Ha Hb Ha' Hb' Hd.
  pose proof (sim_create _ H1) as S1. rewrite Ha, Ha' in S1.
  pose proof (sim_create _ H2) as S2. rewrite Hb, Hb' in S2.
  apply isdisjoint_exact; eauto using create_wf, create_live.
  apply c_isdisjoint_sound in Hd; eauto using sim_cwf, create_wf.
  intros [t [Ht1 Ht2]]. apply Hd. exists t.
  rewrite (sim_matches _ _ S1), (sim_matches _ _ S2). auto.
Qed.

Lemma final_C06_disjoint_stars : forall qs1 qs2 a b a' b', Forall no_nuls qs1 -> Forall no_nuls qs2 ->
    Forall (fun q => exists p, q = p ++ ["*"]) qs1 -> Forall (fun q => exists p, q = p ++ ["*"]) qs2 ->
    c_create qs1 = Some a -> c_create qs2 = Some b ->
    py_create qs1 = Some a' -> py_create qs2 = Some b' ->
    c_isdisjoint a b = node_isdisjoint a' b'.
Proof.
  intros qs1 qs2 a b a' b' H1 H2 Q1 Q2 Ha Hb Ha' Hb'.
  pose proof (sim_create _ H1) as S1. rewrite Ha, Ha' in S1.
  pose proof (sim_create _ H2) as S2. rewrite Hb, Hb' in S2.
  apply eq_true_iff_eq. rewrite isdisjoint_exact by eauto using create_wf, create_live.
  rewrite c_isdisjoint_exact; eauto using sim_cwf, create_wf.
  2:{ eapply (starry_create qs1); eauto. } 2:{ eapply (starry_create qs2); eauto. }
  unfold common, ccommon. split; intros H [t [Ht1 Ht2]]; apply H; exists t;
    rewrite (sim_matches _ _ S1), (sim_matches _ _ S2) in *; auto.
Qed.
