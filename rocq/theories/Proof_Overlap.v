(** Exact meaning of intersections. *)
From Coq Require Import String Ascii Bool Lia List.
From Verif Require Import Base Model_Types Model_Subscription Spec_Subscription Spec_Creation Spec_Overlap
  Proof_Subscription Proof_Subscription2.
Import ListNotations.
Open Scope string_scope.
Open Scope list_scope.

(** * Matching, with a choice of what counts at the end of an event type *)

Fixpoint gm (e : bool -> bool -> bool) (n : node) (t : etype) : bool :=
  let 'Node leaf ch := n in
  match t with
  | [] => e leaf (smem "*" ch)
  | h :: t' =>
      if smem "*" ch then true
      else if match sget h ch with
              | Some c => gm e c t'
              | None => false
              end
           then true
           else match sget "?" ch with
                | Some c => gm e c t'
                | None => false
                end
  end.

Definition sm := gm (fun _ s => s).
Definition pm := gm (fun l _ => l).

Definition gk (e : bool -> bool -> bool) (h : string) (t : etype) (kc : string * node) : bool :=
  ((fst kc =? "?") || (h =? fst kc)) && gm e (snd kc) t.

Section Hom.
  Variable e : bool -> bool -> bool.
  Hypothesis Hor : forall l1 s1 l2 s2, e (l1 || l2) (s1 || s2) = e l1 s1 || e l2 s2.
  Hypothesis Hand : forall l1 s1 l2 s2, e (l1 && l2) (s1 && s2) = e l1 s1 && e l2 s2.

  Lemma gm_nil : forall l ch, gm e (Node l ch) [] = e l (smem "*" ch).
  Proof. reflexivity. Qed.

  Lemma gm_star : forall l ch h t, smem "*" ch = true -> gm e (Node l ch) (h :: t) = true.
  Proof. intros l ch h t H. cbn [gm]. now rewrite H. Qed.

  Lemma gm_existsb : forall l ch h t, NoDup (keys ch) -> smem "*" ch = false ->
      gm e (Node l ch) (h :: t) = existsb (gk e h t) ch.
  Proof.
    intros l ch h t Hnd Hs. cbn [gm]. rewrite Hs.
    apply eq_true_iff_eq. rewrite existsb_exists. split.
    - destruct (sget h ch) as [c|] eqn:Eh.
      + destruct (gm e c t) eqn:Ec.
        * intros _. exists (h, c). split; [now apply (dget_In seqb_spec)|].
          unfold gk; cbn [fst snd]. now rewrite seqb_refl, orb_true_r, Ec.
        * destruct (sget "?" ch) as [d|] eqn:Eq; [|discriminate].
          intros Hd. exists ("?", d). split; [now apply (dget_In seqb_spec)|].
          unfold gk; cbn [fst snd]. exact Hd.
      + destruct (sget "?" ch) as [d|] eqn:Eq; [|discriminate].
        intros Hd. exists ("?", d). split; [now apply (dget_In seqb_spec)|].
        unfold gk; cbn [fst snd]. exact Hd.
    - intros [[k c] [Hin H]]. unfold gk in H; cbn [fst snd] in H.
      apply andb_true_iff in H as [Hk Hc]. apply (In_dget seqb_spec) in Hin; auto.
      apply orb_true_iff in Hk as [Hk|Hk]; apply seqb_spec in Hk; subst.
      + rewrite Hin, Hc. destruct (sget h ch) as [c'|]; auto. destruct (gm e c' t); auto.
      + now rewrite Hin, Hc.
  Qed.

  Lemma gk_in : forall l ch h t, NoDup (keys ch) -> smem "*" ch = false ->
      (gm e (Node l ch) (h :: t) = true <->
       exists k c, In (k, c) ch /\ (k = "?" \/ k = h) /\ gm e c t = true).
  Proof.
    intros. rewrite gm_existsb, existsb_exists by auto. split.
    - intros [[k c] [Hin Hk]]. unfold gk in Hk; cbn [fst snd] in Hk.
      apply andb_true_iff in Hk as [Hk Hc]. apply orb_true_iff in Hk as [Hk|Hk]; apply seqb_spec in Hk; eauto 6.
    - intros (k & c & Hin & Hk & Hc). exists (k, c). split; auto. unfold gk; cbn [fst snd].
      rewrite Hc, andb_true_r, orb_true_iff, !seqb_spec. intuition.
  Qed.

  Lemma gm_union : forall n2 n1, wf n1 -> wf n2 ->
      forall t, gm e (node_union n1 n2) t = gm e n1 t || gm e n2 t.
  Proof.
    induction n2 as [l2 c2 IH] using node_ind'. intros [l1 c1] Hw1 Hw2.
    rewrite union_eq.
    destruct (smem "*" c1) eqn:E1; [|destruct (smem "*" c2) eqn:E2].
    { intros [|h t]; [rewrite !gm_nil, E1, <- Hor; reflexivity|].
      rewrite (gm_star l1) by auto. reflexivity. }
    { intros [|h t]; [rewrite !gm_nil, E1, E2, <- Hor; reflexivity|].
      rewrite (gm_star l2) by auto. cbn [orb]. rewrite orb_true_r. reflexivity. }
    cbn [orb].
    destruct (wf_inv _ _ Hw1) as [->|(_ & Hnd1 & Hch1)]; [discriminate|].
    destruct (wf_inv _ _ Hw2) as [->|(_ & Hnd2 & Hch2)]; [discriminate|].
    assert (Hmain : forall c2 c1,
       Forall (fun kc => forall n1, wf n1 -> wf (snd kc) ->
          forall t, gm e (node_union n1 (snd kc)) t = gm e n1 t || gm e (snd kc) t) c2 ->
       wf (Node (l1 || l2) c1) -> smem "*" c1 = false ->
       (forall k c, In (k, c) c2 -> wf c) -> ~ In "*" (keys c2) ->
       wf (Node (l1 || l2) (union_loop c2 c1)) /\ smem "*" (union_loop c2 c1) = false /\
       forall h t, existsb (gk e h t) (union_loop c2 c1) =
                   existsb (gk e h t) c1 || existsb (gk e h t) c2).
    { clear - Hor. induction c2 as [|[k c] c2 IHc]; intros c1 HF Hw Hs Hc2 Hn; cbn [union_loop].
      - split; [auto|]. split; auto. intros. cbn [existsb]. now rewrite orb_false_r.
      - inversion HF as [|? ? Hh HF']; subst; clear HF. cbn [snd] in Hh.
        destruct (wf_inv _ _ Hw) as [->|(_ & Hnd & Hch)]; [discriminate|].
        assert (Hwc : wf c) by (eapply Hc2; left; reflexivity).
        assert (Hk : k <> "*") by (intros ->; apply Hn; cbn; auto).
        set (value := match sget k c1 with Some prev => node_union prev c | None => c end).
        assert (Hwv : wf value).
        { unfold value. destruct (sget k c1) eqn:Eg; auto. apply union_spec; auto. eapply sget_wf; eauto. }
        destruct (IHc (sset k value c1)) as (Hw' & Hs' & Hm'); auto.
        + apply wf_sset; auto.
        + rewrite smem_sset; auto.
        + intros k' c' Hin. eapply Hc2. right; eauto.
        + intros Hin. apply Hn. cbn. auto.
        + split; auto. split; auto. intros h t. rewrite Hm'. cbn [existsb].
          rewrite orb_assoc. f_equal. rewrite existsb_sset by auto.
          rewrite (existsb_split (gk e h t) k c1) by auto.
          assert (gk e h t (k, value) =
            (match sget k c1 with Some c0 => gk e h t (k, c0) | None => false end) || gk e h t (k, c)) as ->.
          { unfold value, gk; cbn [fst snd]. destruct (sget k c1) as [p|] eqn:Eg; auto.
            rewrite (Hh p (sget_wf _ _ _ _ Hw Eg) Hwc).
            destruct ((k =? "?") || (h =? k)); auto. }
          rewrite <- !orb_assoc. f_equal. apply orb_comm. }
    destruct (Hmain c2 c1) as (Hw' & Hs' & Hm'); auto.
    - eapply wf_leaf; eauto.
    - apply smem_not_In; auto.
    - intros [|h t].
      + rewrite !gm_nil, Hs', E1, E2, <- Hor. reflexivity.
      + destruct (wf_inv _ _ Hw') as [He|(_ & Hnd' & _)].
        { rewrite He in Hs'. discriminate. }
        rewrite !gm_existsb by auto. apply Hm'.
  Qed.

  Lemma gm_loop : forall rec name child cands children,
      wfc children -> name <> "*" ->
      (forall k c, In (k, c) cands -> k <> "*" /\ wf (rec child c)) ->
      forall h t, existsb (gk e h t) (inter_loop rec name child cands children) =
                  existsb (gk e h t) children ||
                  existsb (fun oc => gk e h t (rname name (fst oc), rec child (snd oc))) cands.
  Proof.
    induction cands as [|[o oc] cands IH]; intros children Hw Hn Hc h t; cbn [inter_loop].
    - cbn [existsb]. now rewrite orb_false_r.
    - fold (rname name o). set (rn := rname name o).
      assert (Hrn : rn <> "*").
      { unfold rn, rname. destruct (name =? "?"); cbn; auto. eapply Hc; left; eauto. }
      assert (Hwr : wf (rec child oc)) by (eapply Hc; left; eauto).
      set (value := match sget rn children with Some prev => node_union prev (rec child oc)
                    | None => rec child oc end).
      assert (Hwv : wf value).
      { unfold value. destruct (sget rn children) eqn:E; auto.
        apply union_spec; auto. apply (dget_In seqb_spec) in E. destruct Hw as (_ & _ & Hw). eauto. }
      rewrite IH; auto.
      2:{ apply wfc_sset; auto. }
      2:{ intros k c Hin. eapply Hc; right; eauto. }
      cbn [existsb fst snd]. fold rn. rewrite orb_assoc. f_equal.
      destruct Hw as (Hnd & Hs & Hch).
      rewrite existsb_sset by auto. rewrite (existsb_split (gk e h t) rn children) by auto.
      assert (gk e h t (rn, value) =
        (match sget rn children with Some c0 => gk e h t (rn, c0) | None => false end)
        || gk e h t (rn, rec child oc)) as ->.
      { unfold value, gk; cbn [fst snd]. destruct (sget rn children) as [p|] eqn:Eg; auto.
        apply (dget_In seqb_spec) in Eg.
        rewrite (gm_union (rec child oc) p (Hch _ _ Eg) Hwr).
        destruct ((rn =? "?") || (h =? rn)); auto. }
      rewrite <- !orb_assoc. f_equal. apply orb_comm.
  Qed.

  Lemma gm_items : forall rec items other children,
      wfc children -> wfc other -> ~ In "*" (keys items) ->
      (forall k c k' c', In (k, c) items -> In (k', c') other -> wf (rec c c')) ->
      forall h t, existsb (gk e h t) (inter_items rec items other children) =
                  existsb (gk e h t) children ||
                  existsb (fun it => existsb (fun oc => gk e h t (rname (fst it) (fst oc), rec (snd it) (snd oc)))
                                             (inter_candidates (fst it) other)) items.
  Proof.
    induction items as [|[name child] items IH]; intros other children Hw Ho Hn Hr h t; cbn [inter_items].
    - cbn [existsb]. now rewrite orb_false_r.
    - assert (Hnn : name <> "*") by (intros ->; apply Hn; cbn; auto).
      assert (Hc : forall k c, In (k, c) (inter_candidates name other) -> k <> "*" /\ wf (rec child c)).
      { intros k c Hin. apply cand_in in Hin as [Hin _]; [|apply Ho]. split.
        * intros ->. destruct Ho as (_ & Hs & _). apply smem_not_In in Hs. apply Hs.
          apply in_map_iff. now exists ("*", c).
        * eapply Hr; [left; eauto|eauto]. }
      rewrite IH; auto.
      + rewrite gm_loop by auto. cbn [existsb fst snd]. now rewrite orb_assoc.
      + apply inter_loop_spec; auto.
      + intros Hx. apply Hn; cbn; auto.
      + intros. eapply Hr; eauto. right; eauto.
  Qed.

  Lemma gm_inter_fuel : forall f a b, wf a -> wf b -> height a <= f \/ height b <= f ->
      forall t, gm e (inter_fuel f a b) t = gm e a t && gm e b t.
  Proof.
    induction f as [|f IH]; intros [l1 c1] [l2 c2] Hw1 Hw2 Hf.
    { pose proof (height_pos (Node l1 c1)). pose proof (height_pos (Node l2 c2)). lia. }
    cbn [inter_fuel].
    destruct (smem "*" c1) eqn:E1.
    { intros [|h t].
      - rewrite !gm_nil, E1, <- Hand. reflexivity.
      - rewrite (gm_star l1) by auto. reflexivity. }
    destruct (smem "*" c2) eqn:E2.
    { intros [|h t].
      - rewrite !gm_nil, E1, E2, <- Hand. reflexivity.
      - rewrite (gm_star l2) by auto. rewrite andb_true_r. reflexivity. }
    destruct (wf_inv _ _ Hw1) as [->|(_ & Hnd1 & Hch1)]; [discriminate|].
    destruct (wf_inv _ _ Hw2) as [->|(_ & Hnd2 & Hch2)]; [discriminate|].
    assert (W1 : wfc c1) by (split; auto). assert (W2 : wfc c2) by (split; auto).
    assert (W0 : wfc []) by (repeat split; cbn; [constructor|easy]).
    assert (Hh12 : forall k c k' c', In (k, c) c1 -> In (k', c') c2 -> height c <= f \/ height c' <= f).
    { intros. pose proof (height_child l1 _ _ _ H). pose proof (height_child l2 _ _ _ H0). lia. }
    assert (R1 : forall k c k' c', In (k, c) c1 -> In (k', c') c2 -> wf (inter_fuel f c c')).
    { intros. eapply inter_spec; eauto. }
    assert (R2 : forall k c k' c', In (k, c) c2 -> In (k', c') c1 -> wf (inter_fuel f c c')).
    { intros. apply inter_spec; eauto. specialize (Hh12 _ _ _ _ H0 H). lia. }
    destruct (inter_items_spec (inter_fuel f) c1 c2 []) as [Wa _]; auto.
    { now apply smem_not_In. }
    destruct (inter_items_spec (inter_fuel f) c2 c1 (inter_items (inter_fuel f) c1 c2 [])) as [Wb _]; auto.
    { now apply smem_not_In. }
    intros [|h t].
    { destruct Wb as (_ & Rs & _). rewrite !gm_nil, Rs, E1, E2, <- Hand. reflexivity. }
    destruct Wb as (Rnd & Rs & Rch). rewrite gm_existsb by auto.
    rewrite gm_items by (auto; now apply smem_not_In).
    rewrite gm_items by (auto; now apply smem_not_In).
    cbn [existsb orb].
    apply eq_true_iff_eq. rewrite andb_true_iff, orb_true_iff, !gk_in by auto. split.
    - assert (Hsound : forall x y, wfc x -> wfc y ->
         (forall k c k' c', In (k, c) x -> In (k', c') y -> height c <= f \/ height c' <= f) ->
         existsb (fun it => existsb (fun oc => gk e h t (rname (fst it) (fst oc), inter_fuel f (snd it) (snd oc)))
                                               (inter_candidates (fst it) y)) x = true ->
         (exists k c, In (k, c) x /\ (k = "?" \/ k = h) /\ gm e c t = true) /\
         (exists k c, In (k, c) y /\ (k = "?" \/ k = h) /\ gm e c t = true)).
      { intros x y (Xn & Xs & Xc) (Yn & Ys & Yc) Hh H.
        apply existsb_exists in H as [[n c] [Hin H]]. apply existsb_exists in H as [[m d] [Hin' H]].
        cbn [fst snd] in *. apply cand_in in Hin' as [Hin' Hm]; auto.
        unfold gk in H; cbn [fst snd] in H. apply andb_true_iff in H as [Hk Hr].
        rewrite IH in Hr by eauto. apply andb_true_iff in Hr as [Hc Hd].
        assert (Hnm : (n = "?" \/ n = h) /\ (m = "?" \/ m = h)).
        { apply orb_true_iff in Hk. rewrite !seqb_spec in Hk. unfold rname in Hk.
          destruct (n =? "?") eqn:En; cbn in Hk.
          - apply seqb_spec in En. split; auto. intuition.
          - apply String.eqb_neq in En. intuition; subst; auto. }
        split; [exists n, c|exists m, d]; intuition. }
      intros [H|H]; [apply (Hsound c1 c2)|apply and_comm, (Hsound c2 c1)]; auto.
      intros. specialize (Hh12 _ _ _ _ H1 H0). lia.
    - intros [(n & c & Hin & Hn & Hc) (m & d & Hin' & Hm & Hd)]. left.
      apply existsb_exists. exists (n, c). split; auto. apply existsb_exists. exists (m, d). cbn [fst snd].
      split.
      { apply cand_in; auto. split; auto. destruct Hn as [->| ->]; auto. destruct Hm as [->| ->]; auto. }
      unfold gk; cbn [fst snd]. rewrite IH, Hc, Hd by eauto. rewrite andb_true_r, orb_true_iff, !seqb_spec.
      unfold rname. destruct (n =? "?") eqn:En; cbn; [intuition|].
      apply String.eqb_neq in En. intuition.
  Qed.

  Lemma gm_intersection : forall others n, wf n -> Forall wf others ->
      forall t, gm e (py_intersection n others) t = true <->
                Forall (fun m => gm e m t = true) (n :: others).
  Proof.
    unfold py_intersection. induction others as [|o others IH]; cbn [fold_left]; intros n Hw Ho t.
    - split; [auto|]. intros H. inversion H; auto.
    - inversion Ho; subst. rewrite IH; auto; [|apply intersection_spec; auto].
      unfold node_intersection. rewrite !Forall_cons_iff, gm_inter_fuel by (auto; lia).
      rewrite andb_true_iff. intuition.
  Qed.
End Hom.

Lemma matches_split : forall t n, wf n -> node_matches n t = sm n t || pm n t.
Proof.
  induction t as [|h t IH]; intros [l ch] Hw.
  - rewrite matches_nil. reflexivity.
  - destruct (wf_inv _ _ Hw) as [->|(Hs & Hnd & Hch)]; [reflexivity|].
    apply eq_true_iff_eq. rewrite orb_true_iff, kmatch_in by auto.
    unfold sm, pm. rewrite !gk_in by auto. split.
    + intros (k & c & Hin & Hk & Hm). rewrite IH in Hm by eauto. apply orb_true_iff in Hm as [Hm|Hm]; eauto 8.
    + intros [(k & c & Hin & Hk & Hm)|(k & c & Hin & Hk & Hm)]; exists k, c;
        (split; [auto|]; split; [auto|]); rewrite IH by eauto; apply orb_true_iff; auto.
Qed.

(** * Places of the tree *)

Fixpoint starat (n : node) (p : etype) : bool :=
  let 'Node _ ch := n in
  match p with
  | [] => smem "*" ch
  | h :: p' => if smem "*" ch then false
               else match sget h ch with Some c => starat c p' | None => false end
  end.

Fixpoint leafat (n : node) (p : etype) : bool :=
  let 'Node l ch := n in
  match p with
  | [] => l
  | h :: p' => if smem "*" ch then false
               else match sget h ch with Some c => leafat c p' | None => false end
  end.

Lemma qmatch_cons : forall k q h t, k <> "*" -> (qmatch (k :: q) (h :: t) <-> (k = "?" \/ k = h) /\ qmatch q t).
Proof.
  intros k q h t Hk. split.
  - intros H. inversion H; subst; auto. easy.
  - intros [[->| ->] H]; constructor; auto.
Qed.

Lemma sget_star : forall (ch : list (string * node)) k c, smem "*" ch = false -> sget k ch = Some c -> k <> "*".
Proof.
  intros ch k c Hs Hg ->. apply smem_not_In in Hs. apply Hs. apply (dget_In seqb_spec) in Hg.
  apply in_map_iff. now exists ("*", c).
Qed.

Lemma starat_starless : forall p n, starat n p = true -> starless p.
Proof.
  induction p as [|h p IH]; intros [l ch] H; [easy|]. cbn in H.
  destruct (smem "*" ch) eqn:E; [discriminate|]. destruct (sget h ch) eqn:Eg; [|discriminate].
  intros [->|Hin]; [eapply sget_star; eauto|]. eapply IH; eauto.
Qed.

Lemma leafat_starless : forall p n, leafat n p = true -> starless p.
Proof.
  induction p as [|h p IH]; intros [l ch] H; [easy|]. cbn in H.
  destruct (smem "*" ch) eqn:E; [discriminate|]. destruct (sget h ch) eqn:Eg; [|discriminate].
  intros [->|Hin]; [eapply sget_star; eauto|]. eapply IH; eauto.
Qed.

Lemma sm_paths : forall t n, wf n ->
    (sm n t = true <-> exists p, starat n p = true /\ qmatch (p ++ ["*"]) t).
Proof.
  induction t as [|h t IH]; intros [l ch] Hw.
  - cbn. split.
    + intros H. exists []. split; [exact H|constructor].
    + intros ([|k p] & H & Hq); [exact H|]. exfalso. pose proof (starat_starless _ _ H) as Hp.
      inversion Hq; subst; [apply Hp; left; auto].
  - destruct (wf_inv _ _ Hw) as [->|(Hs & Hnd & Hch)].
    { split; [|reflexivity]. intros _. exists []. split; [reflexivity|constructor]. }
    unfold sm. rewrite gk_in by auto. fold sm. split.
    + intros (k & c & Hin & Hk & Hm). apply IH in Hm as (p & Hp & Hq); eauto.
      pose proof Hin as Hg. apply (In_dget seqb_spec) in Hg; auto.
      exists (k :: p). cbn. rewrite Hs, Hg. split; auto. apply qmatch_cons; auto. eapply sget_star; eauto.
    + intros ([|k p] & H & Hq); cbn in H; [congruence|]. rewrite Hs in H.
      destruct (sget k ch) as [c|] eqn:Eg; [|discriminate]. pose proof (sget_star _ _ _ Hs Eg) as Hk.
      apply qmatch_cons in Hq as [Hk' Hq]; auto. apply (dget_In seqb_spec) in Eg.
      exists k, c. split; auto. split; auto. apply IH; eauto.
Qed.

Lemma pm_paths : forall t n, wf n ->
    (pm n t = true <-> (exists p, starat n p = true /\ qmatch (p ++ ["*"]) t /\ length p < length t) \/
                       (exists p, leafat n p = true /\ qmatch p t)).
Proof.
  induction t as [|h t IH]; intros [l ch] Hw.
  - cbn. split.
    + intros H. right. exists []. split; [exact H|constructor].
    + intros [(p & _ & _ & Hl)|([|k p] & H & Hq)]; [lia|exact H|].
      pose proof (leafat_starless _ _ H) as Hp. inversion Hq; subst. exfalso. apply Hp. left; auto.
  - destruct (wf_inv _ _ Hw) as [->|(Hs & Hnd & Hch)].
    { split; [|reflexivity]. intros _. left. exists []. split; [reflexivity|]. split; [constructor|cbn; lia]. }
    unfold pm. rewrite gk_in by auto. fold pm. split.
    + intros (k & c & Hin & Hk & Hm).
      pose proof Hin as Hg. apply (In_dget seqb_spec) in Hg; auto. pose proof (sget_star _ _ _ Hs Hg) as Hks.
      apply IH in Hm as [(p & Hp & Hq & Hl)|(p & Hp & Hq)]; eauto.
      * left. exists (k :: p). cbn. rewrite Hs, Hg. split; auto. split; [apply qmatch_cons; auto|lia].
      * right. exists (k :: p). cbn. rewrite Hs, Hg. split; auto. apply qmatch_cons; auto.
    + intros [([|k p] & H & Hq & Hl)|([|k p] & H & Hq)]; cbn in H; try congruence.
      * rewrite Hs in H.
        destruct (sget k ch) as [c|] eqn:Eg; [|discriminate]. pose proof (sget_star _ _ _ Hs Eg) as Hk.
        cbn [app] in Hq. apply qmatch_cons in Hq as [Hk' Hq]; auto. apply (dget_In seqb_spec) in Eg.
        exists k, c. split; auto. split; auto. apply IH; eauto. left. exists p. cbn in Hl. split; auto. split; auto. lia.
      * inversion Hq.
      * rewrite Hs in H.
        destruct (sget k ch) as [c|] eqn:Eg; [|discriminate]. pose proof (sget_star _ _ _ Hs Eg) as Hk.
        apply qmatch_cons in Hq as [Hk' Hq]; auto. apply (dget_In seqb_spec) in Eg.
        exists k, c. split; auto. split; auto. apply IH; eauto.
Qed.

(** No place lies below a '*'. *)
Lemma starat_excl : forall p s n, s <> [] -> starat n p = true ->
    leafat n (p ++ s) = false /\ starat n (p ++ s) = false.
Proof.
  induction p as [|h p IH]; intros s [l ch] Hs H; cbn in *.
  - destruct s as [|x s]; [easy|]. cbn; now rewrite H.
  - destruct (smem "*" ch); [discriminate|]. destruct (sget h ch); [|discriminate]. auto.
Qed.

(** * Adding a query type *)

Lemma add_starat : forall q n n' p, add_query_type n q = Some n' -> starat n' p = true ->
    starat n p = true \/ q = p ++ ["*"].
Proof.
  induction q as [|h q IH]; intros [l ch] n' p H Hp; cbn [add_query_type] in H.
  - destruct (smem "*" ch) eqn:E; inversion H; subst; auto. destruct p; auto.
  - destruct (smem "*" ch) eqn:E; [inversion H; subst; auto|].
    destruct (h =? "*") eqn:Eh.
    + destruct q; inversion H; subst. apply seqb_spec in Eh; subst.
      destruct p as [|x p]; [auto|]. cbn in Hp. discriminate.
    + apply String.eqb_neq in Eh.
      destruct (add_query_type _ q) as [c|] eqn:Ec; inversion H; subst; clear H.
      destruct p as [|x p]; cbn in Hp; rewrite smem_sset, E in Hp by auto; [discriminate|].
      cbn. rewrite E.
      destruct (string_dec x h) as [->|Hn].
      * rewrite (dget_dset_same seqb_spec) in Hp. apply (IH _ _ _ Ec) in Hp as [Hp| ->]; auto.
        left. destruct (sget h ch); auto. destruct p; discriminate.
      * rewrite (dget_dset_other seqb_spec) in Hp by auto. auto.
Qed.

Lemma starat_add : forall q n n' p, add_query_type n q = Some n' ->
    starat n p = true \/ (q = p ++ ["*"] /\ starless p) ->
    exists p' s, p = p' ++ s /\ starat n' p' = true.
Proof.
  induction q as [|h q IH]; intros [l ch] n' p H Hp; cbn [add_query_type] in H.
  - destruct Hp as [Hp|[Hp _]]; [|destruct p; discriminate].
    exists p, []. rewrite app_nil_r. split; auto.
    destruct (smem "*" ch) eqn:E; inversion H; subst; auto. destruct p; auto.
  - destruct (smem "*" ch) eqn:E.
    { inversion H; subst. exists [], p. split; auto. }
    destruct (h =? "*") eqn:Eh.
    + destruct q; inversion H; subst. exists [], p. split; auto.
    + apply String.eqb_neq in Eh.
      destruct (add_query_type _ q) as [c|] eqn:Ec; inversion H; subst; clear H.
      destruct p as [|x p].
      { exfalso. destruct Hp as [Hp|[Hp _]]; [cbn in Hp; congruence|]. inversion Hp; subst. easy. }
      destruct (string_dec x h) as [->|Hn].
      * destruct (IH _ _ p Ec) as (p' & s & -> & Hp').
        { destruct Hp as [Hp|[Hp Hsl]].
          - left. cbn in Hp. rewrite E in Hp. destruct (sget h ch); [auto|discriminate].
          - right. inversion Hp; subst. split; auto. intros Hin. apply Hsl. right; auto. }
        exists (h :: p'), s. split; auto. cbn. now rewrite smem_sset, E, (dget_dset_same seqb_spec) by auto.
      * destruct Hp as [Hp|[Hp _]]; [|inversion Hp; subst; easy].
        exists (x :: p), []. rewrite app_nil_r. split; auto. cbn in *.
        now rewrite smem_sset, (dget_dset_other seqb_spec) by auto.
Qed.

Lemma add_leafat : forall q n n' p, add_query_type n q = Some n' -> leafat n' p = true ->
    leafat n p = true \/ (q = p /\ starat n p = false).
Proof.
  induction q as [|h q IH]; intros [l ch] n' p H Hp; cbn [add_query_type] in H.
  - destruct (smem "*" ch) eqn:E; inversion H; subst; auto.
    destruct p as [|x p]; [right; auto|]. cbn in *. auto.
  - destruct (smem "*" ch) eqn:E; [inversion H; subst; auto|].
    destruct (h =? "*") eqn:Eh.
    + destruct q; inversion H; subst. destruct p as [|x p]; cbn in Hp; auto. discriminate.
    + apply String.eqb_neq in Eh.
      destruct (add_query_type _ q) as [c|] eqn:Ec; inversion H; subst; clear H.
      destruct p as [|x p]; cbn in Hp; [left; exact Hp|].
      rewrite smem_sset, E in Hp by auto. cbn. rewrite E.
      destruct (string_dec x h) as [->|Hn].
      * rewrite (dget_dset_same seqb_spec) in Hp. apply (IH _ _ _ Ec) in Hp as [Hp|[-> Hp]]; auto.
        -- left. destruct (sget h ch); auto. destruct p; discriminate.
        -- right. split; auto. destruct (sget h ch); auto.
      * rewrite (dget_dset_other seqb_spec) in Hp by auto. auto.
Qed.

Lemma leafat_add : forall q n n' p, add_query_type n q = Some n' ->
    leafat n p = true \/ (q = p /\ starless p /\ starat n p = false) ->
    leafat n' p = true \/ exists p' s, s <> [] /\ p = p' ++ s /\ starat n' p' = true.
Proof.
  induction q as [|h q IH]; intros [l ch] n' p H Hp; cbn [add_query_type] in H.
  - destruct Hp as [Hp|(<- & _ & Hs)].
    + left. destruct (smem "*" ch) eqn:E; inversion H; subst; auto. destruct p; auto.
    + left. cbn in Hs. rewrite Hs in H. inversion H; subst. reflexivity.
  - destruct (smem "*" ch) eqn:E.
    { inversion H; subst. destruct Hp as [Hp|(<- & _ & _)]; auto.
      right. exists [], (h :: q). split; [easy|]. split; auto. }
    destruct (h =? "*") eqn:Eh.
    + destruct q; inversion H; subst. destruct p as [|x p].
      * destruct Hp as [Hp|(Hp & _)]; [|discriminate]. left. exact Hp.
      * right. exists [], (x :: p). split; [easy|]. split; auto.
    + apply String.eqb_neq in Eh.
      destruct (add_query_type _ q) as [c|] eqn:Ec; inversion H; subst; clear H.
      destruct p as [|x p].
      { destruct Hp as [Hp|(Hp & _)]; [|discriminate]. left. exact Hp. }
      destruct (string_dec x h) as [->|Hn].
      * destruct (IH _ _ p Ec) as [Hl|(p' & s & Hs & -> & Hp')].
        { destruct Hp as [Hp|(Hp & Hsl & Hst)].
          - left. cbn in Hp. rewrite E in Hp. destruct (sget h ch); [auto|discriminate].
          - right. inversion Hp; subst. split; auto. split; [intros Hin; apply Hsl; right; auto|].
            cbn in Hst. rewrite E in Hst. destruct (sget h ch); auto. destruct p; reflexivity. }
        -- left. cbn. now rewrite smem_sset, E, (dget_dset_same seqb_spec) by auto.
        -- right. exists (h :: p'), s. split; auto. split; auto. cbn. now rewrite smem_sset, E, (dget_dset_same seqb_spec) by auto.
      * destruct Hp as [Hp|(Hp & _)]; [|inversion Hp; subst; easy].
        left. cbn in *. now rewrite smem_sset, (dget_dset_other seqb_spec) by auto.
Qed.

(** * Places of a created tree *)

Definition placed (l : list etype) (n : node) : Prop :=
  (forall p, starat n p = true -> In (p ++ ["*"]) l) /\
  (forall p, In (p ++ ["*"]) l -> starless p -> exists p' s, p = p' ++ s /\ starat n p' = true) /\
  (forall p, leafat n p = true -> exists a b, l = a ++ p :: b /\ ~ In (p ++ ["*"]) a) /\
  (forall a p b, l = a ++ p :: b -> starless p -> ~ In (p ++ ["*"]) a ->
                 leafat n p = true \/ exists p' s, s <> [] /\ p = p' ++ s /\ starat n p' = true).

Lemma placed_strict : forall l n p, placed l n -> starless p -> In (p ++ ["*"]) l -> starat n p = false ->
    exists p' s, s <> [] /\ p = p' ++ s /\ starat n p' = true.
Proof.
  intros l n p (_ & H & _) Hsl Hin Hst. destruct (H _ Hin Hsl) as (p' & s & -> & Hp').
  exists p', s. split; auto. intros ->. rewrite app_nil_r in *. congruence.
Qed.

Lemma snoc_split : forall (A : Type) (l : list A) (q : A) a p b, l ++ [q] = a ++ p :: b ->
    (b = [] /\ a = l /\ p = q) \/ exists b', b = b' ++ [q] /\ l = a ++ p :: b'.
Proof.
  intros A l q a p b H. destruct (exists_last (l := p :: b)) as (b' & x & Hb); [discriminate|].
  rewrite Hb, app_assoc in H. apply app_inj_tail in H as [-> ->].
  destruct b' as [|y b']; cbn in Hb; inversion Hb; subst.
  - left. rewrite app_nil_r. auto.
  - right. eauto.
Qed.

Lemma placed_add : forall l n q n', placed l n -> add_query_type n q = Some n' -> placed (l ++ [q]) n'.
Proof.
  intros l n q n' HP H. pose proof HP as (H1 & H2 & H3 & H4). split; [|split; [|split]].
  - intros p Hp. apply (add_starat _ _ _ _ H) in Hp as [Hp| ->]; apply in_or_app; cbn; auto.
  - intros p Hin Hsl. apply in_app_or in Hin as [Hin|[Hin|[]]].
    + destruct (H2 _ Hin Hsl) as (p' & s & -> & Hp'). destruct (starat_add _ _ _ p' H) as (p2 & s2 & -> & Hp2); auto.
      exists p2, (s2 ++ s). split; auto. now rewrite app_assoc.
    + eapply starat_add; eauto.
  - intros p Hp. pose proof (leafat_starless _ _ Hp) as Hsl.
    destruct (add_leafat _ _ _ _ H Hp) as [Hl|[-> Hs]].
    + destruct (H3 _ Hl) as (a & b & -> & Hn). exists a, (b ++ [q]). rewrite <- app_assoc. auto.
    + exists l, []. split; auto. intros Hin.
      destruct (placed_strict _ _ _ HP Hsl Hin Hs) as (p' & s & Hne & -> & Hp').
      destruct (starat_add _ _ _ p' H) as (p2 & s2 & -> & Hp2); auto.
      rewrite <- app_assoc in Hp. destruct (starat_excl p2 (s2 ++ s) n') as [Hx _]; auto; [|congruence].
      destruct s2; [auto|discriminate].
  - intros a p b He Hsl Hn.
    assert (Hlift : forall p', starat n p' = true -> forall s, s <> [] -> p = p' ++ s ->
              exists p2 s2, s2 <> [] /\ p = p2 ++ s2 /\ starat n' p2 = true).
    { intros p' Hp' s Hs ->. destruct (starat_add _ _ _ p' H) as (p2 & s2 & -> & Hp2); auto.
      exists p2, (s2 ++ s). split; [destruct s2; [auto|discriminate]|]. split; auto. now rewrite app_assoc. }
    apply snoc_split in He as [(-> & -> & ->)|(b' & -> & He)].
    + destruct (starat n q) eqn:Es.
      * exfalso. apply Hn. auto.
      * eapply leafat_add; eauto.
    + destruct (H4 _ _ _ He Hsl Hn) as [Hl|(p' & s & Hs & Hp & Hp')]; eauto.
      eapply leafat_add; eauto.
Qed.

Lemma placed_adds : forall qs l n n', placed l n -> add_query_types n qs = Some n' -> placed (l ++ qs) n'.
Proof.
  induction qs as [|q qs IH]; cbn; intros l n n' HP H.
  - inversion H; subst. now rewrite app_nil_r.
  - destruct (add_query_type n q) eqn:E; [|discriminate].
    replace (l ++ q :: qs) with ((l ++ [q]) ++ qs) by (now rewrite <- app_assoc).
    eapply IH; eauto. eapply placed_add; eauto.
Qed.

Lemma create_placed : forall qs n, py_create qs = Some n -> placed qs n.
Proof.
  intros qs n H. apply (placed_adds qs [] (Node false [])); auto.
  split; [|split; [|split]].
  - intros [|h p] Hp; discriminate.
  - easy.
  - intros [|h p] Hp; discriminate.
  - intros [|] p b Hp; discriminate.
Qed.

(** * Exact meaning *)

Lemma qmatch_prefix_star : forall p s q t, starless p -> (q = p ++ s \/ q = (p ++ s) ++ ["*"]) ->
    s <> [] -> starless (p ++ s) -> qmatch q t -> qmatch (p ++ ["*"]) t /\ length p <= length t.
Proof.
  induction p as [|h p IH]; intros s q t Hp Hq Hs Hps Hm.
  - cbn. split; [constructor|lia].
  - assert (Hh : h <> "*") by (intros ->; apply Hp; left; auto).
    assert (exists q', q = h :: q' /\ (q' = p ++ s \/ q' = (p ++ s) ++ ["*"])) as (q' & -> & Hq').
    { destruct Hq as [-> | ->]; cbn; eauto. }
    destruct t as [|x t]; [inversion Hm; subst; easy|].
    apply qmatch_cons in Hm as [Hk Hm]; auto.
    destruct (IH s q' t) as [Hm' Hl]; auto.
    { intros Hin. apply Hp. right; auto. }
    { intros Hin. apply Hps. right; auto. }
    split; [|cbn; lia]. cbn. apply qmatch_cons; auto.
Qed.

Lemma qmatch_length : forall q t, starless q -> qmatch q t -> length q = length t.
Proof.
  intros q t Hs Hm. induction Hm.
  - reflexivity.
  - exfalso. apply Hs. left; auto.
  - cbn. f_equal. apply IHHm. intros Hin. apply Hs. right; auto.
  - cbn. f_equal. apply IHHm. intros Hin. apply Hs. right; auto.
Qed.

Lemma qmatch_star_length : forall p t, starless p -> qmatch (p ++ ["*"]) t -> length p <= length t.
Proof.
  induction p as [|h p IH]; intros t Hs Hm; [cbn; lia|].
  assert (Hh : h <> "*") by (intros ->; apply Hs; left; auto).
  destruct t as [|x t]; [inversion Hm; subst; easy|].
  cbn [app] in Hm. apply qmatch_cons in Hm as [_ Hm]; auto. apply IH in Hm; [cbn; lia|].
  intros Hin. apply Hs. right; auto.
Qed.

Lemma starless_app : forall p s, starless (p ++ s) -> starless p.
Proof. intros p s H Hin. apply H. apply in_or_app; auto. Qed.

Lemma sm_create : forall qs n, py_create qs = Some n -> forall t, sm n t = true <-> star_match qs t.
Proof.
  intros qs n H t. pose proof (create_placed _ _ H) as (H1 & H2 & _). pose proof (create_wf _ _ H) as Hw.
  rewrite sm_paths by auto. split.
  - intros (p & Hp & Hm). exists p. split; auto. split; auto. eapply starat_starless; eauto.
  - intros (p & Hin & Hsl & Hm). destruct (H2 _ Hin Hsl) as (p' & s & -> & Hp').
    exists p'. split; auto. destruct s as [|x s]; [now rewrite app_nil_r in Hm|].
    eapply (qmatch_prefix_star p' (x :: s)); eauto; [eapply starless_app; eauto|easy].
Qed.

Lemma more_create : forall l n, placed l n -> forall t,
    (exists p, starat n p = true /\ qmatch (p ++ ["*"]) t /\ length p < length t) <-> star_match_more l t.
Proof.
  intros l n (H1 & H2 & _) t. split.
  - intros (p & Hp & Hm & Hl). exists p. split; auto. split; auto. eapply starat_starless; eauto.
  - intros (p & Hin & Hsl & Hm & Hl). destruct (H2 _ Hin Hsl) as (p' & s & -> & Hp').
    exists p'. split; auto. destruct s as [|x s].
    + rewrite app_nil_r in *. auto.
    + split.
      * eapply (qmatch_prefix_star p' (x :: s)); eauto; [eapply starless_app; eauto|easy].
      * rewrite app_length in Hl. cbn [List.length] in Hl. unfold etype, segment in *. lia.
Qed.

Lemma strict_more : forall l n, placed l n -> forall p t, starless p -> qmatch p t ->
    (exists p' s, s <> [] /\ p = p' ++ s /\ starat n p' = true) -> star_match_more l t.
Proof.
  intros l n HP p t Hsl Hm (p' & s & Hs & -> & Hp').
  apply (more_create l n HP). exists p'. split; auto. split.
  - apply (qmatch_prefix_star p' s (p' ++ s) t); auto. eapply starless_app; eauto.
  - apply qmatch_length in Hm; auto. rewrite app_length in Hm. destruct s; [easy|]. cbn [List.length] in Hm. unfold etype, segment in *. lia.
Qed.

Lemma pm_create : forall qs n, py_create qs = Some n -> forall t, pm n t = true <-> proper_match qs t.
Proof.
  intros qs n H t. pose proof (create_placed _ _ H) as HP. pose proof (create_wf _ _ H) as Hw.
  pose proof HP as (H1 & H2 & H3 & H4). unfold proper_match.
  rewrite pm_paths by auto. rewrite (more_create _ _ HP). split.
  - intros [Hm|(p & Hp & Hm)]; [left; auto|]. right.
    destruct (H3 _ Hp) as (a & b & -> & Hn). exists a, p, b. split; auto. split; [eapply leafat_starless; eauto|auto].
  - intros [Hm|(a & q & b & He & Hsl & Hm & Hn)]; [left; auto|].
    destruct (H4 _ _ _ He Hsl Hn) as [Hl|Hst]; [right; eauto|].
    left. eapply strict_more; eauto.
Qed.

Lemma Forall2_create : forall (P : node -> Prop) (Q : list etype -> Prop) qss ns,
    (forall qs n, py_create qs = Some n -> (P n <-> Q qs)) ->
    Forall2 (fun qs n => py_create qs = Some n) qss ns -> (Forall P ns <-> Forall Q qss).
Proof.
  intros P Q qss ns HPQ H. induction H as [|qs n qss ns Hc H IH]; [split; auto|].
  rewrite !Forall_cons_iff, IH, (HPQ _ _ Hc). reflexivity.
Qed.

Lemma Forall2_wf : forall qss ns, Forall2 (fun qs n => py_create qs = Some n) qss ns -> Forall wf ns.
Proof. intros qss ns H. induction H; constructor; auto. eapply create_wf; eauto. Qed.

Lemma intersection_split : forall n others, wf n -> Forall wf others -> forall t,
    node_matches (py_intersection n others) t = true <->
    Forall (fun m => sm m t = true) (n :: others) \/ Forall (fun m => pm m t = true) (n :: others).
Proof.
  intros n others Hw Ho t. rewrite matches_split by (apply py_intersection_sound; auto).
  rewrite orb_true_iff. unfold sm, pm. rewrite !gm_intersection; auto; reflexivity.
Qed.

Lemma final_C04_all : forall qs qss n others,
    Forall2 (fun qs n => py_create qs = Some n) (qs :: qss) (n :: others) ->
    forall t, node_matches (py_intersection n others) t = true <->
              Forall (fun qs => star_match qs t) (qs :: qss) \/
              Forall (fun qs => proper_match qs t) (qs :: qss).
Proof.
  intros qs qss n others H t. pose proof (Forall2_wf _ _ H) as Hw. apply Forall_cons_iff in Hw as [Hw Ho].
  rewrite intersection_split by auto.
  rewrite (Forall2_create (fun m => sm m t = true) (fun qs => star_match qs t) _ _ (fun qs n E => sm_create qs n E t) H).
  rewrite (Forall2_create (fun m => pm m t = true) (fun qs => proper_match qs t) _ _ (fun qs n E => pm_create qs n E t) H).
  reflexivity.
Qed.

(** All Python subscriptions. *)
Lemma final_C04_algebra : exists S P : node -> etype -> Prop,
    (forall qs n t, py_create qs = Some n -> (S n t <-> star_match qs t) /\ (P n t <-> proper_match qs t)) /\
    (forall n others t, py_subscription n -> Forall py_subscription others ->
       (S (py_union n others) t <-> Exists (fun m => S m t) (n :: others)) /\
       (P (py_union n others) t <-> Exists (fun m => P m t) (n :: others))) /\
    (forall n others t, py_subscription n -> Forall py_subscription others ->
       (S (py_intersection n others) t <-> Forall (fun m => S m t) (n :: others)) /\
       (P (py_intersection n others) t <-> Forall (fun m => P m t) (n :: others))) /\
    (forall n t, py_subscription n -> (node_matches n t = true <-> S n t \/ P n t)).
Proof.
  exists (fun n t => sm n t = true), (fun n t => pm n t = true).
  assert (Hu : forall e, (forall l1 s1 l2 s2, e (l1 || l2) (s1 || s2) = e l1 s1 || e l2 s2) ->
            forall others n t, wf n -> Forall wf others ->
            (gm e (py_union n others) t = true <-> Exists (fun m => gm e m t = true) (n :: others))).
  { intros e He. unfold py_union. induction others as [|o others IH]; cbn [fold_left]; intros n t Hw Ho.
    - rewrite Exists_cons, Exists_nil. intuition.
    - inversion Ho; subst. rewrite IH by (auto; apply union_spec; auto).
      rewrite !Exists_cons, gm_union, orb_true_iff by auto. intuition. }
  assert (Hws : forall ns, Forall py_subscription ns -> Forall wf ns).
  { intros ns. apply Forall_impl. apply py_subscription_wf. }
  split; [|split; [|split]].
  - intros qs n t H. split; [eapply sm_create|eapply pm_create]; eauto.
  - intros n others t Hn Ho. apply py_subscription_wf in Hn. apply Hws in Ho. split; apply Hu; auto.
  - intros n others t Hn Ho. apply py_subscription_wf in Hn. apply Hws in Ho. split; apply gm_intersection; auto.
  - intros n t Hn. apply py_subscription_wf in Hn. rewrite matches_split, orb_true_iff by auto. reflexivity.
Qed.

(** * The C implementation *)

Lemma listed_places : forall n, wf n -> forall q,
    In q (node_to_query_types n) <->
    (exists p, q = p ++ ["*"] /\ starat n p = true) \/ (leafat n q = true /\ starat n q = false).
Proof.
  induction n as [l ch IH] using node_ind'. intros Hw q.
  destruct (wf_inv _ _ Hw) as [->|(Hs & Hnd & Hch)].
  - replace (node_to_query_types (Node l [("*", Node true [])])) with [["*"]] by (destruct l; reflexivity).
    split.
    + intros [<-|[]]. left. exists []. auto.
    + intros [(p & -> & Hp)|[Hl Hst]].
      * destruct p as [|h p]; [left; auto|discriminate].
      * destruct q; discriminate.
  - cbn [node_to_query_types]. rewrite Hs, andb_true_r, in_app_iff, in_flat_map. rewrite Forall_forall in IH. split.
    + intros [Hin|([k c] & Hin & Hq)].
      * destruct l; [|easy]. destruct Hin as [<-|[]]. right. auto.
      * apply in_map_iff in Hq as (q' & <- & Hq'). cbn [fst snd] in Hq'.
        apply (IH _ Hin (Hch _ _ Hin)) in Hq'. apply (In_dget seqb_spec) in Hin; auto.
        destruct Hq' as [(p & -> & Hp)|[Hl Hst]].
        -- left. exists (k :: p). cbn. rewrite Hs, Hin. auto.
        -- right. cbn. rewrite Hs, Hin. auto.
    + intros [(p & -> & Hp)|[Hl Hst]].
      * destruct p as [|k p]; cbn in Hp; [congruence|]. rewrite Hs in Hp.
        destruct (sget k ch) as [c|] eqn:Eg; [|discriminate]. apply (dget_In seqb_spec) in Eg.
        right. exists (k, c). split; auto. cbn [fst snd app]. apply in_map. apply (IH _ Eg (Hch _ _ Eg)). eauto.
      * destruct q as [|k q]; cbn in Hl, Hst.
        { left. rewrite Hl. left; auto. }
        rewrite Hs in Hl, Hst. destruct (sget k ch) as [c|] eqn:Eg; [|discriminate]. apply (dget_In seqb_spec) in Eg.
        right. exists (k, c). split; auto. cbn [fst snd]. apply in_map. apply (IH _ Eg (Hch _ _ Eg)). auto.
Qed.

Lemma starless_star : forall p, ~ starless (p ++ ["*"]).
Proof. intros p H. apply H. apply in_or_app. cbn; auto. Qed.

Lemma listed_star : forall n, wf n -> forall p, In (p ++ ["*"]) (node_to_query_types n) <-> starat n p = true.
Proof.
  intros n Hw p. rewrite listed_places by auto. split.
  - intros [(p' & He & Hp)|[Hl _]].
    + apply app_inj_tail in He as [-> _]. exact Hp.
    + apply leafat_starless in Hl. exfalso. eapply starless_star; eauto.
  - intros Hp. left. eauto.
Qed.

Lemma listed_star_match : forall qs n, py_create qs = Some n -> forall t,
    star_match (node_to_query_types n) t <-> star_match qs t.
Proof.
  intros qs n H t. rewrite <- (sm_create _ _ H), sm_paths by (eapply create_wf; eauto).
  pose proof (create_wf _ _ H) as Hw. split.
  - intros (p & Hin & _ & Hm). apply listed_star in Hin; eauto.
  - intros (p & Hp & Hm). exists p. split; [apply listed_star; auto|]. split; auto. eapply starat_starless; eauto.
Qed.

Lemma listed_proper_match : forall qs n, py_create qs = Some n -> forall t,
    proper_match (node_to_query_types n) t <-> proper_match_alone qs t.
Proof.
  intros qs n H t. pose proof (create_wf _ _ H) as Hw. pose proof (create_placed _ _ H) as HP.
  pose proof HP as (H1 & H2 & H3 & H4).
  assert (Hmore : star_match_more (node_to_query_types n) t <-> star_match_more qs t).
  { rewrite <- (more_create _ _ HP). split.
    - intros (p & Hin & _ & Hm). apply listed_star in Hin; eauto.
    - intros (p & Hp & Hm). exists p. split; [apply listed_star; auto|]. split; auto. eapply starat_starless; eauto. }
  unfold proper_match, proper_match_alone. rewrite Hmore. split.
  - intros [Hm|(a & q & b & He & Hsl & Hm & _)]; [auto|].
    assert (Hin : In q (node_to_query_types n)) by (rewrite He; apply in_or_app; cbn; auto).
    apply listed_places in Hin as [(p & -> & _)|[Hl Hst]]; auto; [exfalso; eapply starless_star; eauto|].
    destruct (H3 _ Hl) as (a' & b' & He' & _). right. exists q.
    split; [rewrite He'; apply in_or_app; cbn; auto|]. split; auto. split; auto.
    intros Hin. destruct (placed_strict _ _ _ HP Hsl Hin Hst) as (p' & s & Hs & -> & Hp').
    destruct (starat_excl p' s n Hs Hp') as [Hx _]. congruence.
  - intros [Hm|(q & Hin & Hsl & Hm & Hn)]; [auto|].
    apply in_split in Hin as (a & b & He).
    assert (Hna : ~ In (q ++ ["*"]) a) by (intros Hin; apply Hn; rewrite He; apply in_or_app; auto).
    destruct (H4 _ _ _ He Hsl Hna) as [Hl|Hst].
    + right. destruct (starat n q) eqn:Es; [exfalso; auto|].
      assert (Hin : In q (node_to_query_types n)) by (apply listed_places; auto).
      apply in_split in Hin as (a' & b' & He'). exists a', q, b'. split; auto. split; auto. split; auto.
      intros Hin. assert (Hin' : In (q ++ ["*"]) (node_to_query_types n)) by (rewrite He'; apply in_or_app; auto).
      apply listed_star in Hin'; [congruence|auto].
    + left. eapply strict_more; eauto.
Qed.

Lemma relisted : forall qs c, Forall no_nuls qs -> c_create qs = Some c ->
    exists n, node_from_query_types (c_query_types c) = Some n /\ wf n /\ allk no_nul n /\
              forall t, (sm n t = true <-> star_match qs t) /\ (pm n t = true <-> proper_match_alone qs t).
Proof.
  intros qs c Hq Hc. pose proof (sim_create _ Hq) as Hs. rewrite Hc in Hs.
  destruct (py_create qs) as [m|] eqn:E; [|easy].
  destruct (c_good_node c (c_create_good _ _ Hq Hc)) as (n & Hn & Hw & Ha & _).
  exists n. split; auto. split; auto. split; auto. intros t.
  rewrite (sim_qts _ _ Hs) in Hn. rewrite (sm_create _ _ Hn), (pm_create _ _ Hn).
  rewrite (listed_star_match _ _ E), (listed_proper_match _ _ E). split; reflexivity.
Qed.

Lemma final_C04_c_all : forall qs qss c others,
    Forall (Forall no_nuls) (qs :: qss) ->
    Forall2 (fun qs c => c_create qs = Some c) (qs :: qss) (c :: others) ->
    exists r, c_intersection c others = Some r /\
      forall t, c_matches r t = true <->
                Forall (fun qs => star_match qs t) (qs :: qss) \/
                Forall (fun qs => proper_match_alone qs t) (qs :: qss).
Proof.
  intros qs qss c others HN HF. inversion HF as [|? ? ? ? Hc HFo]; subst; clear HF.
  apply Forall_cons_iff in HN as [HN HNo]. unfold c_intersection.
  destruct (relisted _ _ HN Hc) as (n & -> & Hw & Ha & Hm).
  assert (Hf : forall qss others n, Forall (Forall no_nuls) qss ->
    Forall2 (fun qs c => c_create qs = Some c) qss others -> wf n -> allk no_nul n ->
    exists r, fold_left (fun acc o =>
                 match acc, node_from_query_types (c_query_types o) with
                 | Some a, Some b => Some (node_intersection a b)
                 | _, _ => None
                 end) others (Some n) = Some r /\ wf r /\ allk no_nul r /\
      forall t, (sm r t = true <-> sm n t = true /\ Forall (fun qs => star_match qs t) qss) /\
                (pm r t = true <-> pm n t = true /\ Forall (fun qs => proper_match_alone qs t) qss)).
  { clear. induction qss as [|qs qss IH]; intros others n HN HF Hw Ha; inversion HF as [|? o ? others' Ho HFo]; subst; clear HF; cbn [fold_left].
    - exists n. split; auto. split; auto. split; auto. intros t. intuition.
    - apply Forall_cons_iff in HN as [HN HNo]. destruct (relisted _ _ HN Ho) as (m & -> & Hwm & Ham & Hmm).
      destruct (intersection_spec n m) as (Hwu & _); auto.
      destruct (IH others' (node_intersection n m)) as (r & Hr & Hwr & Har & Hmr); auto.
      { apply allk_inter; auto. }
      exists r. split; auto. split; auto. split; auto. intros t. destruct (Hmr t) as [Hs Hp]. destruct (Hmm t) as [Hs' Hp'].
      rewrite Hs, Hp, !Forall_cons_iff, <- Hs', <- Hp'. unfold sm, pm, node_intersection.
      rewrite !gm_inter_fuel, !andb_true_iff by (auto; lia). tauto. }
  destruct (Hf qss others n HNo HFo Hw Ha) as (r & -> & Hwr & Har & Hmr).
  destruct (c_from_node r Hwr Har) as (c' & Hc' & _ & Hm').
  exists c'. split; auto. intros t. destruct (Hmr t) as [Hs Hp]. destruct (Hm t) as [Hs' Hp'].
  rewrite Hm', matches_split, orb_true_iff, Hs, Hp, Hs', Hp', !Forall_cons_iff by auto. reflexivity.
Qed.
