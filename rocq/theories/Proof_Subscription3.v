(** The listing of query types does not depend on the order of creation. *)
From Coq Require Import String OrderedTypeEx Bool Arith Lia Permutation Sorted List.
From Verif Require Import Base Model_Types Model_Subscription Keys Model_Lmdb Spec_Subscription Proof_Subscription Proof_Subscription2.
Import ListNotations.
Open Scope string_scope.
Open Scope list_scope.

(** [s] (which ends with a star) makes [x] superfluous. *)
Fixpoint absb (s x : etype) : bool :=
  match s with
  | [] => false
  | h :: s' => if h =? "*" then negb (etype_eqb x ["*"])
               else match x with k :: x' => (h =? k) && absb s' x' | [] => false end
  end.

Lemma etype_eqb_spec' : forall a b, etype_eqb a b = true <-> a = b.
Proof. exact etype_eqb_spec. Qed.

Lemma absb_trans : forall s2 s x, valid_query s -> absb s2 s = true -> absb s x = true -> absb s2 x = true.
Proof.
  induction s2 as [|h s2 IH]; intros s x Hv H1 H2; cbn [absb] in H1; [discriminate|].
  cbn [absb]. destruct (h =? "*") eqn:Eh.
  - destruct s as [|k s]; [discriminate|]. cbn [absb] in H2. apply valid_cons in Hv as [Hv _].
    destruct (k =? "*") eqn:Ek.
    + apply String.eqb_eq in Ek. subst k. rewrite (Hv eq_refl) in H1. discriminate H1.
    + destruct x as [|y x]; [discriminate|]. apply andb_prop in H2 as [H2 _]. apply String.eqb_eq in H2. subst y.
      apply negb_true_iff. apply not_true_iff_false. intros E. apply etype_eqb_spec' in E. injection E as -> _. discriminate Ek.
  - destruct s as [|k s]; [discriminate|]. apply andb_prop in H1 as [E H1]. apply String.eqb_eq in E. subst k.
    cbn [absb] in H2. rewrite Eh in H2. destruct x as [|y x]; [discriminate|]. apply andb_prop in H2 as [E H2]. rewrite E. cbn [andb].
    apply valid_cons in Hv as [_ Hv]. eapply IH; eauto.
Qed.

Lemma absb_length : forall s2 s x, valid_query s2 -> valid_query s -> absb s2 s = true -> absb s x = true -> (length s2 < length s)%nat.
Proof.
  induction s2 as [|h s2 IH]; intros s x Hv2 Hv H1 H2; cbn [absb] in H1; [discriminate|].
  apply valid_cons in Hv2 as [Hs2 Hv2]. destruct (h =? "*") eqn:Eh.
  - apply String.eqb_eq in Eh. rewrite (Hs2 Eh). destruct s as [|k s]; [discriminate|]. cbn [absb] in H2.
    destruct (k =? "*") eqn:Ek.
    + apply valid_cons in Hv as [Hv _]. apply String.eqb_eq in Ek. subst k. rewrite (Hv eq_refl) in H1. discriminate H1.
    + destruct x as [|y x]; [discriminate|]. apply andb_prop in H2 as [_ H2]. destruct s; [discriminate|]. cbn [length]. lia.
  - destruct s as [|k s]; [discriminate|]. apply andb_prop in H1 as [E H1]. cbn [absb] in H2. apply String.eqb_eq in E. subst k. rewrite Eh in H2.
    destruct x as [|y x]; [discriminate|]. apply andb_prop in H2 as [_ H2]. apply valid_cons in Hv as [_ Hv].
    specialize (IH _ _ Hv2 Hv H1 H2). cbn [length]. lia.
Qed.

(** ** Listing *)

Lemma list_node : forall l ch x, NoDup (keys ch) -> ~ In "*" (keys ch) ->
    (In x (node_to_query_types (Node l ch)) <->
     match x with
     | [] => l = true
     | h :: x' => exists c, sget h ch = Some c /\ In x' (node_to_query_types c)
     end).
Proof.
  intros l ch x Hnd Hs. cbn [node_to_query_types]. rewrite (proj2 (smem_not_In _ _ _) Hs). cbn [negb]. rewrite andb_true_r, in_app_iff, in_flat_map.
  destruct x as [|h x].
  - split.
    + intros [H|([k c] & _ & H)]; [destruct l; [auto|destruct H]|]. apply in_map_iff in H as (? & [=] & _).
    + intros ->. left. now left.
  - split.
    + intros [H|([k c] & Hin & H)]; [destruct l; [destruct H as [[=]|[]]|destruct H]|]. apply in_map_iff in H as (y & [= <- <-] & Hy).
      exists c. split; auto. apply (In_dget seqb_spec); auto.
    + intros (c & Hc & Hx). right. exists (h, c). split; [now apply (dget_In seqb_spec)|]. apply in_map_iff. eauto.
Qed.

Lemma list_star : forall l x, In x (node_to_query_types (Node l [("*", Node true [])])) <-> x = ["*"].
Proof.
  intros l x. replace (node_to_query_types (Node l [("*", Node true [])])) with [["*"]] by (destruct l; reflexivity).
  cbn [In]. split; [intros [<-|[]]; auto|intros ->; auto].
Qed.

Lemma list_anti : forall n, wf n -> forall s x, In s (node_to_query_types n) -> In x (node_to_query_types n) -> absb s x = false.
Proof.
  fix IH 2. intros n Hn. destruct Hn as [l|l ch Hnd Hs Hch]; intros s x H1 H2.
  - apply list_star in H1 as ->. apply list_star in H2 as ->. reflexivity.
  - apply list_node in H1; auto. apply list_node in H2; auto. destruct s as [|h s]; auto. cbn [absb].
    destruct H1 as (c & Hc & H1). assert (Hin : In (h, c) ch) by now apply (dget_In seqb_spec).
    destruct (h =? "*") eqn:Eh.
    + apply String.eqb_eq in Eh. subst h. exfalso. apply Hs. apply in_map_iff. exists ("*", c). auto.
    + destruct x as [|k x]; auto. destruct (h =? k) eqn:E; auto. apply String.eqb_eq in E. subst k. cbn [andb].
      destruct H2 as (c' & Hc' & H2). assert (c' = c) by congruence. subst c'. eapply (IH c); eauto.
Qed.

Lemma list_NoDup : forall n, wf n -> NoDup (node_to_query_types n).
Proof.
  fix IH 2. intros n Hn. destruct Hn as [l|l ch Hnd Hs Hch].
  - replace (node_to_query_types (Node l [("*", Node true [])])) with [["*"]] by (destruct l; reflexivity).
    constructor; [easy|constructor].
  - cbn [node_to_query_types]. rewrite (proj2 (smem_not_In _ _ _) Hs). cbn [negb]. rewrite andb_true_r.
    assert (Hf : NoDup (flat_map (fun hc : string * node => map (cons (fst hc)) (node_to_query_types (snd hc))) ch)).
    { clear Hs. assert (Hsub : forall k c, In (k, c) ch -> NoDup (node_to_query_types c)).
      { intros k c Hin. apply IH. eapply Hch; eauto. }
      clear IH Hch. induction ch as [|[k c] ch IHc]; cbn [flat_map fst snd]; [constructor|].
      cbn [keys map fst] in Hnd. inversion Hnd as [|? ? Hk Hnd']; subst.
      apply NoDup_app_intro.
      - apply FinFun.Injective_map_NoDup; [intros a b [=]; auto|]. eapply Hsub. now left.
      - apply IHc; auto. intros k' c' Hin. eapply Hsub. right. exact Hin.
      - intros y Hy Hin. apply in_map_iff in Hy as (y' & <- & _). apply in_flat_map in Hin as ([k' c'] & Hin & Hy).
        apply in_map_iff in Hy as (? & [= -> _] & _). apply Hk. apply in_map_iff. exists (k, c'). auto. }
    destruct l; cbn [app]; auto. constructor; auto. intros Hin. apply in_flat_map in Hin as (hc & _ & Hin).
    apply in_map_iff in Hin as (? & [=] & _).
Qed.

(** What adding a query type does to the listing. *)
Definition left_over (S : etype -> Prop) (x : etype) : Prop := S x /\ forall s, S s -> absb s x = false.

Lemma absb_star : forall s, valid_query s -> absb s ["*"] = false.
Proof.
  intros [|h s] Hv; auto. apply valid_cons in Hv as [Hs _]. cbn [absb]. destruct (h =? "*") eqn:E; auto.
Qed.

Lemma add_listing : forall q n n', wf n -> valid_query q -> add_query_type n q = Some n' ->
    forall x, In x (node_to_query_types n') <-> left_over (fun y => In y (node_to_query_types n) \/ y = q) x.
Proof.
  induction q as [|h q IH]; intros [l ch] n' Hw Hv H x; unfold left_over.
  - pose proof (list_anti _ Hw) as Ha. cbn [add_query_type] in H.
    destruct (wf_inv _ _ Hw) as [->|(Hs & Hnd & Hch)].
    + injection H as <-. split.
      * intros Hx. split; auto. intros s [Hs| ->]; auto.
      * intros [[Hx| ->] Hn]; auto. specialize (Hn ["*"]). rewrite list_star in Hn. specialize (Hn (or_introl eq_refl)). discriminate Hn.
    + rewrite Hs in H. injection H as <-. apply smem_not_In in Hs. rewrite list_node by auto. split.
      * intros Hx. split.
        -- destruct x; auto. left. apply list_node; auto.
        -- intros s [Hin| ->]; auto. destruct x as [|k x].
           ++ destruct s as [|k s]; auto. cbn [absb]. destruct (k =? "*") eqn:Ek; auto.
              apply list_node in Hin; auto. destruct Hin as (c & Hc & _). apply String.eqb_eq in Ek. subst k.
              exfalso. apply Hs. apply (dget_In seqb_spec) in Hc. apply in_map_iff. exists ("*", c). auto.
           ++ apply Ha; auto. apply list_node; auto.
      * intros [[Hx| ->] Hn]; auto. apply list_node in Hx; auto. destruct x; auto.
  - pose proof (list_anti _ Hw) as Ha. pose proof (to_qts_valid _ Hw) as Hqv. rewrite Forall_forall in Hqv.
    destruct (wf_inv _ _ Hw) as [->|(Hs & Hnd & Hch)].
    + cbn [add_query_type] in H. injection H as <-. rewrite list_star. split.
      * intros ->. split; [left; reflexivity|]. intros s [Hs| ->]; [apply list_star in Hs as ->; reflexivity|now apply absb_star].
      * intros [_ Hn]. specialize (Hn ["*"]). rewrite list_star in Hn. specialize (Hn (or_introl eq_refl)). cbn [absb] in Hn.
        apply negb_false_iff in Hn. now apply etype_eqb_spec' in Hn.
    + cbn [add_query_type] in H. rewrite Hs in H. destruct (h =? "*") eqn:Eh.
      * apply String.eqb_eq in Eh. subst h. destruct q; [|discriminate]. injection H as <-. rewrite list_star. split.
        -- intros ->. split; auto. intros s [Hin| ->]; [apply absb_star; auto|reflexivity].
        -- intros [_ Hn]. specialize (Hn ["*"] (or_intror eq_refl)). cbn [absb] in Hn. apply negb_false_iff in Hn. now apply etype_eqb_spec' in Hn.
      * set (c0 := match sget h ch with Some c => c | None => Node false [] end) in *.
        destruct (add_query_type c0 q) as [c'|] eqn:Ec; [|discriminate]. injection H as <-.
        assert (Hc0 : wf c0). { unfold c0. destruct (sget h ch) eqn:Eg; [eapply sget_wf; eauto|apply wf_empty]. }
        apply valid_cons in Hv as [_ Hv]. specialize (IH _ _ Hc0 Hv Ec). unfold left_over in IH.
        assert (Hh : h <> "*") by now apply String.eqb_neq.
        assert (Hc0' : forall y, In y (node_to_query_types c0) <-> In (h :: y) (node_to_query_types (Node l ch))).
        { intros y. rewrite list_node by (auto; now apply smem_not_In). unfold c0. destruct (sget h ch) as [c|]; split.
          - intros Hy. exists c. auto.
          - intros (c1 & [= <-] & Hy). exact Hy.
          - intros [].
          - intros (c1 & [=] & _). }
        rewrite list_node; [|now apply (NoDup_dset seqb_spec)|apply smem_not_In; rewrite smem_sset; auto].
        destruct x as [|k x].
        -- split.
           ++ intros ->. split; [left; apply list_node; auto; now apply smem_not_In|].
              intros s [Hin| ->]; [|cbn [absb]; now rewrite Eh]. apply Ha; auto. apply list_node; auto. now apply smem_not_In.
           ++ intros [[Hx|[=]] _]. apply list_node in Hx; auto. now apply smem_not_In.
        -- destruct (String.string_dec k h) as [->|Hk].
           ++ cbv beta iota. setoid_rewrite (dget_dset_same seqb_spec). split.
              ** intros (c1 & [= <-] & Hx). apply IH in Hx as [Hx Hn]. split.
                 --- destruct Hx as [Hx| ->]; auto. left. now apply Hc0'.
                 --- intros s Hin. destruct s as [|k s]; auto. cbn [absb]. destruct (k =? "*") eqn:Ek.
                     +++ apply String.eqb_eq in Ek. subst k. exfalso. destruct Hin as [Hin|[= Es _]]; [|congruence].
                         apply list_node in Hin; [|auto|now apply smem_not_In]. destruct Hin as (c & Hc & _).
                         apply smem_not_In in Hs. apply Hs. apply (dget_In seqb_spec) in Hc. apply in_map_iff. exists ("*", c). auto.
                     +++ destruct (k =? h) eqn:E; auto. apply String.eqb_eq in E. subst k. cbn [andb]. apply Hn.
                         destruct Hin as [Hin|[= ->]]; auto. left. now apply Hc0'.
              ** intros [Hx Hn]. exists c'. split; auto. apply IH. split.
                 --- destruct Hx as [Hx|[= ->]]; auto. left. now apply Hc0'.
                 --- intros s Hin. specialize (Hn (h :: s)). cbn [absb] in Hn. rewrite Eh, seqb_refl in Hn. apply Hn.
                     destruct Hin as [Hin| ->]; auto. left. now apply Hc0'.
           ++ cbv beta iota. setoid_rewrite (dget_dset_other seqb_spec); [|auto].
              assert (El : (exists c, dget String.eqb k ch = Some c /\ In x (node_to_query_types c)) <-> In (k :: x) (node_to_query_types (Node l ch))).
              { rewrite list_node; [reflexivity|auto|now apply smem_not_In]. }
              rewrite El. split.
              ** intros Hx. split; auto. intros s [Hin| ->]; auto. cbn [absb]. rewrite Eh.
                 destruct (h =? k) eqn:E; auto. apply String.eqb_eq in E. congruence.
              ** intros [[Hx|[= Es _]] _]; [auto|congruence].
Qed.

Lemma absorber_min : forall (A : list etype) x, Forall valid_query A -> forall s, In s A -> absb s x = true ->
    exists s', In s' A /\ absb s' x = true /\ forall z, In z A -> absb z s' = false.
Proof.
  intros A x HA s. rewrite Forall_forall in HA.
  induction s as [s IH] using (Wf_nat.induction_ltof1 _ (@length string)). intros Hin Hx. unfold Wf_nat.ltof in IH.
  destruct (existsb (fun z => absb z s) A) eqn:E.
  - apply existsb_exists in E as (z & Hz & Ez). apply (IH z); auto.
    + apply (absb_length z s x); auto.
    + apply (absb_trans z s x); auto.
  - exists s. split; auto. split; auto. intros z Hz. apply not_true_iff_false. intros Ez.
    assert (existsb (fun z => absb z s) A = true) by (apply existsb_exists; eauto). congruence.
Qed.

Lemma adds_listing : forall qs n n', wf n -> Forall valid_query qs -> add_query_types n qs = Some n' ->
    forall x, In x (node_to_query_types n') <-> left_over (fun y => In y (node_to_query_types n) \/ In y qs) x.
Proof.
  induction qs as [|q qs IH]; intros n n' Hw Hv H x; cbn [add_query_types] in H.
  - injection H as <-. unfold left_over. split.
    + intros Hx. split; auto. intros s [Hs|[]]. eapply list_anti; eauto.
    + intros [[Hx|[]] _]. exact Hx.
  - inversion Hv as [|? ? Hq Hqs]; subst. destruct (add_query_type n q) as [n1|] eqn:E; [|discriminate].
    assert (Hw1 : wf n1) by (eapply add_wf; eauto). rewrite (IH _ _ Hw1 Hqs H x).
    pose proof (add_listing _ _ _ Hw Hq E) as Ha. unfold left_over in *. split.
    + intros [Hx Hn]. split.
      * destruct Hx as [Hx|Hx]; [|right; now right]. apply Ha in Hx as [[Hx| ->] _]; auto. right. now left.
      * intros s Hs. apply not_true_iff_false. intros Es.
        assert (HA : Forall valid_query (q :: node_to_query_types n)) by (constructor; auto using to_qts_valid).
        assert (Hs' : In s (q :: node_to_query_types n) \/ In s qs). { cbn [In] in *. intuition. }
        destruct Hs' as [Hs'|Hs']; [|now rewrite Hn in Es by auto].
        destruct (absorber_min _ x HA s Hs' Es) as (s' & I1 & I2 & I3).
        rewrite Hn in I2; [discriminate|]. left. apply Ha. split; [destruct I1 as [<-|I1]; auto|].
        intros z [Hz| ->]; apply I3; [now right|now left].
    + intros [Hx Hn]. split.
      * destruct Hx as [Hx|[<-|Hx]]; auto; left; apply Ha; split; auto; intros s [Hs| ->]; apply Hn; auto; right; now left.
      * intros s [Hs|Hs]; [|apply Hn; right; now right]. apply Ha in Hs as [[Hs| ->] _]; apply Hn; auto. right. now left.
Qed.

(** ** Sorting *)

Lemma sltb_trans : forall a b c, String.ltb a b = true -> String.ltb b c = true -> String.ltb a c = true.
Proof.
  unfold String.ltb. intros a b c H1 H2.
  destruct (String.compare a b) eqn:E1; try discriminate. destruct (String.compare b c) eqn:E2; try discriminate.
  apply String_as_OT.cmp_lt in E1. apply String_as_OT.cmp_lt in E2.
  assert (E3 : String.compare a c = Lt) by (apply String_as_OT.cmp_lt; eapply String_as_OT.lt_trans; eauto). now rewrite E3.
Qed.
Lemma sltb_irrefl : forall a, String.ltb a a = false.
Proof. intros a. unfold String.ltb. pose proof (String.compare_antisym a a) as H. destruct (String.compare a a); auto; discriminate. Qed.
Lemma sltb_total : forall a b, a <> b -> String.ltb a b = true \/ String.ltb b a = true.
Proof.
  intros a b Hn. unfold String.ltb. rewrite (String.compare_antisym b a). destruct (String.compare a b) eqn:E; cbn; auto.
  apply String.compare_eq_iff in E. contradiction.
Qed.

Lemma etype_leb_total : forall a b, etype_leb a b = true \/ etype_leb b a = true.
Proof.
  induction a as [|x a IH]; intros [|y b]; cbn [etype_leb]; auto.
  rewrite (String.eqb_sym y x). destruct (x =? y) eqn:E; auto. apply String.eqb_neq in E. now apply sltb_total.
Qed.
Lemma etype_leb_antisym : forall a b, etype_leb a b = true -> etype_leb b a = true -> a = b.
Proof.
  induction a as [|x a IH]; intros [|y b] H1 H2; cbn [etype_leb] in *; auto; try discriminate.
  rewrite (String.eqb_sym y x) in H2. destruct (x =? y) eqn:E.
  - apply String.eqb_eq in E. subst y. f_equal. auto.
  - exfalso. pose proof (sltb_trans _ _ _ H1 H2) as H. rewrite sltb_irrefl in H. discriminate.
Qed.
Lemma etype_leb_trans : forall a b c, etype_leb a b = true -> etype_leb b c = true -> etype_leb a c = true.
Proof.
  induction a as [|x a IH]; intros [|y b] [|z c] H1 H2; cbn [etype_leb] in *; auto; try discriminate.
  destruct (x =? y) eqn:E1; destruct (y =? z) eqn:E2.
  - apply String.eqb_eq in E1. apply String.eqb_eq in E2. subst. rewrite seqb_refl. eauto.
  - apply String.eqb_eq in E1. subst. now rewrite E2.
  - apply String.eqb_eq in E2. subst. now rewrite E1.
  - destruct (x =? z) eqn:E3.
    + apply String.eqb_eq in E3. subst. pose proof (sltb_trans _ _ _ H1 H2) as H. rewrite sltb_irrefl in H. discriminate.
    + eapply sltb_trans; eauto.
Qed.

Lemma insert_perm : forall t l, Permutation (t :: l) (etype_insert t l).
Proof.
  intros t. induction l as [|u l IH]; cbn [etype_insert]; auto. destruct (etype_leb t u); auto.
  rewrite perm_swap. now apply perm_skip.
Qed.
Lemma sort_perm : forall l, Permutation l (etype_sort l).
Proof.
  induction l as [|t l IH]; cbn [etype_sort fold_right]; auto. fold (etype_sort l).
  rewrite <- insert_perm. now apply perm_skip.
Qed.
Definition eleb (a b : etype) : Prop := etype_leb a b = true.
Lemma insert_sorted : forall t l, StronglySorted eleb l -> StronglySorted eleb (etype_insert t l).
Proof.
  intros t. induction l as [|u l IH]; intros Hs; cbn [etype_insert]; [constructor; constructor|].
  inversion Hs as [|? ? Hl Hu]; subst. destruct (etype_leb t u) eqn:E.
  - constructor; auto. constructor; auto. rewrite Forall_forall in *. intros x Hx. eapply etype_leb_trans; eauto. now apply Hu.
  - constructor; auto. rewrite Forall_forall in *. intros x Hx. apply (Permutation_in _ (Permutation_sym (insert_perm t l))) in Hx.
    destruct Hx as [<-|Hx]; [|now apply Hu]. destruct (etype_leb_total u t) as [H|H]; [auto|congruence].
Qed.
Lemma sort_sorted : forall l, StronglySorted eleb (etype_sort l).
Proof. induction l as [|t l IH]; cbn [etype_sort fold_right]; [constructor|]. now apply insert_sorted. Qed.

Lemma sorted_perm_eq : forall a b, StronglySorted eleb a -> StronglySorted eleb b -> Permutation a b -> a = b.
Proof.
  induction a as [|x a IH]; intros b Ha Hb Hp.
  - now apply Permutation_nil in Hp.
  - destruct b as [|y b]; [apply Permutation_sym, Permutation_nil in Hp; discriminate|].
    inversion Ha as [|? ? Ha1 Ha2]; subst. inversion Hb as [|? ? Hb1 Hb2]; subst. rewrite Forall_forall in *.
    assert (Exy : x = y).
    { assert (H1 : In y (x :: a)) by (eapply Permutation_in; [apply Permutation_sym; exact Hp|now left]).
      assert (H2 : In x (y :: b)) by (eapply Permutation_in; [exact Hp|now left]).
      destruct H1 as [H1|H1]; auto. destruct H2 as [H2|H2]; auto. apply etype_leb_antisym; [now apply Ha2|now apply Hb2]. }
    subst y. f_equal. apply IH; auto. eapply Permutation_cons_inv; eauto.
Qed.

(** The stored description depends on the set of query types only. *)
Theorem part_data_set : forall qs qs' n n' o l l', Forall valid_query qs -> Forall valid_query qs' ->
    py_create qs = Some n -> py_create qs' = Some n' -> (forall q, In q qs <-> In q qs') ->
    part_data_of (Partition o n l) = part_data_of (Partition o n' l').
Proof.
  intros qs qs' n n' o l l' Hv Hv' H H' Hq. unfold part_data_of. cbn [pt_order pt_sub]. f_equal.
  apply sorted_perm_eq; auto using sort_sorted.
  rewrite <- !sort_perm. apply NoDup_Permutation; try (eapply list_NoDup, create_wf; eauto).
  intros x. unfold py_create, node_from_query_types in *.
  rewrite (adds_listing _ _ _ (wf_empty _) Hv H x), (adds_listing _ _ _ (wf_empty _) Hv' H' x). unfold left_over.
  split; intros [A B]; (split; [|intros s Hs; apply B]); [|destruct Hs as [Hs|Hs]; auto; right; now apply Hq| |destruct Hs as [Hs|Hs]; auto; right; now apply Hq];
    destruct A as [A|A]; auto; right; now apply Hq.
Qed.
