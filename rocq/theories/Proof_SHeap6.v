(** Proofs about the memory of the C subscription: [matches] and [isdisjoint]. *)
From Coq Require Import String Bool Arith ZArith Lia List.
From Verif Require Import Base Model_Types Model_Subscription Model_SHeap Spec_SHeap Proof_Subscription Proof_Subscription2 Proof_SHeap Proof_SHeap2 Proof_SHeap3 Proof_SHeap4 Proof_SHeap5.
Import ListNotations.
Open Scope string_scope.
Open Scope list_scope.

Lemma tree_kid : forall s a l x tb ks e, tree s (GT a l x tb ks) -> In e ks -> tree s (snd e).
Proof.
  intros s a l x tb ks e [R N L] I. constructor; auto.
  - apply rep_kids in R. destruct R as (_ & _ & R). rewrite Forall_forall in R. auto.
  - cbn [fp] in N. inversion N as [|? ? _ N']; subst. apply NoDup_app_r in N'. apply in_split in I. destruct I as (k1 & k2 & ->).
    rewrite flat_map_app in N'. cbn [flat_map] in N'. apply NoDup_app_r, NoDup_app_l in N'. exact N'.
Qed.

Lemma sget_in' : forall V k (d : list (string * V)) v, sget k d = Some v -> In (k, v) d.
Proof. intros V k d v E. destruct (sget_split _ _ _ _ E) as (d1 & d2 & -> & _). apply in_app_iff. right. now left. Qed.

(** What [hat_ht_get] finds. *)
Lemma ht_get_at : forall s a l x b ks k, tree s (GT a l x (Some b) ks) -> ht_get b k s = Some (option_map groot (sget k ks), s).
Proof.
  intros s a l x b ks k T. assert (R := tr_rep _ _ T). apply rep_kids in R. destruct R as (_ & R & _).
  unfold ht_get. erewrite bind_at by (eapply load_ht_at; exact R).
  change (map entry ks) with (map (fun e => (fst e, groot (snd e))) ks). now rewrite (sget_map _ _ groot).
Qed.

(** Only a counter changes. *)
Definition tries_only (s s' : sst) : Prop :=
  s_heap s' = s_heap s /\ s_objs s' = s_objs s /\ s_next s' = s_next s /\ s_stars s' = s_stars s.
Lemma tries_refl : forall s, tries_only s s.
Proof. intros. unfold tries_only. auto. Qed.
Lemma tries_trans : forall a b c, tries_only a b -> tries_only b c -> tries_only a c.
Proof. intros a b c (A & B & C & D) (E & F & G & H). unfold tries_only. intuition congruence. Qed.
Lemma tries_tree : forall s s' t, tries_only s s' -> tree s t -> tree s' t.
Proof. intros s s' t (A & B & C & D) T. eapply tree_rest; [exact T|auto|lia]. Qed.

Section Matches.
  Variable ok : nat -> bool.
  Notation fails := (fails ok).

  Definition segs_live (s : sst) (segs : list addr) : Prop := forall x, In x segs -> exists p, s_objs s x = Some p.

  Lemma matches_spec : forall segs t s, tree s t -> segs_live s segs ->
    exists r e s', matches ok (groot t) segs s = Some ((r, e), s') /\ tries_only s s' /\
      (e = false -> r = c_matches (forget t) (map (text_of s) segs)) /\
      (e = true -> fails \/ exists x, In x segs /\ not_str s x).
  Proof.
    induction segs as [|seg segs IH]; intros [a l x tb ks] s T L; assert (R := tr_rep _ _ T); apply rep_kids in R;
      destruct R as (R1 & R2 & R3); cbn [groot matches map];
      (erewrite bind_at by (eapply load_node_at; exact R1)); cbv beta iota; destruct x.
    - exists true, false, s. split; [reflexivity|]. split; [apply tries_refl|]. split; [auto|discriminate].
    - exists l, false, s. split; [reflexivity|]. split; [apply tries_refl|]. split; [auto|discriminate].
    - exists true, false, s. split; [reflexivity|]. split; [apply tries_refl|]. split; [auto|discriminate].
    - destruct tb as [b|].
      2:{ subst ks. exists false, false, s. split; [reflexivity|]. split; [apply tries_refl|]. split; [auto|discriminate]. }
      destruct (L seg (or_introl eq_refl)) as (p & E). unfold kind_of.
      erewrite bind_at by (unfold bind, load_obj; rewrite E; reflexivity).
      destruct (o_kind p) as [key| | | |] eqn:K;
        try (exists false, true, s; split; [reflexivity|]; split; [apply tries_refl|]; split; [discriminate|]; intros _; right;
             exists seg; split; [now left|]; exists p; split; [auto|]; intros t0; rewrite K; discriminate).
      assert (TX : text_of s seg = key). { unfold text_of. rewrite E. destruct p as [kk ii rr]. cbn in K. now subst kk. }
      rewrite TX. unfold bind at 1, may_fail.
      set (s1 := Sst (s_heap s) (s_objs s) (s_next s) (S (s_tries s)) (s_stars s)).
      assert (T01 : tries_only s s1) by (unfold tries_only; auto).
      destruct (ok (s_tries s)) eqn:O.
      2:{ exists false, true, s1. split; [reflexivity|]. split; auto. split; [discriminate|]. intros _. left. exists (s_tries s). auto. }
      assert (T1 : tree s1 (GT a l false (Some b) ks)) by (eapply tries_tree; eauto).
      (* what a child answers *)
      assert (SUB : forall k s2, tries_only s s2 ->
        exists r e s', (match option_map groot (sget k ks) with Some c => matches ok c segs | None => ret (false, false) end) s2 = Some ((r, e), s') /\
          tries_only s s' /\
          (e = false -> r = match sget k (map (fun e => (fst e, forget (snd e))) ks) with Some c => c_matches c (map (text_of s) segs) | None => false end) /\
          (e = true -> fails \/ exists x, In x segs /\ not_str s x)).
      { intros k s2 T02. rewrite (sget_map _ _ forget). destruct (sget k ks) as [tc|] eqn:G; cbn [option_map].
        - assert (Tc : tree s2 tc). { eapply (tree_kid s2 a l false (Some b) ks (k, tc)); [eapply tries_tree; eauto|]. now apply sget_in'. }
          destruct T02 as (Y1 & Y2 & Y3 & Y4).
          destruct (IH tc s2 Tc) as (r & e & s3 & E3 & T23 & F3 & G3).
          { intros y I. rewrite Y2. apply L. now right. }
          assert (TE : forall y, text_of s2 y = text_of s y) by (intros; unfold text_of; now rewrite Y2).
          exists r, e, s3. split; auto. split; [eapply tries_trans; [|exact T23]; unfold tries_only; auto|].
          rewrite (map_ext _ _ TE) in F3. split; auto. intros Ee. destruct (G3 Ee) as [F|(y & I & q & Eq & N)]; auto.
          right. exists y. split; auto. exists q. rewrite <- Y2. auto.
        - exists false, false, s2. split; [reflexivity|]. split; auto. split; [auto|discriminate]. }
      erewrite bind_at by (eapply ht_get_at; exact T1).
      destruct (SUB key s1 T01) as (r1 & e1 & s2 & E2 & T02 & F2 & G2). erewrite bind_at by exact E2. cbn [fst snd].
      destruct r1.
      + exists true, e1, s2. split; [reflexivity|]. split; auto. split.
        * intros Ee. specialize (F2 Ee). cbn [forget c_matches]. now rewrite <- F2.
        * intros Ee. destruct (G2 Ee) as [F|(y & I & N)]; auto. right. exists y. split; [now right|auto].
      + assert (T2 : tree s2 (GT a l false (Some b) ks)) by (eapply tries_tree; eauto).
        erewrite bind_at by (eapply ht_get_at; exact T2).
        destruct (SUB "?" s2 T02) as (r2 & e2 & s3 & E3 & T03 & F3 & G3). erewrite bind_at by exact E3. cbn [fst snd].
        exists r2, (e1 || e2), s3. split; [reflexivity|]. split; auto. split.
        * intros Ee. apply orb_false_elim in Ee. destruct Ee as [Ee1 Ee2]. specialize (F2 Ee1). specialize (F3 Ee2).
          cbn [forget c_matches]. rewrite <- F2. exact F3.
        * intros Ee. assert (Q : fails \/ exists x, In x segs /\ not_str s x).
          { apply orb_prop in Ee. destruct Ee; auto. }
          destruct Q as [F|(y & I & N)]; auto. right. exists y. split; [now right|auto].
  Qed.

  Lemma sub_matches_spec : forall t s o p, tree s t -> s_objs s o = Some p -> segs_live s (o_items p) ->
    exists r s', subscription_matches ok (groot t) o s = Some (r, s') /\ tries_only s s' /\
      match r with
      | Some b => o_kind p = KTup /\ b = c_matches (forget t) (type_of s o)
      | None => fails \/ o_kind p <> KTup \/ exists x, In x (o_items p) /\ not_str s x
      end.
  Proof.
    intros t s o p T E L. unfold subscription_matches, kind_of, items_of.
    erewrite bind_at by (unfold bind, load_obj; rewrite E; reflexivity).
    destruct (o_kind p) eqn:K; try (exists None, s; split; [reflexivity|]; split; [apply tries_refl|]; right; left; discriminate).
    erewrite bind_at by (unfold bind, load_obj; rewrite E; reflexivity).
    destruct (matches_spec (o_items p) t s T L) as (r & e & s1 & E1 & T1 & F1 & G1). erewrite bind_at by exact E1. cbn [fst snd].
    destruct e.
    - exists None, s1. split; [reflexivity|]. split; auto. destruct (G1 eq_refl); auto.
    - exists (Some r), s1. split; [reflexivity|]. split; auto. split; auto. unfold type_of. rewrite E. auto.
  Qed.
End Matches.

(** ** [isdisjoint] *)

Lemma cheight_forget : forall t, cheight (forget t) = gheight t.
Proof.
  induction t as [a l s tb ks IH] using gtree_ind'. cbn [forget cheight gheight]. f_equal.
  induction IH as [|e ks He _ IHk]; cbn [map]; auto.
Qed.

Lemma forallb_ext_in : forall A (f g : A -> bool) l, (forall x, In x l -> f x = g x) -> forallb f l = forallb g l.
Proof.
  induction l as [|x l IH]; intros H; cbn; auto. rewrite H by now left. rewrite IH; auto. intros y I. apply H. now right.
Qed.

(** More fuel than the height of the first tree does not matter. *)
Lemma disjoint_fuel : forall f f' n m, (cheight n <= f)%nat -> (cheight n <= f')%nat -> c_disjoint_fuel f n m = c_disjoint_fuel f' n m.
Proof.
  induction f as [|f IH]; intros f' n m H H'; [destruct n; cbn in H; lia|]. destruct f' as [|f']; [destruct n; cbn in H'; lia|].
  destruct n as [l1 s1 c1], m as [l2 s2 c2].
  assert (C : forall k c, In (k, c) c1 -> forall m, c_disjoint_fuel f c m = c_disjoint_fuel f' c m).
  { intros k c I m. assert (Hc := cheight_child l1 s1 c1 k c I). apply IH; lia. }
  assert (B1 : match sget "?" c1 with Some q => negb (forallb (fun kc => c_disjoint_fuel f q (snd kc)) c2) | None => false end =
    match sget "?" c1 with Some q => negb (forallb (fun kc => c_disjoint_fuel f' q (snd kc)) c2) | None => false end).
  { destruct (sget "?" c1) as [q|] eqn:G; auto. f_equal. apply forallb_ext_in. intros e I. eapply C. apply sget_in'. exact G. }
  assert (B2 : match sget "?" c2 with Some q => negb (forallb (fun kc => c_disjoint_fuel f (snd kc) q) c1) | None => false end =
    match sget "?" c2 with Some q => negb (forallb (fun kc => c_disjoint_fuel f' (snd kc) q) c1) | None => false end).
  { destruct (sget "?" c2) as [q|] eqn:G; auto. f_equal. apply forallb_ext_in. intros [k c] I. eapply C. exact I. }
  assert (B3 : forallb (fun kc => if fst kc =? "?" then true else match sget (fst kc) c2 with Some c => c_disjoint_fuel f (snd kc) c | None => true end) c1 =
    forallb (fun kc => if fst kc =? "?" then true else match sget (fst kc) c2 with Some c => c_disjoint_fuel f' (snd kc) c | None => true end) c1).
  { apply forallb_ext_in. intros [k c] I. cbn [fst snd]. destruct (k =? "?"); auto. destruct (sget k c2); auto. eapply C. exact I. }
  assert (B4 : forallb (fun kc => if fst kc =? "?" then true else match sget (fst kc) c1 with Some c => c_disjoint_fuel f c (snd kc) | None => true end) c2 =
    forallb (fun kc => if fst kc =? "?" then true else match sget (fst kc) c1 with Some c => c_disjoint_fuel f' c (snd kc) | None => true end) c2).
  { apply forallb_ext_in. intros [k c] I. cbn [fst snd]. destruct (k =? "?"); auto. destruct (sget k c1) eqn:G; auto. eapply C.
    apply sget_in'. exact G. }
  cbn [c_disjoint_fuel]. rewrite B1, B2, B3, B4. reflexivity.
Qed.

Lemma forallm_at : forall A (f : A -> M bool) (g : A -> bool) l s, (forall x, In x l -> f x s = Some (g x, s)) ->
  forallm f l s = Some (forallb g l, s).
Proof.
  induction l as [|x l IH]; intros s H; cbn [forallm forallb]; [reflexivity|].
  erewrite bind_at by (apply H; now left). destruct (g x); cbn [andb]; [|reflexivity]. apply IH. intros y I. apply H. now right.
Qed.

Lemma forallm_entry : forall (f : string * addr -> M bool) (g : string * cnode -> bool) ks s,
  (forall e, In e ks -> f (entry e) s = Some (g (fst e, forget (snd e)), s)) ->
  forallm f (map entry ks) s = Some (forallb g (map (fun e => (fst e, forget (snd e))) ks), s).
Proof.
  induction ks as [|e ks IH]; intros s H; cbn [map forallm forallb]; [reflexivity|].
  erewrite bind_at by (apply H; now left). destruct (g _); cbn [andb]; [|reflexivity]. apply IH. intros y I. apply H. now right.
Qed.

Lemma disjoint_spec : forall f t1 t2 s, (gheight t1 <= f)%nat -> tree s t1 -> tree s t2 -> full t1 -> full t2 ->
  isdisjoint f (groot t1) (groot t2) s = Some (c_disjoint_fuel f (forget t1) (forget t2), s).
Proof.
  induction f as [|f IH]; intros [a1 l1 x1 b1 k1] [a2 l2 x2 b2 k2] s H T1 T2 F1 F2; [cbn in H; lia|].
  assert (R := tr_rep _ _ T1). apply rep_kids in R. destruct R as (R1 & R2 & R3).
  assert (Q := tr_rep _ _ T2). apply rep_kids in Q. destruct Q as (Q1 & Q2 & Q3).
  apply full_kids in F1, F2. destruct F1 as (F1 & F1k), F2 as (F2 & F2k). rewrite Forall_forall in F1k, F2k.
  cbn [groot isdisjoint]. erewrite bind_at by (eapply load_node_at; exact R1). cbv beta iota.
  erewrite bind_at by (eapply load_node_at; exact Q1). cbv beta iota. cbn [forget c_disjoint_fuel].
  assert (M1 : match b1 with None => true | _ => false end = match map (fun e => (fst e, forget (snd e))) k1 with [] => true | _ => false end).
  { destruct b1 as [b1|]; [destruct k1; auto; exfalso; apply F1; congruence|subst k1; reflexivity]. }
  assert (M2 : match b2 with None => true | _ => false end = match map (fun e => (fst e, forget (snd e))) k2 with [] => true | _ => false end).
  { destruct b2 as [b2|]; [destruct k2; auto; exfalso; apply F2; congruence|subst k2; reflexivity]. }
  destruct (l1 && l2); [reflexivity|]. destruct x1; [rewrite M2; reflexivity|]. destruct x2; [rewrite M1; reflexivity|].
  rewrite <- M1, <- M2. destruct b1 as [b1|]; [|reflexivity]. destruct b2 as [b2|]; [|reflexivity]. clear M1 M2 F1 F2.
  assert (D : forall e e', In e k1 -> In e' k2 ->
    isdisjoint f (groot (snd e)) (groot (snd e')) s = Some (c_disjoint_fuel f (forget (snd e)) (forget (snd e')), s)).
  { intros e e' I I'. apply IH; auto.
    - assert (Hk := height_kid a1 l1 false (Some b1) k1 e I). lia.
    - eapply tree_kid; [exact T1|auto].
    - eapply tree_kid; [exact T2|auto]. }
  erewrite bind_at by (eapply ht_get_at; exact T1). rewrite !(sget_map _ _ forget).
  erewrite (bind_at _ _ _ _ s
    (negb match option_map forget (sget "?" k1) with
          | Some q => negb (forallb (fun kc => c_disjoint_fuel f q (snd kc)) (map (fun e => (fst e, forget (snd e))) k2))
          | None => false
          end)).
  2:{ destruct (sget "?" k1) as [q|] eqn:G; cbn [option_map]; [|reflexivity].
      erewrite bind_at by (eapply load_ht_at; exact Q2). rewrite negb_involutive. apply forallm_entry. intros e I. cbn [entry fst snd].
      apply (D ("?", q) e); auto. now apply sget_in'. }
  destruct (match option_map forget (sget "?" k1) with Some _ => _ | None => _ end); cbn [negb]; [reflexivity|].
  erewrite bind_at by (eapply ht_get_at; exact T2).
  erewrite (bind_at _ _ _ _ s
    (negb match option_map forget (sget "?" k2) with
          | Some q => negb (forallb (fun kc => c_disjoint_fuel f (snd kc) q) (map (fun e => (fst e, forget (snd e))) k1))
          | None => false
          end)).
  2:{ destruct (sget "?" k2) as [q|] eqn:G; cbn [option_map]; [|reflexivity].
      erewrite bind_at by (eapply load_ht_at; exact R2). rewrite negb_involutive. apply forallm_entry. intros e I. cbn [entry fst snd].
      apply (D e ("?", q)); auto. now apply sget_in'. }
  destruct (match option_map forget (sget "?" k2) with Some _ => _ | None => _ end); cbn [negb]; [reflexivity|].
  erewrite bind_at by (eapply load_ht_at; exact R2).
  erewrite bind_at.
  2:{ apply (forallm_entry _ (fun kc => if fst kc =? "?" then true
        else match sget (fst kc) (map (fun e => (fst e, forget (snd e))) k2) with Some c => c_disjoint_fuel f (snd kc) c | None => true end)).
      intros e I. cbn [entry fst snd]. destruct (fst e =? "?"); [reflexivity|]. erewrite bind_at by (eapply ht_get_at; exact T2).
      rewrite (sget_map _ _ forget). destruct (sget (fst e) k2) as [c|] eqn:G; cbn [option_map]; [|reflexivity].
      apply (D e (fst e, c)); auto. now apply sget_in'. }
  destruct (forallb _ _); cbn [negb]; [|reflexivity].
  erewrite bind_at by (eapply load_ht_at; exact Q2).
  apply forallm_entry. intros e I. cbn [entry fst snd]. destruct (fst e =? "?"); [reflexivity|].
  erewrite bind_at by (eapply ht_get_at; exact T1).
  rewrite (sget_map _ _ forget). destruct (sget (fst e) k1) as [c|] eqn:G; cbn [option_map]; [|reflexivity].
  apply (D (fst e, c) e); auto. now apply sget_in'.
Qed.

Lemma sub_disjoint_spec : forall t1 t2 s, tree s t1 -> tree s t2 -> full t1 -> full t2 ->
  subscription_isdisjoint (groot t1) (groot t2) s = Some (c_isdisjoint (forget t1) (forget t2), s).
Proof.
  intros t1 t2 s T1 T2 F1 F2. unfold subscription_isdisjoint, c_isdisjoint.
  assert (H : (gheight t1 <= s_next s)%nat).
  { etransitivity; [apply height_fp|]. apply NoDup_bound; [apply T1|]. intros x I. eapply tr_fp; [exact T1|exact I]. }
  rewrite disjoint_spec by auto. do 2 f_equal. apply disjoint_fuel; rewrite cheight_forget; lia.
Qed.
