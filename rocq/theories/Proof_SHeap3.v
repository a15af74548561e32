(** Proofs about the memory of the C subscription: [add_query_type] and the
    constructor. *)
From Coq Require Import String Bool Arith ZArith Lia List.
From Verif Require Import Base Model_Types Model_Subscription Model_SHeap Spec_SHeap Proof_Subscription Proof_SHeap Proof_SHeap2.
Import ListNotations.
Open Scope string_scope.
Open Scope list_scope.

Section Add.
  Variable ok : nat -> bool.

  Notation kf := (map (fun e => (fst e, forget (snd e)))).
  Lemma bind_assoc : forall A B C (m : M A) (f : A -> M B) (g : B -> M C) s,
    bind (bind m f) g s = bind m (fun x => bind (f x) g) s.
  Proof. intros. unfold bind. destruct (m s) as [[a s']|]; reflexivity. Qed.

  Definition fails : Prop := exists i, ok i = false.

  (** Only counters and memory may change. *)
  Definition objs_kept (s s' : sst) : Prop := s_objs s' = s_objs s /\ s_stars s' = s_stars s.

  Lemma table_step : forall s a l x tb ks, tree s (GT a l x tb ks) ->
    exists pb s', (match tb with
                   | Some b => ret (Some b)
                   | None => bind (ht_create ok) (fun pb => bind (store a (SNode l x pb)) (fun _ => ret pb))
                   end) s = Some (pb, s') /\ objs_kept s s' /\ changed s s' (GT a l x tb ks) (GT a l x pb ks) /\ (pb = None -> fails).
  Proof.
    intros s a l x tb ks T. assert (R := tr_rep _ _ T). apply rep_kids in R. destruct R as (R1 & R2 & R3). destruct tb as [b|].
    - exists (Some b), s. split; [reflexivity|]. split; [split; auto|]. split; [now apply changed_refl|discriminate].
    - subst ks. assert (La : (a < s_next s)%nat) by (eapply tr_fp; [exact T|now left]).
      unfold ht_create, alloc, bind at 1 2, may_fail. destruct (ok (s_tries s)) eqn:O.
      + cbn [s_next s_heap s_objs s_tries s_stars]. unfold bind, store. cbn [s_heap]. rewrite upd_other by lia. rewrite R1.
        eexists _, _. split; [reflexivity|]. split; [split; reflexivity|]. split; [|discriminate].
        apply changed_table; auto.
      + cbn [ret]. unfold bind, store. cbn [s_heap]. rewrite R1. eexists _, _. split; [reflexivity|]. split; [split; reflexivity|].
        split; [|intros _; exists (s_tries s); auto]. eapply changed_root; [exact T|reflexivity|reflexivity].
  Qed.

  Lemma child_step : forall s a l x b ks key, tree s (GT a l x (Some b) ks) ->
    exists pc s', (bind (ht_get b key) (fun pc =>
                   match pc with
                   | Some c => ret (Some c)
                   | None => bind (alloc ok (SNode false false None)) (fun pc =>
                       match pc with
                       | None => ret None
                       | Some c => bind (ht_set ok b key c) (fun fine => if (fine : bool) then ret (Some c) else bind (free c) (fun _ => ret None))
                       end)
                   end)) s = Some (pc, s') /\ objs_kept s s' /\
      match pc with
      | Some c => exists k1 tc k2, groot tc = c /\
          changed s s' (GT a l x (Some b) ks) (GT a l x (Some b) (k1 ++ (key, tc) :: k2)) /\
          forget tc = match sget key (kf ks) with Some c => c | None => CNode false false [] end /\
          (Forall (fun e => full (snd e)) ks -> Forall (fun e => full (snd e)) (k1 ++ (key, tc) :: k2)) /\
          forall tc', kf (k1 ++ (key, tc') :: k2) = sset key (forget tc') (kf ks)
      | None => changed s s' (GT a l x (Some b) ks) (GT a l x (Some b) ks) /\ fails
      end.
  Proof.
    intros s a l x b ks key T. assert (R := tr_rep _ _ T). apply rep_kids in R. destruct R as (R1 & R2 & R3).
    assert (Lb : (b < s_next s)%nat) by (apply T; congruence).
    erewrite bind_at by (unfold ht_get; erewrite bind_at by (eapply load_ht_at; exact R2); reflexivity).
    change (map entry ks) with (map (fun e => (fst e, groot (snd e))) ks) at 1. rewrite (sget_map _ _ groot).
    destruct (sget key ks) as [tc|] eqn:G; cbn [option_map].
    - exists (Some (groot tc)), s. split; [reflexivity|]. split; [split; auto|].
      destruct (sget_split _ _ _ _ G) as (k1 & k2 & -> & Q). exists k1, tc, k2. split; auto. split; [now apply changed_refl|]. split.
      + rewrite (sget_map _ _ forget), G. reflexivity.
      + split; auto. intros tc'. rewrite !map_app. cbn [map fst snd]. rewrite sset_split; [reflexivity|]. now rewrite (sget_map _ _ forget), Q.
    - unfold alloc, bind at 1 2, may_fail. destruct (ok (s_tries s)) eqn:O.
      2:{ eexists _, _. split; [reflexivity|]. split; [split; reflexivity|]. split; [|exists (s_tries s); auto].
          apply changed_rest; auto. }
      cbn [s_next s_heap s_objs s_tries s_stars].
      assert (E1 : upd (s_heap s) (s_next s) (Some (SNode false false None)) b = Some (SHt (map entry ks))) by (rewrite upd_other by lia; auto).
      unfold ht_set. unfold bind at 1 2. unfold load_ht. cbn [s_heap]. rewrite E1. unfold bind at 1, may_fail. cbn [s_tries].
      destruct (ok (S (s_tries s))) eqn:O'.
      + unfold bind at 1, store. cbn [s_heap s_next s_objs s_tries s_stars]. rewrite E1.
        eexists _, _. split; [reflexivity|]. split; [split; reflexivity|].
        exists ks, (GT (s_next s) false false None []), []. split; auto. split; [|split].
        * apply changed_new with (c := s_next s); auto. cbn [set_heap s_heap]. f_equal. f_equal. f_equal.
          apply sset_new. change (map entry ks) with (map (fun e => (fst e, groot (snd e))) ks). now rewrite (sget_map _ _ groot), G.
        * rewrite (sget_map _ _ forget), G. reflexivity.
        * split.
          { intros F. apply Forall_app. split; auto. constructor; [|constructor]. apply full_kids. split; [congruence|constructor]. }
          intros tc'. rewrite map_app. cbn [map fst snd]. rewrite sset_new; auto. now rewrite (sget_map _ _ forget), G.
      + cbn [ret]. unfold bind, free. cbn [s_heap]. rewrite upd_same. eexists _, _. split; [reflexivity|].
        split; [split; reflexivity|]. split; [|exists (S (s_tries s)); auto]. apply changed_gone; auto; [|cbn; lia].
        right. intros y. cbn [set_heap s_heap]. destruct (Nat.eq_dec y (s_next s)) as [->|N].
        * rewrite upd_same. destruct (s_heap s (s_next s)) eqn:Q; auto. assert (K : (s_next s < s_next s)%nat) by (apply T; congruence). lia.
        * now rewrite !upd_other by auto.
  Qed.

  (** The references that are lost. *)
  Fixpoint leak (n : cnode) (q : etype) (segs : list addr) : list addr :=
    let 'CNode _ star ch := n in
    if star then []
    else match q, segs with
         | k :: q', x :: segs' =>
             if c_is_star k then match q' with [] => [x] | _ => [] end
             else leak match sget k ch with Some c => c | None => CNode false false [] end q' segs'
         | _, _ => []
         end.

  Definition not_str (s : sst) (o : addr) : Prop := exists p, s_objs s o = Some p /\ forall t, o_kind p <> KStr t.

  Lemma text_shrinks : forall s s' o p, shrinks (s_objs s) (s_objs s') -> s_objs s' o = Some p -> text_of s' o = text_of s o.
  Proof.
    intros s s' o p H E. destruct (H o p E) as (p' & E' & K & _). unfold text_of. rewrite E, E'.
    destruct p as [k i r], p' as [k' i' r']. cbn in K. now subst k'.
  Qed.

  (** An object with the segments stays. *)
  Definition has_segs (s : sst) (ext : addr -> Z) (segs : list addr) : Prop :=
    exists q p, (1 <= ext q)%Z /\ s_objs s q = Some p /\ incl segs (o_items p).

  Lemma has_segs_keep : forall s s' ext ext' segs, has_segs s ext segs -> sacc s' ext' -> shrinks (s_objs s) (s_objs s') ->
    (forall x, ext x <= ext' x)%Z -> has_segs s' ext' segs.
  Proof.
    intros s s' ext ext' segs (q & p & P & E & I) A H L. exists q.
    destruct (acc_live _ _ _ q A) as (p' & E'); [specialize (L q); lia|].
    exists p'. split; [specialize (L q); lia|]. split; auto. destruct (H q p' E') as (p2 & E2 & _ & I2). rewrite E in E2. injection E2 as <-. now rewrite <- I2.
  Qed.
  Lemma has_segs_live : forall s ext segs x, has_segs s ext segs -> sacc s ext -> In x segs -> exists p, s_objs s x = Some p.
  Proof. intros s ext segs x (q & p & P & E & I) A J. destruct (a_item _ _ _ A _ _ _ E (I x J)) as (r & Er & _). eauto. Qed.
  Lemma texts_shrinks : forall s s' ext segs, has_segs s' ext segs -> sacc s' ext -> shrinks (s_objs s) (s_objs s') ->
    map (text_of s') segs = map (text_of s) segs.
  Proof.
    intros s s' ext segs H A S. apply map_ext_in. intros x I. destruct (has_segs_live _ _ _ _ H A I) as (p & E). eapply text_shrinks; eauto.
  Qed.

  Lemma shrinks_eq : forall ob ob' ob'' : objs, shrinks ob ob' -> ob'' = ob' -> shrinks ob ob''.
  Proof. intros. subst. auto. Qed.

  Lemma not_str_shrinks : forall s s' ext segs, has_segs s' ext segs -> sacc s' ext -> shrinks (s_objs s) (s_objs s') ->
    (exists x, In x segs /\ not_str s' x) -> exists x, In x segs /\ not_str s x.
  Proof.
    intros s s' ext segs H A S (x & I & p & E & N). exists x. split; auto. destruct (S x p E) as (p' & E' & K & _).
    exists p'. split; auto. intros t. rewrite K. auto.
  Qed.

  Lemma add_spec : forall segs t s ext, tree s t -> sacc s ext -> has_segs s ext segs ->
    exists r s' t', add_query_type ok (groot t) segs s = Some (r, s') /\ changed s s' t t' /\
      shrinks (s_objs s) (s_objs s') /\ s_stars s' = s_stars s /\
      sacc s' (fun x => ext x + if r then 0 else cntl x (leak (forget t) (map (text_of s) segs) segs))%Z /\
      (r = false -> c_add (forget t) (map (text_of s) segs) = Some (forget t') /\ (full t -> full t')) /\
      (r = true -> fails \/ (exists x, In x segs /\ not_str s x) \/ c_add (forget t) (map (text_of s) segs) = None).
  Proof.
    induction segs as [|sub segs IH]; intros [a l x tb ks] s ext T A HS; assert (R := tr_rep _ _ T); apply rep_kids in R;
      destruct R as (R1 & R2 & R3); cbn [groot add_query_type map];
      (erewrite bind_at by (eapply load_node_at; exact R1)); cbv beta iota; destruct x.
    - exists false, s, (GT a l true tb ks). split; [reflexivity|]. split; [now apply changed_refl|]. split; [apply shrinks_refl|].
      split; auto. split; [eapply sacc_eq; [exact A|]; intros y; cbn; lia|]. split; [split; auto|discriminate].
    - erewrite bind_at by (eapply store_at; exact R1). eexists false, _, (GT a true false tb ks). split; [reflexivity|].
      split; [eapply changed_root; [exact T|reflexivity|reflexivity]|]. split; [apply shrinks_refl|]. split; auto.
      split; [eapply sacc_eq; [exact A|]; intros y; cbn; lia|]. split; [split; auto|discriminate].
    - exists false, s, (GT a l true tb ks). split; [reflexivity|]. split; [now apply changed_refl|]. split; [apply shrinks_refl|].
      split; auto. split; [eapply sacc_eq; [exact A|]; intros y; cbn; lia|]. split; [split; auto|discriminate].
    - destruct (has_segs_live _ _ _ sub HS A (or_introl eq_refl)) as (psub & Esub).
      destruct (incref_spec s ext sub psub A Esub) as (s1 & E1 & (Q1 & Q2 & Q3 & Q4) & H1 & A1).
      erewrite bind_at by exact E1.
      assert (P1 : (1 <= ext sub + one sub sub)%Z). { rewrite one_same. assert (Z := a_ext _ _ _ A sub). lia. }
      destruct (acc_live _ _ _ sub A1 P1) as (p1 & Ep1).
      destruct (H1 _ _ Ep1) as (p1' & Ep1' & K1 & _). rewrite Esub in Ep1'. injection Ep1' as <-.
      unfold kind_of. erewrite bind_at by (unfold bind, load_obj; rewrite Ep1; reflexivity).
      (* giving up *)
      assert (FAIL : forall s2 t2, objs_kept s1 s2 -> changed s s2 (GT a l false tb ks) t2 ->
        (fails \/ (exists x, In x (sub :: segs) /\ not_str s x) \/
         c_add (forget (GT a l false tb ks)) (text_of s sub :: map (text_of s) segs) = None) ->
        exists r s' t', bind (decref sub) (fun _ => ret true) s2 = Some (r, s') /\ changed s s' (GT a l false tb ks) t' /\
          shrinks (s_objs s) (s_objs s') /\ s_stars s' = s_stars s /\
          sacc s' (fun x => ext x + if r then 0 else cntl x (leak (forget (GT a l false tb ks)) (text_of s sub :: map (text_of s) segs) (sub :: segs)))%Z /\
          (r = false -> c_add (forget (GT a l false tb ks)) (text_of s sub :: map (text_of s) segs) = Some (forget t') /\
             (full (GT a l false tb ks) -> full t')) /\
          (r = true -> fails \/ (exists x, In x (sub :: segs) /\ not_str s x) \/
             c_add (forget (GT a l false tb ks)) (text_of s sub :: map (text_of s) segs) = None)).
      { intros s2 t2 (O1 & O2) C F.
        assert (L2 : (s_next s <= s_next s2)%nat) by apply C.
        assert (A2 : sacc s2 (fun x => ext x + one sub x)%Z) by (eapply sacc_next; [exact A1|exact O1|lia]).
        destruct (decref_ok sub s2 _ A2 P1) as (s3 & E3 & (Z1 & Z2 & Z3 & Z4) & H3 & A3).
        unfold bind. rewrite E3. exists true, s3, t2. split; [reflexivity|].
        split; [eapply changed_trans; [exact C|]; apply changed_rest; [apply C|auto|lia]|].
        split; [rewrite O1 in H3; eapply shrinks_trans; eauto|]. split; [congruence|]. split; [|split; [discriminate|auto]].
        eapply sacc_eq; [exact A3|]. intros y. cbn beta iota. lia. }
      assert (T1 : tree s1 (GT a l false tb ks)) by (eapply tree_rest; [exact T|auto|lia]).
      assert (C1 : changed s s1 (GT a l false tb ks) (GT a l false tb ks)) by (apply changed_rest; auto; lia).
      destruct (o_kind p1) as [key| | | |] eqn:Kp;
        try (eapply (FAIL s1); [split; auto|exact C1|]; right; left; exists sub; split; [now left|]; exists psub; split; [auto|];
             intros t0; rewrite K1; discriminate).
      assert (TX : text_of s sub = key). { unfold text_of. rewrite Esub. destruct psub as [kk ii rr]. cbn in K1. now subst kk. }
      rewrite TX in *. unfold bind at 1, may_fail.
      set (s2 := Sst (s_heap s1) (s_objs s1) (s_next s1) (S (s_tries s1)) (s_stars s1)).
      assert (T2 : tree s2 (GT a l false tb ks)) by (eapply tree_rest; [exact T1|auto|cbn; lia]).
      assert (C2 : changed s s2 (GT a l false tb ks) (GT a l false tb ks)).
      { eapply changed_trans; [exact C1|]. apply changed_rest; auto. }
      assert (A2 : sacc s2 (fun x => ext x + one sub x)%Z) by (eapply sacc_next; [exact A1|auto|cbn; lia]).
      destruct (ok (s_tries s1)) eqn:O1; [|eapply (FAIL s2); [split; auto|exact C2|left; exists (s_tries s1); auto]].
      destruct (c_is_star key) eqn:ST.
      + destruct segs as [|next segs].
        * assert (E2a : s_heap s2 a = Some (SNode l false tb)) by (cbn [s2 s_heap]; now rewrite Q1).
          erewrite bind_at by (eapply store_at; exact E2a). set (s3 := set_heap _ s2).
          assert (C3 : changed s2 s3 (GT a l false tb ks) (GT a true true tb ks)) by (eapply changed_root; [exact T2|reflexivity|reflexivity]).
          assert (T3 : tree s3 (GT a true true tb ks)) by apply C3.
          destruct (free_all_spec _ _ T3) as (s4 & E4 & (Z1 & Z2 & Z3 & Z4) & (l4 & x4 & F41 & F42) & D4 & F4).
          erewrite bind_at by exact E4. exists false, s4, (GT a true true None []). split; [reflexivity|]. split.
          { eapply changed_trans; [exact C2|]. eapply changed_trans; [exact C3|]. apply changed_freed; auto.
            cbn [groot] in F41, F42. assert (X : s_heap s3 a = Some (SNode true true tb)) by (cbn [s3 set_heap s_heap]; apply upd_same).
            rewrite X in F41. injection F41 as <- <-. exact F42. }
          split; [rewrite Z1; exact H1|]. split; [rewrite Z4; cbn; congruence|]. split.
          { eapply sacc_next; [|exact Z1|lia]. eapply sacc_eq; [exact A2|]. intros y. cbn [leak forget map]. rewrite ST.
            rewrite cntl_cons. cbn [cntl]. unfold one. lia. }
          split; [|discriminate]. intros _. cbn [c_add forget map]. rewrite ST. split; auto. intros _. apply full_kids. split; [congruence|constructor].
        * destruct (has_segs_live _ _ _ next HS A (or_intror (or_introl eq_refl))) as (pn & En).
          assert (A2' := A2).
          assert (LN : exists pn', s_objs s2 next = Some pn').
          { assert (HS2 : has_segs s2 (fun x => ext x + one sub x)%Z (sub :: next :: segs)).
            { eapply has_segs_keep; [exact HS|exact A2|exact H1|]. intros y. assert (Z := one_pos sub y). lia. }
            eapply has_segs_live; [exact HS2|exact A2|]. right. now left. }
          destruct LN as (pn' & En').
          destruct (incref_spec s2 _ next pn' A2 En') as (s3 & E3 & (Y1 & Y2 & Y3 & Y4) & H3 & A3).
          erewrite bind_at by exact E3.
          destruct (decref_ok next s3 _ A3) as (s4 & E4 & (Z1 & Z2 & Z3 & Z4) & H4 & A4).
          { cbn beta. rewrite one_same. assert (Z := a_ext _ _ _ A2 next). cbn beta in Z. lia. }
          erewrite bind_at by exact E4.
          destruct (decref_ok sub s4 _ A4) as (s5 & E5 & (X1 & X2 & X3 & X4) & H5 & A5).
          { cbn beta. lia. }
          erewrite bind_at by exact E5. exists true, s5, (GT a l false tb ks). split; [reflexivity|].
          split; [apply changed_rest; auto; [cbn in *; congruence|cbn in *; lia]|].
          split; [eapply shrinks_trans; [exact H1|]; eapply shrinks_trans; [exact H3|]; eapply shrinks_trans; eauto|].
          split; [cbn in *; congruence|]. split; [eapply sacc_eq; [exact A5|]; intros y; cbn beta iota; lia|].
          split; [discriminate|]. intros _. right. right. cbn [c_add forget map]. now rewrite ST.
      + destruct (table_step s2 a l false tb ks T2) as (pb & s3 & E3 & (O3 & O3') & C3 & F3).
        erewrite bind_at by exact E3. destruct pb as [b|].
        2:{ eapply (FAIL s3); [split; auto|eapply changed_trans; [exact C2|exact C3]|left; auto]. }
        assert (T3 : tree s3 (GT a l false (Some b) ks)) by apply C3.
        destruct (child_step s3 a l false b ks key T3) as (pc & s4 & E4 & (O4 & O4') & F4).
        match goal with |- context [bind (ht_get b key) (fun pc => bind (@?F pc) ?G) s3] =>
          rewrite <- (bind_assoc _ _ _ (ht_get b key) F G s3) end.
        erewrite bind_at by exact E4. clear E4.
 destruct pc as [c|].
        2:{ destruct F4 as (C4 & F4). apply (FAIL s4 (GT a l false (Some b) ks)); [split; [cbn in *; congruence|cbn in *; congruence]| |left; auto].
            eapply changed_trans; [exact C2|]. eapply changed_trans; eauto. }
        destruct F4 as (k1 & tc & k2 & <- & C4 & Ftc & Ffl & Fks).
        set (t4 := GT a l false (Some b) (k1 ++ (key, tc) :: k2)) in *.
        assert (T4 : tree s4 t4) by apply C4.
        assert (C04 : changed s s4 (GT a l false tb ks) t4).
        { eapply changed_trans; [exact C2|]. eapply changed_trans; eauto. }
        assert (O14 : s_objs s4 = s_objs s1) by (cbn in *; congruence).
        assert (A4 : sacc s4 (fun x => ext x + one sub x)%Z).
        { eapply sacc_next; [exact A1|exact O14|]. assert (s_next s3 <= s_next s4)%nat by apply C4. assert (s_next s2 <= s_next s3)%nat by apply C3. cbn in *. lia. }
        destruct (decref_ok sub s4 _ A4 P1) as (s5 & E5 & (Z1 & Z2 & Z3 & Z4) & H5 & A5).
        erewrite bind_at by exact E5.
        assert (A5' : sacc s5 ext) by (eapply sacc_eq; [exact A5|]; intros y; cbn beta; lia).
        assert (H05 : shrinks (s_objs s) (s_objs s5)) by (rewrite O14 in H5; eapply shrinks_trans; eauto).
        assert (HS5 : has_segs s5 ext segs).
        { apply (has_segs_keep s s5 ext ext); [|exact A5'|exact H05|intros; lia]. destruct HS as (q & p & P & Eq & I). exists q, p.
          split; auto. split; auto. intros y J. apply I. now right. }
        assert (T5 : tree s5 tc).
        { assert (T5' : tree s5 t4) by (eapply tree_rest; [exact T4|auto|lia]). destruct T5' as [R5 N5 L5]. constructor; auto.
          - apply rep_kids in R5. destruct R5 as (_ & _ & R5). rewrite Forall_forall in R5. apply (R5 (key, tc)). apply in_app_iff. right. now left.
          - unfold t4 in N5. cbn [fp] in N5. rewrite flat_map_app in N5. cbn [flat_map snd] in N5.
            change (NoDup ((a :: tbll (Some b)) ++ (flat_map (fun e => fp (snd e)) k1 ++ fp tc ++ flat_map (fun e => fp (snd e)) k2))) in N5.
            apply NoDup_app_r, NoDup_app_r, NoDup_app_l in N5. exact N5. }
        destruct (IH tc s5 ext T5 A5' HS5) as (r & s6 & tc' & E6 & C6 & H6 & G6 & A6 & Y6 & N6).
        rewrite E6. exists r, s6, (GT a l false (Some b) (k1 ++ (key, tc') :: k2)). split; [reflexivity|].
        assert (TXS : map (text_of s5) segs = map (text_of s) segs) by (eapply texts_shrinks; [exact HS5|exact A5'|exact H05]).
        rewrite TXS in *.
        split.
        { eapply changed_trans; [exact C04|]. eapply changed_trans; [|apply changed_kid; [|exact C6]].
          - apply changed_rest; auto. lia.
          - eapply tree_rest; [exact T4|auto|lia]. }
        split; [eapply shrinks_trans; eauto|]. split; [cbn in *; congruence|]. split; [|split].
        * eapply sacc_eq; [exact A6|]. intros y. cbn beta. destruct r; auto. cbn [leak forget map]. rewrite ST, Ftc. reflexivity.
        * intros Er. destruct (Y6 Er) as (Y7 & Y8). cbn [c_add forget map]. rewrite ST, <- Ftc, Y7. split; [f_equal; now rewrite Fks|].
          intros Fu. apply full_kids in Fu. destruct Fu as (_ & Fu). specialize (Ffl Fu). apply full_kids.
          split; [intros _ Q; destruct k1; discriminate Q|]. apply Forall_app in Ffl. destruct Ffl as (U1 & U2). inversion U2; subst.
          apply Forall_app. split; auto.
        * intros Er. destruct (N6 Er) as [F|[F|F]]; auto.
          -- right. left. destruct (not_str_shrinks _ _ _ _ HS5 A5' H05 F) as (y & I & N). exists y. split; [now right|auto].
          -- right. right. cbn [c_add forget map]. rewrite ST, <- Ftc, F. reflexivity.
  Qed.
End Add.
