From Coq Require Import String Ascii Bool Arith Lia List.
From Verif Require Import Base Model_Types Model_Subscription Spec_Subscription.
Import ListNotations.
Open Scope string_scope.
Open Scope list_scope.

#[global] Arguments dmem : simpl never.

Lemma seqb_spec : forall a b, String.eqb a b = true <-> a = b.
Proof. exact String.eqb_eq. Qed.

Lemma seqb_refl : forall a, String.eqb a a = true.
Proof. exact String.eqb_refl. Qed.

(** * Induction principle for nodes *)
Section NodeInd.
  Variable P : node -> Prop.
  Hypothesis H : forall l ch, Forall (fun kc => P (snd kc)) ch -> P (Node l ch).
  Fixpoint node_ind' (n : node) : P n :=
    match n with
    | Node l ch =>
        H l ch ((fix go (ch : list (string * node)) : Forall (fun kc => P (snd kc)) ch :=
                   match ch with
                   | [] => Forall_nil _
                   | kc :: ch' => Forall_cons kc (node_ind' (snd kc)) (go ch')
                   end) ch)
    end.
End NodeInd.

(** * Query matching *)

Lemma qlast_spec : forall q : etype,
    match rev q with s :: _ => s =? "*" | [] => false end = true <->
    exists p, q = p ++ ["*"].
Proof.
  intros q. destruct (rev q) as [|s r] eqn:E.
  - split; [discriminate|]. intros [p ->]. rewrite rev_app_distr in E. discriminate.
  - rewrite seqb_spec. split.
    + intros ->. exists (rev r). rewrite <- (rev_involutive q), E. reflexivity.
    + intros [p ->]. rewrite rev_app_distr in E. now inversion E.
Qed.

Definition is_var (q : etype) : bool :=
  match rev q with s :: _ => s =? "*" | [] => false end.

Lemma is_var_cons : forall h q, q <> [] -> is_var (h :: q) = is_var q.
Proof.
  intros h q Hq. unfold is_var. cbn. destruct (rev q) eqn:E; auto.
  apply (f_equal (@rev _)) in E. rewrite rev_involutive in E. contradiction.
Qed.

Lemma mqt_nil : forall t, matches_query_type t [] = match t with [] => true | _ => false end.
Proof. destruct t; reflexivity. Qed.

Lemma mqt_star : forall t, matches_query_type t ["*"] = true.
Proof.
  intros. unfold matches_query_type. cbn. rewrite andb_false_r.
  destruct t; reflexivity.
Qed.

Lemma mqt_cons_nil : forall h q, (h = "*" -> q <> []) -> matches_query_type [] (h :: q) = false.
Proof.
  intros h q Hh. unfold matches_query_type.
  fold (is_var (h :: q)).
  destruct q as [|h' q].
  - unfold is_var. cbn. destruct (h =? "*") eqn:E; auto.
    apply seqb_spec in E. now apply Hh in E.
  - destruct (is_var (h :: h' :: q)); cbn [removelast]; reflexivity.
Qed.

Lemma mqt_cons : forall s t h q, (h = "*" -> q <> []) ->
    matches_query_type (s :: t) (h :: q) =
    ((h =? "?") || (s =? h)) && matches_query_type t q.
Proof.
  intros s t h q Hh. unfold matches_query_type.
  fold (is_var (h :: q)) (is_var q).
  assert (Hz : forall q', (if Nat.ltb (length (s :: t)) (length (h :: q')) then false
               else if Nat.ltb (length (h :: q')) (length (s :: t)) && negb (is_var (h :: q)) then false
               else zip_matches (s :: t) (h :: q')) =
           ((h =? "?") || (s =? h)) &&
           (if Nat.ltb (length t) (length q') then false
               else if Nat.ltb (length q') (length t) && negb (is_var (h :: q)) then false
               else zip_matches t q')).
  { intros q'. cbn [length].
    replace (Nat.ltb (S (length t)) (S (length q'))) with (Nat.ltb (length t) (length q')) by reflexivity.
    replace (Nat.ltb (S (length q')) (S (length t))) with (Nat.ltb (length q') (length t)) by reflexivity.
    destruct (Nat.ltb (length t) (length q')); [now rewrite andb_false_r|].
    destruct (Nat.ltb (length q') (length t) && negb (is_var (h :: q))); [now rewrite andb_false_r|].
    cbn [zip_matches].
    destruct (h =? "?"); cbn; auto. destruct (s =? h); cbn; auto. }
  destruct q as [|h' q].
  - assert (is_var [h] = false) as Hv.
    { unfold is_var; cbn. destruct (h =? "*") eqn:E; auto.
      apply seqb_spec in E. now apply Hh in E. }
    specialize (Hz []). rewrite Hv in *. exact Hz.
  - rewrite is_var_cons in * by discriminate.
    destruct (is_var (h' :: q)) eqn:E.
    + replace (removelast (h :: h' :: q)) with (h :: removelast (h' :: q)) by reflexivity.
      apply Hz.
    + apply Hz.
Qed.

Lemma valid_nil : valid_query [].
Proof. intros [|] r H; discriminate. Qed.

Lemma valid_cons : forall h q, valid_query (h :: q) <-> (h = "*" -> q = []) /\ valid_query q.
Proof.
  intros h q. split.
  - intros H. split.
    + intros ->. apply (H [] q). reflexivity.
    + intros p r ->. apply (H (h :: p) r). reflexivity.
  - intros [H1 H2] p r E. destruct p as [|x p]; cbn in E.
    + inversion E; subst. auto.
    + inversion E; subst. eapply H2; eauto.
Qed.

Fixpoint validb (q : etype) : bool :=
  match q with
  | [] => true
  | h :: r => (if h =? "*" then match r with [] => true | _ => false end else true) && validb r
  end.

Lemma validb_spec : forall q, validb q = true <-> valid_query q.
Proof.
  induction q as [|h q IH].
  - split; auto using valid_nil.
  - rewrite valid_cons. cbn. rewrite andb_true_iff, IH.
    destruct (h =? "*") eqn:E.
    + apply seqb_spec in E. destruct q; intuition; try discriminate.
    + apply String.eqb_neq in E. intuition.
Qed.

Lemma mqt_qmatch : forall q t, valid_query q -> (matches_query_type t q = true <-> qmatch q t).
Proof.
  induction q as [|h q IH]; intros t Hv.
  - rewrite mqt_nil. destruct t; split; intros; try discriminate; try constructor; inversion H.
  - apply valid_cons in Hv as [Hs Hv].
    destruct (String.eqb h "*") eqn:E.
    + apply seqb_spec in E. rewrite (Hs E), E, mqt_star. split; auto using qm_rest.
    + apply String.eqb_neq in E.
      destruct t as [|s t].
      * rewrite mqt_cons_nil by easy. split; [discriminate|]. intros H; inversion H; subst; easy.
      * rewrite mqt_cons by easy. rewrite andb_true_iff, orb_true_iff, !seqb_spec, IH by auto.
        split.
        -- intros [[->| ->] H]; constructor; auto.
        -- intros H. inversion H; subst; auto. easy.
Qed.

(** * Construction of nodes *)

Lemma smem_sset : forall k k' (v : node) d, k <> k' -> smem k (sset k' v d) = smem k d.
Proof.
  intros. unfold dmem. rewrite dget_dset_other; auto using seqb_spec.
Qed.

Lemma smem_false : forall (V : Type) k (d : list (string * V)), smem k d = false -> sget k d = None.
Proof. unfold dmem. intros. destruct (sget k d); congruence. Qed.

Lemma add_matches : forall q n n', add_query_type n q = Some n' ->
    forall t, node_matches n' t = node_matches n t || (validb q && matches_query_type t q).
Proof.
  induction q as [|h q IH]; intros [l ch] n' H t.
  - cbn in H. destruct (smem "*" ch) eqn:Es; inversion H; subst; clear H.
    + destruct t; cbn; rewrite Es; reflexivity.
    + rewrite mqt_nil. destruct t; cbn; rewrite Es; cbn; [now rewrite orb_true_r|].
      now rewrite orb_false_r.
  - cbn [add_query_type] in H. destruct (smem "*" ch) eqn:Es.
    { inversion H; subst; clear H. destruct t; cbn [node_matches]; rewrite Es; reflexivity. }
    destruct (h =? "*") eqn:Eh.
    + apply seqb_spec in Eh. subst h. destruct q; [|discriminate].
      inversion H; subst; clear H.
      rewrite mqt_star. cbn [validb]. rewrite seqb_refl, orb_true_r.
      destruct t; reflexivity.
    + pose proof Eh as Eh'. apply String.eqb_neq in Eh'.
      destruct (add_query_type (match sget h ch with Some c => c | None => Node false [] end) q)
        as [c|] eqn:Ec; [|discriminate].
      inversion H; subst; clear H.
      specialize (IH _ _ Ec).
      assert (Hm : smem "*" (sset h c ch) = false) by (rewrite smem_sset; auto).
      cbn [validb]. rewrite Eh. cbn [andb].
      destruct t as [|s t]; cbn [node_matches]; rewrite Hm, Es.
      { rewrite mqt_cons_nil by easy. now rewrite andb_false_r, orb_false_r. }
      rewrite mqt_cons by easy.
      assert (Hc : node_matches c t =
              (match sget h ch with Some c => node_matches c t | None => false end)
              || (validb q && matches_query_type t q)).
      { rewrite IH. destruct (sget h ch); auto. destruct t; reflexivity. }
      destruct (String.eqb s h) eqn:Esh; destruct (String.eqb h "?") eqn:Ehq.
      * apply seqb_spec in Esh, Ehq. subst.
        rewrite !dget_dset_same by apply seqb_spec. rewrite Hc.
        destruct (sget "?" ch) as [x|]; cbn.
        -- destruct (node_matches x t); cbn; auto. destruct (validb q && matches_query_type t q); auto.
        -- destruct (validb q && matches_query_type t q); auto.
      * apply seqb_spec in Esh. apply String.eqb_neq in Ehq. subst.
        rewrite dget_dset_same by apply seqb_spec.
        rewrite dget_dset_other by (auto using seqb_spec).
        rewrite Hc. cbn [orb andb].
        destruct (sget h ch) as [x|]; destruct (sget "?" ch) as [y|]; cbn;
          try destruct (node_matches x t); try destruct (node_matches y t); cbn; rewrite ?orb_true_r, ?orb_false_r; auto;
          destruct (validb q && matches_query_type t q); auto.
      * apply seqb_spec in Ehq. apply String.eqb_neq in Esh. subst.
        rewrite dget_dset_same by apply seqb_spec.
        rewrite (dget_dset_other seqb_spec) by auto.
        rewrite Hc. cbn [orb andb].
        destruct (sget s ch) as [x|]; destruct (sget "?" ch) as [y|]; cbn;
          try destruct (node_matches x t); try destruct (node_matches y t); cbn; rewrite ?orb_true_r, ?orb_false_r; auto;
          destruct (validb q && matches_query_type t q); auto.
      * apply String.eqb_neq in Ehq, Esh.
        rewrite !(dget_dset_other seqb_spec) by auto.
        cbn [orb andb]. now rewrite andb_false_r, orb_false_r.
Qed.

Lemma add_valid : forall q n, valid_query q -> exists n', add_query_type n q = Some n'.
Proof.
  induction q as [|h q IH]; intros [l ch] Hv; cbn [add_query_type].
  - destruct (smem "*" ch); eauto.
  - destruct (smem "*" ch); eauto. apply valid_cons in Hv as [Hs Hv].
    destruct (h =? "*") eqn:E.
    + apply seqb_spec in E. rewrite (Hs E). eauto.
    + destruct (IH (match sget h ch with Some c => c | None => Node false [] end) Hv) as [c ->].
      eauto.
Qed.

Lemma adds_matches : forall qs n n', add_query_types n qs = Some n' ->
    forall t, node_matches n' t =
              node_matches n t || existsb (fun q => validb q && matches_query_type t q) qs.
Proof.
  induction qs as [|q qs IH]; cbn; intros n n' H t.
  - inversion H; subst. now rewrite orb_false_r.
  - destruct (add_query_type n q) eqn:E; [|discriminate].
    rewrite (IH _ _ H), (add_matches _ _ _ E). now rewrite orb_assoc.
Qed.

Lemma adds_valid : forall qs n, Forall valid_query qs -> exists n', add_query_types n qs = Some n'.
Proof.
  induction qs as [|q qs IH]; cbn; intros n H; eauto.
  inversion H; subst. destruct (add_valid q n) as [n' ->]; auto.
Qed.

Lemma nomatch_empty : forall t, node_matches (Node false []) t = false.
Proof. destruct t; reflexivity. Qed.

Lemma existsb_selects : forall qs t,
    existsb (fun q => validb q && matches_query_type t q) qs = true <-> selects qs t.
Proof.
  intros. rewrite existsb_exists. unfold selects. split; intros [q [Hin H]].
  - apply andb_true_iff in H as [Hv Hm]. apply validb_spec in Hv.
    exists q. rewrite <- mqt_qmatch; auto.
  - destruct H as [Hv Hm]. exists q. rewrite andb_true_iff, validb_spec, mqt_qmatch; auto.
Qed.

Lemma create_matches : forall qs n, py_create qs = Some n ->
    forall t, node_matches n t = true <-> selects qs t.
Proof.
  intros qs n H t. unfold py_create, node_from_query_types in H.
  rewrite (adds_matches _ _ _ H), nomatch_empty. cbn. apply existsb_selects.
Qed.

Lemma create_valid : forall qs, Forall valid_query qs -> exists n, py_create qs = Some n.
Proof. intros. apply adds_valid; auto. Qed.

(** * Well formed trees *)

(** Keys are distinct and '*' stands alone. *)
Inductive wf : node -> Prop :=
| wf_star : forall l, wf (Node l [("*", Node true [])])
| wf_node : forall l ch, NoDup (keys ch) -> ~ In "*" (keys ch) ->
                         (forall k c, In (k, c) ch -> wf c) -> wf (Node l ch).

Lemma wf_empty : forall l, wf (Node l []).
Proof. intros. apply wf_node; cbn; auto; try constructor; easy. Qed.

Lemma smem_In : forall (V : Type) k (d : list (string * V)), smem k d = true <-> In k (keys d).
Proof. intros. apply dmem_In. exact seqb_spec. Qed.

Lemma smem_not_In : forall (V : Type) k (d : list (string * V)), smem k d = false <-> ~ In k (keys d).
Proof. intros. rewrite <- smem_In. destruct (smem k d); intuition discriminate. Qed.

Lemma wf_inv : forall l ch, wf (Node l ch) ->
    (ch = [("*", Node true [])]) \/
    (smem "*" ch = false /\ NoDup (keys ch) /\ forall k c, In (k, c) ch -> wf c).
Proof.
  intros l ch H. inversion H; subst; auto. right. rewrite smem_not_In. auto.
Qed.

Lemma wf_sset : forall l ch k c, wf (Node l ch) -> smem "*" ch = false -> k <> "*" -> wf c ->
    wf (Node l (sset k c ch)).
Proof.
  intros l ch k c Hw Hs Hk Hc. destruct (wf_inv _ _ Hw) as [->|(_ & Hnd & Hch)]; [discriminate|].
  apply wf_node.
  - apply NoDup_dset; auto using seqb_spec.
  - rewrite <- smem_not_In, smem_sset; auto.
  - intros k' c' Hin. apply (In_dset seqb_spec) in Hin as [[-> ->]|[_ Hin]]; eauto.
Qed.

Lemma sget_wf : forall l ch k c, wf (Node l ch) -> sget k ch = Some c -> wf c.
Proof.
  intros l ch k c Hw Hg. apply (dget_In seqb_spec) in Hg.
  destruct (wf_inv _ _ Hw) as [->|(_ & Hnd & Hch)]; eauto.
  destruct Hg as [[= <- <-]|[]]. apply wf_empty.
Qed.

Lemma wf_leaf : forall l l' ch, wf (Node l ch) -> wf (Node l' ch).
Proof. intros l l' ch H. inversion H; subst; [apply wf_star|apply wf_node; auto]. Qed.

Lemma add_wf : forall q n n', wf n -> add_query_type n q = Some n' -> wf n'.
Proof.
  induction q as [|h q IH]; intros [l ch] n' Hw H; cbn in H.
  - destruct (smem "*" ch); inversion H; subst; auto. eapply wf_leaf; eauto.
  - destruct (smem "*" ch) eqn:Es; [inversion H; subst; auto|].
    destruct (h =? "*") eqn:E.
    + destruct q; inversion H; subst. apply wf_star.
    + destruct (add_query_type _ q) as [c|] eqn:Ec; inversion H; subst.
      apply wf_sset; auto.
      * now apply String.eqb_neq.
      * eapply IH; [|exact Ec]. destruct (sget h ch) eqn:Eg; [eapply sget_wf; eauto|apply wf_empty].
Qed.

Lemma adds_wf : forall qs n n', wf n -> add_query_types n qs = Some n' -> wf n'.
Proof.
  induction qs as [|q qs IH]; cbn; intros n n' Hw H; [inversion H; subst; auto|].
  destruct (add_query_type n q) eqn:E; [|discriminate]. eapply IH; [|eauto].
  eapply add_wf; eauto.
Qed.

Lemma create_wf : forall qs n, py_create qs = Some n -> wf n.
Proof. intros. eapply adds_wf; [apply wf_empty|eauto]. Qed.

(** * Denotation by children lists *)

(** Matching through a list of children. *)
Definition kmatch (h : string) (t : etype) (kc : string * node) : bool :=
  ((fst kc =? "?") || (h =? fst kc)) && node_matches (snd kc) t.

Lemma matches_existsb : forall l ch h t, NoDup (keys ch) -> smem "*" ch = false ->
    node_matches (Node l ch) (h :: t) = existsb (kmatch h t) ch.
Proof.
  intros l ch h t Hnd Hs. cbn [node_matches]. rewrite Hs.
  apply eq_true_iff_eq. rewrite existsb_exists. split.
  - destruct (sget h ch) as [c|] eqn:Eh.
    + destruct (node_matches c t) eqn:Ec.
      * intros _. exists (h, c). split; [now apply (dget_In seqb_spec)|].
        unfold kmatch; cbn. now rewrite seqb_refl, orb_true_r, Ec.
      * destruct (sget "?" ch) as [d|] eqn:Eq; [|discriminate].
        intros Hd. exists ("?", d). split; [now apply (dget_In seqb_spec)|].
        unfold kmatch; cbn. exact Hd.
    + destruct (sget "?" ch) as [d|] eqn:Eq; [|discriminate].
      intros Hd. exists ("?", d). split; [now apply (dget_In seqb_spec)|].
      unfold kmatch; cbn. exact Hd.
  - intros [[k c] [Hin H]]. unfold kmatch in H; cbn in H.
    apply andb_true_iff in H as [Hk Hc]. apply (In_dget seqb_spec) in Hin; auto.
    apply orb_true_iff in Hk as [Hk|Hk]; apply seqb_spec in Hk; subst.
    + rewrite Hin, Hc. destruct (sget h ch) as [c'|]; auto. destruct (node_matches c' t); auto.
    + now rewrite Hin, Hc.
Qed.

Lemma matches_nil : forall l ch, node_matches (Node l ch) [] = (smem "*" ch || l).
Proof. intros. cbn. destruct (smem "*" ch); auto. Qed.

(** * Listing query types *)

Lemma to_qts_matches : forall n, wf n -> forall t,
    node_matches n t = existsb (matches_query_type t) (node_to_query_types n).
Proof.
  induction n as [l ch IH] using node_ind'. intros Hw t.
  destruct (wf_inv _ _ Hw) as [->|(Hs & Hnd & Hch)].
  - cbn [node_to_query_types]. replace (smem "*" [("*", Node true [])]) with true by reflexivity.
    rewrite andb_false_r. cbn [app flat_map fst snd node_to_query_types andb negb].
    replace (smem "*" (@nil (string * node))) with false by reflexivity.
    cbn [negb app map existsb]. rewrite mqt_star. destruct t; reflexivity.
  - cbn [node_to_query_types]. rewrite Hs, existsb_app, existsb_flat_map. cbn [negb].
    rewrite andb_true_r.
    destruct t as [|h t].
    + rewrite matches_nil, Hs. cbn [orb].
      match goal with |- context[existsb ?f ch] => assert (existsb f ch = false) as -> end.
      { apply not_true_is_false. intros H. apply existsb_exists in H as [[k c] [Hin H]].
        apply existsb_exists in H as [q [Hq H]]. apply in_map_iff in Hq as [q' [<- Hq]].
        cbn in H. rewrite mqt_cons_nil in H; [discriminate|].
        intros ->. exfalso. apply smem_not_In in Hs. apply Hs. apply in_map_iff. now exists ("*", c). }
      rewrite orb_false_r. destruct l; reflexivity.
    + rewrite matches_existsb by auto.
      match goal with |- _ = ?a || _ => replace a with false by (destruct l; reflexivity) end.
      cbn [orb]. apply existsb_ext_in. intros [k c] Hin. unfold kmatch; cbn [fst snd].
      rewrite existsb_map.
      assert (Hk : k <> "*").
      { intros ->. apply smem_not_In in Hs. apply Hs. apply in_map_iff. now exists ("*", c). }
      rewrite (existsb_ext_in _ _ (fun q => ((k =? "?") || (h =? k)) && matches_query_type t q))
        by (intros q _; apply mqt_cons; easy).
      rewrite Forall_forall in IH. rewrite (IH _ Hin (Hch _ _ Hin)). cbn [snd].
      destruct ((k =? "?") || (h =? k)); cbn; auto.
      clear. induction (node_to_query_types c); auto.
Qed.

Lemma to_qts_valid : forall n, wf n -> Forall valid_query (node_to_query_types n).
Proof.
  induction n as [l ch IH] using node_ind'. intros Hw.
  destruct (wf_inv _ _ Hw) as [->|(Hs & Hnd & Hch)].
  - replace (node_to_query_types (Node l [("*", Node true [])])) with [["*"]] by (destruct l; reflexivity).
    constructor; auto. apply valid_cons. split; auto using valid_nil.
  - cbn [node_to_query_types]. apply Forall_app. split.
    + destruct (l && negb (smem "*" ch)); repeat constructor. apply valid_nil.
    + apply Forall_forall. intros q Hq. apply in_flat_map in Hq as [[k c] [Hin Hq]].
      apply in_map_iff in Hq as [q' [<- Hq]]. cbn in *.
      rewrite Forall_forall in IH. specialize (IH _ Hin (Hch _ _ Hin)).
      rewrite Forall_forall in IH. apply valid_cons. split; auto.
      intros ->. exfalso. apply smem_not_In in Hs. apply Hs. apply in_map_iff. now exists ("*", c).
Qed.

Lemma roundtrip_wf : forall n, wf n ->
    exists n', py_create (node_to_query_types n) = Some n' /\
               forall t, node_matches n' t = node_matches n t.
Proof.
  intros n Hw. destruct (create_valid _ (to_qts_valid _ Hw)) as [n' Hn']. exists n'. split; auto.
  intros t. unfold py_create, node_from_query_types in Hn'.
  rewrite (adds_matches _ _ _ Hn'), nomatch_empty, to_qts_matches by auto. cbn.
  pose proof (to_qts_valid _ Hw) as Hv. rewrite Forall_forall in Hv.
  apply existsb_ext_in. intros q Hq. apply Hv in Hq. apply validb_spec in Hq. now rewrite Hq.
Qed.

(** * Union *)

Fixpoint union_loop (items children : list (string * node)) : list (string * node) :=
  match items with
  | [] => children
  | (name, child) :: items' =>
      let value := match sget name children with
                   | Some prev => node_union prev child
                   | None => child
                   end in
      union_loop items' (sset name value children)
  end.

Lemma union_eq : forall l1 c1 l2 c2,
    node_union (Node l1 c1) (Node l2 c2) =
    if smem "*" c1 || smem "*" c2 then Node (l1 || l2) [("*", Node true [])]
    else Node (l1 || l2) (union_loop c2 c1).
Proof. reflexivity. Qed.

Lemma existsb_sset : forall (f : string * node -> bool) k v d, NoDup (keys d) ->
    existsb f (sset k v d) =
    f (k, v) || existsb (fun kc => negb (fst kc =? k) && f kc) d.
Proof.
  intros f k v d Hnd. apply eq_true_iff_eq. rewrite orb_true_iff, !existsb_exists. split.
  - intros [[k' v'] [Hin Hf]]. apply (In_dset_iff seqb_spec) in Hin; auto.
    destruct Hin as [[-> ->]|[Hn Hin]]; auto. right. exists (k', v'). split; auto.
    cbn. apply String.eqb_neq in Hn. now rewrite Hn.
  - intros [H|[[k' v'] [Hin H]]].
    + exists (k, v). split; auto. apply (In_dset_iff seqb_spec); auto.
    + apply andb_true_iff in H as [Hn Hf]. cbn in Hn.
      exists (k', v'). split; auto. apply (In_dset_iff seqb_spec); auto. right.
      split; auto. intros ->. now rewrite seqb_refl in Hn.
Qed.

Lemma existsb_split : forall (f : string * node -> bool) k d, NoDup (keys d) ->
    existsb f d = (match sget k d with Some c => f (k, c) | None => false end)
                  || existsb (fun kc => negb (fst kc =? k) && f kc) d.
Proof.
  intros f k d Hnd. destruct (sget k d) as [c|] eqn:E.
  - rewrite <- existsb_sset by auto. f_equal.
    clear Hnd. induction d as [|[k' c'] d IH]; [discriminate|]. cbn in *.
    destruct (k =? k') eqn:Ek.
    + inversion E; subst. reflexivity.
    + rewrite <- IH; auto.
  - cbn. apply existsb_ext_in. intros [k' c'] Hin. cbn.
    destruct (k' =? k) eqn:Ek; auto. apply seqb_spec in Ek; subst.
    apply (dget_None seqb_spec) in E. exfalso. apply E. apply in_map_iff. now exists (k, c').
Qed.

Lemma union_spec : forall n2 n1, wf n1 -> wf n2 ->
    wf (node_union n1 n2) /\
    forall t, node_matches (node_union n1 n2) t = node_matches n1 t || node_matches n2 t.
Proof.
  induction n2 as [l2 c2 IH] using node_ind'. intros [l1 c1] Hw1 Hw2.
  rewrite union_eq.
  destruct (smem "*" c1) eqn:E1; [|destruct (smem "*" c2) eqn:E2].
  { split; [apply wf_star|]. intros [|h t]; cbn; rewrite E1; reflexivity. }
  { split; [apply wf_star|]. intros [|h t]; cbn; rewrite E2, orb_true_r; reflexivity. }
  cbn [orb].
  destruct (wf_inv _ _ Hw1) as [->|(_ & Hnd1 & Hch1)]; [discriminate|].
  destruct (wf_inv _ _ Hw2) as [->|(_ & Hnd2 & Hch2)]; [discriminate|].
  assert (Hmain : forall c2 c1,
     Forall (fun kc => forall n1, wf n1 -> wf (snd kc) ->
        wf (node_union n1 (snd kc)) /\
        (forall t, node_matches (node_union n1 (snd kc)) t = node_matches n1 t || node_matches (snd kc) t)) c2 ->
     wf (Node (l1 || l2) c1) -> smem "*" c1 = false ->
     (forall k c, In (k, c) c2 -> wf c) -> ~ In "*" (keys c2) ->
     wf (Node (l1 || l2) (union_loop c2 c1)) /\ smem "*" (union_loop c2 c1) = false /\
     forall h t, existsb (kmatch h t) (union_loop c2 c1) =
                 existsb (kmatch h t) c1 || existsb (kmatch h t) c2).
  { clear. induction c2 as [|[k c] c2 IHc]; intros c1 HF Hw Hs Hc2 Hn; cbn [union_loop].
    - split; [auto|]. split; auto. intros. cbn. now rewrite orb_false_r.
    - inversion HF as [|? ? Hh HF']; subst; clear HF. cbn [snd] in Hh.
      destruct (wf_inv _ _ Hw) as [->|(_ & Hnd & Hch)]; [discriminate|].
      assert (Hwc : wf c) by (eapply Hc2; left; reflexivity).
      assert (Hk : k <> "*") by (intros ->; apply Hn; cbn; auto).
      set (value := match sget k c1 with Some prev => node_union prev c | None => c end).
      assert (Hwv : wf value).
      { unfold value. destruct (sget k c1) eqn:Eg; auto. apply Hh; auto. eapply sget_wf; eauto. }
      destruct (IHc (sset k value c1)) as (Hw' & Hs' & Hm'); auto.
      + apply wf_sset; auto.
      + rewrite smem_sset; auto.
      + intros k' c' Hin. eapply Hc2. right; eauto.
      + intros Hin. apply Hn. cbn. auto.
      + split; auto. split; auto. intros h t. rewrite Hm'. cbn [existsb].
        rewrite orb_assoc. f_equal. rewrite existsb_sset by auto.
        rewrite (existsb_split (kmatch h t) k c1) by auto.
        assert (kmatch h t (k, value) =
          (match sget k c1 with Some c0 => kmatch h t (k, c0) | None => false end) || kmatch h t (k, c)) as ->.
        { unfold value, kmatch; cbn. destruct (sget k c1) as [p|] eqn:Eg; auto.
          rewrite (proj2 (Hh p (sget_wf _ _ _ _ Hw Eg) Hwc)).
          destruct ((k =? "?") || (h =? k)); auto. }
        rewrite <- !orb_assoc. f_equal. apply orb_comm. }
  destruct (Hmain c2 c1) as (Hw' & Hs' & Hm'); auto.
  - eapply wf_leaf; eauto.
  - apply smem_not_In; auto.
  - split; auto. intros [|h t].
    + rewrite !matches_nil, Hs', E1, E2. reflexivity.
    + destruct (wf_inv _ _ Hw') as [He|(_ & Hnd' & _)].
      { rewrite He in Hs'. discriminate. }
      rewrite !matches_existsb by auto. apply Hm'.
Qed.

Lemma py_union_spec : forall others n, wf n -> Forall wf others ->
    wf (py_union n others) /\
    forall t, node_matches (py_union n others) t =
              existsb (fun m => node_matches m t) (n :: others).
Proof.
  unfold py_union. induction others as [|o others IH]; cbn [fold_left]; intros n Hw Ho.
  - split; auto. intros. cbn. now rewrite orb_false_r.
  - inversion Ho; subst. destruct (union_spec o n) as [Hwu Hmu]; auto.
    destruct (IH (node_union n o)) as [Hw' Hm']; auto. split; auto.
    intros. rewrite Hm'. cbn. rewrite Hmu. now rewrite orb_assoc.
Qed.
