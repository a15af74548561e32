(** Proofs about storage conditions (C29). *)
From Coq Require Import ZArith QArith Qpower Lia String Bool List Permutation.
From Verif Require Import Base Model_Types Model_Subscription Model_Collection Spec_Subscription Spec_Collection
  Model_Conditions Spec_Conditions Proof_Subscription Proof_Subscription2 Proof_Collection.
Import ListNotations.
Open Scope string_scope.
Open Scope list_scope.
Open Scope nat_scope.

(** ** Numbers *)

Definition num_Q (x : Z * Z) : Q := (inject_Z (fst x) * (2 # 1) ^ (snd x))%Q.

Lemma two_nz : ~ ((2 # 1) == 0)%Q.
Proof. intros H. discriminate H. Qed.

Lemma num_scale : forall m e k, (k <= e)%Z ->
    (inject_Z m * (2 # 1) ^ e == inject_Z (m * 2 ^ (e - k)) * (2 # 1) ^ k)%Q.
Proof.
  intros m e k H. rewrite inject_Z_mult, Zpower_Qpower by lia.
  change (inject_Z 2) with (2 # 1)%Q. rewrite <- Qmult_assoc, <- Qpower_plus by exact two_nz.
  now replace (e - k + k)%Z with e by lia.
Qed.

Lemma num_eqb_spec : forall x y, num_eqb x y = true <-> (num_Q x == num_Q y)%Q.
Proof.
  intros [m e] [n f]. unfold num_eqb, num_Q. cbn [fst snd]. set (k := Z.min e f).
  rewrite (num_scale m e k), (num_scale n f k) by (subst k; lia).
  rewrite Z.eqb_eq. split; intros H.
  - now rewrite H.
  - apply Qmult_inj_r in H.
    + now apply inject_Z_injective.
    + apply Qpower_not_0. exact two_nz.
Qed.

Lemma number_of : forall j q, number j q -> exists x, num_of j = Some x /\ (num_Q x == q)%Q.
Proof.
  intros j q H. destruct H; cbn [num_of]; eexists; (split; [reflexivity|]); unfold num_Q; cbn [fst snd];
    try reflexivity; cbn [Qpower]; now rewrite Qmult_1_r.
Qed.

Lemma of_number : forall j x, num_of j = Some x -> exists q, number j q /\ (num_Q x == q)%Q.
Proof.
  intros j x H. destruct j as [|[]|z|m e| | |]; try discriminate H; injection H as <-; eexists; (split; [constructor|]);
    unfold num_Q; cbn [fst snd Qpower]; rewrite ?Qmult_1_r; reflexivity.
Qed.

Lemma number_fun : forall j p q, number j p -> number j q -> p = q.
Proof. intros j p q H1 H2. destruct H1; inversion H2; reflexivity. Qed.

(** ** Induction on JSON *)

Section JsonInd.
  Variable P : json -> Prop.
  Hypothesis Hnull : P JNull.
  Hypothesis Hbool : forall b, P (JBool b).
  Hypothesis Hint : forall z, P (JInt z).
  Hypothesis Hfloat : forall m e, P (JFloat m e).
  Hypothesis Hstr : forall s, P (JStr s).
  Hypothesis Harr : forall l, Forall P l -> P (JArr l).
  Hypothesis Hobj : forall l, Forall (fun kv => P (snd kv)) l -> P (JObj l).
  Fixpoint json_ind2 (j : json) : P j :=
    match j with
    | JNull => Hnull
    | JBool b => Hbool b
    | JInt z => Hint z
    | JFloat m e => Hfloat m e
    | JStr s => Hstr s
    | JArr l => Harr l ((fix go l : Forall P l :=
        match l with [] => Forall_nil _ | x :: l' => Forall_cons _ (json_ind2 x) (go l') end) l)
    | JObj l => Hobj l ((fix go l : Forall (fun kv => P (snd kv)) l :=
        match l with [] => Forall_nil _ | x :: l' => Forall_cons _ (json_ind2 (snd x)) (go l') end) l)
    end.
End JsonInd.

Fixpoint arr_eqb (l m : list json) : bool :=
  match l, m with
  | [], [] => true
  | x :: l', y :: m' => py_eqb x y && arr_eqb l' m'
  | _, _ => false
  end.
Definition obj_eqb (m : list (string * json)) : list (string * json) -> bool :=
  fix go (l : list (string * json)) : bool :=
    match l with
    | [] => true
    | (k, x) :: l' => match sget k m with Some y => py_eqb x y && go l' | None => false end
    end.
Lemma obj_eqb_cons : forall m k x l,
    obj_eqb m ((k, x) :: l) = match sget k m with Some y => py_eqb x y && obj_eqb m l | None => false end.
Proof. reflexivity. Qed.

Lemma py_eqb_arr : forall l m, py_eqb (JArr l) (JArr m) = arr_eqb l m.
Proof. reflexivity. Qed.

Lemma py_eqb_obj : forall l m,
    py_eqb (JObj l) (JObj m) = (Nat.eqb (List.length l) (List.length m) && obj_eqb m l).
Proof.
  reflexivity.
Qed.

Lemma sget_pair : forall (m : list (string * json)) k y, NoDup (map fst m) -> (sget k m = Some y <-> In (k, y) m).
Proof.
  intros m k y N. unfold sget. split; intros H.
  - now apply (dget_In seqb_spec) in H.
  - now apply (In_dget seqb_spec).
Qed.

Lemma obj_eqb_spec : forall m l, NoDup (map fst m) ->
    (obj_eqb m l = true <-> forall k x, In (k, x) l -> exists y, In (k, y) m /\ py_eqb x y = true).
Proof.
  intros m l N. induction l as [|[k x] l IH]; rewrite ?obj_eqb_cons.
  - cbn. split; auto. intros _ k x [].
  - destruct (sget k m) as [y|] eqn:E.
    + apply (sget_pair m k y N) in E. rewrite andb_true_iff, IH. split.
      * intros [H1 H2] k' x' [H|H]; [injection H as <- <-; eauto|auto].
      * intros H. split.
        -- destruct (H k x (or_introl eq_refl)) as (y' & H1 & H2).
           apply (sget_pair m k y' N) in H1. apply (sget_pair m k y N) in E. rewrite E in H1. injection H1 as <-. auto.
        -- intros k' x' H'. apply H. now right.
    + split; [discriminate|]. intros H. destruct (H k x (or_introl eq_refl)) as (y & H1 & _).
      apply (sget_pair m k y N) in H1. rewrite E in H1. discriminate.
Qed.

Lemma num_case : forall a b x y, num_of a = Some x -> num_of b = Some y ->
    (num_eqb x y = true <-> same_value a b).
Proof.
  intros a b x y Ha Hb. rewrite num_eqb_spec.
  destruct (of_number _ _ Ha) as (p & Pa & Ep). destruct (of_number _ _ Hb) as (q & Pb & Eq). rewrite Ep, Eq.
  split.
  - intros H. econstructor; eauto.
  - intros H. inversion H; subst; try discriminate Ha. rewrite (number_fun _ _ _ Pa H0), (number_fun _ _ _ Pb H1). auto.
Qed.

Lemma no_number : forall a b, num_of a = None \/ num_of b = None ->
    forall p q, number a p -> number b q -> False.
Proof.
  intros a b [H|H] p q Ha Hb; [apply number_of in Ha as (x & E & _)|apply number_of in Hb as (x & E & _)]; rewrite E in H; discriminate.
Qed.

(** Python's equality is the specified one. *)
Lemma py_eqb_spec : forall a b, jwf a -> jwf b -> (py_eqb a b = true <-> same_value a b).
Proof.
  induction a as [|x|z|m e|s|l IH|l IH] using json_ind2; intros b Wa Wb.
  - destruct b; cbn [py_eqb num_of]; split; intros H; try discriminate; try (now constructor); try reflexivity;
      (inversion H; subst; try discriminate; match goal with N : number JNull _ |- _ => inversion N end).
  - destruct b; try (apply num_case; reflexivity); cbn [py_eqb num_of]; split; intros H; try discriminate;
      exfalso; inversion H; subst; try discriminate;
      match goal with A : number _ _, B : number _ _ |- _ => (eapply no_number with (3 := B); [|exact A]; right; reflexivity) || (eapply no_number with (3 := A); [|exact B]; right; reflexivity) end.
  - destruct b; try (apply num_case; reflexivity); cbn [py_eqb num_of]; split; intros H; try discriminate;
      exfalso; inversion H; subst; try discriminate;
      match goal with A : number _ _, B : number _ _ |- _ => (eapply no_number with (3 := B); [|exact A]; right; reflexivity) || (eapply no_number with (3 := A); [|exact B]; right; reflexivity) end.
  - destruct b; try (apply num_case; reflexivity); cbn [py_eqb num_of]; split; intros H; try discriminate;
      exfalso; inversion H; subst; try discriminate;
      match goal with A : number _ _, B : number _ _ |- _ => (eapply no_number with (3 := B); [|exact A]; right; reflexivity) || (eapply no_number with (3 := A); [|exact B]; right; reflexivity) end.
  - destruct b; cbn [py_eqb num_of].
    5: { rewrite seqb_spec. split; intros H; [subst; constructor|]. inversion H; subst; auto. inversion H0. }
    all: split; intros H; try discriminate; exfalso; inversion H; subst; match goal with A : number (JStr _) _ |- _ => inversion A end.
  - destruct b as [| | | | |m|]; try (cbn [py_eqb num_of]; split; intros H; try discriminate; exfalso; inversion H; subst;
      match goal with A : number (JArr _) _ |- _ => inversion A end).
    rewrite py_eqb_arr. inversion Wa as [| | | | |? Wl|]; subst. inversion Wb as [| | | | |? Wm|]; subst. clear Wa Wb.
    assert (G : forall m, Forall jwf m -> (arr_eqb l m = true <-> Forall2 same_value l m)).
    { clear m Wm. induction IH as [|x l Hx Hl IHl]; intros [|y m] Wm; cbn [arr_eqb].
      - split; auto.
      - split; [discriminate|]. intros H. inversion H.
      - split; [discriminate|]. intros H. inversion H.
      - inversion Wl; subst. inversion Wm; subst. rewrite andb_true_iff, Hx, IHl by auto.
        split; [intros []; auto|]. intros H. inversion H; auto. }
    rewrite (G m Wm). split; intros H; [now constructor|]. inversion H; subst; auto. inversion H0.
  - destruct b as [| | | | | |m]; try (cbn [py_eqb num_of]; split; intros H; try discriminate; exfalso; inversion H; subst;
      match goal with A : number (JObj _) _ |- _ => inversion A end).
    rewrite py_eqb_obj. inversion Wa as [| | | | | |? Nl Wl]; subst. inversion Wb as [| | | | | |? Nm Wm]; subst. clear Wa Wb.
    rewrite andb_true_iff, Nat.eqb_eq, (obj_eqb_spec m l Nm). rewrite Forall_forall in IH, Wl, Wm.
    split.
    + intros [Hlen H]. assert (I : incl (map fst l) (map fst m)).
      { intros k Hk. apply in_map_iff in Hk as ((k' & x) & <- & Hk). destruct (H _ _ Hk) as (y & Hy & _).
        apply in_map_iff. now exists (k', y). }
      constructor.
      * intros k. split; [apply I|]. apply NoDup_length_incl; auto. rewrite !map_length. lia.
      * intros k x y Hx Hy. destruct (H _ _ Hx) as (y' & Hy' & E).
        apply (sget_pair m k y Nm) in Hy as Sy. apply (sget_pair m k y' Nm) in Hy' as Sy'. rewrite Sy in Sy'. injection Sy' as <-.
        apply (IH (k, x) Hx); [apply (Wl (k, x) Hx)|apply (Wm (k, y) Hy)|exact E].
    + intros H. inversion H as [| |? ? ? ? Bad| |? ? Hk Hv]; subst; [inversion Bad|]. split.
      * rewrite <- (map_length fst l), <- (map_length fst m). apply Nat.le_antisymm; apply NoDup_incl_length; auto; intros k; apply Hk.
      * intros k x Hx. assert (Hin : In k (map fst m)) by (apply Hk, in_map_iff; now exists (k, x)).
        apply in_map_iff in Hin as ((k' & y) & E & Hy). cbn [fst] in E. subst k'. exists y. split; auto.
        apply (IH (k, x) Hx); [apply (Wl (k, x) Hx)|apply (Wm (k, y) Hy)|eauto].
Qed.

(** ** Conditions *)

Section CondInd.
  Variable P : condition -> Prop.
  Hypothesis Hall : forall l, Forall P l -> P (CAll l).
  Hypothesis Hany : forall l, Forall P l -> P (CAny l).
  Hypothesis Hjson : forall p t v, P (CJson p t v).
  Fixpoint condition_ind2 (c : condition) : P c :=
    match c with
    | CAll l => Hall l ((fix go l : Forall P l :=
        match l with [] => Forall_nil _ | x :: l' => Forall_cons _ (condition_ind2 x) (go l') end) l)
    | CAny l => Hany l ((fix go l : Forall P l :=
        match l with [] => Forall_nil _ | x :: l' => Forall_cons _ (condition_ind2 x) (go l') end) l)
    | CJson p t v => Hjson p t v
    end.
End CondInd.

Lemma type_test_spec : forall t d, In t type_names -> (type_test t d = true <-> type_name d = t).
Proof.
  intros t d H. destruct H as [<-|[<-|[<-|[<-|[<-|[<-|[]]]]]]]; destruct d; cbn; split; intros H; try discriminate; reflexivity.
Qed.

Section Matches.
  Variable jget : json -> json -> json.
  Hypothesis jget_wf : forall d p, jwf d -> jwf (jget d p).

  Lemma cond_matches_spec : forall c e, cond_ok c -> payload_ok e ->
      (cond_matches jget c e = true <-> holds same_value jget e c).
  Proof.
    induction c as [l IH|l IH|path ty value] using condition_ind2; intros e Hc He; cbn [cond_matches].
    - rewrite Forall_forall in IH. inversion Hc as [? Hl| |]; subst. rewrite Forall_forall in Hl. rewrite forallb_forall. split; intros H.
      + constructor. intros c Hin. apply IH; auto.
      + inversion H; subst. intros c Hin. apply IH; auto.
    - rewrite Forall_forall in IH. inversion Hc as [|? Hl|]; subst. rewrite Forall_forall in Hl. rewrite existsb_exists. split; intros H.
      + destruct H as (c & Hin & H). econstructor; eauto. apply IH; auto.
      + inversion H; subst. eexists. split; eauto. apply IH; auto.
    - inversion Hc as [| |? ? ? Ht Hv]; subst. destruct (ev_payload e) as [[b data|data]|] eqn:E.
      + split; [discriminate|]. intros H. inversion H; congruence.
      + set (d := jget data _). assert (Wd : jwf d) by (apply jget_wf, He; auto).
        rewrite andb_true_iff. split.
        * intros [H1 H2]. econstructor; eauto.
          -- intros t ->. apply type_test_spec; auto.
          -- intros w ->. apply py_eqb_spec; auto.
        * intros H. inversion H as [| |? ? ? data' v E' Ev H1 H2]; subst. rewrite E in E'. injection E' as <-. fold d in H1, H2. split.
          -- destruct ty; auto. apply type_test_spec; auto.
          -- destruct value; auto. apply py_eqb_spec; auto.
      + split; [discriminate|]. intros H. inversion H; congruence.
  Qed.

  (** ** The collection *)

  Lemma cond_ops_ok : forall conf i, Forall (fun qc => Forall valid_query (fst qc)) conf ->
      exists ops, cond_ops i conf = Some ops.
  Proof.
    induction conf as [|[qs c] conf IH]; intros i H; cbn [cond_ops]; [eauto|].
    inversion H; subst. destruct (create_valid qs) as (n & E); auto. rewrite E.
    destruct (IH (S i)) as (ops & E'); auto. rewrite E'. eauto.
  Qed.

  Lemma cond_ops_In : forall conf i ops, cond_ops i conf = Some ops ->
      forall op, In op ops <-> exists j qs c n, nth_error conf j = Some (qs, c) /\ py_create qs = Some n /\ op = OpAdd n (i + j).
  Proof.
    induction conf as [|[qs c] conf IH]; intros i ops H op; cbn [cond_ops] in H.
    - injection H as <-. split; [intros []|]. intros (j & qs & c & n & H & _). destruct j; discriminate.
    - destruct (py_create qs) as [n|] eqn:En; [|discriminate]. destruct (cond_ops (S i) conf) as [ops'|] eqn:Eo; [|discriminate].
      injection H as <-. cbn [In]. rewrite (IH _ _ Eo). split.
      + intros [<-|(j & qs' & c' & n' & H1 & H2 & ->)].
        * exists 0, qs, c, n. rewrite Nat.add_0_r. auto.
        * exists (S j), qs', c', n'. rewrite Nat.add_succ_r. auto.
      + intros (j & qs' & c' & n' & H1 & H2 & ->). destruct j as [|j].
        * left. cbn in H1. injection H1 as <- <-. rewrite Nat.add_0_r. congruence.
        * right. exists j, qs', c', n'. rewrite Nat.add_succ_r. auto.
  Qed.

  Lemma cond_ops_once : forall conf i ops, cond_ops i conf = Some ops ->
      forall a s v b s' c, ops <> a ++ OpAdd s v :: b ++ OpAdd s' v :: c.
  Proof.
    induction conf as [|[qs c] conf IH]; intros i ops H; cbn [cond_ops] in H.
    - injection H as <-. intros [|]; discriminate.
    - destruct (py_create qs) as [n|] eqn:En; [|discriminate]. destruct (cond_ops (S i) conf) as [ops'|] eqn:Eo; [|discriminate].
      injection H as <-. intros a s v b s' c' E. destruct a as [|x a]; cbn [app] in E.
      + injection E as E0 E1 E2. subst v. assert (Hin : In (OpAdd s' i) ops') by (rewrite E2; apply in_or_app; right; now left).
        apply (cond_ops_In _ _ _ Eo) in Hin as (j & ? & ? & ? & _ & _ & E). injection E as _ E. lia.
      + injection E as E1 E2. eapply IH; eauto.
  Qed.

  Lemma cond_ops_sel : forall conf ops, cond_ops 0 conf = Some ops ->
      forall j t, selected ops j t <-> exists qs c, nth_error conf j = Some (qs, c) /\ selects qs t.
  Proof.
    intros conf ops H j t. unfold selected. split.
    - intros (b & s & a & -> & _ & M).
      assert (Hin : In (OpAdd s j) (b ++ OpAdd s j :: a)) by (apply in_or_app; right; now left).
      apply (cond_ops_In _ _ _ H) in Hin as (j' & qs & c & n & H1 & H2 & E). injection E as -> ->. cbn in *.
      exists qs, c. split; auto. now apply (create_matches qs n).
    - intros (qs & c & H1 & H2). destruct (py_create qs) as [n|] eqn:En.
      + assert (Hin : In (OpAdd n j) ops).
        { apply (cond_ops_In _ _ _ H). exists j, qs, c, n. auto. }
        apply in_split in Hin as (b & a & ->). exists b, n, a. split; auto. split.
        * intros Hr. assert (Hr' : In (OpRemove j) (b ++ OpAdd n j :: a)) by (apply in_or_app; right; now right).
          apply (cond_ops_In _ _ _ H) in Hr' as (? & ? & ? & ? & _ & _ & E). discriminate.
        * now apply (create_matches qs n).
      + exfalso. revert H. generalize 0. revert ops j H1. induction conf as [|[qs' c'] conf IH]; intros ops j H1 i H; cbn [cond_ops] in H.
        * destruct j; discriminate.
        * destruct (py_create qs') eqn:Eq; [|discriminate]. destruct (cond_ops (S i) conf) eqn:Eo; [|discriminate].
          destruct j as [|j]; cbn in H1; [injection H1 as -> ->; congruence|]. eauto.
  Qed.

  Lemma nat_eqb_spec : forall a b, Nat.eqb a b = true <-> a = b.
  Proof. intros. apply Nat.eqb_eq. Qed.

  Lemma cond_ops_oks : forall conf ops, cond_ops 0 conf = Some ops -> ops_ok ops.
  Proof.
    intros conf ops H s v Hin. apply (cond_ops_In _ _ _ H) in Hin as (? & qs & ? & n & _ & E & E'). injection E' as -> _.
    now apply (ps_new qs).
  Qed.

  Lemma conds_hold_spec : forall conf e found, conds_ok conf -> payload_ok e ->
      (forall j, In j found <-> exists qs c, nth_error conf j = Some (qs, c) /\ selects qs (ev_type e)) ->
      (conds_hold jget conf found e = true <-> all_hold same_value jget conf e).
  Proof.
    intros conf e found Hok He Hf. unfold conds_hold, all_hold. rewrite forallb_forall. unfold conds_ok in Hok. rewrite Forall_forall in Hok.
    split.
    - intros H qs c Hin Hs. apply In_nth_error in Hin as Hn. destruct Hn as (j & Hj).
      specialize (H j). rewrite Hj in H. apply cond_matches_spec; auto; [exact (proj2 (Hok _ Hin))|]. apply H, Hf. eauto.
    - intros H j Hj. apply Hf in Hj as (qs & c & Hj & Hs). rewrite Hj. apply nth_error_In in Hj.
      apply cond_matches_spec; auto; [exact (proj2 (Hok _ Hj))|]. eauto.
  Qed.

  Lemma final_C29_c : forall conf, conds_ok conf ->
      exists f, conditions_c jget conf = Some f /\
        forall e, payload_ok e -> (f e = true <-> all_hold same_value jget conf e).
  Proof.
    intros conf Hok. unfold conditions_c. destruct (cond_ops_ok conf 0) as (ops & E).
    { unfold conds_ok in Hok. rewrite Forall_forall in *. intros x Hx. apply (Hok x Hx). }
    rewrite E. eexists. split; [reflexivity|]. intros e He. cbn beta.
    apply conds_hold_spec; auto. intros j. rewrite <- (cond_ops_sel conf ops E).
    apply (ctree_exact nat Nat.eqb nat_eqb_spec). now apply (cond_ops_oks conf).
  Qed.

  Lemma final_C29_py : forall conf, conds_ok conf ->
      exists f, conditions_py jget conf = Some f /\
        forall e, payload_ok e -> (f e = true <-> all_hold same_value jget conf e).
  Proof.
    intros conf Hok. unfold conditions_py. destruct (cond_ops_ok conf 0) as (ops & E).
    { unfold conds_ok in Hok. rewrite Forall_forall in *. intros x Hx. apply (Hok x Hx). }
    rewrite E. destruct (pytree_exact nat Nat.eqb nat_eqb_spec ops) as (c & Ec & Hc).
    { now apply (cond_ops_oks conf). }
    { intros a s v b s' c' Ee. exfalso. now apply (cond_ops_once _ _ _ E a s v b s' c'). }
    rewrite Ec. eexists. split; [reflexivity|]. intros e He. cbn beta.
    apply conds_hold_spec; auto. intros j. rewrite <- (cond_ops_sel conf ops E). apply Hc.
  Qed.
End Matches.

(** ** Comparison with equality of JSON *)

Section SameJsonInd.
  Variable P : json -> json -> Prop.
  Hypothesis Hnull : P JNull JNull.
  Hypothesis Hbool : forall b, P (JBool b) (JBool b).
  Hypothesis Hstr : forall s, P (JStr s) (JStr s).
  Hypothesis Hnum : forall a b p q, type_name a = "number" -> type_name b = "number" ->
    number a p -> number b q -> (p == q)%Q -> P a b.
  Hypothesis Harr : forall l m, Forall2 P l m -> P (JArr l) (JArr m).
  Hypothesis Hobj : forall l m, (forall k, In k (map fst l) <-> In k (map fst m)) ->
    (forall k x y, In (k, x) l -> In (k, y) m -> P x y) -> P (JObj l) (JObj m).
  Fixpoint same_json_ind2 (a b : json) (H : same_json a b) : P a b :=
    match H with
    | js_null => Hnull
    | js_bool b => Hbool b
    | js_str s => Hstr s
    | js_num a b p q h1 h2 h3 h4 h5 => Hnum a b p q h1 h2 h3 h4 h5
    | js_arr l m F => Harr l m ((fix go l m (F : Forall2 same_json l m) : Forall2 P l m :=
        match F with
        | Forall2_nil _ => Forall2_nil _
        | Forall2_cons x y h F' => Forall2_cons x y (same_json_ind2 _ _ h) (go _ _ F')
        end) l m F)
    | js_obj l m hk h => Hobj l m hk (fun k x y hx hy => same_json_ind2 x y (h k x y hx hy))
    end.
End SameJsonInd.

Lemma same_json_value : forall a b, same_json a b -> same_value a b.
Proof.
  apply (same_json_ind2 (fun a b => same_value a b)); intros; try (now constructor).
  - destruct b; econstructor; try constructor; reflexivity.
  - econstructor; eauto.
Qed.

Lemma unlike_json : forall a b, unlike_bool a -> same_value a b -> same_json a b.
Proof.
  induction a as [|x|z|m e|s|l IH|l IH] using json_ind2; intros b U H.
  - inversion H; subst; [constructor|]. inversion H0.
  - inversion U; subst. discriminate.
  - inversion U as [| |j q Tj Nj N0 N1| |]; subst. inversion H; subst.
    rewrite (number_fun _ _ _ H0 Nj) in H2. destruct b as [|[]|z9|m9 e9|?|?|?]; inversion H1; subst.
    + contradiction.
    + contradiction.
    + apply (js_num _ _ q (inject_Z z9)); auto.
    + apply (js_num _ _ q (inject_Z m9 * (2 # 1) ^ e9)%Q); auto.
  - inversion U as [| |j q Tj Nj N0 N1| |]; subst. inversion H; subst.
    rewrite (number_fun _ _ _ H0 Nj) in H2. destruct b as [|[]|z9|m9 e9|?|?|?]; inversion H1; subst.
    + contradiction.
    + contradiction.
    + apply (js_num _ _ q (inject_Z z9)); auto.
    + apply (js_num _ _ q (inject_Z m9 * (2 # 1) ^ e9)%Q); auto.
  - inversion H; subst; [constructor|]. inversion H0.
  - inversion U as [| | |? Ul|]; subst; [discriminate|]. inversion H as [| | |? m F|]; subst; [inversion H0|].
    constructor. clear H U. revert IH Ul. induction F as [|x y l m Hxy F IHF]; intros IH Ul; constructor.
    + inversion IH; subst. inversion Ul; subst. auto.
    + inversion IH; subst. inversion Ul; subst. auto.
  - inversion U as [| | | |? Ul]; subst; [discriminate|]. inversion H as [| | | |? m Hk Hv]; subst; [inversion H0|].
    rewrite Forall_forall in IH, Ul. constructor; auto. intros k x y Hx Hy. apply (IH (k, x) Hx); [apply (Ul (k, x) Hx)|eauto].
Qed.

Lemma typed_json : forall a b, type_name a = "boolean" \/ type_name a = "number" -> type_name b = type_name a ->
    same_value a b -> same_json a b.
Proof.
  intros a b Ta Tb H. inversion H as [| |? ? p q Pa Pb E| |]; subst; try (destruct Ta; discriminate).
  destruct Ta as [Ta|Ta]; rewrite Ta in Tb.
  - destruct a as [|x|?|? ?|?|?|?]; try discriminate Ta. destruct b as [|y|?|? ?|?|?|?]; try discriminate Tb.
    destruct x, y; inversion Pa; inversion Pb; subst; try constructor; discriminate E.
  - eapply js_num; eauto.
Qed.

Lemma holds_strict : forall sel e c, cond_strict c -> (holds same_json sel e c <-> holds same_value sel e c).
Proof.
  intros sel e. induction c as [l IH|l IH|path ty value] using condition_ind2; intros Hc.
  - rewrite Forall_forall in IH. inversion Hc as [? Hl| |]; subst. rewrite Forall_forall in Hl.
    split; intros H; inversion H; subst; constructor; intros c Hin; apply IH; auto.
  - rewrite Forall_forall in IH. inversion Hc as [|? Hl|]; subst. rewrite Forall_forall in Hl.
    split; intros H; inversion H; subst; econstructor; eauto; apply IH; auto.
  - inversion Hc as [| |? ? ? Hs]; subst.
    split; intros H; inversion H as [| |? ? ? data v E Ev H1 H2]; subst; econstructor; eauto.
    + intros w Ew. apply same_json_value; auto.
    + intros w Ew. destruct (Hs w Ew) as [U|[Tw Et]]; [apply unlike_json; auto|]. apply typed_json; auto.
Qed.

Lemma all_hold_strict : forall sel conf e, conds_strict conf ->
    (all_hold same_json sel conf e <-> all_hold same_value sel conf e).
Proof.
  intros sel conf e H. unfold conds_strict in H. rewrite Forall_forall in H.
  split; intros A qs c Hin Hs; apply (holds_strict sel e c (H _ Hin)); eauto.
Qed.
