(** The dummy backend. *)
From Coq Require Import String Bool ZArith Arith Lia List.
From Verif Require Import Base Model_Types Model_Subscription Model_Eventer Proof_Eventer Model_Engine Spec_Engine Proof_Engine2 Proof_Engine3 Proof_Engine5 Model_Dummy Spec_Dummy.
Import ListNotations.
Open Scope list_scope.
Open Scope nat_scope.

Lemma seen_snoc : forall tr o l, seen (tr ++ [(o, l)]) = seen tr ++ l.
Proof. intros. unfold seen. rewrite flat_map_app. cbn [flat_map snd]. now rewrite app_nil_r. Qed.
Lemma seen_of_snoc : forall n tr o l, seen_of n (tr ++ [(o, l)]) = seen_of n tr ++ filter (about n) l.
Proof. intros. unfold seen_of. now rewrite seen_snoc, filter_app. Qed.
Lemma requested_snoc : forall tr o l, requested (tr ++ [(o, l)]) = requested tr ++ match o with MRegister n es => [(n, es)] | _ => [] end.
Proof. intros. unfold requested. rewrite flat_map_app. cbn [flat_map fst]. now rewrite app_nil_r. Qed.

Definition over (rb fb : bool) (n : nat) (es : list event) (l : list mout) : Prop :=
  l = whole rb fb n es \/ exists a b, whole rb fb n es = a ++ b /\ a <> [] /\ b <> [] /\ l = a ++ [Broken n].

Definition stage (rb fb : bool) (tr : list mitem) (s : mstate) (n : nat) : Prop :=
  match nget n (k_calls s) with
  | Some (InRegistered, es) => rb = true /\ In (n, es) (requested tr) /\ seen_of n tr = [CalledRegistered n es]
  | Some (InFlushed, es) => fb = true /\ In (n, es) (requested tr) /\ seen_of n tr = (if rb then [CalledRegistered n es] else []) ++ [CalledFlushed n es]
  | None => (~ In n (k_used s) /\ seen_of n tr = []) \/ exists es, In (n, es) (requested tr) /\ over rb fb n es (seen_of n tr)
  end.

Record dinv (rb fb : bool) (tr : list mitem) (s : mstate) : Prop := {
  di_stage : forall n, stage rb fb tr s n;
  di_used : forall n, In n (k_used s) <-> In n (map fst (requested tr));
  di_nodup : NoDup (map fst (requested tr));
  di_keys : NoDup (keys (k_calls s)) }.

Lemma nd_set : forall A n (x : A) l, NoDup (keys l) -> NoDup (keys (nset n x l)).
Proof. intros. apply NoDup_dset; auto. apply Nat.eqb_eq. Qed.
Lemma nd_del : forall A n (l : list (nat * A)), NoDup (keys l) -> NoDup (keys (ndel n l)).
Proof. intros. now apply NoDup_ddel. Qed.

Lemma stage_other : forall rb fb tr s o l s' m, stage rb fb tr s m -> nget m (k_calls s') = nget m (k_calls s) -> (In m (k_used s') -> In m (k_used s)) ->
    filter (about m) l = [] -> stage rb fb (tr ++ [(o, l)]) s' m.
Proof.
  intros rb fb tr s o l s' m H E U L. unfold stage in *. rewrite E, seen_of_snoc, L, app_nil_r, requested_snoc.
  destruct (nget m (k_calls s)) as [[[|] es]|].
  - destruct H as (H1 & H2 & H3). split; [exact H1|]. split; [apply in_or_app; now left|exact H3].
  - destruct H as (H1 & H2 & H3). split; [exact H1|]. split; [apply in_or_app; now left|exact H3].
  - destruct H as [[H1 H2]|(es & H1 & H2)]; [left; auto|right; exists es; split; [apply in_or_app; now left|exact H2]].
Qed.

Lemma about_other : forall n m es, m <> n -> filter (about m) [CalledRegistered n es] = [] /\ filter (about m) [CalledFlushed n es] = [] /\ filter (about m) [Returned n es] = [] /\ filter (about m) [Broken n] = [].
Proof. intros n m es H. cbn. apply Nat.eqb_neq in H. rewrite H. auto. Qed.
Lemma about_same : forall n es, filter (about n) [CalledRegistered n es] = [CalledRegistered n es] /\ filter (about n) [CalledFlushed n es] = [CalledFlushed n es] /\
  filter (about n) [Returned n es] = [Returned n es] /\ filter (about n) [Broken n] = [Broken n].
Proof. intros n es. cbn. rewrite Nat.eqb_refl. auto. Qed.

Lemma dummy_inv : forall rb fb tr s, mruns rb fb mstart tr s -> dinv rb fb tr s.
Proof.
  intros rb fb tr s H. remember mstart as s0 eqn:E0. induction H as [s|s tr s1 o l s2 H IH E]; subst s.
  - constructor; cbn; [intros n; left; cbn; auto|tauto|constructor|constructor].
  - specialize (IH eq_refl). destruct IH as [I1 I2 I3 I4].
    assert (Same : forall s2', k_calls s2' = k_calls s1 -> k_used s2' = k_used s1 -> (forall m, filter (about m) l = []) -> match o with MRegister _ _ => False | _ => True end -> dinv rb fb (tr ++ [(o, l)]) s2').
    { intros s2' C U L O. constructor; rewrite ?C, ?U, ?requested_snoc; [|destruct o; try contradiction; rewrite app_nil_r; assumption|destruct o; try contradiction; rewrite app_nil_r; assumption|assumption].
      intros m. apply stage_other with (s := s1); rewrite ?C, ?U; auto. }
    destruct o as [n es|n ok|n|p|srv| |]; cbn [mexec] in E; try (injection E as <- <-; apply Same; auto; fail).
    + destruct (existsb (Nat.eqb n) (k_used s1)) eqn:Ex; [discriminate|].
      assert (Nn : ~ In n (k_used s1)). { intros Hi. assert (X : existsb (Nat.eqb n) (k_used s1) = true) by (apply existsb_exists; exists n; split; [exact Hi|apply Nat.eqb_refl]). congruence. }
      assert (Nc : nget n (k_calls s1) = None /\ seen_of n tr = []).
      { pose proof (I1 n) as X. unfold stage in X. destruct (nget n (k_calls s1)) as [[[|] es0]|].
        - destruct X as (_ & X & _). exfalso. apply Nn, I2. change n with (fst (n, es0)). now apply in_map.
        - destruct X as (_ & X & _). exfalso. apply Nn, I2. change n with (fst (n, es0)). now apply in_map.
        - destruct X as [[_ X]|(es0 & X & _)]; [auto|]. exfalso. apply Nn, I2. change n with (fst (n, es0)). now apply in_map. }
      destruct Nc as [Nc Ns].
      assert (G : forall s2', (forall m, m <> n -> nget m (k_calls s2') = nget m (k_calls s1)) -> k_used s2' = n :: k_used s1 -> NoDup (keys (k_calls s2')) ->
                (forall m, m <> n -> filter (about m) l = []) -> stage rb fb (tr ++ [(MRegister n es, l)]) s2' n -> dinv rb fb (tr ++ [(MRegister n es, l)]) s2').
      { intros s2' C U K L S. constructor; rewrite ?requested_snoc, ?map_app; cbn [map fst].
        - intros m. destruct (Nat.eq_dec m n) as [->|Hm]; [exact S|]. apply stage_other with (s := s1); auto. rewrite U. intros [X|X]; [congruence|exact X].
        - intros m. rewrite U, in_app_iff. cbn [In]. rewrite (I2 m). tauto.
        - apply NoDup_snoc; [exact I3|]. now rewrite <- I2.
        - exact K. }
      destruct rb.
      * injection E as <- <-. apply G; unfold set_call; cbn [k_calls k_used].
        -- intros m Hm. rewrite nget_nset. apply Nat.eqb_neq in Hm. now rewrite Hm.
        -- reflexivity.
        -- now apply nd_set.
        -- intros m Hm. now apply about_other.
        -- unfold stage. cbn [k_calls]. rewrite nget_nset, Nat.eqb_refl. split; [reflexivity|]. rewrite requested_snoc, seen_of_snoc, Ns. split; [apply in_or_app; right; now left|]. now apply about_same.
      * unfold go_flushed, set_call, end_call in E. cbn [k_calls k_used k_open] in E. destruct fb; injection E as <- <-; apply G; cbn [k_calls k_used].
        -- intros m Hm. rewrite nget_nset. apply Nat.eqb_neq in Hm. now rewrite Hm.
        -- reflexivity.
        -- now apply nd_set.
        -- intros m Hm. now apply about_other.
        -- unfold stage. cbn [k_calls]. rewrite nget_nset, Nat.eqb_refl. split; [reflexivity|]. rewrite requested_snoc, seen_of_snoc, Ns. split; [apply in_or_app; right; now left|]. now apply about_same.
        -- intros m Hm. rewrite nget_ndel by assumption. apply Nat.eqb_neq in Hm. now rewrite Hm.
        -- reflexivity.
        -- now apply nd_del.
        -- intros m Hm. now apply about_other.
        -- unfold stage. cbn [k_calls]. rewrite nget_ndel, Nat.eqb_refl by assumption. right. exists es. rewrite requested_snoc, seen_of_snoc, Ns. split; [apply in_or_app; right; now left|]. left. now apply about_same.
    + destruct (nget n (k_calls s1)) as [[ph es]|] eqn:Eg; [|discriminate]. pose proof (I1 n) as Sn. unfold stage in Sn. rewrite Eg in Sn.
      assert (G : forall s2', (forall m, m <> n -> nget m (k_calls s2') = nget m (k_calls s1)) -> k_used s2' = k_used s1 -> NoDup (keys (k_calls s2')) ->
                (forall m, m <> n -> filter (about m) l = []) -> stage rb fb (tr ++ [(MReturns n ok, l)]) s2' n -> dinv rb fb (tr ++ [(MReturns n ok, l)]) s2').
      { intros s2' C U K L S. constructor; rewrite ?requested_snoc, ?app_nil_r, ?U; auto.
        intros m. destruct (Nat.eq_dec m n) as [->|Hm]; [exact S|]. apply stage_other with (s := s1); auto. now rewrite U. }
      assert (Rq : In (n, es) (requested tr)) by (destruct ph; apply Sn).
      assert (En : forall x, (x = Returned n es \/ x = Broken n) -> filter (about n) [x] = [x] -> l = [x] -> s2 = end_call s1 n -> over rb fb n es (seen_of n tr ++ [x]) -> dinv rb fb (tr ++ [(MReturns n ok, l)]) s2).
      { intros x Hx Fx -> -> Ho. apply G; unfold end_call; cbn [k_calls k_used].
        - intros m Hm. rewrite nget_ndel by assumption. apply Nat.eqb_neq in Hm. now rewrite Hm.
        - reflexivity.
        - now apply nd_del.
        - intros m Hm. destruct Hx as [->| ->]; now apply about_other.
        - unfold stage. cbn [k_calls]. rewrite nget_ndel, Nat.eqb_refl by assumption. right. exists es. rewrite requested_snoc, seen_of_snoc, app_nil_r, Fx. auto. }
      destruct ok.
      * destruct ph.
        -- destruct Sn as (-> & _ & Sn). unfold go_flushed in E. destruct fb.
           ++ injection E as <- <-. apply G; unfold set_call; cbn [k_calls k_used].
              ** intros m Hm. rewrite nget_nset. apply Nat.eqb_neq in Hm. now rewrite Hm.
              ** reflexivity.
              ** now apply nd_set.
              ** intros m Hm. now apply about_other.
              ** unfold stage. cbn [k_calls]. rewrite nget_nset, Nat.eqb_refl. split; [reflexivity|]. rewrite requested_snoc, seen_of_snoc, app_nil_r, Sn. split; [exact Rq|].
                 destruct (about_same n es) as (_ & -> & _). reflexivity.
           ++ injection E as <- <-. apply (En (Returned n es)); [now left|now apply about_same|reflexivity|reflexivity|]. rewrite Sn. left. reflexivity.
        -- destruct Sn as (-> & _ & Sn). injection E as <- <-. apply (En (Returned n es)); [now left|now apply about_same|reflexivity|reflexivity|]. rewrite Sn. left. unfold whole. now rewrite <- app_assoc.
      * injection E as <- <-. apply (En (Broken n)); [now right|now apply (about_same n es)|reflexivity|reflexivity|]. right. destruct ph.
        -- destruct Sn as (-> & _ & Sn). exists [CalledRegistered n es], ((if fb then [CalledFlushed n es] else []) ++ [Returned n es]). rewrite Sn. split; [reflexivity|]. split; [discriminate|].
           split; [destruct fb; discriminate|reflexivity].
        -- destruct Sn as (-> & _ & Sn). exists ((if rb then [CalledRegistered n es] else []) ++ [CalledFlushed n es]), [Returned n es]. rewrite Sn.
           split; [unfold whole; now rewrite <- app_assoc|]. split; [destruct rb; discriminate|]. split; [discriminate|reflexivity].
    + destruct (nget n (k_calls s1)) as [[ph es]|] eqn:Eg; [|discriminate]. injection E as <- <-. pose proof (I1 n) as Sn. unfold stage in Sn. rewrite Eg in Sn.
      assert (Rq : In (n, es) (requested tr)) by (destruct ph; apply Sn).
      constructor; rewrite ?requested_snoc, ?app_nil_r; cbn [end_call k_calls k_used]; auto; [|now apply nd_del].
      intros m. destruct (Nat.eq_dec m n) as [->|Hm].
      * unfold stage. cbn [end_call k_calls]. rewrite nget_ndel, Nat.eqb_refl by assumption. right. exists es. rewrite requested_snoc, seen_of_snoc, app_nil_r. split; [exact Rq|].
        destruct (about_same n es) as (_ & _ & _ & ->). right. destruct ph.
        -- destruct Sn as (-> & _ & Sn). exists [CalledRegistered n es], ((if fb then [CalledFlushed n es] else []) ++ [Returned n es]). rewrite Sn. split; [reflexivity|]. split; [discriminate|].
           split; [destruct fb; discriminate|reflexivity].
        -- destruct Sn as (-> & _ & Sn). exists ((if rb then [CalledRegistered n es] else []) ++ [CalledFlushed n es]), [Returned n es]. rewrite Sn.
           split; [unfold whole; now rewrite <- app_assoc|]. split; [destruct rb; discriminate|]. split; [discriminate|reflexivity].
      * apply stage_other with (s := s1); [apply I1| |intros X; exact X|now apply (about_other n m es)].
        cbn [end_call k_calls]. rewrite nget_ndel by assumption. apply Nat.eqb_neq in Hm. now rewrite Hm.
Qed.

Lemma NoDup_fst_inj : forall (A B : Type) (l : list (A * B)) n x y, NoDup (map fst l) -> In (n, x) l -> In (n, y) l -> x = y.
Proof.
  induction l as [|[k v] l IH]; intros n x y N H1 H2; [destruct H1|]. cbn [map fst] in N. inversion N as [|? ? N1 N2]; subst.
  destruct H1 as [H1|H1], H2 as [H2|H2]; [congruence| | |eapply IH; eauto]; exfalso; apply N1.
  - injection H1 as -> ->. change n with (fst (n, y)). now apply in_map.
  - injection H2 as -> ->. change n with (fst (n, x)). now apply in_map.
Qed.

Lemma whole_last : forall rb fb n es, exists a, whole rb fb n es = a ++ [Returned n es] /\ forall x, In x a -> x = CalledRegistered n es \/ x = CalledFlushed n es.
Proof.
  intros rb fb n es. exists ((if rb then [CalledRegistered n es] else []) ++ (if fb then [CalledFlushed n es] else [])). split; [unfold whole; now rewrite app_assoc|].
  intros x Hx. apply in_app_or in Hx as [Hx|Hx]; [destruct rb|destruct fb]; cbn [In] in Hx; intuition.
Qed.
Lemma whole_nonempty : forall rb fb n es, whole rb fb n es <> [].
Proof. intros rb fb n es. destruct (whole_last rb fb n es) as (a & -> & _). destruct a; discriminate. Qed.
Lemma over_part : forall rb fb n es l, over rb fb n es l -> part_of n l (whole rb fb n es).
Proof.
  intros rb fb n es l [->|(a & b & E & A & B & ->)].
  - exists (whole rb fb n es), []. split; [now rewrite app_nil_r|]. split; [apply whole_nonempty|]. now left.
  - exists a, b. auto.
Qed.

(** Every call: once, with its events, in order. *)
Lemma final_C78_call : forall rb fb tr, dummy_run rb fb tr ->
    NoDup (map fst (requested tr)) /\
    (forall n es, In (n, es) (requested tr) -> part_of n (seen_of n tr) (whole rb fb n es)) /\
    (forall n, ~ In n (map fst (requested tr)) -> seen_of n tr = []).
Proof.
  intros rb fb tr [s H]. destruct (dummy_inv _ _ _ _ H) as [I1 I2 I3 I4]. split; [exact I3|]. split.
  - intros n es Hn. specialize (I1 n). unfold stage in I1.
    assert (U : forall es', In (n, es') (requested tr) -> es' = es).
    { intros es' Hn'. eapply NoDup_fst_inj; eauto. }
    destruct (nget n (k_calls s)) as [[[|] es0]|].
    + destruct I1 as (-> & X & ->). rewrite (U _ X). exists [CalledRegistered n es], ((if fb then [CalledFlushed n es] else []) ++ [Returned n es]).
      split; [reflexivity|]. split; [discriminate|now left].
    + destruct I1 as (-> & X & ->). rewrite (U _ X). exists ((if rb then [CalledRegistered n es] else []) ++ [CalledFlushed n es]), [Returned n es].
      split; [unfold whole; now rewrite <- app_assoc|]. split; [destruct rb; discriminate|now left].
    + destruct I1 as [[X _]|(es0 & X & Y)].
      * exfalso. apply X, I2. change n with (fst (n, es)). now apply in_map.
      * rewrite (U _ X) in Y. now apply over_part.
  - intros n Hn. specialize (I1 n). unfold stage in I1. rewrite <- I2 in Hn. destruct (nget n (k_calls s)) as [[[|] es0]|].
    + destruct I1 as (_ & X & _). exfalso. apply Hn, I2. change n with (fst (n, es0)). now apply in_map.
    + destruct I1 as (_ & X & _). exfalso. apply Hn, I2. change n with (fst (n, es0)). now apply in_map.
    + destruct I1 as [[_ X]|(es0 & X & _)]; [exact X|]. exfalso. apply Hn, I2. change n with (fst (n, es0)). now apply in_map.
Qed.

(** A call that is under way goes on when its callback returns. *)
Lemma not_over : forall rb fb tr n es, over rb fb n es (seen_of n tr) -> ended n tr.
Proof.
  intros rb fb tr n es H. assert (S : forall x, In x (seen_of n tr) -> In x (seen tr)) by (intros x Hx; unfold seen_of in Hx; now apply filter_In in Hx).
  destruct H as [H|(a & b & _ & _ & _ & H)]; rewrite H in S.
  - left. exists es. apply S. unfold whole. apply in_or_app. right. apply in_or_app. right. now left.
  - right. apply S. apply in_or_app. right. now left.
Qed.
Lemma under_way : forall rb fb tr s n, dinv rb fb tr s -> nget n (k_calls s) <> None -> ~ ended n tr.
Proof.
  intros rb fb tr s n [I1 I2 I3 I4] H E. specialize (I1 n). unfold stage in I1.
  assert (X : exists x, In x (seen_of n tr) /\ (x = Broken n \/ exists es, x = Returned n es)).
  { destruct E as [(es & E)|E]; [exists (Returned n es)|exists (Broken n)]; (split; [unfold seen_of; apply filter_In; split; [exact E|cbn; apply Nat.eqb_refl]|eauto]). }
  destruct X as (x & X1 & X2). destruct (nget n (k_calls s)) as [[[|] es]|]; [| |congruence]; destruct I1 as (_ & _ & I1); rewrite I1 in X1.
  - destruct X1 as [<-|[]]. destruct X2 as [X2|(? & X2)]; discriminate.
  - apply in_app_or in X1 as [X1|[<-|[]]]; [destruct rb; [destruct X1 as [<-|[]]|destruct X1]|]; destruct X2 as [X2|(? & X2)]; discriminate.
Qed.

Lemma final_C78_goes_on : forall rb fb tr n es, dummy_run rb fb tr -> In (n, es) (requested tr) -> ~ ended n tr ->
    exists x b, dummy_run rb fb (tr ++ [(MReturns n true, [x])]) /\ whole rb fb n es = seen_of n tr ++ x :: b.
Proof.
  intros rb fb tr n es [s H] Hr He. pose proof (dummy_inv _ _ _ _ H) as DI. destruct DI as [I1 I2 I3 I4]. specialize (I1 n). unfold stage in I1.
  destruct (nget n (k_calls s)) as [[ph es0]|] eqn:Eg.
  - assert (es0 = es) as -> by (destruct ph; destruct I1 as (_ & X & _); eapply NoDup_fst_inj; eauto).
    destruct ph.
    + destruct I1 as (-> & _ & I1). rewrite I1. destruct fb.
      * exists (CalledFlushed n es), [Returned n es]. split; [|reflexivity]. eexists. econstructor; [exact H|]. cbn [mexec]. rewrite Eg. reflexivity.
      * exists (Returned n es), []. split; [|reflexivity]. eexists. econstructor; [exact H|]. cbn [mexec]. rewrite Eg. reflexivity.
    + destruct I1 as (-> & _ & I1). rewrite I1. exists (Returned n es), []. split; [|unfold whole; now rewrite <- app_assoc]. eexists. econstructor; [exact H|]. cbn [mexec]. rewrite Eg. reflexivity.
  - destruct I1 as [[X _]|(es0 & _ & X)]; [|destruct He; eapply not_over; eauto]. exfalso. apply X, I2. change n with (fst (n, es)). now apply in_map.
Qed.

(** ** Order *)
Lemma reg_calls_snoc : forall tr o l, registered_calls (tr ++ [(o, l)]) = registered_calls tr ++ flat_map (fun x => match x with CalledRegistered n es => [(n, es)] | _ => [] end) l.
Proof. intros. unfold registered_calls. now rewrite seen_snoc, flat_map_app. Qed.
Lemma flu_calls_snoc : forall tr o l, flushed_calls (tr ++ [(o, l)]) = flushed_calls tr ++ flat_map (fun x => match x with CalledFlushed n es => [(n, es)] | _ => [] end) l.
Proof. intros. unfold flushed_calls. now rewrite seen_snoc, flat_map_app. Qed.

Lemma final_C78_registered : forall fb tr, dummy_run true fb tr -> registered_calls tr = requested tr.
Proof.
  intros fb tr [s H]. remember mstart as s0 eqn:E0. induction H as [s|s tr s1 o l s2 H IH E]; subst s; [reflexivity|]. specialize (IH eq_refl).
  rewrite reg_calls_snoc, requested_snoc, IH. f_equal. destruct o as [n es|n ok|n|p|srv| |]; cbn [mexec] in E; try (injection E as _ <-; reflexivity).
  - destruct (existsb (Nat.eqb n) (k_used s1)); [discriminate|]. injection E as _ <-. reflexivity.
  - destruct (nget n (k_calls s1)) as [[ph es]|]; [|discriminate]. unfold go_flushed in E. destruct ok; [destruct ph; [destruct fb|]|]; injection E as _ <-; reflexivity.
  - destruct (nget n (k_calls s1)); [|discriminate]. injection E as _ <-. reflexivity.
Qed.

Lemma sub_app_drop : forall (A : Type) (a b : list A) c, sublist a b -> sublist a (b ++ c).
Proof.
  intros A a b c H. induction H; cbn [app]; try (constructor; assumption). induction c; constructor. assumption.
Qed.
Lemma sub_snoc : forall (A : Type) (a b : list A) x, sublist a b -> sublist (a ++ [x]) (b ++ [x]).
Proof. intros A a b x H. induction H; cbn [app]; constructor; try assumption. constructor. Qed.

Record finv (rb : bool) (tr : list mitem) (s : mstate) : Prop := {
  fi_sub : sublist (flushed_calls tr) (requested tr);
  fi_call : forall n es, nget n (k_calls s) = Some (InRegistered, es) -> exists r, requested tr = r ++ [(n, es)] /\ sublist (flushed_calls tr) r }.

Lemma dummy_order : forall rb tr s, mruns rb true mstart tr s -> one_by_one tr -> finv rb tr s.
Proof.
  intros rb tr s H. remember mstart as s0 eqn:E0. induction H as [s|s tr s1 o l s2 H IH E]; subst s; intros O.
  - constructor; [constructor|]. cbn. discriminate.
  - assert (O' : one_by_one tr). { intros a n es l' b m es' Et. apply (O a n es l' (b ++ [(o, l)]) m es'). rewrite Et, <- app_assoc. reflexivity. }
    specialize (IH eq_refl O'). destruct IH as [F1 F2]. pose proof (dummy_inv _ _ _ _ H) as DI. pose proof (di_keys _ _ _ _ DI) as NK.
    assert (Del : forall n m es, nget m (ndel n (k_calls s1)) = Some (InRegistered, es) -> nget m (k_calls s1) = Some (InRegistered, es)).
    { intros n m es X. rewrite nget_ndel in X by assumption. destruct (Nat.eqb m n); [discriminate|exact X]. }
    destruct o as [n es|n ok|n|p|srv| |]; cbn [mexec] in E.
    + destruct (existsb (Nat.eqb n) (k_used s1)); [discriminate|].
      assert (No : forall m x, nget m (k_calls s1) = Some x -> False).
      { intros m [ph es'] X. assert (R : In (m, es') (requested tr)) by (pose proof (di_stage _ _ _ _ DI m) as Y; unfold stage in Y; rewrite X in Y; destruct ph; apply Y).
        assert (En : ended m tr) by (eapply (O tr n es l [] m es'); [reflexivity|exact R]). eapply under_way; eauto. congruence. }
      destruct rb.
      * injection E as <- <-. constructor; rewrite flu_calls_snoc, requested_snoc; cbn [flat_map]; rewrite ?app_nil_r.
        -- now apply sub_app_drop.
        -- intros m es' X. unfold set_call in X. cbn [k_calls] in X. rewrite nget_nset in X. destruct (Nat.eqb_spec m n) as [->|Hm]; [|now destruct (No _ _ X)]. injection X as <-. eauto.
      * injection E as <- <-. constructor; rewrite flu_calls_snoc, requested_snoc; cbn [flat_map]; rewrite ?app_nil_r.
        -- now apply sub_snoc.
        -- intros m es' X. unfold set_call in X. cbn [k_calls] in X. rewrite nget_nset in X. destruct (Nat.eqb_spec m n) as [->|Hm]; [discriminate|now destruct (No _ _ X)].
    + destruct (nget n (k_calls s1)) as [[ph es]|] eqn:Eg; [|discriminate].
      assert (Tail : s2 = end_call s1 n -> flat_map (fun x => match x with CalledFlushed n es => [(n, es)] | _ => [] end) l = [] -> finv rb (tr ++ [(MReturns n ok, l)]) s2).
      { intros -> L. constructor; rewrite flu_calls_snoc, requested_snoc, L, !app_nil_r; [exact F1|]. intros m es' X. apply F2, (Del n). exact X. }
      destruct ok; [destruct ph|]; try (injection E as <- <-; apply Tail; reflexivity).
      unfold go_flushed in E. injection E as <- <-. destruct (F2 _ _ Eg) as (r & R1 & R2). constructor; rewrite flu_calls_snoc, requested_snoc; cbn [flat_map]; rewrite ?app_nil_r.
      * rewrite R1. now apply sub_snoc.
      * intros m es' X. unfold set_call in X. cbn [k_calls] in X. rewrite nget_nset in X. destruct (Nat.eqb_spec m n) as [->|Hm]; [discriminate|].
        exfalso. destruct (F2 _ _ X) as (r' & R1' & _). rewrite R1 in R1'. apply app_inj_tail in R1' as [_ R1']. congruence.
    + destruct (nget n (k_calls s1)) as [x|] eqn:Eg; [|discriminate]. injection E as <- <-. constructor; rewrite flu_calls_snoc, requested_snoc; cbn [flat_map]; rewrite ?app_nil_r; [exact F1|].
      intros m es' X. apply F2, (Del n). exact X.
    + injection E as <- <-. constructor; rewrite flu_calls_snoc, requested_snoc; cbn [flat_map]; rewrite ?app_nil_r; auto.
    + injection E as <- <-. constructor; rewrite flu_calls_snoc, requested_snoc; cbn [flat_map]; rewrite ?app_nil_r; auto.
    + injection E as <- <-. constructor; rewrite flu_calls_snoc, requested_snoc; cbn [flat_map]; rewrite ?app_nil_r; auto.
    + injection E as <- <-. constructor; rewrite flu_calls_snoc, requested_snoc; cbn [flat_map]; rewrite ?app_nil_r; auto.
Qed.
Lemma final_C78_flushed : forall rb tr, dummy_run rb true tr -> one_by_one tr -> sublist (flushed_calls tr) (requested tr).
Proof. intros rb tr [s H] O. apply (fi_sub _ _ _ (dummy_order _ _ _ H O)). Qed.

(** ** Other methods *)
Lemma final_C78_answers : forall rb fb A o l B, dummy_run rb fb (A ++ (o, l) :: B) ->
    (forall p, o = MQuery p -> l = [Result (QRes [] false)]) /\ (forall srv, o = MLast srv -> l = [LastId (Eid srv 0 0)]) /\ (o = MFlush -> l = [FlushDone]).
Proof.
  intros rb fb A o l B [s H].
  assert (X : exists s1 s2, mexec rb fb s1 o = Some (s2, l)).
  { remember (A ++ (o, l) :: B) as t eqn:Et. revert A B Et. induction H as [s|s tr s1 o' l' s2 H IH E]; intros A B Et; [destruct A; discriminate|].
    destruct B as [|x B _] using rev_ind.
    - apply app_inj_tail in Et as [_ Et]. injection Et as -> ->. eauto.
    - rewrite app_comm_cons, app_assoc in Et. apply app_inj_tail in Et as [Et _]. eauto. }
  destruct X as (s1 & s2 & X). split; [|split]; intros; subst o; cbn [mexec] in X; injection X as _ <-; reflexivity.
Qed.

(** ** Ids of engines that use it *)
Lemma final_C78_ids : forall rb fb tr srv i1 i2, dummy_run rb fb tr -> In (MLast srv, [LastId i1]) tr -> In (MLast srv, [LastId i2]) tr ->
    forall ms1 z1 B1 l1 es1 s1 ms2 z2 B2 l2 es2 s2, engine_run ms1 z1 i1 (B1 ++ [(EStep, l1)]) s1 -> In (Hand es1) l1 -> engine_run ms2 z2 i2 (B2 ++ [(EStep, l2)]) s2 -> In (Hand es2) l2 ->
    List.length (begun B1) = List.length (begun B2) ->
    exists e1 t1 e2 t2, es1 = e1 :: t1 /\ es2 = e2 :: t2 /\ ev_id e1 = ev_id e2.
Proof.
  intros rb fb tr srv i1 i2 R M1 M2 ms1 z1 B1 l1 es1 s1 ms2 z2 B2 l2 es2 s2 E1 H1 E2 H2 L.
  assert (X : forall i, In (MLast srv, [LastId i]) tr -> i = Eid srv 0 0).
  { intros i Hi. apply in_split in Hi as (a & b & ->). destruct (final_C78_answers _ _ _ _ _ _ R) as (_ & X1 & _). specialize (X1 _ eq_refl). now injection X1. }
  rewrite (X _ M1) in E1. rewrite (X _ M2) in E2.
  destruct (final_C31_session _ _ _ _ _ _ _ _ E1 H1) as (N1 & now1 & ss1 & I1 & _ & [(_ & J1 & _)|([J1|J1] & _)]); [|discriminate|discriminate].
  destruct (final_C31_session _ _ _ _ _ _ _ _ E2 H2) as (N2 & now2 & ss2 & I2 & _ & [(_ & J2 & _)|([J2|J2] & _)]); [|discriminate|discriminate].
  destruct es1 as [|e1 t1]; [now destruct N1|]. destruct es2 as [|e2 t2]; [now destruct N2|]. exists e1, t1, e2, t2. split; [reflexivity|]. split; [reflexivity|].
  unfold ids_from in *. cbn [List.length seq map eid_server eid_session] in *. injection I1 as I1 _. injection I2 as I2 _. rewrite I1, I2, J1, J2, L. reflexivity.
Qed.
