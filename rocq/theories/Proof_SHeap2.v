(** Proofs about the memory of the C subscription: trees in memory, freeing them
    and adding query types. *)
From Coq Require Import String Bool Arith ZArith Lia List.
From Verif Require Import Base Model_Types Model_Subscription Model_SHeap Spec_SHeap Proof_Subscription Proof_SHeap.
Import ListNotations.
Open Scope string_scope.
Open Scope list_scope.

Notation heap := (addr -> option cell).

(** A tree with its addresses. *)
Inductive gtree := GT (a : addr) (leaf star : bool) (tbl : ptr) (kids : list (string * gtree)).

Definition groot (t : gtree) : addr := let 'GT a _ _ _ _ := t in a.
Definition gkids (t : gtree) : list (string * gtree) := let 'GT _ _ _ _ ks := t in ks.
Definition tbll (tb : ptr) : list addr := match tb with Some b => [b] | None => [] end.
Fixpoint fp (t : gtree) : list addr :=
  let 'GT a _ _ tb ks := t in a :: tbll tb ++ flat_map (fun e => fp (snd e)) ks.
Fixpoint forget (t : gtree) : cnode :=
  let 'GT _ l s _ ks := t in CNode l s (map (fun e => (fst e, forget (snd e))) ks).
Definition entry (e : string * gtree) : string * addr := (fst e, groot (snd e)).
Fixpoint rep (h : heap) (t : gtree) : Prop :=
  let 'GT a l s tb ks := t in
  h a = Some (SNode l s tb) /\
  (match tb with None => ks = [] | Some b => h b = Some (SHt (map entry ks)) end) /\
  (fix reps (ks : list (string * gtree)) : Prop :=
     match ks with [] => True | e :: ks' => rep h (snd e) /\ reps ks' end) ks.
Fixpoint gheight (t : gtree) : nat :=
  let 'GT _ _ _ _ ks := t in
  S ((fix loop (ks : list (string * gtree)) : nat :=
        match ks with [] => 0 | e :: ks' => Nat.max (gheight (snd e)) (loop ks') end) ks).

Section Ind.
  Variable P : gtree -> Prop.
  Hypothesis H : forall a l s tb ks, Forall (fun e => P (snd e)) ks -> P (GT a l s tb ks).
  Fixpoint gtree_ind' (t : gtree) : P t :=
    let 'GT a l s tb ks := t in
    H a l s tb ks ((fix go (ks : list (string * gtree)) : Forall (fun e => P (snd e)) ks :=
                      match ks with [] => Forall_nil _ | e :: ks' => Forall_cons e (gtree_ind' (snd e)) (go ks') end) ks).
End Ind.

Lemma rep_kids : forall h a l s tb ks, rep h (GT a l s tb ks) <->
  h a = Some (SNode l s tb) /\ (match tb with None => ks = [] | Some b => h b = Some (SHt (map entry ks)) end) /\
  Forall (fun e => rep h (snd e)) ks.
Proof.
  intros. cbn [rep]. enough (K : (fix reps (ks : list (string * gtree)) : Prop :=
     match ks with [] => True | e :: ks' => rep h (snd e) /\ reps ks' end) ks <-> Forall (fun e => rep h (snd e)) ks) by now rewrite K.
  induction ks as [|e ks IH]; split; intros H; auto.
  - destruct H as [H1 H2]. constructor; auto. now apply IH.
  - inversion H; subst. split; auto. now apply IH.
Qed.

(** Tables that exist have entries. *)
Fixpoint full (t : gtree) : Prop :=
  let 'GT _ _ _ tb ks := t in
  (tb <> None -> ks <> []) /\
  (fix fulls (ks : list (string * gtree)) : Prop :=
     match ks with [] => True | e :: ks' => full (snd e) /\ fulls ks' end) ks.
Lemma full_kids : forall a l s tb ks, full (GT a l s tb ks) <-> (tb <> None -> ks <> []) /\ Forall (fun e => full (snd e)) ks.
Proof.
  intros. cbn [full]. enough (K : (fix fulls (ks : list (string * gtree)) : Prop :=
     match ks with [] => True | e :: ks' => full (snd e) /\ fulls ks' end) ks <-> Forall (fun e => full (snd e)) ks) by now rewrite K.
  induction ks as [|e ks IH]; split; intros H; auto.
  - destruct H as [H1 H2]. constructor; auto. now apply IH.
  - inversion H; subst. split; auto. now apply IH.
Qed.

Lemma height_kid : forall a l s tb ks e, In e ks -> (gheight (snd e) < gheight (GT a l s tb ks))%nat.
Proof.
  intros a l s tb ks e I. cbn [gheight]. apply Nat.lt_succ_r.
  induction ks as [|e' ks IH]; [destruct I|]. destruct I as [->|I]; [lia|]. specialize (IH I). lia.
Qed.

Lemma height_fp : forall t, (gheight t <= length (fp t))%nat.
Proof.
  induction t as [a l s tb ks IH] using gtree_ind'. cbn [gheight fp length]. rewrite app_length.
  enough (K : ((fix loop (ks : list (string * gtree)) : nat :=
        match ks with [] => 0 | e :: ks' => Nat.max (gheight (snd e)) (loop ks') end) ks <= length (flat_map (fun e => fp (snd e)) ks))%nat) by lia.
  induction IH as [|e ks He _ IHk]; cbn [flat_map length]; [lia|]. rewrite app_length. lia.
Qed.

Lemma NoDup_bound : forall (l : list nat) n, NoDup l -> (forall x, In x l -> (x < n)%nat) -> (length l <= n)%nat.
Proof.
  intros l n ND H. rewrite <- (seq_length n 0). apply NoDup_incl_length; auto. intros x I. apply in_seq. specialize (H x I). lia.
Qed.

Lemma fp_root : forall t, In (groot t) (fp t).
Proof. intros [a l s tb ks]. now left. Qed.

Lemma fp_kid : forall a l s tb ks e x, In e ks -> In x (fp (snd e)) -> In x (fp (GT a l s tb ks)).
Proof. intros a l s tb ks e x I J. cbn [fp]. right. apply in_app_iff. right. apply in_flat_map. eauto. Qed.

Lemma rep_frame : forall h h' t, rep h t -> (forall x, In x (fp t) -> h' x = h x) -> rep h' t.
Proof.
  intros h h'. induction t as [a l s tb ks IH] using gtree_ind'. intros R F. apply rep_kids in R. destruct R as (R1 & R2 & R3).
  apply rep_kids. split; [rewrite F; [auto|now left]|]. split.
  - destruct tb as [b|]; auto. rewrite F; auto. right. now left.
  - rewrite Forall_forall in *. intros e I. apply IH; auto. intros x J. apply F. eapply fp_kid; eauto.
Qed.

Lemma rep_live : forall h t x, rep h t -> In x (fp t) -> h x <> None.
Proof.
  intros h. induction t as [a l s tb ks IH] using gtree_ind'. intros x R I. apply rep_kids in R. destruct R as (R1 & R2 & R3).
  cbn [fp] in I. destruct I as [<-|I]; [congruence|]. apply in_app_iff in I. destruct I as [I|I].
  - destruct tb as [b|]; [|destruct I]. destruct I as [<-|[]]. congruence.
  - apply in_flat_map in I. destruct I as (e & I & J). rewrite Forall_forall in *. exact (IH e I x (R3 e I) J).
Qed.

(** ** Lists without repetitions *)

Lemma NoDup_app_l : forall A (l l' : list A), NoDup (l ++ l') -> NoDup l.
Proof. induction l as [|x l IH]; intros l' H; [constructor|]. inversion H; subst. constructor; eauto. intros I. apply H2. apply in_app_iff. auto. Qed.
Lemma NoDup_app_r : forall A (l l' : list A), NoDup (l ++ l') -> NoDup l'.
Proof. induction l as [|x l IH]; intros l' H; auto. inversion H; subst. eauto. Qed.
Lemma NoDup_app_apart : forall A (l l' : list A) x, NoDup (l ++ l') -> In x l -> In x l' -> False.
Proof.
  induction l as [|y l IH]; intros l' x H I J; [destruct I|]. inversion H; subst. destruct I as [->|I]; [|eauto].
  apply H2. apply in_app_iff. auto.
Qed.
Lemma NoDup_app_intro : forall A (l l' : list A), NoDup l -> NoDup l' -> (forall x, In x l -> In x l' -> False) -> NoDup (l ++ l').
Proof.
  induction l as [|y l IH]; intros l' H H' K; auto. inversion H; subst. cbn. constructor.
  - intros I. apply in_app_iff in I. destruct I as [I|I]; [auto|]. apply (K y); [now left|auto].
  - apply IH; auto. intros x I. apply K. now right.
Qed.
Lemma NoDup_replace : forall A (l1 m m' l2 : list A), NoDup (l1 ++ m ++ l2) -> NoDup m' ->
  (forall x, In x m' -> In x m \/ ~ In x (l1 ++ l2)) -> NoDup (l1 ++ m' ++ l2).
Proof.
  intros A l1 m m' l2 H H' K. apply NoDup_app_intro.
  - eapply NoDup_app_l; eauto.
  - apply NoDup_app_intro; auto.
    + eapply NoDup_app_r. eapply NoDup_app_r. exact H.
    + intros x I J. destruct (K x I) as [Q|Q].
      * apply NoDup_app_r in H. eapply NoDup_app_apart; eauto.
      * apply Q. apply in_app_iff. auto.
  - intros x I J. apply in_app_iff in J. destruct J as [J|J].
    + destruct (K x J) as [Q|Q].
      * eapply (NoDup_app_apart _ _ _ x H); auto. apply in_app_iff. auto.
      * apply Q. apply in_app_iff. auto.
    + eapply (NoDup_app_apart _ _ _ x H); auto. apply in_app_iff. auto.
Qed.

(** ** Freeing *)

Definition obj_same (s s' : sst) : Prop :=
  s_objs s' = s_objs s /\ s_next s' = s_next s /\ s_tries s' = s_tries s /\ s_stars s' = s_stars s.
Lemma obj_refl : forall s, obj_same s s.
Proof. intros. unfold obj_same. auto. Qed.
Lemma obj_trans : forall a b c, obj_same a b -> obj_same b c -> obj_same a c.
Proof. intros a b c (A & B & C & D) (E & F & G & H). unfold obj_same. intuition congruence. Qed.

Lemma free_at : forall s a c, s_heap s a = Some c -> free a s = Some (tt, set_heap (upd (s_heap s) a None) s).
Proof. intros s a c E. unfold free. now rewrite E. Qed.
Lemma store_at : forall s a c c', s_heap s a = Some c -> store a c' s = Some (tt, set_heap (upd (s_heap s) a (Some c')) s).
Proof. intros s a c c' E. unfold store. now rewrite E. Qed.
Lemma load_node_at : forall s a l x ch, s_heap s a = Some (SNode l x ch) -> load_node a s = Some ((l, x, ch), s).
Proof. intros s a l x ch E. unfold load_node. now rewrite E. Qed.
Lemma load_ht_at : forall s b es, s_heap s b = Some (SHt es) -> load_ht b s = Some (es, s).
Proof. intros s b es E. unfold load_ht. now rewrite E. Qed.
Lemma bind_at : forall A B (m : M A) (f : A -> M B) s a s', m s = Some (a, s') -> bind m f s = f a s'.
Proof. intros A B m f s a s' E. unfold bind. now rewrite E. Qed.

Lemma free_spec : forall t f s, (gheight t <= f)%nat -> rep (s_heap s) t -> NoDup (fp t) ->
  exists s', free_children f (groot t) s = Some (tt, s') /\ obj_same s s' /\
    (exists l x, s_heap s (groot t) = Some (SNode l x match t with GT _ _ _ tb _ => tb end) /\ s_heap s' (groot t) = Some (SNode l x None)) /\
    (forall x, In x (fp t) -> x <> groot t -> s_heap s' x = None) /\
    (forall x, ~ In x (fp t) -> s_heap s' x = s_heap s x).
Proof.
  induction t as [a l x tb ks IH] using gtree_ind'. intros f s Hf R ND. destruct f as [|f]; [cbn [gheight] in Hf; lia|].
  assert (R0 := R). apply rep_kids in R. destruct R as (R1 & R2 & R3). cbn [free_children groot].
  erewrite bind_at by (eapply load_node_at; exact R1). destruct tb as [b|].
  2:{ subst ks. exists s. split; [reflexivity|]. split; [apply obj_refl|]. split; [exists l, x; auto|]. split.
      - intros y [<-|I]; [congruence|]. destruct I.
      - auto. }
  erewrite bind_at by (eapply load_ht_at; exact R2).
  cbn [fp tbll] in ND. cbn [app] in ND.
  (* the children *)
  assert (K : forall l0 s0, Forall (fun e => rep (s_heap s0) (snd e)) l0 -> incl l0 ks -> NoDup (flat_map (fun e => fp (snd e)) l0) ->
    exists s', each (fun e => bind (free_children f (snd e)) (fun _ => free (snd e))) (map entry l0) s0 = Some (tt, s') /\
      obj_same s0 s' /\ (forall y, In y (flat_map (fun e => fp (snd e)) l0) -> s_heap s' y = None) /\
      (forall y, ~ In y (flat_map (fun e => fp (snd e)) l0) -> s_heap s' y = s_heap s0 y)).
  { induction l0 as [|e l0 IHl]; intros s0 F0 I0 N0; cbn [map each].
    - exists s0. split; [reflexivity|]. split; [apply obj_refl|]. split; [intros y []|auto].
    - inversion F0; subst. cbn [flat_map] in N0.
      rewrite Forall_forall in IH. assert (Ie : In e ks) by (apply I0; now left).
      assert (Hh := height_kid a l x (Some b) ks e Ie).
      destruct (IH e Ie f s0 ltac:(lia) H1 (NoDup_app_l _ _ _ N0)) as (s1 & E1 & O1 & (l1 & x1 & _ & Q1) & D1 & F1).
      unfold bind at 1 2. cbn [entry snd]. rewrite E1. erewrite free_at by exact Q1.
      set (s2 := set_heap _ s1).
      assert (H2s : forall y, In y (fp (snd e)) -> s_heap s2 y = None).
      { intros y I. cbn [s2 set_heap s_heap]. destruct (Nat.eq_dec y (groot (snd e))) as [->|N]; [apply upd_same|].
        rewrite upd_other by auto. auto. }
      assert (H2o : forall y, ~ In y (fp (snd e)) -> s_heap s2 y = s_heap s0 y).
      { intros y I. cbn [s2 set_heap s_heap]. rewrite upd_other; auto. intros ->. apply I, fp_root. }
      destruct (IHl s2) as (s3 & E3 & O3 & D3 & F3).
      + rewrite Forall_forall in *. intros e' I'. eapply rep_frame; [apply H2; auto|]. intros y J. apply H2o. intros J'.
        eapply (NoDup_app_apart _ _ _ y N0); auto. apply in_flat_map. eauto.
      + intros e' I'. apply I0. now right.
      + eapply NoDup_app_r; eauto.
      + exists s3. split; [exact E3|]. split.
        { eapply obj_trans; [exact O1|]. eapply obj_trans; [|exact O3]. unfold obj_same. cbn. auto. }
        split.
        * intros y I. cbn [flat_map] in I. destruct (in_dec Nat.eq_dec y (flat_map (fun e => fp (snd e)) l0)) as [J|J]; auto.
          rewrite F3 by auto. apply in_app_iff in I. destruct I as [I|I]; [auto|contradiction].
        * intros y I. cbn [flat_map] in I. rewrite F3, H2o; auto; intros J; apply I, in_app_iff; auto. }
  inversion ND as [|? ? Na ND']; subst. inversion ND' as [|? ? Nb ND'']; subst.
  destruct (K ks s R3 (incl_refl ks) ND'') as (s1 & E1 & O1 & D1 & F1).
  erewrite bind_at by exact E1.
  assert (Eb : s_heap s1 b = Some (SHt (map entry ks))) by (rewrite F1; auto).
  assert (Ea : s_heap s1 a = Some (SNode l x (Some b))) by (rewrite F1; auto; intros I; apply Na; now right).
  assert (Nab : a <> b) by (intros ->; apply Na; now left).
  erewrite bind_at by (eapply free_at; exact Eb).
  erewrite bind_at by (eapply load_node_at; cbn [set_heap s_heap]; rewrite upd_other by auto; exact Ea).
  cbv beta iota. erewrite store_at by (cbn [set_heap s_heap]; rewrite upd_other by auto; exact Ea).
  eexists. split; [reflexivity|]. split; [eapply obj_trans; [exact O1|]; unfold obj_same; cbn; auto|].
  cbn [set_heap s_heap]. split; [exists l, x; rewrite upd_same; auto|]. split.
  - intros y I N. rewrite upd_other by auto. cbn [fp tbll app] in I. destruct (Nat.eq_dec y b) as [->|Nyb]; [apply upd_same|].
    rewrite upd_other by auto. destruct I as [I|[I|I]]; [congruence|congruence|]. auto.
  - intros y I. cbn [fp tbll app] in I. rewrite !upd_other by (intros ->; apply I; cbn; auto). apply F1. intros J. apply I. cbn. auto.
Qed.

(** ** Adding *)

(** A tree of a state. *)
Record tree (s : sst) (t : gtree) : Prop := {
  tr_rep : rep (s_heap s) t;
  tr_nodup : NoDup (fp t);
  tr_lt : forall x, s_heap s x <> None -> (x < s_next s)%nat }.

Lemma tr_fp : forall s t x, tree s t -> In x (fp t) -> (x < s_next s)%nat.
Proof. intros s t x [R N L] I. apply L. eapply rep_live; eauto. Qed.

Lemma free_all_spec : forall t s, tree s t ->
  exists s', free_all (groot t) s = Some (tt, s') /\ obj_same s s' /\
    (exists l x, s_heap s (groot t) = Some (SNode l x match t with GT _ _ _ tb _ => tb end) /\ s_heap s' (groot t) = Some (SNode l x None)) /\
    (forall x, In x (fp t) -> x <> groot t -> s_heap s' x = None) /\
    (forall x, ~ In x (fp t) -> s_heap s' x = s_heap s x).
Proof.
  intros t s T. unfold free_all. apply free_spec; [|apply T|apply T].
  etransitivity; [apply height_fp|]. apply NoDup_bound; [apply T|]. intros x I. eapply tr_fp; eauto.
Qed.

(** What changed: the tree [t] became [t'], the rest of the memory is as before. *)
Definition changed (s s' : sst) (t t' : gtree) : Prop :=
  groot t' = groot t /\ tree s' t' /\ (s_next s <= s_next s')%nat /\
  (forall x, In x (fp t') -> In x (fp t) \/ (s_next s <= x)%nat) /\
  (forall x, ~ In x (fp t) -> (x < s_next s)%nat -> s_heap s' x = s_heap s x) /\
  (forall x, s_heap s' x <> None -> In x (fp t') \/ ~ In x (fp t) /\ (x < s_next s)%nat).

Lemma changed_refl : forall s t, tree s t -> changed s s t t.
Proof.
  intros s t T. split; auto. split; auto. split; auto. split; auto. split; auto. intros x H.
  destruct (in_dec Nat.eq_dec x (fp t)); auto. right. split; auto. now apply T.
Qed.

Lemma changed_trans : forall s s' s'' t t' t'', changed s s' t t' -> changed s' s'' t' t'' -> changed s s'' t t''.
Proof.
  intros s s' s'' t t' t'' (A1 & A2 & A3 & A4 & A5 & A6) (B1 & B2 & B3 & B4 & B5 & B6).
  split; [congruence|]. split; auto. split; [lia|]. split; [|split].
  - intros x I. destruct (B4 x I) as [J|J]; [auto|right; lia].
  - intros x I L. rewrite B5; auto; [|lia]. intros J. destruct (A4 x J); [auto|lia].
  - intros x H. destruct (B6 x H) as [J|(J & L)]; auto. 
    rewrite B5 in H by auto. destruct (A6 x H) as [J'|J']; [contradiction|auto].
Qed.

(** Only objects, or counters, change. *)
Lemma tree_rest : forall s s' t, tree s t -> s_heap s' = s_heap s -> (s_next s <= s_next s')%nat -> tree s' t.
Proof.
  intros s s' t [R N L] E H. constructor; auto; rewrite E; auto. intros x Q. specialize (L x Q). lia.
Qed.
Lemma changed_rest : forall s s' t, tree s t -> s_heap s' = s_heap s -> (s_next s <= s_next s')%nat -> changed s s' t t.
Proof.
  intros s s' t T E H. split; auto. split; [eapply tree_rest; eauto|]. split; auto. split; auto. split; [intros; now rewrite E|].
  intros x Q. rewrite E in Q. destruct (in_dec Nat.eq_dec x (fp t)); auto. right. split; auto. now apply T.
Qed.

(** The root's cell changes. *)
Lemma changed_root : forall s s' a l x tb ks l' x', tree s (GT a l x tb ks) ->
  s_heap s' = upd (s_heap s) a (Some (SNode l' x' tb)) -> s_next s' = s_next s ->
  changed s s' (GT a l x tb ks) (GT a l' x' tb ks).
Proof.
  intros s s' a l x tb ks l' x' T E En. assert (R := tr_rep _ _ T). apply rep_kids in R. destruct R as (R1 & R2 & R3).
  assert (ND := tr_nodup _ _ T). inversion ND as [|? ? Na ND']; subst.
  assert (La : (a < s_next s)%nat) by (apply T; congruence).
  split; auto. split; [constructor|].
  - apply rep_kids. rewrite E. split; [apply upd_same|]. split.
    + destruct tb as [b|]; auto. rewrite upd_other; auto. intros ->. apply Na. now left.
    + rewrite Forall_forall in *. intros e I. eapply rep_frame; [apply R3; auto|]. intros y J. apply upd_other. intros ->.
      apply Na. apply in_app_iff. right. apply in_flat_map. eauto.
  - exact ND.
  - intros y H. rewrite E in H. rewrite En. destruct (Nat.eq_dec y a) as [->|N]; auto. rewrite upd_other in H by auto. now apply T.
  - split; [lia|]. split; [cbn [fp]; auto|]. split.
    + intros y I _. rewrite E. apply upd_other. intros ->. apply I. now left.
    + intros y H. rewrite E in H. destruct (Nat.eq_dec y a) as [->|N]; [left; now left|]. rewrite upd_other in H by auto.
      destruct (in_dec Nat.eq_dec y (fp (GT a l x tb ks))) as [I|I]; auto. right. split; auto. now apply T.
Qed.

Lemma sget_split : forall V k (d : list (string * V)) v, sget k d = Some v ->
  exists d1 d2, d = d1 ++ (k, v) :: d2 /\ sget k d1 = None.
Proof.
  induction d as [|[k' v'] d IH]; intros v E; cbn in E; [discriminate|]. destruct (k =? k')%string eqn:K.
  - apply seqb_spec in K. subst. injection E as ->. exists [], d. auto.
  - destruct (IH v E) as (d1 & d2 & -> & Q). exists ((k', v') :: d1), d2. split; auto. cbn. now rewrite K.
Qed.
Lemma sget_map : forall V W (f : V -> W) k (d : list (string * V)), sget k (map (fun e => (fst e, f (snd e))) d) = option_map f (sget k d).
Proof. induction d as [|[k' v'] d IH]; cbn; auto. destruct (k =? k')%string; auto. Qed.
Lemma sset_split : forall V k (v v' : V) d1 d2, sget k d1 = None -> sset k v' (d1 ++ (k, v) :: d2) = d1 ++ (k, v') :: d2.
Proof.
  induction d1 as [|[k' u] d1 IH]; intros d2 E; cbn in *.
  - assert (K : (k =? k)%string = true) by now apply seqb_spec. now rewrite K.
  - destruct (k =? k')%string eqn:K; [discriminate|]. now rewrite IH.
Qed.
Lemma sset_new : forall V k (v : V) d, sget k d = None -> sset k v d = d ++ [(k, v)].
Proof. induction d as [|[k' u] d IH]; intros E; cbn in *; auto. destruct (k =? k')%string eqn:K; [discriminate|]. now rewrite IH. Qed.

(** A child changes. *)
Lemma changed_kid : forall s s' a l x tb k1 k c c' k2, tree s (GT a l x tb (k1 ++ (k, c) :: k2)) ->
  changed s s' c c' -> changed s s' (GT a l x tb (k1 ++ (k, c) :: k2)) (GT a l x tb (k1 ++ (k, c') :: k2)).
Proof.
  intros s s' a l x tb k1 k c c' k2 T (A1 & A2 & A3 & A4 & A5 & A6).
  assert (R := tr_rep _ _ T). apply rep_kids in R. destruct R as (R1 & R2 & R3).
  assert (ND := tr_nodup _ _ T). cbn [fp] in ND. rewrite flat_map_app in ND. cbn [flat_map snd] in ND.
  set (F1 := flat_map (fun e => fp (snd e)) k1) in *. set (F2 := flat_map (fun e => fp (snd e)) k2) in *.
  assert (ND1 : NoDup ((a :: tbll tb ++ F1) ++ fp c ++ F2)) by (cbn [app]; rewrite <- app_assoc; exact ND).
  assert (FP : forall c0, fp (GT a l x tb (k1 ++ (k, c0) :: k2)) = (a :: tbll tb ++ F1) ++ fp c0 ++ F2).
  { intros c0. cbn [fp]. rewrite flat_map_app. cbn [flat_map snd app]. unfold F1, F2. rewrite <- app_assoc. reflexivity. }
  assert (NC : forall y, In y (a :: tbll tb ++ F1) \/ In y F2 -> ~ In y (fp c)).
  { intros y I J. destruct I as [I|I].
    - eapply (NoDup_app_apart _ _ _ y ND1 I). apply in_app_iff. auto.
    - apply NoDup_app_r in ND1. eapply NoDup_app_apart; eauto. }
  assert (LT : forall y, In y (a :: tbll tb ++ F1) \/ In y F2 -> (y < s_next s)%nat).
  { intros y I. eapply tr_fp; [exact T|]. rewrite FP, !in_app_iff. tauto. }
  assert (SM : forall y, In y (a :: tbll tb ++ F1) \/ In y F2 -> s_heap s' y = s_heap s y) by (intros; apply A5; auto).
  split; auto. split; [constructor|].
  - apply rep_kids. split; [rewrite SM; [auto|left; now left]|]. split.
    + destruct tb as [b|].
      * rewrite SM by (left; cbn; auto). rewrite R2. do 2 f_equal. rewrite !map_app. cbn [map].
        replace (entry (k, c')) with (entry (k, c)) by (unfold entry; cbn [fst snd]; congruence). reflexivity.
      * destruct k1; discriminate.
    + rewrite Forall_forall in *. intros e I. apply in_app_iff in I. cbn [In] in I.
      destruct I as [I|[<-|I]]; [|apply A2|].
      * eapply rep_frame; [apply R3; apply in_app_iff; auto|]. intros y J. apply SM. left. right. apply in_app_iff. right.
        apply in_flat_map. eauto.
      * eapply rep_frame; [apply R3; apply in_app_iff; cbn; auto|]. intros y J. apply SM. right. apply in_flat_map. eauto.
  - rewrite FP. eapply NoDup_replace; [exact ND1|apply A2|]. intros y I. destruct (A4 y I) as [J|J]; auto. right. intros Q.
    assert (y < s_next s)%nat by (apply LT; apply in_app_iff in Q; tauto). lia.
  - apply A2.
  - split; auto. rewrite !FP. split; [|split].
    + intros y I. rewrite !in_app_iff in *. destruct I as [I|[I|I]]; auto. destruct (A4 y I); auto.
    + intros y I L. apply A5; auto. intros J. apply I. rewrite !in_app_iff. auto.
    + intros y H. destruct (A6 y H) as [J|(J & L)]; [left; rewrite !in_app_iff; auto|].
      destruct (in_dec Nat.eq_dec y ((a :: tbll tb ++ F1) ++ F2)) as [I|I].
      * left. rewrite !in_app_iff in *. tauto.
      * right. split; auto. rewrite !in_app_iff in *. tauto.
Qed.

(** A table is created. *)
Lemma changed_table : forall s s' a l x, tree s (GT a l x None []) ->
  s_heap s' = upd (upd (s_heap s) (s_next s) (Some (SHt []))) a (Some (SNode l x (Some (s_next s)))) ->
  s_next s' = S (s_next s) -> changed s s' (GT a l x None []) (GT a l x (Some (s_next s)) []).
Proof.
  intros s s' a l x T E En. assert (La : (a < s_next s)%nat) by (eapply tr_fp; [exact T|now left]).
  split; auto. split; [constructor|].
  - apply rep_kids. rewrite E. split; [apply upd_same|]. split; [|constructor]. rewrite upd_other by lia. apply upd_same.
  - cbn. constructor; [intros [Q|[]]; lia|]. constructor; [intros []|constructor].
  - intros y H. rewrite E in H. rewrite En. destruct (Nat.eq_dec y a) as [->|N]; [lia|]. rewrite upd_other in H by auto.
    destruct (Nat.eq_dec y (s_next s)) as [->|N']; [lia|]. rewrite upd_other in H by auto. apply T in H. lia.
  - split; [lia|]. cbn [fp tbll app flat_map]. split; [|split].
    + intros y [I|[I|[]]]; [left; now left|right; lia].
    + intros y I L. rewrite E, !upd_other; auto; [lia|]. intros ->. apply I. now left.
    + intros y H. rewrite E in H. destruct (Nat.eq_dec y a) as [->|N]; [left; now left|]. rewrite upd_other in H by auto.
      destruct (Nat.eq_dec y (s_next s)) as [->|N']; [left; right; now left|]. rewrite upd_other in H by auto.
      right. split; [|now apply T]. intros [Q|[]]. congruence.
Qed.

(** A child is created. *)
Lemma changed_new : forall s s' a l x b ks k c, tree s (GT a l x (Some b) ks) -> c = s_next s ->
  s_heap s' = upd (upd (s_heap s) c (Some (SNode false false None))) b (Some (SHt (map entry ks ++ [(k, c)]))) ->
  s_next s' = S (s_next s) ->
  changed s s' (GT a l x (Some b) ks) (GT a l x (Some b) (ks ++ [(k, GT c false false None [])])).
Proof.
  intros s s' a l x b ks k c T -> E En. assert (R := tr_rep _ _ T). apply rep_kids in R. destruct R as (R1 & R2 & R3).
  assert (ND := tr_nodup _ _ T). assert (LT : forall y, In y (fp (GT a l x (Some b) ks)) -> (y < s_next s)%nat) by (intros; eapply tr_fp; eauto).
  cbn [fp tbll app] in ND, LT. inversion ND as [|? ? Na ND']; subst. inversion ND' as [|? ? Nb ND'']; subst.
  assert (Lb : (b < s_next s)%nat) by (apply LT; cbn; auto). assert (Nab : a <> b) by (intros ->; apply Na; now left).
  assert (La : (a < s_next s)%nat) by (apply LT; now left).
  assert (FP : fp (GT a l x (Some b) (ks ++ [(k, GT (s_next s) false false None [])])) = fp (GT a l x (Some b) ks) ++ [s_next s]).
  { cbn [fp tbll app]. rewrite flat_map_app. reflexivity. }
  split; auto. split; [constructor|].
  - apply rep_kids. rewrite E. split; [rewrite !upd_other by lia; auto|]. split.
    + rewrite upd_same. rewrite map_app. reflexivity.
    + apply Forall_app. split.
      * rewrite Forall_forall in *. intros e I. eapply rep_frame; [apply R3; auto|]. intros y J.
        assert (Iy : In y (flat_map (fun e => fp (snd e)) ks)) by (apply in_flat_map; eauto).
        assert (y < s_next s)%nat by (apply LT; cbn; auto). rewrite !upd_other; auto; [lia|]. intros ->. auto.
      * constructor; [|constructor]. cbn [snd]. apply rep_kids. split; [|split; auto]. rewrite upd_other by lia. apply upd_same.
  - rewrite FP. apply NoDup_app_intro; [exact (tr_nodup _ _ T)|constructor; [intros []|constructor]|].
    intros y I [<-|[]]. specialize (LT _ I). lia.
  - intros y H. rewrite E in H. rewrite En. destruct (Nat.eq_dec y b) as [->|N]; [lia|]. rewrite upd_other in H by auto.
    destruct (Nat.eq_dec y (s_next s)) as [->|N']; [lia|]. rewrite upd_other in H by auto. apply T in H. lia.
  - split; [lia|]. rewrite FP. split; [|split].
    + intros y I. apply in_app_iff in I. destruct I as [I|[<-|[]]]; auto.
    + intros y I L. rewrite E, !upd_other; auto; [lia|]. intros ->. apply I. cbn. auto.
    + intros y H. rewrite E in H. rewrite in_app_iff. destruct (Nat.eq_dec y b) as [->|N]; [left; left; cbn; auto|]. rewrite upd_other in H by auto.
      destruct (Nat.eq_dec y (s_next s)) as [->|N']; [left; right; now left|]. rewrite upd_other in H by auto.
      destruct (in_dec Nat.eq_dec y (fp (GT a l x (Some b) ks))) as [I|I]; auto. right. split; auto. now apply T.
Qed.

(** A cell that was allocated is freed again. *)
Lemma changed_gone : forall s s' t, tree s t -> s_heap s' = upd (upd (s_heap s) (s_next s) None) (s_next s) None \/
  (forall y, s_heap s' y = s_heap s y) -> (s_next s <= s_next s')%nat -> changed s s' t t.
Proof.
  intros s s' t T E L.
  assert (S : forall y, s_heap s' y = s_heap s y).
  { destruct E as [E|E]; auto. intros y. rewrite E. destruct (Nat.eq_dec y (s_next s)) as [->|N]; [|now rewrite !upd_other by auto].
    rewrite upd_same. destruct (s_heap s (s_next s)) eqn:Q; auto. assert (K : (s_next s < s_next s)%nat) by (apply T; congruence). lia. }
  split; auto. split; [constructor|].
  - eapply rep_frame; [apply T|]. auto.
  - apply T.
  - intros y H. rewrite S in H. apply T in H. lia.
  - split; auto. split; auto. split; auto. intros y H. rewrite S in H. destruct (in_dec Nat.eq_dec y (fp t)); auto. right.
    split; auto. now apply T.
Qed.

(** The children of the root are freed. *)
Lemma changed_freed : forall s s' a l x tb ks l' x', tree s (GT a l x tb ks) -> s_next s' = s_next s ->
  s_heap s' a = Some (SNode l' x' None) -> (forall y, In y (fp (GT a l x tb ks)) -> y <> a -> s_heap s' y = None) ->
  (forall y, ~ In y (fp (GT a l x tb ks)) -> s_heap s' y = s_heap s y) ->
  changed s s' (GT a l x tb ks) (GT a l' x' None []).
Proof.
  intros s s' a l x tb ks l' x' T En Ea D F.
  split; auto. split; [constructor|].
  - apply rep_kids. auto.
  - cbn. constructor; [intros []|constructor].
  - intros y H. rewrite En. destruct (in_dec Nat.eq_dec y (fp (GT a l x tb ks))) as [I|I]; [eapply tr_fp; eauto|].
    rewrite F in H by auto. now apply T.
  - split; [lia|]. split; [intros y [<-|[]]; left; now left|]. split; [auto|].
    intros y H. destruct (in_dec Nat.eq_dec y (fp (GT a l x tb ks))) as [I|I].
    + destruct (Nat.eq_dec y a) as [->|N]; [left; now left|]. rewrite D in H by auto. congruence.
    + right. split; auto. rewrite F in H by auto. now apply T.
Qed.
