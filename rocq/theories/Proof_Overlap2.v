(** Exact meaning of [isdisjoint] of C subscriptions. *)
From Coq Require Import String Ascii Bool Lia List.
From Verif Require Import Base Model_Types Model_Subscription Spec_Subscription Spec_Creation Spec_Overlap
  Proof_Subscription Proof_Subscription2 Proof_Overlap.
Import ListNotations.
Open Scope string_scope.
Open Scope list_scope.

Fixpoint creach (c : cnode) (p : etype) : option cnode :=
  match p with
  | [] => Some c
  | h :: p' => match sget h (cn_children c) with Some d => creach d p' | None => None end
  end.

Fixpoint reach (n : node) (p : etype) : option node :=
  match p with
  | [] => Some n
  | h :: p' => if smem "*" (n_children n) then None
               else match sget h (n_children n) with Some d => reach d p' | None => None end
  end.

Definition cstar (c : cnode) : bool := let 'CNode _ s _ := c in s.
Definition cleaf (c : cnode) : bool := let 'CNode l _ _ := c in l.

(** What makes [isdisjoint] answer false at a pair of nodes. *)
Definition meet (x y : cnode) : Prop :=
  (cleaf x = true /\ cleaf y = true) \/
  (cstar x = true /\ (cleaf y = true \/ cn_children y <> [])) \/
  (cstar y = true /\ (cleaf x = true \/ cn_children x <> [])) \/
  (cn_children x = [] /\ cleaf x = true /\ cn_children y <> []) \/
  (cn_children y = [] /\ cleaf y = true /\ cn_children x <> []).

Lemma disjoint_meet : forall f a b, cwf a -> cwf b -> cheight a <= f \/ cheight b <= f ->
    (c_disjoint_fuel f a b = false <->
     exists p1 p2 x y, Forall2 compatible p1 p2 /\ creach a p1 = Some x /\ creach b p2 = Some y /\ meet x y).
Proof.
  induction f as [|f IH]; intros [l1 s1 c1] [l2 s2 c2] Hw1 Hw2 Hf.
  { pose proof (cheight_pos (CNode l1 s1 c1)). pose proof (cheight_pos (CNode l2 s2 c2)). lia. }
  cbn [c_disjoint_fuel].
  assert (Hhere : meet (CNode l1 s1 c1) (CNode l2 s2 c2) ->
    exists p1 p2 x y, Forall2 compatible p1 p2 /\ creach (CNode l1 s1 c1) p1 = Some x /\
      creach (CNode l2 s2 c2) p2 = Some y /\ meet x y).
  { intros H. exists [], [], (CNode l1 s1 c1), (CNode l2 s2 c2). repeat split; auto. }
  (* without children on one side only this pair counts *)
  assert (Honly : c1 = [] \/ c2 = [] ->
    (exists p1 p2 x y, Forall2 compatible p1 p2 /\ creach (CNode l1 s1 c1) p1 = Some x /\
      creach (CNode l2 s2 c2) p2 = Some y /\ meet x y) -> meet (CNode l1 s1 c1) (CNode l2 s2 c2)).
  { intros He (p1 & p2 & x & y & HF & Hx & Hy & Hm). destruct HF as [|k1 k2 p1 p2 Hk HF].
    - inversion Hx; subst. inversion Hy; subst. exact Hm.
    - cbn in Hx, Hy. destruct He as [-> | ->]; discriminate. }
  destruct (l1 && l2) eqn:El.
  { split; auto. intros _. apply Hhere. apply andb_true_iff in El. left. exact El. }
  destruct s1.
  { inversion Hw1; subst. cbn in El. subst. cbn [negb andb]. split.
    - intros H. apply Hhere. right. left. cbn. split; auto. right. intros ->. discriminate.
    - intros H. apply Honly in H; auto. unfold meet in H. cbn in H.
      destruct c2; [|reflexivity]. inversion Hw2; subst. intuition congruence. }
  destruct s2.
  { inversion Hw2; subst. rewrite andb_true_r in El. subst. cbn [negb andb]. split.
    - intros H. apply Hhere. right. right. left. cbn. split; auto. right. intros ->. discriminate.
    - intros H. apply Honly in H; auto. unfold meet in H. cbn in H.
      destruct c1; [|reflexivity]. intuition congruence. }
  destruct c1 as [|kc1 c1'] eqn:Ec1.
  { split.
    - intros H. apply orb_false_iff in H as [Hl Hc]. apply negb_false_iff in Hl. subst.
      apply Hhere. right. right. right. left. cbn. split; auto. split; auto. intros ->. discriminate.
    - intros H. apply Honly in H; auto. unfold meet in H. cbn in H. destruct l1, c2; cbn in *; intuition congruence. }
  destruct c2 as [|kc2 c2'] eqn:Ec2.
  { split.
    - intros H. apply orb_false_iff in H as [Hl Hc]. apply negb_false_iff in Hl. subst.
      apply Hhere. right. right. right. right. cbn. split; auto. split; auto. intros; discriminate.
    - intros H. apply Honly in H; auto. unfold meet in H. cbn in H. destruct l1, l2; cbn in *; intuition congruence. }
  assert (Hnone : ~ meet (CNode l1 false c1) (CNode l2 false c2)).
  { subst. unfold meet. cbn. intros H. destruct l1, l2; cbn in El; intuition congruence. }
  rewrite <- Ec1, <- Ec2 in *. clear Ec1 Ec2.
  inversion Hw1 as [|? ? Hnd1 Hch1]; subst. inversion Hw2 as [|? ? Hnd2 Hch2]; subst.
  assert (Hh12 : forall k c k' c', In (k, c) c1 -> In (k', c') c2 -> cheight c <= f \/ cheight c' <= f).
  { intros. pose proof (cheight_child l1 false _ _ _ H). pose proof (cheight_child l2 false _ _ _ H0). lia. }
  assert (Hlift : forall k c k' c', In (k, c) c1 -> In (k', c') c2 -> compatible k k' ->
       c_disjoint_fuel f c c' = false ->
       exists p1 p2 x y, Forall2 compatible p1 p2 /\ creach (CNode l1 false c1) p1 = Some x /\
          creach (CNode l2 false c2) p2 = Some y /\ meet x y).
  { intros k c k' c' H H0 Hk Hd. apply IH in Hd as (p1 & p2 & x & y & HF & Hx & Hy & Hm); eauto.
    exists (k :: p1), (k' :: p2), x, y. cbn.
    rewrite (In_dget seqb_spec _ _ _ Hnd1 H), (In_dget seqb_spec _ _ _ Hnd2 H0). repeat split; auto. }
  split.
  - match goal with |- context[if ?x then false else _] => destruct x eqn:Eq1 end.
    { intros _. destruct (sget "?" c1) as [q|] eqn:Eg; [|discriminate]. apply negb_true_iff in Eq1.
      apply (dget_In seqb_spec) in Eg. apply forallb_false_ex in Eq1 as [[k c] [Hin Hd]].
      apply (Hlift "?" q k c); auto. right; auto. }
    match goal with |- context[if ?x then false else _] => destruct x eqn:Eq2 end.
    { intros _. destruct (sget "?" c2) as [q|] eqn:Eg; [|discriminate]. apply negb_true_iff in Eq2.
      apply (dget_In seqb_spec) in Eg. apply forallb_false_ex in Eq2 as [[k c] [Hin Hd]].
      apply (Hlift k c "?" q); auto. right; auto. }
    match goal with |- context[if ?x then false else _] => destruct x eqn:Eq3 end.
    { intros _. apply negb_true_iff in Eq3. apply forallb_false_ex in Eq3 as [[k c] [Hin Hd]].
      cbn [fst snd] in Hd. destruct (k =? "?"); [discriminate|].
      destruct (sget k c2) as [d|] eqn:Eg; [|discriminate]. apply (dget_In seqb_spec) in Eg.
      apply (Hlift k c k d); auto. left; auto. }
    intros H. apply forallb_false_ex in H as [[k c] [Hin Hd]].
    cbn [fst snd] in Hd. destruct (k =? "?"); [discriminate|].
    destruct (sget k c1) as [d|] eqn:Eg; [|discriminate]. apply (dget_In seqb_spec) in Eg.
    apply (Hlift k d k c); auto. left; auto.
  - intros (p1 & p2 & x & y & HF & Hx & Hy & Hm). destruct HF as [|k1 k2 p1 p2 Hk HF].
    { inversion Hx; subst. inversion Hy; subst. easy. }
    cbn in Hx, Hy. destruct (sget k1 c1) as [c|] eqn:G1; [|discriminate].
    destruct (sget k2 c2) as [d|] eqn:G2; [|discriminate].
    pose proof (dget_In seqb_spec _ _ _ G1) as I1. pose proof (dget_In seqb_spec _ _ _ G2) as I2.
    assert (Hd : c_disjoint_fuel f c d = false).
    { apply IH; eauto. exists p1, p2, x, y. auto. }
    match goal with |- context[if ?x then false else _] => destruct x eqn:Eq1 end; auto.
    match goal with |- context[if ?x then false else _] => destruct x eqn:Eq2 end; auto.
    match goal with |- context[if ?x then false else _] => destruct x eqn:Eq3 end; auto.
    exfalso.
    destruct (string_dec k1 "?") as [->|N1].
    { rewrite G1 in Eq1. apply negb_false_iff in Eq1. rewrite forallb_forall in Eq1.
      specialize (Eq1 _ I2). cbn [snd] in Eq1. congruence. }
    destruct (string_dec k2 "?") as [->|N2].
    { rewrite G2 in Eq2. apply negb_false_iff in Eq2. rewrite forallb_forall in Eq2.
      specialize (Eq2 _ I1). cbn [snd] in Eq2. congruence. }
    destruct Hk as [->|[?|?]]; [|easy|easy].
    apply negb_false_iff in Eq3. rewrite forallb_forall in Eq3. specialize (Eq3 _ I1). cbn [fst snd] in Eq3.
    apply String.eqb_neq in N1. rewrite N1, G2 in Eq3. congruence.
Qed.

Lemma isdisjoint_meet : forall a b, cwf a -> cwf b ->
    (c_isdisjoint a b = false <->
     exists p1 p2 x y, Forall2 compatible p1 p2 /\ creach a p1 = Some x /\ creach b p2 = Some y /\ meet x y).
Proof. intros a b Ha Hb. apply disjoint_meet; auto. lia. Qed.

(** * Nodes of both trees *)

Lemma sim_reach : forall p c n, sim c n ->
    match creach c p, reach n p with
    | Some c', Some n' => sim c' n'
    | None, None => True
    | _, _ => False
    end.
Proof.
  induction p as [|h p IH]; intros c n H; [exact H|].
  inversion H as [l|l ch ch' Hs HF]; subst; cbn.
  - exact I.
  - rewrite Hs. pose proof (sim_get h _ _ HF) as Hg. destruct (sget h ch), (sget h ch'); try easy. now apply IH.
Qed.

Lemma leafat_reach : forall p n, leafat n p = match reach n p with Some (Node l _) => l | None => false end.
Proof.
  induction p as [|h p IH]; intros [l ch]; cbn; auto. destruct (smem "*" ch); auto. destruct (sget h ch); auto.
Qed.

Lemma starat_reach : forall p n, starat n p = match reach n p with Some (Node _ ch) => smem "*" ch | None => false end.
Proof.
  induction p as [|h p IH]; intros [l ch]; cbn; auto. destruct (smem "*" ch); auto. destruct (sget h ch); auto.
Qed.

Lemma reach_app : forall p s n, reach n (p ++ s) = match reach n p with Some m => reach m s | None => None end.
Proof.
  induction p as [|h p IH]; intros s n; cbn; auto.
  destruct (smem "*" (n_children n)); auto. destruct (sget h (n_children n)); auto.
Qed.

Lemma reach_wf : forall p n m, wf n -> reach n p = Some m -> wf m.
Proof.
  induction p as [|h p IH]; intros [l ch] m Hw H; cbn in H; [inversion H; subst; auto|].
  destruct (smem "*" ch); [discriminate|]. destruct (sget h ch) eqn:Eg; [|discriminate].
  eapply IH; [|eauto]. eapply sget_wf; eauto.
Qed.

Lemma reach_live : forall p n m, live n -> reach n p = Some m -> live m.
Proof.
  induction p as [|h p IH]; intros [l ch] m Hw H; cbn in H; [inversion H; subst; auto|].
  destruct (smem "*" ch); [discriminate|]. destruct (sget h ch) eqn:Eg; [|discriminate].
  eapply IH; [|eauto]. apply (dget_In seqb_spec) in Eg. eapply live_inv; eauto.
Qed.

Lemma reach_starless : forall p n m, reach n p = Some m -> starless p.
Proof.
  induction p as [|h p IH]; intros [l ch] m H; [easy|]. cbn in H.
  destruct (smem "*" ch) eqn:E; [discriminate|]. destruct (sget h ch) eqn:Eg; [|discriminate].
  intros [->|Hin]; [eapply sget_star; eauto|]. eapply IH; eauto.
Qed.

(** Below a node which has something there is a place. *)
Lemma live_place : forall n, wf n -> live n -> n_leaf n = true \/ n_children n <> [] ->
    exists r, leafat n r = true \/ starat n r = true.
Proof.
  induction n as [l ch IH] using node_ind'. intros Hw Hl Ha. cbn in Ha.
  destruct l; [exists []; left; reflexivity|].
  destruct Ha as [|Ha]; [discriminate|].
  destruct (wf_inv _ _ Hw) as [->|(Hs & Hnd & Hch)]; [exists []; right; reflexivity|].
  destruct ch as [|[k c] ch']; [easy|]. set (ch := (k, c) :: ch') in *.
  assert (Hin : In (k, c) ch) by (left; auto).
  destruct (live_inv _ _ Hl k c Hin) as [Hl' Ha']. rewrite Forall_forall in IH.
  destruct (IH _ Hin (Hch _ _ Hin) Hl' Ha') as [r Hr]. cbn [snd] in Hr.
  apply (In_dget seqb_spec) in Hin; auto. exists (k :: r). cbn [leafat starat]. rewrite Hs, Hin. exact Hr.
Qed.

Lemma live_below : forall n, wf n -> live n -> n_children n <> [] -> smem "*" (n_children n) = false ->
    exists x r, leafat n (x :: r) = true \/ starat n (x :: r) = true.
Proof.
  intros [l ch] Hw Hl Hn Hs. cbn in Hn, Hs. destruct ch as [|[k c] ch']; [easy|]. set (ch := (k, c) :: ch') in *.
  assert (Hin : In (k, c) ch) by (left; auto).
  destruct (wf_inv _ _ Hw) as [E|(_ & Hnd & Hch)]; [rewrite E in Hs; discriminate|].
  destruct (live_inv _ _ Hl k c Hin) as [Hl' Ha'].
  destruct (live_place c (Hch _ _ Hin) Hl' Ha') as [r Hr].
  apply (In_dget seqb_spec) in Hin; auto. exists k, r. cbn [leafat starat]. rewrite Hs, Hin. exact Hr.
Qed.

(** * Query types and places *)

Lemma placed_here : forall q n n', add_query_type n q = Some n' ->
    leafat n' q = true \/ exists p s, q = p ++ s /\ starat n' p = true.
Proof.
  induction q as [|h q IH]; intros [l ch] n' H; cbn [add_query_type] in H.
  - destruct (smem "*" ch) eqn:E; inversion H; subst; auto. right. exists [], []. auto.
  - destruct (smem "*" ch) eqn:E; [inversion H; subst; right; exists [], (h :: q); auto|].
    destruct (h =? "*") eqn:Eh.
    + destruct q; inversion H; subst. right. exists [], [h]. auto.
    + apply String.eqb_neq in Eh.
      destruct (add_query_type _ q) as [c|] eqn:Ec; inversion H; subst; clear H.
      apply IH in Ec. cbn [leafat]. rewrite smem_sset, E, (dget_dset_same seqb_spec) by auto.
      destruct Ec as [Ec|(p & s & -> & Hp)]; auto. right. exists (h :: p), s. split; auto.
      cbn. now rewrite smem_sset, E, (dget_dset_same seqb_spec) by auto.
Qed.

Definition covered (n : node) (q : etype) : Prop :=
  leafat n q = true \/ exists p s, q = p ++ s /\ starat n p = true.

Lemma covered_add : forall q n n' q', add_query_type n q = Some n' -> covered n q' -> covered n' q'.
Proof.
  intros q n n' q' H [Hl|(p & s & -> & Hp)].
  - destruct (leafat_add _ _ _ q' H (or_introl Hl)) as [Hl'|(p & s & _ & -> & Hp)]; [left; auto|right; eauto].
  - right. destruct (starat_add _ _ _ p H (or_introl Hp)) as (p' & s' & -> & Hp'). exists p', (s' ++ s).
    split; auto. now rewrite app_assoc.
Qed.

Lemma covered_adds : forall qs n n', add_query_types n qs = Some n' ->
    forall q, In q qs \/ covered n q -> covered n' q.
Proof.
  induction qs as [|q0 qs IH]; cbn; intros n n' H q Hq.
  - inversion H; subst. destruct Hq; [easy|auto].
  - destruct (add_query_type n q0) eqn:E; [|discriminate]. eapply IH; eauto.
    destruct Hq as [[->|Hin]|Hc]; auto.
    + right. eapply placed_here; eauto.
    + right. eapply covered_add; eauto.
Qed.

Lemma create_covered : forall qs n, py_create qs = Some n -> forall q, In q qs -> covered n q.
Proof. intros qs n H q Hin. eapply covered_adds; eauto. Qed.

Lemma leafat_in : forall qs n p, py_create qs = Some n -> leafat n p = true -> In p qs.
Proof.
  intros qs n p H Hp. apply create_placed in H as (_ & _ & H & _). apply H in Hp as (a & b & -> & _).
  apply in_or_app; cbn; auto.
Qed.

Lemma starat_in : forall qs n p, py_create qs = Some n -> starat n p = true -> In (p ++ ["*"]) qs.
Proof. intros qs n p H Hp. apply create_placed in H as (H & _). auto. Qed.

(** * Common instances *)

Lemma starless_valid : forall q, starless q -> valid_query q.
Proof. intros q H p r ->. exfalso. apply H. apply in_or_app; cbn; auto. Qed.

Lemma starless_cons : forall h q, starless (h :: q) <-> h <> "*" /\ starless q.
Proof. intros h q. unfold starless. cbn. intuition. Qed.

Lemma valid_star : forall p, starless p -> valid_query (p ++ ["*"]).
Proof.
  induction p as [|h p IH]; intros H; cbn.
  - apply valid_cons. split; auto using valid_nil.
  - apply starless_cons in H as [Hh H]. apply valid_cons. split; auto. easy.
Qed.

Lemma instance : forall q, valid_query q -> exists t, qmatch q t.
Proof.
  induction q as [|h q IH]; intros Hv; [exists []; constructor|].
  apply valid_cons in Hv as [Hs Hv]. destruct (string_dec h "*") as [->|Hn].
  - rewrite (Hs eq_refl). exists []. constructor.
  - destruct (IH Hv) as [t Ht]. exists (h :: t). now apply qm_same.
Qed.

(** A common instance of two beginnings, extended. *)
Lemma common_instance : forall p1 p2, Forall2 compatible p1 p2 -> starless p1 -> starless p2 ->
    exists u, forall w1 w2 t, qmatch w1 t -> qmatch w2 t -> qmatch (p1 ++ w1) (u ++ t) /\ qmatch (p2 ++ w2) (u ++ t).
Proof.
  intros p1 p2 HF. induction HF as [|k1 k2 p1 p2 Hk HF IH]; intros S1 S2.
  - exists []. auto.
  - apply starless_cons in S1 as [N1 S1]. apply starless_cons in S2 as [N2 S2].
    destruct (IH S1 S2) as [u Hu].
    exists ((if k1 =? "?" then k2 else k1) :: u). intros w1 w2 t H1 H2.
    destruct (Hu w1 w2 t H1 H2) as [Q1 Q2]. cbn [app].
    destruct (k1 =? "?") eqn:E.
    + apply seqb_spec in E; subst. split; [now apply qm_one|now apply qm_same].
    + apply String.eqb_neq in E. split; [now apply qm_same|].
      destruct Hk as [->|[->| ->]]; [now apply qm_same|easy|now apply qm_one].
Qed.

Lemma Forall2_split_r : forall (A B : Type) (R : A -> B -> Prop) l2 r2 l, Forall2 R l (l2 ++ r2) ->
    exists l1 r1, l = l1 ++ r1 /\ Forall2 R l1 l2 /\ Forall2 R r1 r2.
Proof. intros A B R l2 r2 l H. apply Forall2_app_inv_r in H as (l1 & r1 & H1 & H2 & ->). eauto. Qed.

Lemma compatible_sym : forall a b, compatible a b -> compatible b a.
Proof. intros a b [->|[->| ->]]; unfold compatible; auto. Qed.

Lemma Forall2_compatible_sym : forall p q, Forall2 compatible p q -> Forall2 compatible q p.
Proof. intros p q H. induction H; constructor; auto using compatible_sym. Qed.

(** [p' ++ ["*"]] and a query type that begins compatibly have a common instance. *)
Lemma star_common : forall p' p2 w, Forall2 compatible p' p2 -> starless p' -> valid_query (p2 ++ w) ->
    starless p2 -> exists t, qmatch (p' ++ ["*"]) t /\ qmatch (p2 ++ w) t.
Proof.
  intros p' p2 w HF S1 Hv S2. destruct (common_instance _ _ HF S1 S2) as [u Hu].
  assert (Hvw : valid_query w).
  { intros a r ->. apply (Hv (p2 ++ a) r). now rewrite app_assoc. }
  destruct (instance w Hvw) as [t Ht]. exists (u ++ t). apply Hu; auto. constructor.
Qed.

(** Everything before the last subtype of a valid query type is free of '*'. *)
Lemma valid_before : forall p x r, valid_query (p ++ x :: r) -> starless p.
Proof.
  intros p x r Hv Hin. apply in_split in Hin as (a & b & ->).
  rewrite <- app_assoc in Hv. specialize (Hv a (b ++ x :: r) eq_refl). destruct b; discriminate.
Qed.

(** * Exactness *)

Lemma sim_node_facts : forall c m, sim c m ->
    (cstar c = true -> smem "*" (n_children m) = true) /\
    (cstar c = false -> smem "*" (n_children m) = false /\ cleaf c = n_leaf m) /\
    (cn_children c <> [] -> n_children m <> []) /\
    (cstar c = false -> cn_children c = [] -> n_children m = []) /\
    (n_children m <> [] -> smem "*" (n_children m) = false -> cn_children c <> []) /\
    (cstar c = true -> cn_children c = [] /\ cleaf c = true).
Proof.
  intros c m H. inversion H as [l|l ch ch' Hs HF]; subst; cbn [cstar cleaf cn_children n_children n_leaf].
  - repeat split; intros; auto; try discriminate; easy.
  - repeat split; intros; auto; try discriminate.
    + intros ->. inversion HF; subst. easy.
    + subst. inversion HF; subst. easy.
    + intros ->. inversion HF; subst. easy.
Qed.

Lemma place_in : forall qs n p r, py_create qs = Some n ->
    (exists m, reach n p = Some m /\ (leafat m r = true \/ starat m r = true)) ->
    exists w, In (p ++ w) qs /\ valid_query (p ++ w) /\ (w = r \/ w = r ++ ["*"]).
Proof.
  intros qs n p r H (m & Hr & [Hl|Hs]).
  - assert (Hx : leafat n (p ++ r) = true).
    { rewrite leafat_reach, reach_app, Hr, <- leafat_reach. exact Hl. }
    exists r. split; [eapply leafat_in; eauto|]. split; auto. apply starless_valid. eapply leafat_starless; eauto.
  - assert (Hx : starat n (p ++ r) = true).
    { rewrite starat_reach, reach_app, Hr, <- starat_reach. exact Hs. }
    exists (r ++ ["*"]). rewrite app_assoc. split; [eapply starat_in; eauto|]. split; auto.
    apply valid_star. eapply starat_starless; eauto.
Qed.

Lemma below_children : forall m x r, leafat m (x :: r) = true \/ starat m (x :: r) = true ->
    n_children m <> [] /\ smem "*" (n_children m) = false.
Proof.
  intros [l ch] x r H. cbn in *. destruct (smem "*" ch); [destruct H; discriminate|]. split; auto.
  intros ->. cbn in H. destruct H; discriminate.
Qed.

Section Two.
  Variables qs1 qs2 : list etype.
  Variables n1 n2 : node.
  Variables c1 c2 : cnode.
  Hypothesis H1 : py_create qs1 = Some n1.
  Hypothesis H2 : py_create qs2 = Some n2.
  Hypothesis S1 : sim c1 n1.
  Hypothesis S2 : sim c2 n2.

  Lemma clash_false : clash qs1 qs2 ->
      (exists t, selects qs1 t /\ selects qs2 t) \/
      exists p1 p2 x y, Forall2 compatible p1 p2 /\ creach c1 p1 = Some x /\ creach c2 p2 = Some y /\
        (cn_children x = [] /\ cleaf x = true /\ cn_children y <> []).
  Proof.
    intros (q & p & x & r & Hq & Hsl & Hext & Hp & Hv & HF).
    pose proof (valid_before _ _ _ Hv) as Hslp.
    destruct (create_covered _ _ H1 _ Hq) as [Hl|(p' & s & -> & Hst)].
    - (* a leaf at [q] *)
      assert (Hright : forall m2 r', reach n2 p = Some m2 -> leafat m2 (x :: r') = true \/ starat m2 (x :: r') = true ->
        exists p1 p2 x y, Forall2 compatible p1 p2 /\ creach c1 p1 = Some x /\ creach c2 p2 = Some y /\
        (cn_children x = [] /\ cleaf x = true /\ cn_children y <> [])).
      { intros m2 r' R2 Hm2. rewrite leafat_reach in Hl.
        destruct (reach n1 q) as [m1|] eqn:R1; [|discriminate]. 
        pose proof (sim_reach q _ _ S1) as G1. pose proof (sim_reach p _ _ S2) as G2. rewrite R1 in G1. rewrite R2 in G2.
        destruct (creach c1 q) as [x1|] eqn:C1; [|easy]. destruct (creach c2 p) as [y|] eqn:C2; [|easy].
        exists q, p, x1, y. split; auto. split; auto. split; auto.
        assert (Hns : smem "*" (n_children m1) = false).
        { destruct (smem "*" (n_children m1)) eqn:E; auto. exfalso. apply (Hext "*" []).
          eapply starat_in; eauto. rewrite starat_reach, R1. destruct m1; exact E. }
        destruct (sim_node_facts _ _ G1) as (F1 & F2 & F3 & F4 & F5 & F6).
        destruct (cstar x1) eqn:Ex; [rewrite F1 in Hns by auto; discriminate|].
        destruct (F2 eq_refl) as [_ ->].
        split; [|split].
        - destruct (cn_children x1) as [|kc ch] eqn:Ec; auto. exfalso.
          destruct (live_below m1) as (y' & r2 & Hy').
          + eapply reach_wf; [|exact R1]. eapply create_wf; eauto.
          + eapply reach_live; [|exact R1]. eapply create_live; eauto.
          + apply F3. discriminate.
          + exact Hns.
          + destruct (place_in qs1 n1 q (y' :: r2) H1) as (w & Hin & _ & Hw); [eauto|].
            destruct Hw as [-> | ->]; eapply Hext; exact Hin.
        - destruct m1; exact Hl.
        - apply (proj1 (proj2 (proj2 (proj2 (proj2 (sim_node_facts _ _ G2)))))); eapply below_children; eauto. }
      destruct (create_covered _ _ H2 _ Hp) as [Hl2|(p2 & s2 & He & Hst2)].
      + rewrite leafat_reach, reach_app in Hl2. destruct (reach n2 p) as [m2|] eqn:R2; [|discriminate].
        right. apply (Hright m2 r); auto. left. rewrite leafat_reach. exact Hl2.
      + assert (Hcmp : (exists s', p = p2 ++ s') \/ exists r2, p2 = p ++ x :: r2).
        { clear -He. revert p2 s2 He. induction p as [|k p IH]; intros p2 s2 He.
          - destruct p2 as [|k2 p2]; [left; exists []; auto|]. inversion He; subst. right. exists p2; auto.
          - destruct p2 as [|k2 p2]; [left; exists (k :: p); auto|]. cbn in He. inversion He; subst.
            destruct (IH _ _ H1) as [[s' ->]|[r2 ->]]; [left; exists s'; auto|right; exists r2; auto]. }
        destruct Hcmp as [[s' ->]|[r2 ->]].
        * left. apply Forall2_app_inv_r in HF as (qa & qb & HFa & _ & ->).
          destruct (star_common p2 qa qb) as (t & Ht1 & Ht2).
          { now apply Forall2_compatible_sym. }
          { eapply starat_starless; eauto. }
          { now apply starless_valid. }
          { eapply starless_app; eauto. }
          exists t. split.
          -- exists (qa ++ qb). split; auto. split; auto. now apply starless_valid.
          -- exists (p2 ++ ["*"]). split; [eapply starat_in; eauto|]. split; auto.
             apply valid_star. eapply starat_starless; eauto.
        * rewrite starat_reach, reach_app in Hst2. destruct (reach n2 p) as [m2|] eqn:R2; [|discriminate].
          right. apply (Hright m2 r2); auto. right. rewrite starat_reach. exact Hst2.
    - (* '*' at a beginning of [q] *)
      left. apply Forall2_app_inv_l in HF as (pa & pb & HFa & _ & ->).
      destruct (star_common p' pa (pb ++ x :: r)) as (t & Ht1 & Ht2); auto.
      { eapply starat_starless; eauto. }
      { now rewrite app_assoc. }
      { eapply starless_app; eauto. }
      exists t. split.
      + exists (p' ++ ["*"]). split; [eapply starat_in; eauto|]. split; auto.
        apply valid_star. eapply starat_starless; eauto.
      + exists ((pa ++ pb) ++ x :: r). rewrite <- app_assoc in *. auto.
  Qed.

  (** A '*' against something. *)
  Lemma meet_star : forall p1 p2 x y, Forall2 compatible p1 p2 -> creach c1 p1 = Some x -> creach c2 p2 = Some y ->
      cstar x = true -> cleaf y = true \/ cn_children y <> [] ->
      exists t, selects qs1 t /\ selects qs2 t.
  Proof.
    intros p1 p2 x y HF C1 C2 Hx Hy.
    pose proof (sim_reach p1 _ _ S1) as G1. pose proof (sim_reach p2 _ _ S2) as G2. rewrite C1 in G1. rewrite C2 in G2.
    destruct (reach n1 p1) as [m1|] eqn:R1; [|easy]. destruct (reach n2 p2) as [m2|] eqn:R2; [|easy].
    destruct (sim_node_facts _ _ G1) as (F1 & _).
    destruct (sim_node_facts _ _ G2) as (K1 & K2 & K3 & K4 & K5 & K6).
    assert (Hs : starat n1 p1 = true) by (rewrite starat_reach, R1; destruct m1; auto).
    destruct (live_place m2) as (r & Hr).
    { eapply reach_wf; [|exact R2]. eapply create_wf; eauto. }
    { eapply reach_live; [|exact R2]. eapply create_live; eauto. }
    { destruct (cstar y) eqn:Ey.
      - right. intros E. specialize (K1 eq_refl). rewrite E in K1. discriminate.
      - destruct (K2 eq_refl) as [_ E]. rewrite E in Hy. destruct Hy; auto. }
    destruct (place_in qs2 n2 p2 r H2) as (w & Hin & Hv & _); [eauto|].
    destruct (star_common p1 p2 w) as (t & Ht1 & Ht2); auto.
    { eapply starat_starless; eauto. }
    { eapply reach_starless; eauto. }
    exists t. split.
    - exists (p1 ++ ["*"]). split; [eapply starat_in; eauto|]. split; auto.
      apply valid_star. eapply starat_starless; eauto.
    - exists (p2 ++ w). auto.
  Qed.

  Lemma meet_leaves : forall p1 p2 x y, Forall2 compatible p1 p2 -> creach c1 p1 = Some x -> creach c2 p2 = Some y ->
      cleaf x = true -> cleaf y = true -> exists t, selects qs1 t /\ selects qs2 t.
  Proof.
    intros p1 p2 x y HF C1 C2 Hx Hy.
    destruct (cstar x) eqn:Ex; [eapply meet_star; eauto|].
    pose proof (sim_reach p1 _ _ S1) as G1. pose proof (sim_reach p2 _ _ S2) as G2. rewrite C1 in G1. rewrite C2 in G2.
    destruct (reach n1 p1) as [m1|] eqn:R1; [|easy]. destruct (reach n2 p2) as [m2|] eqn:R2; [|easy].
    destruct (sim_node_facts _ _ G1) as (_ & F2 & _). destruct (F2 Ex) as [_ L1]. rewrite Hx in L1.
    destruct (sim_node_facts _ _ G2) as (K1 & K2 & _).
    destruct (place_in qs1 n1 p1 [] H1) as (w & Hin & Hv & Hw).
    { exists m1. split; [auto|]. left. destruct m1. cbn in *. auto. }
    destruct (place_in qs2 n2 p2 [] H2) as (w' & Hin' & Hv' & Hw').
    { exists m2. split; [auto|]. destruct (cstar y) eqn:Ey.
      - right. destruct m2. cbn in *. auto.
      - left. destruct (K2 eq_refl) as [_ L2]. rewrite Hy in L2. destruct m2. cbn in *. auto. }
    destruct (common_instance p1 p2 HF) as (u & Hu); [eapply reach_starless; eauto..|].
    destruct (Hu w w' []) as [Q1 Q2].
    { destruct Hw as [-> | ->]; constructor. }
    { destruct Hw' as [-> | ->]; constructor. }
    exists (u ++ []). split; eexists; eauto.
  Qed.

  Lemma meet_clash : forall p1 p2 x y, Forall2 compatible p1 p2 -> creach c1 p1 = Some x -> creach c2 p2 = Some y ->
      cn_children x = [] -> cleaf x = true -> cn_children y <> [] -> cstar x = false ->
      clash qs1 qs2.
  Proof.
    intros p1 p2 x y HF C1 C2 Hx Hl Hy Ex.
    pose proof (sim_reach p1 _ _ S1) as G1. pose proof (sim_reach p2 _ _ S2) as G2. rewrite C1 in G1. rewrite C2 in G2.
    destruct (reach n1 p1) as [m1|] eqn:R1; [|easy]. destruct (reach n2 p2) as [m2|] eqn:R2; [|easy].
    destruct (sim_node_facts _ _ G1) as (_ & F2 & _ & F4 & _). destruct (F2 Ex) as [Ns1 L1]. rewrite Hl in L1.
    specialize (F4 Ex Hx).
    destruct (sim_node_facts _ _ G2) as (K1 & K2 & K3 & _ & _ & K6).
    assert (Hyc : n_children m2 <> []) by auto.
    assert (Ns2 : smem "*" (n_children m2) = false).
    { destruct (cstar y) eqn:Ey; [destruct (K6 eq_refl); easy|]. apply K2; auto. }
    assert (Hleaf : leafat n1 p1 = true) by (rewrite leafat_reach, R1; destruct m1; auto).
    assert (Hsl : starless p1) by (eapply leafat_starless; eauto).
    destruct (live_below m2) as (z & r & Hz); auto.
    { eapply reach_wf; [|exact R2]. eapply create_wf; eauto. }
    { eapply reach_live; [|exact R2]. eapply create_live; eauto. }
    destruct (place_in qs2 n2 p2 (z :: r) H2) as (w & Hin & Hv & Hw); [eauto|].
    assert (exists r', w = z :: r') as [r' ->] by (destruct Hw as [-> | ->]; cbn; eauto).
    exists p1, p2, z, r'. split; [eapply leafat_in; eauto|]. split; auto. split; [|auto].
    intros k s Hext. apply (create_covered _ _ H1) in Hext.
    destruct m1 as [l1 ch1]. cbn in F4, Ns1, L1. subst.
    destruct Hext as [Hlx|(p' & s' & He & Hst)].
    - rewrite leafat_reach, reach_app, R1 in Hlx. cbn in Hlx. discriminate.
    - assert (Hcmp : (exists s2, p1 = p' ++ s2) \/ exists r2, p' = p1 ++ k :: r2).
      { clear -He. revert p' s' He. induction p1 as [|k1 p1 IH]; intros p' s' He.
        - destruct p' as [|k2 p2]; [left; exists []; auto|]. inversion He; subst. right. exists p2; auto.
        - destruct p' as [|k2 p2]; [left; exists (k1 :: p1); auto|]. cbn in He. inversion He; subst.
          destruct (IH _ _ H1) as [[s2 ->]|[r2 ->]]; [left; exists s2; auto|right; exists r2; auto]. }
      destruct Hcmp as [[s2 ->]|[r2 ->]].
      + destruct s2 as [|k2 s2].
        * rewrite app_nil_r in *. rewrite starat_reach, R1 in Hst. discriminate.
        * destruct (starat_excl p' (k2 :: s2) n1) as [Hq _]; auto; [discriminate|congruence].
      + rewrite starat_reach, reach_app, R1 in Hst. cbn in Hst. discriminate.
  Qed.
End Two.

Lemma final_C06_all : forall qs1 qs2 a b, Forall no_nuls qs1 -> Forall no_nuls qs2 ->
    c_create qs1 = Some a -> c_create qs2 = Some b ->
    (c_isdisjoint a b = false <->
     (exists t, selects qs1 t /\ selects qs2 t) \/ clash qs1 qs2 \/ clash qs2 qs1).
Proof.
  intros qs1 qs2 a b N1 N2 C1 C2.
  pose proof (sim_create _ N1) as S1. pose proof (sim_create _ N2) as S2. rewrite C1 in S1. rewrite C2 in S2.
  destruct (py_create qs1) as [n1|] eqn:P1; [|easy]. destruct (py_create qs2) as [n2|] eqn:P2; [|easy].
  assert (W1 : cwf a) by (eapply sim_cwf; eauto; eapply create_wf; eauto).
  assert (W2 : cwf b) by (eapply sim_cwf; eauto; eapply create_wf; eauto).
  assert (Hcommon : (exists t, selects qs1 t /\ selects qs2 t) -> c_isdisjoint a b = false).
  { intros (t & T1 & T2). destruct (c_isdisjoint a b) eqn:E; auto. exfalso.
    eapply c_isdisjoint_sound; [exact W1|exact W2|exact E|]. exists t.
    rewrite (sim_matches _ _ S1), (sim_matches _ _ S2).
    split; [apply (proj2 (final_C01 qs1) _ P1)|apply (proj2 (final_C01 qs2) _ P2)]; auto. }
  split.
  - intros H. apply isdisjoint_meet in H as (p1 & p2 & x & y & HF & X & Y & Hm); auto.
    pose proof (Forall2_compatible_sym _ _ HF) as HF'.
    assert (Hsym : (exists t, selects qs2 t /\ selects qs1 t) -> exists t, selects qs1 t /\ selects qs2 t).
    { intros (t & T1 & T2). eauto. }
    destruct Hm as [[M1 M2]|[[M1 M2]|[[M1 M2]|[(M1 & M2 & M3)|(M1 & M2 & M3)]]]].
    + left. apply (meet_leaves qs1 qs2 n1 n2 a b P1 P2 S1 S2 p1 p2 x y); auto.
    + left. apply (meet_star qs1 qs2 n1 n2 a b P1 P2 S1 S2 p1 p2 x y); auto.
    + left. apply Hsym. apply (meet_star qs2 qs1 n2 n1 b a P2 P1 S2 S1 p2 p1 y x); auto.
    + destruct (cstar x) eqn:E; [left; apply (meet_star qs1 qs2 n1 n2 a b P1 P2 S1 S2 p1 p2 x y); auto|].
      right. left. apply (meet_clash qs1 qs2 n1 n2 a b P1 P2 S1 S2 p1 p2 x y); auto.
    + destruct (cstar y) eqn:E; [left; apply Hsym; apply (meet_star qs2 qs1 n2 n1 b a P2 P1 S2 S1 p2 p1 y x); auto|].
      right. right. apply (meet_clash qs2 qs1 n2 n1 b a P2 P1 S2 S1 p2 p1 y x); auto.
  - intros [H|[H|H]]; auto.
    + apply (clash_false qs1 qs2 n1 n2 a b P1 P2 S1 S2) in H as [H|(p1 & p2 & x & y & HF & X & Y & Hm)]; auto.
      apply isdisjoint_meet; auto. exists p1, p2, x, y. repeat split; auto. right. right. right. left. exact Hm.
    + apply (clash_false qs2 qs1 n2 n1 b a P2 P1 S2 S1) in H as [(t & T1 & T2)|(p1 & p2 & x & y & HF & X & Y & Hm)]; eauto.
      apply isdisjoint_meet; auto. exists p2, p1, y, x. repeat split; auto using Forall2_compatible_sym.
      right. right. right. right. exact Hm.
Qed.

(** * Disjointness of unions *)

Lemma loop_live : forall c2 c1,
    Forall (fun kc => forall n1, live n1 -> n_leaf n1 = true \/ n_children n1 <> [] ->
              live (snd kc) -> n_leaf (snd kc) = true \/ n_children (snd kc) <> [] ->
              live (node_union n1 (snd kc)) /\
              (n_leaf (node_union n1 (snd kc)) = true \/ n_children (node_union n1 (snd kc)) <> [])) c2 ->
    (forall k c, In (k, c) c1 -> live c /\ (n_leaf c = true \/ n_children c <> [])) ->
    (forall k c, In (k, c) c2 -> live c /\ (n_leaf c = true \/ n_children c <> [])) ->
    (forall k c, In (k, c) (union_loop c2 c1) -> live c /\ (n_leaf c = true \/ n_children c <> [])).
Proof.
  induction c2 as [|[k0 c0] c2 IH]; intros c1 HF H1 H2 k c Hin; cbn [union_loop] in Hin; [eauto|].
  inversion HF as [|? ? Hh HF']; subst. cbn [snd] in Hh.
  eapply IH; [exact HF'| | |exact Hin].
  - intros k' c' Hin'. apply (In_dset seqb_spec) in Hin' as [[-> ->]|[_ Hin']]; [|eauto].
    destruct (H2 k0 c0 (or_introl eq_refl)) as [L0 A0].
    destruct (sget k0 c1) as [prev|] eqn:Eg; [|auto].
    apply (dget_In seqb_spec) in Eg. destruct (H1 _ _ Eg) as [Lp Ap]. apply Hh; auto.
  - intros k' c' Hin'. eapply H2. right. eauto.
Qed.

Lemma union_loop_nonempty : forall c2 c1, c1 <> [] \/ c2 <> [] -> union_loop c2 c1 <> [].
Proof.
  induction c2 as [|[k c] c2 IH]; intros c1 H; cbn [union_loop]; [destruct H; easy|].
  apply IH. left. destruct c1 as [|[k' c'] c1]; cbn; [discriminate|]. destruct (k =? k'); discriminate.
Qed.

Lemma union_live : forall n2 n1, live n1 -> live n2 ->
    live (node_union n1 n2) /\
    (n_leaf n1 = true \/ n_children n1 <> [] \/ n_leaf n2 = true \/ n_children n2 <> [] ->
     n_leaf (node_union n1 n2) = true \/ n_children (node_union n1 n2) <> []).
Proof.
  induction n2 as [l2 c2 IH] using node_ind'. intros [l1 c1] L1 L2. rewrite union_eq.
  destruct (smem "*" c1 || smem "*" c2).
  { split; [|cbn; right; discriminate]. constructor. intros k c [[= <- <-]|[]]. split; cbn; auto. constructor. easy. }
  split.
  - constructor. apply loop_live.
    + apply Forall_forall. intros [k c] Hin n1 Ln An Lc Ac. cbn [snd] in *. rewrite Forall_forall in IH.
      destruct (IH _ Hin n1 Ln Lc) as [Hl Ha]. cbn [snd] in *. split; [auto|]. apply Ha. destruct An; auto.
    + exact (live_inv _ _ L1).
    + exact (live_inv _ _ L2).
  - cbn. intros H. destruct l1; [auto|]. destruct l2; [auto|]. right. apply union_loop_nonempty.
    destruct H as [?|[?|[?|?]]]; auto; discriminate.
Qed.

Lemma py_union_live : forall others n, live n -> Forall live others -> live (py_union n others).
Proof.
  unfold py_union. induction others as [|o others IH]; cbn [fold_left]; intros n Hn Ho; auto.
  inversion Ho; subst. apply IH; auto. apply union_live; auto.
Qed.

Lemma united_live : forall (created : node -> Prop), (forall n, created n -> wf n /\ live n) ->
    forall n others, created n -> Forall created others -> wf (py_union n others) /\ live (py_union n others).
Proof.
  intros created H n others Hn Ho. split.
  - apply py_union_spec; [apply H; auto|]. eapply Forall_impl; [|exact Ho]. intros; apply H; auto.
  - apply py_union_live; [apply H; auto|]. eapply Forall_impl; [|exact Ho]. intros; apply H; auto.
Qed.

Lemma final_C05_unions : forall qs1 qss1 n1 others1 qs2 qss2 n2 others2,
    Forall2 (fun qs n => py_create qs = Some n) (qs1 :: qss1) (n1 :: others1) ->
    Forall2 (fun qs n => py_create qs = Some n) (qs2 :: qss2) (n2 :: others2) ->
    (node_isdisjoint (py_union n1 others1) (py_union n2 others2) = true <->
     forall t, ~ (Exists (fun qs => selects qs t) (qs1 :: qss1) /\ Exists (fun qs => selects qs t) (qs2 :: qss2))).
Proof.
  intros qs1 qss1 n1 others1 qs2 qss2 n2 others2 F1 F2.
  assert (Hc : forall qss ns, Forall2 (fun qs n => py_create qs = Some n) qss ns ->
            Forall (fun n => exists qs, py_create qs = Some n) ns).
  { intros qss ns F. induction F; constructor; eauto. }
  assert (Hw : forall n, (exists qs, py_create qs = Some n) -> wf n /\ live n).
  { intros n [qs H]. split; [eapply create_wf|eapply create_live]; eauto. }
  pose proof (Hc _ _ F1) as G1. pose proof (Hc _ _ F2) as G2.
  apply Forall_cons_iff in G1 as [G1 G1']. apply Forall_cons_iff in G2 as [G2 G2'].
  destruct (united_live _ Hw _ _ G1 G1') as [W1 L1]. destruct (united_live _ Hw _ _ G2 G2') as [W2 L2].
  rewrite isdisjoint_exact by auto. unfold common.
  assert (Hm : forall qss ns t, Forall2 (fun qs n => py_create qs = Some n) qss ns ->
            (existsb (fun m => node_matches m t) ns = true <-> Exists (fun qs => selects qs t) qss)).
  { intros qss ns t F. induction F as [|qs n qss ns E F IH].
    - rewrite Exists_nil. cbn. intuition discriminate.
    - cbn [existsb]. rewrite orb_true_iff, Exists_cons, IH, (proj2 (final_C01 qs) _ E). reflexivity. }
  assert (Wf : forall ns, Forall (fun n => exists qs, py_create qs = Some n) ns -> Forall wf ns).
  { intros ns. apply Forall_impl. intros n Hn. apply Hw; auto. }
  assert (M1 : forall t, node_matches (py_union n1 others1) t = true <-> Exists (fun qs => selects qs t) (qs1 :: qss1)).
  { intros t. rewrite (proj2 (py_union_spec others1 n1 (proj1 (Hw _ G1)) (Wf _ G1'))). apply Hm; auto. }
  assert (M2 : forall t, node_matches (py_union n2 others2) t = true <-> Exists (fun qs => selects qs t) (qs2 :: qss2)).
  { intros t. rewrite (proj2 (py_union_spec others2 n2 (proj1 (Hw _ G2)) (Wf _ G2'))). apply Hm; auto. }
  split.
  - intros H t [T1 T2]. apply H. exists t. rewrite M1, M2. auto.
  - intros H [t Ht]. rewrite M1, M2 in Ht. exact (H t Ht).
Qed.
