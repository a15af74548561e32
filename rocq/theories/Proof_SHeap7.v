(** Proofs about the memory of the C subscription: [get_query_types]. *)
From Coq Require Import String Bool Arith ZArith Lia List.
From Verif Require Import Base Model_Types Model_Subscription Model_SHeap Spec_SHeap Proof_Subscription Proof_SHeap Proof_SHeap2 Proof_SHeap3 Proof_SHeap4 Proof_SHeap5 Proof_SHeap6.
Import ListNotations.
Open Scope string_scope.
Open Scope list_scope.

(** Of the objects before [n] only [d] may get further items. *)
Definition grow (d : addr) (n : nat) (s s' : sst) : Prop :=
  (s_next s <= s_next s')%nat /\
  forall x p', (x < n)%nat -> s_objs s' x = Some p' ->
    exists p, s_objs s x = Some p /\ o_kind p' = o_kind p /\ (x <> d -> o_items p' = o_items p) /\ exists new, o_items p' = o_items p ++ new.

Lemma grow_refl : forall d n s, grow d n s s.
Proof. intros d n s. split; auto. intros x p' _ E. exists p'. split; auto. split; auto. split; auto. exists []. now rewrite app_nil_r. Qed.
Lemma grow_trans : forall d n a b c, grow d n a b -> grow d n b c -> grow d n a c.
Proof.
  intros d n a b c (L1 & H1) (L2 & H2). split; [lia|]. intros x p Lx E. destruct (H2 x p Lx E) as (q & Eq & K & I & (w & W)).
  destruct (H1 x q Lx Eq) as (r & Er & K' & I' & (w' & W')). exists r. split; auto. split; [congruence|]. split.
  - intros N. rewrite I by auto. auto.
  - exists (w' ++ w). rewrite W, W', app_assoc. reflexivity.
Qed.
Lemma grow_less : forall d n m s s', grow d n s s' -> (m <= n)%nat -> grow d m s s'.
Proof. intros d n m s s' (L & H) Lm. split; auto. intros x p' Lx E. apply H; auto. lia. Qed.
Lemma grow_stable : forall d n s s', stable s s' -> (n <= s_next s)%nat -> grow d n s s'.
Proof.
  intros d n s s' (L & H) Ln. split; auto. intros x p' Lx E. destruct (H x p' ltac:(lia) E) as (p & Ep & K & I).
  exists p. split; auto. split; auto. split; auto. exists []. rewrite app_nil_r. auto.
Qed.
(** [q] is not one of those before [n]. *)
Lemma grow_new : forall d q n s s', grow q n s s' -> (n <= q)%nat -> grow d n s s'.
Proof.
  intros d q n s s' (L & H) Lq. split; auto. intros x p' Lx E. destruct (H x p' Lx E) as (p & Ep & K & I & W).
  exists p. split; auto. split; auto. split; auto. intros _. apply I. lia.
Qed.
Lemma stable_grow : forall d n s s', grow d n s s' -> (s_next s <= n)%nat -> (s_next s <= d)%nat -> stable s s'.
Proof.
  intros d n s s' (L & H) Ln Ld. split; auto. intros x p' Lx E. destruct (H x p' ltac:(lia) E) as (p & Ep & K & I & _).
  exists p. split; auto. split; auto. symmetry. apply I. lia.
Qed.

(** Objects that are held keep what they have. *)
Lemma grow_at : forall d n s s' ext' x p, grow d n s s' -> sacc s' ext' -> s_objs s x = Some p -> (x < n)%nat -> (1 <= ext' x)%Z ->
  exists p', s_objs s' x = Some p' /\ o_kind p' = o_kind p /\ (x <> d -> o_items p' = o_items p) /\ exists new, o_items p' = o_items p ++ new.
Proof.
  intros d n s s' ext' x p (L & H) A' E Lx P. destruct (acc_live _ _ _ x A' P) as (p' & E'). exists p'. split; auto.
  destruct (H x p' Lx E') as (p2 & E2 & K & I & W). rewrite E in E2. injection E2 as <-. auto.
Qed.

Lemma grow_type : forall d s s' ext ext' x p p', grow d (s_next s) s s' -> sacc s ext -> sacc s' ext' ->
  s_objs s x = Some p -> s_objs s' x = Some p' -> x <> d -> type_of s' x = type_of s x.
Proof.
  intros d s s' ext ext' x p p' (L & H) A A' E E' N.
  assert (LT : forall y q, s_objs s y = Some q -> (y < s_next s)%nat) by (intros y q Ey; apply (a_lt _ _ _ A y); congruence).
  destruct (H x p' (LT _ _ E) E') as (p2 & E2 & _ & I & _). rewrite E in E2. injection E2 as <-. specialize (I N).
  unfold type_of. rewrite E, E', I. apply map_ext_in. intros y J.
  assert (J' := J). rewrite <- I in J'. destruct (a_item _ _ _ A' _ _ _ E' J') as (q' & Eq' & _).
  destruct (a_item _ _ _ A _ _ _ E J) as (q & Eq & _).
  destruct (H y q' (LT _ _ Eq) Eq') as (q2 & Eq2 & K & _). rewrite Eq in Eq2. injection Eq2 as <-.
  eapply text_same; eauto.
Qed.

(** The copy of the segments of a tuple. *)
Lemma copy_each : forall its from to s ext pf pt, sacc s ext -> from <> to -> (1 <= ext from)%Z -> s_objs s from = Some pf ->
  o_kind pf = KTup -> incl its (o_items pf) -> (1 <= ext to)%Z -> s_objs s to = Some pt -> o_kind pt = KTup ->
  exists s', each (fun seg => bind (incref seg) (fun _ => set_item to seg)) its s = Some (tt, s') /\
    rest_same s s' /\ sacc s' ext /\ grow to (s_next s) s s' /\
    exists pt', s_objs s' to = Some pt' /\ o_kind pt' = KTup /\ o_items pt' = o_items pt ++ its.
Proof.
  induction its as [|y its IH]; intros from to s ext pf pt A N Pf Ef Kf I Pt Et Kt; cbn [each].
  - exists s. split; [reflexivity|]. split; [apply rest_refl|]. split; auto. split; [apply grow_refl|]. exists pt. rewrite app_nil_r. auto.
  - destruct (a_item _ _ _ A _ _ _ Ef (I y (or_introl eq_refl))) as (py & Ey & Ly). rewrite Kf in Ly.
    rewrite bind_assoc. destruct (incref_spec s ext y py A Ey) as (s1 & E1 & (Q1 & Q2 & Q3 & Q4) & H1 & A1). erewrite bind_at by exact E1.
    assert (LE : forall x, (ext x <= ext x + one y x)%Z) by (intros x; assert (Z := one_pos y x); lia).
    assert (LV : forall x p, s_objs s x = Some p -> (1 <= ext x + one y x)%Z -> exists p', s_objs s1 x = Some p' /\ o_kind p' = o_kind p /\ o_items p' = o_items p).
    { intros x p E P. destruct (acc_live _ _ _ x A1 P) as (p' & E'). exists p'. split; auto. destruct (H1 x p' E') as (p2 & E2 & K & Ip).
      rewrite E in E2. injection E2 as <-. auto. }
    destruct (LV from pf Ef) as (pf1 & Ef1 & Kf1 & If1); [specialize (LE from); lia|].
    destruct (LV to pt Et) as (pt1 & Et1 & Kt1 & It1); [specialize (LE to); lia|].
    destruct (LV y py Ey) as (py1 & Ey1 & Ky1 & Iy1). { rewrite one_same. assert (Z := a_ext _ _ _ A y). lia. }
    destruct (set_item_spec s1 _ to y pt1 py1 A1 Et1 Ey1) as (s2 & E2 & (R1 & R2 & R3 & R4) & O2 & A2).
    { rewrite Ky1, Kt1, Kt. exact Ly. }
    { cbn beta. rewrite one_same. assert (Z := a_ext _ _ _ A y). lia. }
    erewrite bind_at by exact E2.
    assert (A2' : sacc s2 ext) by (eapply sacc_eq; [exact A2|]; intros x; cbn beta; lia).
    destruct (IH from to s2 ext pf1 (PObj (o_kind pt1) (o_items pt1 ++ [y]) (o_rc pt1)) A2' N Pf) as (s3 & E3 & (S1 & S2 & S3 & S4) & A3 & G3 & pt3 & Et3 & Kt3 & It3); auto.
    + rewrite O2, upd_other; auto.
    + congruence.
    + rewrite If1. intros z J. apply I. now right.
    + rewrite O2. apply upd_same.
    + cbn. congruence.
    + exists s3. split; auto. split; [unfold rest_same; repeat (split; [congruence|]); congruence|]. split; auto. split.
      * eapply grow_trans; [|eapply grow_less; [exact G3|lia]]. eapply grow_trans; [apply grow_stable; [apply stable_shrinks; [exact H1|lia]|auto]|].
        split; [lia|]. intros x p' Lx E. rewrite O2 in E. destruct (Nat.eq_dec x to) as [->|Nx].
        -- rewrite upd_same in E. injection E as <-. exists pt1. split; auto. split; auto. split; [congruence|]. eexists. reflexivity.
        -- rewrite upd_other in E by auto. exists p'. split; auto. split; auto. split; auto. exists []. now rewrite app_nil_r.
      * exists pt3. split; auto. split; auto. rewrite It3. cbn [o_items]. rewrite It1, <- app_assoc. reflexivity.
Qed.

Section Get.
  Variable ok okt : nat -> bool.
  Notation fails := (fails ok).

  Lemma append_spec : forall s ext d q pd pq, sacc s ext -> (1 <= ext d)%Z -> s_objs s d = Some pd -> o_kind pd = KSeq ->
    s_objs s q = Some pq -> o_kind pq = KTup ->
    exists r s', append ok d q s = Some (r, s') /\ s_heap s' = s_heap s /\ sacc s' ext /\ grow d (s_next s) s s' /\
      s_next s' = s_next s /\
      (exists pd', s_objs s' d = Some pd' /\ o_kind pd' = KSeq /\ o_items pd' = o_items pd ++ if r : bool then [q] else []) /\
      (r = false -> fails).
  Proof.
    intros s ext d q pd pq A Pd Ed Kd Eq Kq. unfold append, bind at 1, may_fail.
    set (s1 := Sst (s_heap s) (s_objs s) (s_next s) (S (s_tries s)) (s_stars s)).
    assert (A1 : sacc s1 ext) by exact A. destruct (ok (s_tries s)) eqn:O.
    2:{ exists false, s1. split; [reflexivity|]. split; auto. split; auto. split; [apply grow_stable; auto; apply stable_same; auto|]. split; auto.
        split; [|intros _; exists (s_tries s); auto]. exists pd. rewrite app_nil_r. auto. }
    destruct (incref_spec s1 ext q pq A1 Eq) as (s2 & E2 & (Q1 & Q2 & Q3 & Q4) & H2 & A2). erewrite bind_at by exact E2.
    assert (LV : forall x p, s_objs s x = Some p -> (1 <= ext x + one q x)%Z -> exists p', s_objs s2 x = Some p' /\ o_kind p' = o_kind p /\ o_items p' = o_items p).
    { intros x p E P. destruct (acc_live _ _ _ x A2 P) as (p' & E'). exists p'. split; auto. destruct (H2 x p' E') as (p2 & Ep2 & K & Ip).
      cbn [s1 s_objs] in Ep2. rewrite E in Ep2. injection Ep2 as <-. auto. }
    assert (LE : forall x, (ext x <= ext x + one q x)%Z) by (intros x; assert (Z := one_pos q x); lia).
    assert (Pq : (1 <= ext q + one q q)%Z). { rewrite one_same. assert (Z := a_ext _ _ _ A q). lia. }
    destruct (LV d pd Ed) as (pd2 & Ed2 & Kd2 & Id2); [specialize (LE d); lia|].
    destruct (LV q pq Eq Pq) as (pq2 & Eq2 & Kq2 & Iq2).
    destruct (set_item_spec s2 _ d q pd2 pq2 A2 Ed2 Eq2) as (s3 & E3 & (R1 & R2 & R3 & R4) & O3 & A3).
    { rewrite Kq2, Kq, Kd2, Kd. cbn. lia. }
    { exact Pq. }
    erewrite bind_at by exact E3. exists true, s3. split; [reflexivity|]. split; [cbn in *; congruence|].
    split; [eapply sacc_eq; [exact A3|]; intros x; cbn beta; lia|]. split; [|split; [cbn in *; congruence|split; [|discriminate]]].
    - eapply grow_trans; [apply grow_stable; [apply (stable_shrinks s s2); [exact H2|cbn in *; lia]|auto]|].
      split; [lia|]. intros x p' Lx E. rewrite O3 in E. destruct (Nat.eq_dec x d) as [->|Nx].
      + rewrite upd_same in E. injection E as <-. exists pd2. split; auto. split; auto. split; [congruence|]. eexists. reflexivity.
      + rewrite upd_other in E by auto. exists p'. split; auto. split; auto. split; auto. exists []. now rewrite app_nil_r.
    - eexists. rewrite O3, upd_same. split; [reflexivity|]. cbn [o_kind o_items]. split; congruence.
  Qed.

  (** Making of the tuple for a child: the copy of the prefix, and the segment. *)
  Lemma tuple_spec : forall s ext q prefix pp key, sacc s ext -> (1 <= ext prefix)%Z -> s_objs s prefix = Some pp -> o_kind pp = KTup ->
    q <> prefix -> (1 <= ext q)%Z -> (exists r, s_objs s q = Some (PObj KTup [] r)) ->
    exists s1 r s2, copy_items prefix q s = Some (tt, s1) /\ new_obj ok (KStr key) s1 = Some (r, s2) /\ s_heap s2 = s_heap s /\
      grow q (s_next s) s s2 /\
      match r with
      | Some t => exists s3 pq, set_item q t s2 = Some (tt, s3) /\ s_heap s3 = s_heap s /\ grow q (s_next s) s s3 /\ sacc s3 ext /\
                    s_objs s3 q = Some pq /\ o_kind pq = KTup /\ type_of s3 q = type_of s prefix ++ [key]
      | None => fails /\ sacc s2 ext
      end.
  Proof.
    intros s ext q prefix pp key A Pp Ep Kp N Pq (rq & Eq). unfold copy_items, items_of.
    erewrite bind_at by (unfold bind, load_obj; rewrite Ep; reflexivity).
    destruct (copy_each (o_items pp) prefix q s ext pp _ A (not_eq_sym N) Pp Ep Kp (incl_refl _) Pq Eq eq_refl)
      as (s1 & E1 & (Q1 & Q2 & Q3 & Q4) & A1 & G1 & pq1 & Eq1 & Kq1 & Iq1). cbn [o_items app] in Iq1.
    exists s1. destruct (new_obj_spec ok s1 ext (KStr key) A1) as (r & s2 & E2 & H2 & S2 & ST2 & F2). exists r, s2.
    split; [exact E1|]. split; [exact E2|]. split; [congruence|].
    assert (G2 : grow q (s_next s) s s2) by (eapply grow_trans; [exact G1|]; apply grow_stable; auto; lia).
    split; [exact G2|]. destruct r as [t|]; [|split; apply F2].
    destruct F2 as (-> & Nt & O2 & A2).
    assert (Ntq : q <> s_next s1) by congruence.
    assert (Eq2 : s_objs s2 q = Some pq1) by (rewrite O2, upd_other; auto).
    assert (Et2 : s_objs s2 (s_next s1) = Some (PObj (KStr key) [] 1)) by (rewrite O2; apply upd_same).
    destruct (set_item_spec s2 _ q (s_next s1) pq1 _ A2 Eq2 Et2) as (s3 & E3 & (R1 & R2 & R3 & R4) & O3 & A3).
    { rewrite Kq1. cbn. lia. }
    { cbn beta. rewrite one_same. assert (Z := a_ext _ _ _ A (s_next s1)). lia. }
    exists s3. eexists. split; [exact E3|]. split; [congruence|].
    assert (A3' : sacc s3 ext) by (eapply sacc_eq; [exact A3|]; intros x; cbn beta; lia).
    assert (G3 : grow q (s_next s) s s3).
    { eapply grow_trans; [exact G2|]. split; [lia|]. intros x p' Lx E. rewrite O3 in E. destruct (Nat.eq_dec x q) as [->|Nx].
      - rewrite upd_same in E. injection E as <-. exists pq1. split; auto. split; auto. split; [congruence|]. eexists. reflexivity.
      - rewrite upd_other in E by auto. exists p'. split; auto. split; auto. split; auto. exists []. now rewrite app_nil_r. }
    split; auto. split; auto. split; [rewrite O3; apply upd_same|]. cbn [o_kind]. split; auto.
    unfold type_of at 1. rewrite O3, upd_same. cbn [o_items]. rewrite Iq1, map_app. cbn [map]. f_equal.
    - unfold type_of. rewrite Ep. apply map_ext_in. intros y J.
      destruct (a_item _ _ _ A _ _ _ Ep J) as (py & Ey & Ly). rewrite Kp in Ly.
      assert (Ly' : (y < s_next s)%nat) by (apply (a_lt _ _ _ A y); congruence).
      assert (J' : exists py', s_objs s3 y = Some py').
      { destruct (a_item _ _ _ A3' q (PObj (o_kind pq1) (o_items pq1 ++ [s_next s1]) (o_rc pq1)) y) as (py' & Ey' & _).
        - rewrite O3. apply upd_same.
        - cbn [o_items]. rewrite Iq1. apply in_app_iff. auto.
        - eauto. }
      destruct J' as (py' & Ey'). destruct (proj2 G3 y py' Ly' Ey') as (py2 & Ey2 & Ky & _). rewrite Ey in Ey2. injection Ey2 as <-.
      eapply text_same; eauto.
    - f_equal. unfold text_of. rewrite O3, upd_other by auto. rewrite Et2. reflexivity.
  Qed.

  (** The loop over the children. *)
  Definition kids_loop (fuel : nat) (prefix deque : addr) : list (string * addr) -> M bool :=
    fix loop (es : list (string * addr)) : M bool :=
      match es with
      | [] => ret false
      | (key, child) :: es' =>
          bind (new_obj ok KTup) (fun pq =>
          match pq with
          | None => ret true
          | Some q =>
              bind (copy_items prefix q) (fun _ =>
              bind (new_obj ok (KStr key)) (fun pt =>
              match pt with
              | None => bind (decref q) (fun _ => ret true)
              | Some t =>
                  bind (set_item q t) (fun _ =>
                  bind (get_query_types ok okt fuel child q deque) (fun err =>
                  bind (decref q) (fun _ => if (err : bool) then ret true else loop es')))
              end))
          end)
      end.

  Hypothesis okt_all : forall i, okt i = true.


  Definition collected (s s' : sst) (ext : addr -> Z) (prefix deque : addr) (pd : pobj) (r : bool) (qs : list etype) : Prop :=
    s_heap s' = s_heap s /\ sacc s' ext /\ grow deque (s_next s) s s' /\
    (exists pd' new, s_objs s' deque = Some pd' /\ o_kind pd' = KSeq /\ o_items pd' = o_items pd ++ new /\
       (r = false -> map (type_of s') new = map (app (type_of s prefix)) qs)) /\
    (r = true -> fails).

  Lemma collected_failed : forall s s' ext prefix deque pd qs, s_heap s' = s_heap s -> sacc s ext -> sacc s' ext -> grow deque (s_next s) s s' ->
    (1 <= ext deque)%Z -> s_objs s deque = Some pd -> o_kind pd = KSeq -> fails -> collected s s' ext prefix deque pd true qs.
  Proof.
    intros s s' ext prefix deque pd qs H A A' G P E K F. split; auto. split; auto. split; auto. split; auto.
    destruct (grow_at _ _ _ _ _ deque pd G A' E) as (pd' & E' & K' & _ & new & W); auto.
    - apply (a_lt _ _ _ A). congruence.
    - exists pd', new. split; auto. split; [congruence|]. split; auto. discriminate.
  Qed.

  Lemma loop_get : forall f prefix deque ks, 
    (forall e, In e ks -> forall s ext prefix pp pd, tree s (snd e) -> sacc s ext -> (1 <= ext prefix)%Z -> s_objs s prefix = Some pp ->
       o_kind pp = KTup -> (1 <= ext deque)%Z -> s_objs s deque = Some pd -> o_kind pd = KSeq ->
       exists r s', get_query_types ok okt f (groot (snd e)) prefix deque s = Some (r, s') /\
         collected s s' ext prefix deque pd r (c_query_types (forget (snd e)))) ->
    forall s ext pp pd, Forall (fun e => tree s (snd e)) ks -> sacc s ext -> (1 <= ext prefix)%Z -> s_objs s prefix = Some pp ->
       o_kind pp = KTup -> (1 <= ext deque)%Z -> s_objs s deque = Some pd -> o_kind pd = KSeq ->
    exists r s', kids_loop f prefix deque (map entry ks) s = Some (r, s') /\
      collected s s' ext prefix deque pd r (flat_map (fun hc => map (cons (fst hc)) (c_query_types (snd hc))) (map (fun e => (fst e, forget (snd e))) ks)).
  Proof.
    intros f prefix deque. induction ks as [|[key tc] ks IHk]; intros IH s ext pp pd T A Pp Ep Kp Pd Ed Kd; cbn [map kids_loop].
    - exists false, s. split; [reflexivity|]. split; auto. split; auto. split; [apply grow_refl|]. split; [|discriminate].
      exists pd, []. rewrite app_nil_r. auto.
    - change (entry (key, tc)) with (key, groot tc). cbv beta iota.
      inversion T as [|? ? Tc Tk]; subst. cbn [snd] in Tc.
      destruct (new_obj_spec ok s ext KTup A) as (pq & s1 & E1 & H1 & _ & ST1 & F1). erewrite bind_at by exact E1.
      assert (LT : forall x p, s_objs s x = Some p -> (x < s_next s)%nat) by (intros x p Ex; apply (a_lt _ _ _ A); congruence).
      assert (Lp := LT _ _ Ep). assert (Ld := LT _ _ Ed).
      destruct pq as [q|].
      2:{ exists true, s1. split; [reflexivity|]. destruct F1 as (F & _ & A1). apply collected_failed; auto. apply grow_stable; auto. }
      destruct F1 as (-> & Nq & O1 & A1). set (q := s_next s) in *.
      assert (Npq : q <> prefix) by (unfold q; lia). assert (Ndq : q <> deque) by (unfold q; lia).
      assert (Ep1 : s_objs s1 prefix = Some pp) by (rewrite O1, upd_other; auto).
      assert (Ed1 : s_objs s1 deque = Some pd) by (rewrite O1, upd_other; auto).
      set (ext1 := fun x => (ext x + one q x)%Z) in *.
      assert (LE : forall x, (ext x <= ext1 x)%Z) by (intros x; unfold ext1; assert (Z := one_pos q x); lia).
      assert (Pq : (1 <= ext1 q)%Z). { unfold ext1. rewrite one_same. assert (Z := a_ext _ _ _ A q). lia. }
      assert (Pp1 : (1 <= ext1 prefix)%Z) by (specialize (LE prefix); lia).
      assert (Pd1 : (1 <= ext1 deque)%Z) by (specialize (LE deque); lia).
      assert (L1 : (s_next s <= s_next s1)%nat) by apply ST1.
      destruct (tuple_spec s1 ext1 q prefix pp key A1 Pp1 Ep1 Kp Npq Pq) as (s1' & pt & s2 & E1' & E2 & H2 & G2 & F2).
      { exists 1%Z. rewrite O1. apply upd_same. }
      erewrite bind_at by exact E1'. erewrite bind_at by exact E2.
      assert (G02 : grow deque (s_next s) s s2).
      { eapply grow_trans; [apply grow_stable; [exact ST1|auto]|]. eapply grow_new; [eapply grow_less; [exact G2|lia]|]. unfold q. lia. }
      destruct pt as [t|].
      2:{ destruct F2 as (F & A2). destruct (decref_ok q s2 _ A2 Pq) as (s3 & E3 & (Q1 & Q2 & Q3 & Q4) & H3 & A3).
          erewrite bind_at by exact E3. exists true, s3. split; [reflexivity|]. apply collected_failed; auto; [congruence| |].
          - eapply sacc_eq; [exact A3|]. intros x. unfold ext1. lia.
          - eapply grow_trans; [exact G02|]. apply grow_stable; [apply stable_shrinks; auto; lia|apply G02]. }
      destruct F2 as (s3 & pq3 & E3 & H3 & G3 & A3 & Eq3 & Kq3 & Tq3). erewrite bind_at by exact E3.
      assert (G03 : grow deque (s_next s) s s3).
      { eapply grow_trans; [apply grow_stable; [exact ST1|auto]|]. eapply grow_new; [eapply grow_less; [exact G3|lia]|]. unfold q. lia. }
      destruct (grow_at _ _ _ _ ext1 deque pd G3 A3 Ed1) as (pd3 & Ed3 & Kd3 & Id3 & _); [lia|auto|].
      specialize (Id3 (not_eq_sym Ndq)).
      assert (TP1 : type_of s1 prefix = type_of s prefix).
      { eapply (grow_type q s s1); [apply grow_stable; [exact ST1|auto]|exact A|exact A1|exact Ep|exact Ep1|auto]. }
      assert (L3 : (s_next s <= s_next s3)%nat) by apply G03.
      destruct (IH (key, tc) (or_introl eq_refl) s3 ext1 q pq3 pd3) as (err & s5 & E5 & H5 & A5 & G5 & (pd5 & new1 & Ed5 & Kd5 & Id5 & Y5) & F5); auto.
      { eapply tree_rest; [exact Tc|congruence|exact L3]. }
      { congruence. }
      cbn [snd] in E5. erewrite bind_at by exact E5.
      destruct (decref_ok q s5 _ A5 Pq) as (s6 & E6 & (Q1 & Q2 & Q3 & Q4) & H6 & A6). erewrite bind_at by exact E6.
      assert (A6' : sacc s6 ext) by (eapply sacc_eq; [exact A6|]; intros x; unfold ext1; lia).
      assert (G56 : grow deque (s_next s5) s5 s6) by (apply grow_stable; [apply stable_shrinks; auto; lia|auto]).
      assert (G06 : grow deque (s_next s) s s6).
      { eapply grow_trans; [exact G03|]. eapply grow_trans; [eapply grow_less; [exact G5|lia]|]. eapply grow_less; [exact G56|].
        assert (s_next s3 <= s_next s5)%nat by apply G5. lia. }
      destruct err.
      { exists true, s6. split; [reflexivity|]. apply collected_failed; auto. congruence. }
      assert (Ed6 : exists pd6, s_objs s6 deque = Some pd6 /\ o_kind pd6 = KSeq /\ o_items pd6 = o_items pd ++ new1).
      { destruct (acc_live _ _ _ deque A6' Pd) as (pd6 & Ed6). exists pd6. split; auto. destruct (H6 _ _ Ed6) as (pd6' & Ed6' & K6 & I6).
        rewrite Ed5 in Ed6'. injection Ed6' as <-. split; congruence. }
      destruct Ed6 as (pd6 & Ed6 & Kd6 & Id6).
      assert (L06 : (s_next s <= s_next s6)%nat) by apply G06.
      destruct (grow_at _ _ _ _ ext prefix pp G06 A6' Ep Lp Pp) as (pp6 & Ep6 & Kp6 & _).
      assert (NPD : prefix <> deque) by (intros ->; congruence).
      assert (TP6 : type_of s6 prefix = type_of s prefix).
      { eapply (grow_type deque s s6); [exact G06|exact A|exact A6'|exact Ep|exact Ep6|auto]. }
      assert (N6 : map (type_of s6) new1 = map (app (type_of s prefix)) (map (cons key) (c_query_types (forget tc)))).
      { transitivity (map (type_of s5) new1).
        - apply map_ext_in. intros x J.
          assert (J5 : In x (o_items pd5)) by (rewrite Id5; apply in_app_iff; auto).
          assert (J6 : In x (o_items pd6)) by (rewrite Id6; apply in_app_iff; auto).
          destruct (a_item _ _ _ A5 _ _ _ Ed5 J5) as (px & Ex & _). destruct (a_item _ _ _ A6' _ _ _ Ed6 J6) as (px' & Ex' & _).
          eapply (grow_type deque s5 s6); [exact G56|exact A5|exact A6'|exact Ex|exact Ex'|].
          intros ->. eapply (acc_level _ _ _ deque pd5 A5); eauto.
        - rewrite Y5 by auto. rewrite Tq3, TP1. cbn [snd]. rewrite map_map. apply map_ext. intros l. rewrite <- app_assoc. reflexivity. }
      destruct (IHk (fun e I => IH e (or_intror I)) s6 ext pp6 pd6) as (r & s7 & E7 & H7 & A7 & G7 & (pd7 & new2 & Ed7 & Kd7 & Id7 & Y7) & F7); auto.
      { rewrite Forall_forall in *. intros e I. eapply tree_rest; [apply Tk; auto|congruence|exact L06]. }
      { congruence. }
      exists r, s7. split; [exact E7|]. split; [congruence|]. split; auto.
      split; [eapply grow_trans; [exact G06|]; eapply grow_less; [exact G7|lia]|]. split; auto.
      exists pd7, (new1 ++ new2). split; auto. split; auto. split; [rewrite Id7, Id6, app_assoc; reflexivity|].
      intros Er. rewrite map_app. cbn [flat_map fst snd]. rewrite map_app. f_equal.
      + etransitivity; [|exact N6]. apply map_ext_in. intros x J.
        assert (J6 : In x (o_items pd6)) by (rewrite Id6; apply in_app_iff; auto).
        assert (J7 : In x (o_items pd7)) by (rewrite Id7; apply in_app_iff; auto).
        destruct (a_item _ _ _ A6' _ _ _ Ed6 J6) as (px & Ex & _). destruct (a_item _ _ _ A7 _ _ _ Ed7 J7) as (px' & Ex' & _).
        eapply (grow_type deque s6 s7); [exact G7|exact A6'|exact A7|exact Ex|exact Ex'|].
        intros ->. eapply (acc_level _ _ _ deque pd6 A6'); eauto.
      + rewrite Y7 by auto. now rewrite TP6.
  Qed.

  Lemma get_spec : forall f t deque, (gheight t <= f)%nat ->
    forall s ext prefix pp pd, tree s t -> sacc s ext -> (1 <= ext prefix)%Z -> s_objs s prefix = Some pp ->
       o_kind pp = KTup -> (1 <= ext deque)%Z -> s_objs s deque = Some pd -> o_kind pd = KSeq ->
    exists r s', get_query_types ok okt f (groot t) prefix deque s = Some (r, s') /\
         collected s s' ext prefix deque pd r (c_query_types (forget t)).
  Proof.
    induction f as [|f IH]; intros [a l x tb ks] deque H s ext prefix pp pd T A Pp Ep Kp Pd Ed Kd; [cbn in H; lia|].
    assert (R := tr_rep _ _ T). apply rep_kids in R. destruct R as (R1 & R2 & R3).
    assert (LT : forall x p, s_objs s x = Some p -> (x < s_next s)%nat) by (intros y p Ex; apply (a_lt _ _ _ A); congruence).
    assert (Lp := LT _ _ Ep). assert (Ld := LT _ _ Ed). assert (NPD : prefix <> deque) by (intros ->; congruence).
    cbn [groot get_query_types]. erewrite bind_at by (eapply load_node_at; exact R1). cbv beta iota. destruct x.
    - unfold new_star_tuple, bind at 1. rewrite okt_all. unfold new_obj_raw. cbn [s_heap s_objs s_next s_tries s_stars].
      set (s1 := Sst _ _ _ _ _). set (q := s_next s) in *.
      assert (A1 : sacc s1 (fun x => ext x + one q x)%Z) by (unfold sacc; cbn [s1 s_objs s_next]; apply acc_new; exact A).
      assert (ST1 : stable s s1).
      { split; [cbn; unfold q; lia|]. intros x p' L E. cbn [s1 s_objs] in E. rewrite upd_other in E by (unfold q; lia). eauto. }
      assert (Npq : q <> prefix) by (unfold q; lia). assert (Ndq : q <> deque) by (unfold q; lia).
      set (ext1 := fun x => (ext x + one q x)%Z) in *.
      assert (LE : forall x, (ext x <= ext1 x)%Z) by (intros x; unfold ext1; assert (Z := one_pos q x); lia).
      assert (Pq : (1 <= ext1 q)%Z). { unfold ext1. rewrite one_same. assert (Z := a_ext _ _ _ A q). lia. }
      assert (Pp1 : (1 <= ext1 prefix)%Z) by (specialize (LE prefix); lia).
      assert (Pd1 : (1 <= ext1 deque)%Z) by (specialize (LE deque); lia).
      assert (Ep1 : s_objs s1 prefix = Some pp) by (cbn [s1 s_objs]; rewrite upd_other; auto).
      assert (Ed1 : s_objs s1 deque = Some pd) by (cbn [s1 s_objs]; rewrite upd_other; auto).
      assert (L1 : (s_next s <= s_next s1)%nat) by apply ST1.
      destruct (tuple_spec s1 ext1 q prefix pp "*" A1 Pp1 Ep1 Kp Npq Pq) as (s1' & pt & s2 & E1' & E2 & H2 & G2 & F2).
      { exists 1%Z. cbn [s1 s_objs]. apply upd_same. }
      erewrite bind_at by exact E1'. erewrite bind_at by exact E2.
      assert (G02 : grow deque (s_next s) s s2).
      { eapply grow_trans; [apply grow_stable; [exact ST1|auto]|]. eapply grow_new; [eapply grow_less; [exact G2|lia]|]. unfold q. lia. }
      destruct pt as [t|].
      2:{ destruct F2 as (F & A2). destruct (decref_ok q s2 _ A2 Pq) as (s3 & E3 & (Q1 & Q2 & Q3 & Q4) & H3 & A3).
          erewrite bind_at by exact E3. exists true, s3. split; [reflexivity|]. apply collected_failed; auto; [cbn in *; congruence| |].
          - eapply sacc_eq; [exact A3|]. intros x. unfold ext1. lia.
          - eapply grow_trans; [exact G02|]. apply grow_stable; [apply stable_shrinks; auto; lia|apply G02]. }
      destruct F2 as (s3 & pq3 & E3 & H3 & G3 & A3 & Eq3 & Kq3 & Tq3). erewrite bind_at by exact E3.
      assert (G03 : grow deque (s_next s) s s3).
      { eapply grow_trans; [apply grow_stable; [exact ST1|auto]|]. eapply grow_new; [eapply grow_less; [exact G3|lia]|]. unfold q. lia. }
      destruct (grow_at _ _ _ _ ext1 deque pd G3 A3 Ed1) as (pd3 & Ed3 & Kd3 & Id3 & _); [lia|auto|].
      specialize (Id3 (not_eq_sym Ndq)).
      assert (L3 : (s_next s <= s_next s3)%nat) by apply G03.
      destruct (append_spec s3 ext1 deque q pd3 pq3 A3 Pd1 Ed3) as (fine & s4 & E4 & H4 & A4 & G4 & N4 & (pd4 & Ed4 & Kd4 & Id4) & F4); auto; [congruence|].
      erewrite bind_at by exact E4.
      destruct (decref_ok q s4 _ A4 Pq) as (s5 & E5 & (Q1 & Q2 & Q3 & Q4) & H5 & A5). erewrite bind_at by exact E5.
      assert (A5' : sacc s5 ext) by (eapply sacc_eq; [exact A5|]; intros x; unfold ext1; lia).
      assert (G45 : grow deque (s_next s3) s4 s5) by (apply grow_stable; [apply stable_shrinks; auto; lia|lia]).
      assert (G05 : grow deque (s_next s) s s5).
      { eapply grow_trans; [exact G03|]. eapply grow_less; [eapply grow_trans; [exact G4|exact G45]|lia]. }
      exists (negb fine), s5. split; [reflexivity|].
      destruct fine; cbn [negb]; [|apply collected_failed; auto; cbn in *; congruence].
      split; [cbn in *; congruence|]. split; auto. split; auto. split; [|discriminate].
      destruct (acc_live _ _ _ deque A5' Pd) as (pd5 & Ed5). destruct (H5 _ _ Ed5) as (pd5' & Ed5' & K5 & I5). rewrite Ed4 in Ed5'. injection Ed5' as <-.
      exists pd5, [q]. split; auto. split; [congruence|]. split; [rewrite <- I5, Id4, Id3; reflexivity|]. intros _. cbn [forget c_query_types map].
      f_equal. assert (J5 : In q (o_items pd5)) by (rewrite <- I5, Id4; apply in_app_iff; right; now left).
      destruct (a_item _ _ _ A5' _ _ _ Ed5 J5) as (pq5 & Eq5 & _).
      rewrite (grow_type deque s3 s5 ext1 ext q pq3 pq5); auto.
      + rewrite Tq3. f_equal. eapply (grow_type q s s1); [apply grow_stable; [exact ST1|auto]|exact A|exact A1|exact Ep|exact Ep1|auto].
      + eapply grow_trans; [exact G4|exact G45].
    - (* the leaf *)
      assert (LEAF : exists fine s1, (if l then append ok deque prefix else ret true) s = Some (fine, s1) /\
        s_heap s1 = s_heap s /\ sacc s1 ext /\ grow deque (s_next s) s s1 /\
        (exists pd1, s_objs s1 deque = Some pd1 /\ o_kind pd1 = KSeq /\ o_items pd1 = o_items pd ++ if l && fine then [prefix] else []) /\
        (fine = false -> fails)).
      { destruct l.
        - destruct (append_spec s ext deque prefix pd pp A Pd Ed Kd Ep Kp) as (fine & s1 & E1 & H1 & A1 & G1 & N1 & F1 & F2).
          exists fine, s1. split; auto.
        - exists true, s. split; [reflexivity|]. split; auto. split; auto. split; [apply grow_refl|]. split; [|discriminate].
          exists pd. rewrite app_nil_r. auto. }
      destruct LEAF as (fine & s1 & E1 & H1 & A1 & G1 & (pd1 & Ed1 & Kd1 & Id1) & F1).
      erewrite bind_at by exact E1. destruct fine.
      2:{ exists true, s1. split; [reflexivity|]. apply collected_failed; auto. }
      assert (L1 : (s_next s <= s_next s1)%nat) by apply G1.
      destruct (grow_at _ _ _ _ ext prefix pp G1 A1 Ep Lp Pp) as (pp1 & Ep1 & Kp1 & Ip1 & _).
      assert (TP1 : type_of s1 prefix = type_of s prefix).
      { eapply (grow_type deque s s1); [exact G1|exact A|exact A1|exact Ep|exact Ep1|auto]. }
      rewrite andb_true_r in Id1.
      destruct tb as [b|].
      2:{ subst ks. exists false, s1. split; [reflexivity|]. split; auto. split; auto. split; auto. split; [|discriminate].
          eexists pd1, _. split; auto. split; auto. split; [exact Id1|]. intros _. cbn [forget c_query_types map flat_map]. rewrite app_nil_r.
          destruct l; cbn [map]; auto. now rewrite TP1, app_nil_r. }
      assert (R2' : s_heap s1 b = Some (SHt (map entry ks))) by (rewrite H1; exact R2).
      erewrite bind_at by (eapply load_ht_at; exact R2').
      match goal with |- context [Some (_, _) = _] => idtac | |- exists r s', ?L (map entry ks) s1 = Some (r, s') /\ _ =>
        change L with (kids_loop f prefix deque) end.
      destruct (loop_get f prefix deque ks) with (s := s1) (ext := ext) (pp := pp1) (pd := pd1)
        as (r & s2 & E2 & H2 & A2 & G2 & (pd2 & new & Ed2 & Kd2 & Id2 & Y2) & F2); auto.
      { intros e I. apply IH. assert (Hk := height_kid a l false (Some b) ks e I). lia. }
      { rewrite Forall_forall. intros e I. eapply tree_rest; [eapply tree_kid; [exact T|exact I]|congruence|exact L1]. }
      { congruence. }
      exists r, s2. split; [exact E2|]. split; [congruence|]. split; auto.
      split; [eapply grow_trans; [exact G1|]; eapply grow_less; [exact G2|lia]|]. split; auto.
      eexists pd2, _. split; auto. split; auto. split; [rewrite Id2, Id1, <- app_assoc; reflexivity|].
      intros Er. rewrite map_app. cbn [forget c_query_types]. rewrite map_app. f_equal.
      + destruct l; cbn [map]; auto. f_equal. rewrite app_nil_r. rewrite <- TP1.
        assert (Lp1 : (prefix < s_next s1)%nat) by lia.
        destruct (grow_at _ _ _ _ ext prefix pp1 G2 A2 Ep1 Lp1 Pp) as (pp2 & Ep2 & _).
        eapply (grow_type deque s1 s2); [exact G2|exact A1|exact A2|exact Ep1|exact Ep2|auto].
      + rewrite Y2 by auto. now rewrite TP1.
  Qed.

  (** _csubscription.c:343-373 *)
  Lemma sub_get_spec : forall t s ext, tree s t -> sacc s ext ->
    exists r s', subscription_get_query_types ok okt (groot t) s = Some (r, s') /\ s_heap s' = s_heap s /\ stable s s' /\
      match r with
      | Some d => sacc s' (fun x => ext x + one d x)%Z /\ (s_next s <= d)%nat /\ types_of s' d = c_query_types (forget t)
      | None => sacc s' ext /\ fails
      end.
  Proof.
    intros t s ext T A. unfold subscription_get_query_types, bind at 1, may_fail.
    set (s0 := Sst (s_heap s) (s_objs s) (s_next s) (S (s_tries s)) (s_stars s)).
    assert (A0 : sacc s0 ext) by exact A. assert (ST0 : stable s s0) by (apply stable_same; auto).
    destruct (ok (s_tries s)) eqn:O.
    2:{ exists None, s0. split; [reflexivity|]. split; auto. split; auto. split; auto. exists (s_tries s). auto. }
    destruct (new_obj_spec ok s0 ext KSeq A0) as (pd & s1 & E1 & H1 & _ & ST1 & F1). erewrite bind_at by exact E1.
    destruct pd as [d|].
    2:{ exists None, s1. split; [reflexivity|]. split; [exact H1|]. split; [eapply stable_trans; [exact ST0|exact ST1]|]. destruct F1 as (F & _ & A1). auto. }
    destruct F1 as (-> & Nd & O1 & A1). set (d := s_next s0) in *.
    destruct (new_obj_spec ok s1 _ KTup A1) as (pe & s2 & E2 & H2 & _ & ST2 & F2). erewrite bind_at by exact E2.
    assert (Pd : (1 <= ext d + one d d)%Z). { rewrite one_same. assert (Z := a_ext _ _ _ A d). lia. }
    assert (L1 : (s_next s0 <= s_next s1)%nat) by apply ST1. assert (L2 : (s_next s1 <= s_next s2)%nat) by apply ST2.
    destruct pe as [e|].
    2:{ destruct F2 as (F & O2 & A2). destruct (decref_ok d s2 _ A2 Pd) as (s3 & E3 & (Q1 & Q2 & Q3 & Q4) & H3 & A3).
        erewrite bind_at by exact E3. exists None, s3. split; [reflexivity|]. split; [cbn in *; congruence|].
        split; [|split; auto; eapply sacc_eq; [exact A3|]; intros x; cbn beta; lia].
        eapply stable_trans; [exact ST0|]. eapply stable_trans; [exact ST1|]. eapply stable_trans; [exact ST2|].
        apply stable_shrinks; auto. lia. }
    destruct F2 as (-> & Ne & O2 & A2). set (e := s_next s1) in *.
    set (ext2 := fun x => (ext x + one d x + one e x)%Z) in *.
    assert (Nde : d <> e). { assert (d < e)%nat; [|lia]. apply (a_lt _ _ _ A1). rewrite O1, upd_same. discriminate. }
    assert (Pe2 : (1 <= ext2 e)%Z).
    { unfold ext2. rewrite one_same. assert (Z := a_ext _ _ _ A e). assert (Z' := one_pos d e). lia. }
    assert (Pd2 : (1 <= ext2 d)%Z). { unfold ext2. assert (Z' := one_pos e d). lia. }
    assert (Ee2 : s_objs s2 e = Some (PObj KTup [] 1)) by (rewrite O2; apply upd_same).
    assert (Ed2 : s_objs s2 d = Some (PObj KSeq [] 1)) by (rewrite O2, upd_other, O1; [apply upd_same|auto]).
    assert (T2 : tree s2 t) by (eapply tree_rest; [exact T|cbn in *; congruence|cbn in *; lia]).
    assert (Hh : (gheight t <= s_next s2)%nat).
    { etransitivity; [apply height_fp|]. apply NoDup_bound; [apply T2|]. intros x I. eapply tr_fp; [exact T2|exact I]. }
    destruct (get_spec (s_next s2) t d Hh s2 ext2 e _ _ T2 A2 Pe2 Ee2 eq_refl Pd2 Ed2 eq_refl)
      as (r & s3 & E3 & H3 & A3 & G3 & (pd3 & new & Ed3 & Kd3 & Id3 & Y3) & F3).
    erewrite bind_at by exact E3.
    destruct (decref_ok e s3 _ A3 Pe2) as (s4 & E4 & (Q1 & Q2 & Q3 & Q4) & H4 & A4). erewrite bind_at by exact E4.
    assert (L3 : (s_next s2 <= s_next s3)%nat) by apply G3.
    assert (A4' : sacc s4 (fun x => ext x + one d x)%Z) by (eapply sacc_eq; [exact A4|]; intros x; unfold ext2; lia).
    assert (ST34 : stable s3 s4) by (apply stable_shrinks; auto; lia).
    assert (ST04 : stable s s4).
    { apply (stable_grow d (s_next s)); auto. eapply grow_trans; [apply grow_stable; [eapply stable_trans; [exact ST0|]; eapply stable_trans; [exact ST1|exact ST2]|auto]|].
      eapply grow_trans; [eapply grow_less; [exact G3|cbn in *; lia]|]. apply grow_stable; auto. cbn in *. lia. }
    destruct r.
    - destruct (decref_ok d s4 _ A4') as (s5 & E5 & (D1 & D2 & D3 & D4) & H5 & A5); [exact Pd|]. erewrite bind_at by exact E5.
      exists None, s5. split; [reflexivity|]. split; [cbn in *; congruence|].
      split; [eapply stable_trans; [exact ST04|]; apply stable_shrinks; auto; lia|]. split; auto. eapply sacc_eq; [exact A5|]. intros x. cbn beta. lia.
    - exists (Some d), s4. split; [reflexivity|]. split; [cbn in *; congruence|]. split; auto. split; auto. split; [cbn; auto|].
      destruct (acc_live _ _ _ d A4' Pd) as (pd4 & Ed4). destruct (H4 _ _ Ed4) as (pd4' & Ed4' & K4 & I4). rewrite Ed3 in Ed4'. injection Ed4' as <-.
      unfold types_of. rewrite Ed4, <- I4, Id3. cbn [o_items app].
      transitivity (map (type_of s3) new).
      + apply map_ext_in. intros x J.
        assert (J3 : In x (o_items pd3)) by (rewrite Id3; exact J). assert (J4 : In x (o_items pd4)) by (rewrite <- I4; exact J3).
        destruct (a_item _ _ _ A3 _ _ _ Ed3 J3) as (px & Ex & _). destruct (a_item _ _ _ A4' _ _ _ Ed4 J4) as (px' & Ex' & _).
        eapply (grow_type d s3 s4); [apply grow_stable; [exact ST34|auto]|exact A3|exact A4'|exact Ex|exact Ex'|].
        intros ->. eapply (acc_level _ _ _ d pd3 A3); eauto.
      + rewrite Y3 by auto. assert (TE : type_of s2 e = []) by (unfold type_of; rewrite Ee2; reflexivity). rewrite TE.
        rewrite <- (map_id (c_query_types (forget t))) at 2. apply map_ext. reflexivity.
  Qed.
End Get.
