(** Lemmas for C81: converted databases are consistent. *)
From Coq Require Import String Bool ZArith Lia Sorted List.
From Verif Require Import Base Kv Model_Types Model_Subscription Spec_Subscription Model_Codec Keys Model_Lmdb Model_LmdbSys Spec_Order Proof_Order Spec_Lmdb Spec_LmdbContent Spec_Copy
  Model_Convert Spec_Convert Proof_Convert Proof_Convert2 Proof_Convert3 Proof_Convert4 Proof_Lmdb7 Proof_Lmdb9 Spec_Resume Proof_Resume2.
Import ListNotations.
Open Scope list_scope.
Open Scope Z_scope.

Lemma same_payload_fun : forall p a b, same_payload p a -> same_payload p b -> a = b.
Proof. intros p a b A B. destruct A; inversion B; reflexivity. Qed.

Lemma same_event_fun : forall x a b, same_event x a -> same_event x b -> a = b.
Proof.
  intros x [ia ta sa oa pa] [ib tb sb ob pb] (A1 & A2 & A3 & A4 & A5) (B1 & B2 & B3 & B4 & B5). cbn [ev_id ev_type ev_ts ev_src ev_payload] in *.
  subst. f_equal. eapply same_payload_fun; eauto.
Qed.

Lemma same_part_inj : forall x y p, same_part x p -> same_part y p -> x = y.
Proof.
  intros [ox sx] [oy sy] p (A1 & A2) (B1 & B2). cbn [p7_order p7_subs] in *. rewrite A1 in B1. subst sy. f_equal.
  destruct A2 as [[-> A2]|[-> A2]], B2 as [[-> B2]|[-> B2]]; auto; rewrite A2 in B2; discriminate.
Qed.

Lemma ok_plain : forall e p, event_ok (Ev (ev_id e) (ev_type e) (ev_ts e) (ev_src e) p) -> event_ok e.
Proof. intros e p H. exact H. Qed.

Lemma place_plain : forall pt e p, place pt (Ev (ev_id e) (ev_type e) (ev_ts e) (ev_src e) p) = place pt e.
Proof. reflexivity. Qed.

Lemma parts_nodup : forall (l : list (Z * part7)) (m : list (Z * part_data)), NoDup (vals l) -> NoDup (keys l) -> NoDup (keys m) ->
    (forall p y, In (p, y) m <-> exists x, In (p, x) l /\ same_part x y) -> NoDup (vals m).
Proof.
  intros l m Nv Nk Nm H. unfold vals. apply NoDup_map_inj; [now apply NoDup_keys_list|]. intros [p y] [p' y'] A B E. cbn [snd] in E. subst y'.
  apply H in A as (x & A & Sx). apply H in B as (x' & B & Sx'). pose proof (same_part_inj _ _ _ Sx Sx') as ->.
  pose proof (NoDup_map_eq _ _ snd l _ _ Nv A B eq_refl) as E. congruence.
Qed.

Lemma map_nodup : forall (A B C : Type) (f : A -> C) (g : B -> C) (l : list (Z * A)) (m : list (Z * B)),
    NoDup (keys m) -> NoDup (map f (vals l)) -> (forall r b, In (r, b) m -> exists a, In (r, a) l /\ f a = g b) -> 
    (forall r a a', In (r, a) l -> In (r, a') l -> a = a') -> (forall r b b', In (r, b) m -> In (r, b') m -> b = b') -> NoDup (map g (vals m)).
Proof.
  intros A B C f g l m Nm Nl H _ Hf. unfold vals. rewrite map_map. apply NoDup_map_inj; [now apply NoDup_keys_list|]. intros [r b] [r' b'] I I' E. cbn [snd] in E.
  destruct (H _ _ I) as (a & J & Ea). destruct (H _ _ I') as (a' & J' & Ea').
  assert (X : (r, a) = (r', a')). { unfold vals in Nl. rewrite map_map in Nl. apply (NoDup_map_eq _ _ _ _ _ _ Nl); auto. cbn [snd]. congruence. }
  injection X as -> ->. f_equal. eapply Hf; eauto.
Qed.

Lemma key_fun : forall (K V : Type) (l : list (K * V)) k a b, NoDup (keys l) -> In (k, a) l -> In (k, b) l -> a = b.
Proof. intros K V l k a b N A B. pose proof (NoDup_map_eq _ _ fst l _ _ N A B eq_refl) as E. congruence. Qed.

Lemma final_C81_v07 : forall d c, sound7 d -> convert (V07 d) = Some c -> consistent c.
Proof.
  intros d c [G S] E. pose proof (s7_valid _ _ S) as V. destruct (convert_7 d V) as (c' & E' & C). rewrite E' in E. injection E as ->.
  assert (St : forall e, stored_event c e <-> exists x, stored7 d x /\ same_event x e).
  { intros e. unfold stored_event, stored7. rewrite !vals_In. split.
    - intros [[k H]|[k H]]; [apply (c79_latest _ _ C) in H|apply (c79_data _ _ C) in H]; destruct H as (x & H & X); exists x; (split; [|exact X]); [left|right]; apply vals_In; eauto.
    - intros (x & [H|H] & X); apply vals_In in H as [k H]; [left|right]; exists k; [apply (c79_latest _ _ C)|apply (c79_data _ _ C)]; eauto. }
  assert (Ex : forall x, exists e, same_event x e). { intros x. exists (event_7_9 x). now apply event_7_9_spec. }
  assert (St' : forall e, once_stored c (map event_7_9 G) e <-> exists x, once_stored7 d G x /\ same_event x e).
  { intros e. unfold once_stored, once_stored7. rewrite St, in_map_iff. split.
    - intros [(x & A & B)|(x & <- & A)]; exists x; (split; [auto|]); [exact B|now apply event_7_9_spec].
    - intros (x & [A|A] & B); [left; eauto|right]. exists x. split; auto. eapply same_event_fun; [now apply event_7_9_spec|exact B]. }
  assert (Last : forall sv i t, (exists e, last_of7 d G sv e /\ e7_id e = i /\ e7_ts e = t) <-> (exists e, last_stored c (map event_7_9 G) sv e /\ ev_id e = i /\ ev_ts e = t)).
  { intros sv i t. split.
    - intros (x & (A & B & D) & <- & <-). destruct (Ex x) as [e X]. exists e. pose proof X as (X1 & X2 & X3 & _). rewrite X1, X3. split; auto. split; [apply St'; eauto|].
      split; [unfold server_of; now rewrite X1|]. intros y Sy Ey. apply St' in Sy as (z & Sz & Z). rewrite X1, (proj1 Z). apply D; auto. unfold server7. rewrite <- (proj1 Z). exact Ey.
    - intros (e & (A & B & D) & <- & <-). apply St' in A as (x & Sx & X). exists x. pose proof X as (X1 & X2 & X3 & _). rewrite X1, X3. split; auto. split; auto.
      split; [unfold server7; now rewrite <- X1|]. intros y Sy Ey. destruct (Ex y) as [z Z]. rewrite <- X1, <- (proj1 Z). apply D; [apply St'; eauto|]. unfold server_of. rewrite (proj1 Z). exact Ey. }
  pose proof (c79_sorted _ _ C) as K. exists (map event_7_9 G). constructor.
  - exact K.
  - intros e Ge Se. apply in_map_iff in Ge as (x & <- & Gx). apply St in Se as (y & Sy & Y). apply (s7_gone _ _ S x Gx). replace x with y; auto.
    apply (s7_once _ _ S); [now left|now right|]. rewrite <- (proj1 Y). now apply (event_7_9_spec x).
  - intros e Se. apply St' in Se as (x & Sx & X1 & X2 & X3 & X4 & _). destruct (s7_event _ _ S _ Sx) as (A & B & D). unfold server_of.
    rewrite X1, X3. split; [|split; auto]. unfold plain7 in A. rewrite <- X1, <- X2, <- X3, <- X4 in A. exact A.
  - intros a b A B Ei. apply St' in A as (x & Sx & X). apply St' in B as (y & Sy & Y). assert (x = y). { apply (s7_once _ _ S); auto. rewrite <- (proj1 X), <- (proj1 Y). exact Ei. }
    subst y. eapply same_event_fun; eauto.
  - intros a b A B Es L. apply St' in A as (x & Sx & X1 & _ & X3 & _). apply St' in B as (y & Sy & Y1 & _ & Y3 & _). unfold server_of in Es. rewrite X1, Y1 in *. rewrite X3, Y3. now apply (s7_order _ _ S).
  - intros sv i. rewrite (c79_ids _ _ C). split.
    + intros (t & H). apply (s7_system _ _ S) in H. apply Last in H as (e & A & B & _). eauto.
    + intros (e & A & <-). exists (ev_ts e). apply (s7_system _ _ S). apply Last. eauto.
  - intros sv t. rewrite (c79_tss _ _ C). split.
    + intros (i & H). apply (s7_system _ _ S) in H. apply Last in H as (e & A & _ & B). eauto.
    + intros (e & A & <-). exists (ev_id e). apply (s7_system _ _ S). apply Last. eauto.
  - intros r t. rewrite (c79_types _ _ C), (s7_types _ _ S). split.
    + intros (x & A & <-). destruct (Ex x) as [e X]. exists e. split; [apply (c79_latest _ _ C); eauto|apply X].
    + intros (e & A & <-). apply (c79_latest _ _ C) in A as (x & A & X). exists x. split; auto. symmetry. apply X.
  - apply (map_nodup _ _ _ e7_type ev_type (d7_latest d) (db_latest c)).
    + apply (ksorted_NoDup zord), K.
    + apply (s7_latest _ _ S).
    + intros r b H. apply (c79_latest _ _ C) in H as (x & A & X). exists x. split; auto. symmetry. apply X.
    + intros r a a'. apply key_fun, (v7_latest _ V).
    + intros r b b'. apply key_fun. apply (ksorted_NoDup zord), K.
  - apply (parts_nodup (d7_parts d)); [apply (s7_parts _ _ S)|apply (v7_parts _ V)|apply (ksorted_NoDup zord), K|apply (c79_parts _ _ C)].
  - intros p t i e H. apply (c79_data _ _ C) in H as (x & H & X1 & X2 & X3 & X4 & _). destruct (s7_data _ _ S _ _ _ _ H) as (Ei & pt & y & P1 & P2 & P3 & P4).
    split; [now rewrite X1|]. exists pt. split; auto. split; [apply (c79_parts _ _ C); eauto|]. unfold plain7 in P4. rewrite <- X1, <- X2, <- X3, <- X4 in P4. exact P4.
  - apply (proj1 (final_C46_inv7 d c V E')). apply (s7_refs _ _ S).
  - intros i rs H. apply (c79_refs _ _ C) in H as (l & H & ->). split; [|apply ssorted_sof]. pose proof (s7_lists _ _ S _ _ H) as N. destruct l as [|r l]; [congruence|]. intros X.
    assert (Y : In r (sof reford (r :: l))) by (apply In_sof; now left). rewrite X in Y. destruct Y.
  - apply (proj2 (final_C46_inv7 d c V E')). apply (s7_counts _ _ S).
Qed.

Lemma final_C81_v06 : forall d s c, sound6 d s -> convert (V06 d) = Some c -> consistent c.
Proof.
  intros d s c S E. pose proof (s6_valid _ _ S) as V. pose proof (s6_own _ _ S) as W.
  destruct (final_C46_total d V) as (c' & E' & K & L). rewrite E in E'. injection E' as <-.
  destruct (final_C46_latest d s c V W E) as (A1 & A2 & A3 & _). destruct (final_C46_data d s c V W E) as (B1 & _).
  pose proof (final_C46_parts d s c V W E) as D1. pose proof (final_C46_refs d s c V W E) as D2. destruct (final_C46_counters d s c V W E) as (_ & _ & D3).
  assert (St : forall e, stored_event c e -> exists a, event_of6 d a /\ moved s a e).
  { intros e [H|H]; [apply A1 in H as (a & H & M); exists a; split; [now left|auto]|].
    apply vals_In in H as [[[p t] i] H]. apply B1 in H as (n & a & H & M & _). exists a. split; auto. right. apply vals_In. eauto. }
  assert (Id : forall a e, event_of6 d a -> moved s a e -> ev_id e = Eid s (e6_instance a) (e6_instance a)).
  { intros a e Ha (M & _). rewrite M. f_equal. destruct (s6_mine _ _ S a Ha) as [[X|X] _]; unfold new_server; rewrite X; [reflexivity|]. destruct (Z.eqb_spec s 0); auto. }
  assert (Pl : forall a e, event_of6 d a -> moved s a e -> Ev (ev_id e) (ev_type e) (ev_ts e) (ev_src e) None = plain6 s a).
  { intros a e Ha M. rewrite (Id _ _ Ha M). destruct M as (_ & M2 & M3 & M4 & _). unfold plain6. now rewrite M2, M3, M4. }
  assert (Sv : forall e, stored_event c e -> server_of e = s). { intros e Se. destruct (St _ Se) as (a & Ha & M). unfold server_of. now rewrite (Id _ _ Ha M). }
  assert (Pos : forall e, stored_event c e -> eid_lt (Eid s 0 0) (ev_id e)).
  { intros e Se. destruct (St _ Se) as (a & Ha & M). rewrite (Id _ _ Ha M). unfold eid_lt. cbn. pose proof (s6_mine _ _ S a Ha). lia. }
  assert (Last : forall sv e, last_of c sv e <-> sv = s /\ greatest c e).
  { intros sv e. split.
    - intros (X & Y & Z). split; [rewrite <- Y; now apply Sv|]. split; auto. intros x Sx. apply Z; auto. rewrite <- Y. now rewrite !Sv.
    - intros (-> & X & Y). split; [exact X|]. split; [now apply Sv|]. intros x Sx _. now apply Y. }
  assert (Gr : forall a b, greatest c a -> greatest c b -> ev_id a = ev_id b).
  { intros a b [Sa Ga] [Sb Gb]. destruct (Ga _ Sb) as [X|X]; [|auto]. destruct (Gb _ Sa) as [Y|Y]; [|auto]. exfalso. apply (eid_lt_irrefl (ev_id a)). now apply (eid_lt_trans _ (ev_id b)). }
  assert (Once : forall a b, stored_event c a -> stored_event c b -> ev_id a = ev_id b -> a = b).
  { intros a b Sa Sb Ei. destruct (St _ Sa) as (x & Hx & Mx). destruct (St _ Sb) as (y & Hy & My). pose proof Ei as Ei'. rewrite (Id _ _ Hx Mx), (Id _ _ Hy My) in Ei'. injection Ei' as Ei' _.
    assert (x = y) by now apply (s6_once _ _ S). subst y. destruct a as [ia ta sa oa pa], b as [ib tb sb ob pb]. destruct Mx as (X1 & X2 & X3 & X4 & X5), My as (Y1 & Y2 & Y3 & Y4 & Y5).
    cbn [ev_id ev_type ev_ts ev_src ev_payload] in *. subst. f_equal. eapply same_payload_fun; eauto. }
  assert (On : forall e, once_stored c [] e <-> stored_event c e) by (intros e; unfold once_stored; cbn [In]; tauto).
  assert (Ls : forall sv e, last_stored c [] sv e <-> last_of c sv e).
  { intros sv e. unfold last_stored, last_of. rewrite On. split; intros (X & Y & Z); (split; [exact X|split; [exact Y|]]); intros x Sx; apply Z; now apply On. }
  exists []. constructor.
  - exact K.
  - intros e [].
  - intros e Se. apply On in Se. destruct (St _ Se) as (a & Ha & M). destruct (s6_event _ _ S a Ha) as (X & Y). split; [apply (ok_plain e None); rewrite (Pl a e Ha M); exact X|].
    split; [rewrite (Sv _ Se); now apply Pos|]. destruct M as (_ & _ & M3 & _). now rewrite M3.
  - intros a b Sa Sb. apply On in Sa. apply On in Sb. now apply Once.
  - intros a b Sa Sb _ Lt. apply On in Sa. apply On in Sb. destruct (St _ Sa) as (x & Hx & Mx). destruct (St _ Sb) as (y & Hy & My). rewrite (Id _ _ Hx Mx), (Id _ _ Hy My) in Lt.
    destruct Mx as (_ & _ & X3 & _), My as (_ & _ & Y3 & _). rewrite X3, Y3. apply (s6_order _ _ S); auto. unfold eid_lt in Lt. cbn in Lt. lia.
  - intros sv i. destruct (final_C46_last d s c V W E) as [(e & G & P & X & _)|(N & X & _)]; rewrite X; split.
    + intros [[= <- <-]|[]]. exists e. split; auto. apply Ls, Last. auto.
    + intros (x & Lx & <-). apply Ls, Last in Lx as [-> Gx]. left. f_equal. now apply Gr.
    + intros [].
    + intros (x & (Sx & _) & _). apply On in Sx. now apply (N x Sx), Pos.
  - intros sv t. destruct (final_C46_last d s c V W E) as [(e & G & P & _ & X)|(N & _ & X)]; rewrite X; split.
    + intros [[= <- <-]|[]]. exists e. split; auto. apply Ls, Last. auto.
    + intros (x & Lx & <-). apply Ls, Last in Lx as [-> Gx]. left. f_equal. f_equal. apply Once; [apply G|apply Gx|now apply Gr].
    + intros [].
    + intros (x & (Sx & _) & _). apply On in Sx. now apply (N x Sx), Pos.
  - exact A2.
  - exact A3.
  - apply (parts_nodup (d6_parts d)); [apply (s6_parts _ _ S)|apply (v6_parts _ V)|apply (ksorted_NoDup zord), K|exact D1].
  - intros p t i e H. apply B1 in H as (n & a & H & M & ->). split; auto. destruct (s6_data _ _ S _ _ _ _ H) as (pt & x & P1 & P2 & P3 & P4).
    exists pt. split; auto. split; [apply D1; eauto|]. rewrite <- (place_plain pt e None), (Pl a e); auto. right. apply vals_In. eauto.
  - exact D2.
  - intros i rs H. split; [now apply (L i)|]. destruct (convert_6 d s V W) as (m & c' & E' & C6 & C9). rewrite E in E'. injection E' as <-. destruct (proj1 (c79_refs _ _ C9 i rs) H) as (l & _ & X). rewrite X. apply ssorted_sof.
  - apply D3. apply (s6_counts _ _ S).
Qed.

Lemma started : forall O cf c, open_db cf c <> None -> conf_ok cf -> exists s, resumed O cf c [] s.
Proof.
  intros O cf c N Ok. destruct (open_db cf c) as [[d m]|] eqn:E; [|congruence]. exists (Sys cf d m [] no_changes [] []), d, m. split; [exact E|]. split; [constructor|].
  split; [constructor; [exact Ok|constructor]|constructor].
Qed.

Lemma final_C81_starts : forall O cf c, conf_ok cf -> cf_version cf = "0.9"%string ->
    ((exists d, sound7 d /\ convert (V07 d) = Some c) \/ (exists d s, sound6 d s /\ convert (V06 d) = Some c)) ->
    consistent c /\ exists s, resumed O cf c [] s.
Proof.
  intros O cf c Ok Ev [(d & S & E)|(d & s & S & E)]; (split; [first [now apply (final_C81_v07 d)|now apply (final_C81_v06 d s)]|apply started; auto]).
  - destruct S as [G S]. apply (final_C46_open7 d c cf (s7_valid _ _ S) E Ev).
  - apply (final_C46_open d s c cf (s6_valid _ _ S) (s6_own _ _ S) E Ev).
Qed.
