From Coq Require Import String Bool ZArith Lia List.
From Verif Require Import Base Kv Model_Types Model_Codec Keys Model_Lmdb Spec_Order Proof_Order Spec_LmdbContent Spec_Copy
  Model_Convert Spec_Convert.
Import ListNotations.
Open Scope list_scope.
Open Scope Z_scope.

(** ** Puts *)

Lemma fold_put_map : forall K A B (o : ord K) (f : A -> B) (src : list (K * A)) m,
  fold_left (fun m kv => kput o (fst kv) (f (snd kv)) m) src m = kputs o (map (fun kv => (fst kv, f (snd kv))) src) m.
Proof. intros K A B o f. induction src as [|[k v] src IH]; cbn [fold_left map fst snd]; intros m; [reflexivity|]. rewrite IH. reflexivity. Qed.

Lemma In_kputs : forall K V (o : ord K) (items : list (K * V)) x, NoDup (keys items) ->
  (In x (kputs o items []) <-> In x items).
Proof.
  intros K V o items [k v] N.
  rewrite <- (kget_In o) by (apply (ksorted_kputs o); constructor).
  rewrite (kget_kputs o) by exact N. change (kget o k []) with (@None V).
  split.
  - destruct (dget (oeqb o) k items) eqn:E; [|discriminate]. intros [= <-]. now apply (kget_Some_In o).
  - intros H. now rewrite (In_dget (oeqb_spec o) _ _ _ N H).
Qed.

Lemma keys_map_val : forall K A B (f : A -> B) (l : list (K * A)), keys (map (fun kv => (fst kv, f (snd kv))) l) = keys l.
Proof. intros. unfold keys. rewrite map_map. reflexivity. Qed.

Lemma put_all : forall K A B (o : ord K) (f : A -> B) (src : list (K * A)), NoDup (keys src) ->
  let res := fold_left (fun m kv => kput o (fst kv) (f (snd kv)) m) src [] in
  ksorted o res /\ forall k v, In (k, v) res <-> exists x, In (k, x) src /\ v = f x.
Proof.
  intros K A B o f src N. cbn zeta. rewrite fold_put_map. split.
  - apply (ksorted_kputs o). constructor.
  - intros k v. rewrite In_kputs by (now rewrite keys_map_val). rewrite in_map_iff. split.
    + intros ([k' x] & [= <- <-] & H). eauto.
    + intros (x & H & ->). now exists (k, x).
Qed.

Lemma put_same : forall K A (o : ord K) (src : list (K * A)), NoDup (keys src) ->
  let res := fold_left (fun m kv => kput o (fst kv) (snd kv) m) src [] in
  ksorted o res /\ forall x, In x res <-> In x src.
Proof.
  intros K A o src N. split; [apply (ksorted_kputs o src); constructor|]. intros x. now apply (In_kputs _ _ o).
Qed.

(** ** From 0.7 to 0.9 *)

Lemma payload_7_9_spec : forall p q, payload_7_9 p = q <-> same_payload p q.
Proof.
  intros p q. split.
  - intros <-. destruct p as [[b|j|[m|] t b]|]; constructor.
  - intros []; reflexivity.
Qed.

Lemma event_7_9_spec : forall a b, b = event_7_9 a <-> same_event a b.
Proof.
  intros a b. unfold same_event. rewrite <- payload_7_9_spec. split.
  - intros ->. cbn. auto.
  - intros (A & B & C & D & E). destruct b. cbn in *. unfold event_7_9. congruence.
Qed.

Lemma part_7_9_spec : forall a b, part_7_9 a = Some b <-> same_part a b.
Proof.
  intros [o l] [o' l']. unfold part_7_9, same_part. cbn [p7_order p7_subs pd_order pd_subs]. split.
  - destruct (o =? 1) eqn:E1; [apply Z.eqb_eq in E1|destruct (o =? 2) eqn:E2; [apply Z.eqb_eq in E2|]]; intros [= <- <-];
      (split; [reflexivity|]); auto.
  - intros (-> & [[-> ->]|[-> ->]]); reflexivity.
Qed.

Lemma ref_7_9_id : forall r, ref_7_9 r = r.
Proof. intros [k|[[p t] i]]; reflexivity. Qed.

Lemma parts_7_9_spec : forall l, NoDup (keys l) -> (forall p x, In (p, x) l -> p7_order x = 1 \/ p7_order x = 2) ->
  exists m, parts_7_9 l = Some m /\ ksorted zord m /\
    forall p y, In (p, y) m <-> exists x, In (p, x) l /\ same_part x y.
Proof.
  intros l N O.
  set (f := fun x => match part_7_9 x with Some y => y | None => PartData "" [] end).
  assert (F : forall x, p7_order x = 1 \/ p7_order x = 2 -> part_7_9 x = Some (f x)).
  { intros x H. unfold f, part_7_9. destruct H as [-> | ->]; reflexivity. }
  assert (G : forall l m, (forall p x, In (p, x) l -> p7_order x = 1 \/ p7_order x = 2) ->
     fold_left (fun acc kv => match acc, part_7_9 (snd kv) with
                           | Some m, Some p => Some (kput zord (fst kv) p m)
                           | _, _ => None
                           end) l (Some m) = Some (fold_left (fun m kv => kput zord (fst kv) (f (snd kv)) m) l m)).
  { clear -F. intros l m O. revert m. induction l as [|[k x] l IH]; cbn [fold_left fst snd]; intros m; auto.
    rewrite (F x (O k x (or_introl eq_refl))). apply IH. intros p y H. apply (O p y). now right. }
  eexists. split; [unfold parts_7_9; apply G; exact O|].
  destruct (put_all _ _ _ zord f l N) as [A B]. split; [exact A|].
  intros p y. rewrite B. split.
  - intros (x & H & ->). exists x. split; auto. apply part_7_9_spec. apply F. eauto.
  - intros (x & H & S). exists x. split; auto. apply part_7_9_spec in S. rewrite (F x) in S by eauto. congruence.
Qed.

(** What is in the converted database. *)
Record content79 (d : db7) (c : ldb) : Prop := {
  c79_sorted : kept_sorted c;
  c79_settings : db_settings c = [(0, "0.9"%string)];
  c79_ids : forall s i, In (s, i) (db_ids c) <-> exists t, In (s, (i, t)) (d7_system d);
  c79_tss : forall s t, In (s, t) (db_tss c) <-> exists i, In (s, (i, t)) (d7_system d);
  c79_refs : forall i l, In (i, l) (db_ref c) <-> exists rs, In (i, rs) (d7_ref d) /\ l = sof reford rs;
  c79_latest : forall r e, In (r, e) (db_latest c) <-> exists x, In (r, x) (d7_latest d) /\ same_event x e;
  c79_types : forall x, In x (db_types c) <-> In x (d7_types d);
  c79_data : forall k e, In (k, e) (db_ts c) <-> exists x, In (k, x) (d7_data d) /\ same_event x e;
  c79_parts : forall p y, In (p, y) (db_parts c) <-> exists x, In (p, x) (d7_parts d) /\ same_part x y;
  c79_counts : forall x, In x (db_counts c) <-> In x (d7_counts d) }.

Lemma convert_7_9_content : forall d, valid7 d -> exists c, convert_7_9 d = Some c /\ content79 d c.
Proof.
  intros d V. destruct (parts_7_9_spec _ (v7_parts _ V) (v7_orders _ V)) as (m & E & Sm & Im).
  unfold convert_7_9. rewrite E. eexists. split; [reflexivity|].
  destruct (put_all _ _ _ zord fst (d7_system d) (v7_system _ V)) as [S1 I1].
  destruct (put_all _ _ _ zord snd (d7_system d) (v7_system _ V)) as [S2 I2].
  destruct (put_all _ _ _ eidord (fun rs => sof reford (map ref_7_9 rs)) (d7_ref d) (v7_ref _ V)) as [S3 I3].
  destruct (put_all _ _ _ zord event_7_9 (d7_latest d) (v7_latest _ V)) as [S4 I4].
  destruct (put_same _ _ zord (d7_types d) (v7_types _ V)) as [S5 I5].
  destruct (put_all _ _ _ keyord event_7_9 (d7_data d) (v7_data _ V)) as [S6 I6].
  destruct (put_same _ _ zord (d7_counts d) (v7_counts _ V)) as [S7 I7].
  split; cbn [db_settings db_ids db_tss db_ref db_latest db_types db_ts db_parts db_counts]; auto.
  - split; auto. cbn. repeat constructor.
  - intros s i. rewrite I1. split.
    + intros ([j t] & H & ->). cbn [fst]. eauto.
    + intros (t & H). exists (i, t). auto.
  - intros s t. rewrite I2. split.
    + intros ([j u] & H & ->). cbn [snd]. eauto.
    + intros (i & H). exists (i, t). auto.
  - intros i l. rewrite I3. split; intros (rs & H & X); exists rs; (split; [exact H|]); rewrite X;
      rewrite (map_ext _ (fun r => r) ref_7_9_id), map_id; reflexivity.
  - intros r e. rewrite I4. split; intros (x & H & X); exists x; (split; [exact H|]); now apply event_7_9_spec.
  - intros k e. rewrite I6. split; intros (x & H & X); exists x; (split; [exact H|]); now apply event_7_9_spec.
Qed.

Lemma c79_listed : forall d c, content79 d c -> forall i r, listed c i r <-> listed7 d i r.
Proof.
  intros d c C i r. unfold listed, listed7. split.
  - intros (l & H & I). apply (c79_refs _ _ C) in H. destruct H as (rs & H & ->). exists rs. split; auto. now apply In_sof in I.
  - intros (rs & H & I). exists (sof reford rs). split; [apply (c79_refs _ _ C); eauto|]. now apply In_sof.
Qed.

Lemma c79_at_ref : forall d c, content79 d c -> forall r i, at_ref c r i <-> at_ref7 d r i.
Proof.
  intros d c C [k|k] i; cbn [at_ref at_ref7]; split.
  - intros (e & H & <-). apply (c79_latest _ _ C) in H. destruct H as (x & H & S). exists x. split; auto. symmetry. apply S.
  - intros (x & H & <-). exists (event_7_9 x). split; [|reflexivity]. apply (c79_latest _ _ C). exists x. split; auto. now apply event_7_9_spec.
  - intros (e & H & <-). apply (c79_data _ _ C) in H. destruct H as (x & H & S). exists x. split; auto. symmetry. apply S.
  - intros (x & H & <-). exists (event_7_9 x). split; [|reflexivity]. apply (c79_data _ _ C). exists x. split; auto. now apply event_7_9_spec.
Qed.

(** Lists with the same keys have the same number of entries of a partition. *)
Lemma count_keys : forall V (l : list (ts_key * V)) p,
  List.length (filter (fun kv => fst (fst (fst kv)) =? p) l) = List.length (filter (fun k => fst (fst k) =? p) (keys l)).
Proof. intros V l p. induction l as [|[k v] l IH]; cbn; auto. destruct (fst (fst k) =? p); cbn; auto. Qed.

Lemma same_keys_length : forall (a b : list ts_key) f, NoDup a -> NoDup b -> (forall k, In k a <-> In k b) ->
  List.length (filter f a) = List.length (filter f b).
Proof.
  intros a b f Na Nb H. apply Nat.le_antisymm; apply NoDup_incl_length; try (now apply NoDup_filter);
    intros k K; apply filter_In in K; apply filter_In; destruct K; split; auto; now apply H.
Qed.

Lemma c79_entries : forall d c, valid7 d -> content79 d c -> forall p, entries_in c p = entries_in7 d p.
Proof.
  intros d c V C p. unfold entries_in, entries_in7. rewrite !count_keys. f_equal. apply same_keys_length.
  - apply (ksorted_NoDup keyord). apply (c79_sorted _ _ C).
  - apply V.
  - intros k. unfold keys. rewrite !in_map_iff. split.
    + intros ([k' e] & <- & H). apply (c79_data _ _ C) in H. destruct H as (x & H & _). now exists (k', x).
    + intros ([k' x] & <- & H). exists (k', event_7_9 x). split; auto. apply (c79_data _ _ C). exists x. split; auto. now apply event_7_9_spec.
Qed.

Lemma c79_counter : forall d c, content79 d c -> forall p n, counter c p n <-> counter7 d p n.
Proof.
  intros d c C p n. unfold counter, counter7.
  assert (K : In p (keys (db_counts c)) <-> In p (keys (d7_counts d))).
  { unfold keys. rewrite !in_map_iff. split; intros (x & E & H); exists x; (split; [exact E|]); now apply (c79_counts _ _ C). }
  rewrite K, (c79_counts _ _ C). reflexivity.
Qed.
