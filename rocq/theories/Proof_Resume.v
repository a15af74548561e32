(** Lemmas for C81: a history for a consistent database. *)
From Coq Require Import String Bool ZArith Lia Sorted List.
From Verif Require Import Base Kv Model_Types Model_Subscription Spec_Subscription Proof_Subscription Proof_Subscription2 Model_Codec Keys Model_Lmdb Model_LmdbSys Spec_Order Proof_Order Spec_Lmdb Spec_LmdbContent Spec_Copy
  Model_Convert Spec_Convert Proof_Lmdb1 Proof_Lmdb2 Proof_Lmdb3 Proof_Lmdb7 Proof_Lmdb8 Proof_Lmdb9 Spec_Resume.
Import ListNotations.
Open Scope list_scope.
Open Scope Z_scope.

(** ** Events in order of their ids *)

Definition by_id (es : list event) : list (event_id * event) := fold_left (fun m e => kput eidord (ev_id e) e m) es [].

Lemma by_id_spec : forall es m, ksorted eidord m -> (forall i x, In (i, x) m -> i = ev_id x) ->
    (forall a b, (In a es \/ In a (vals m)) -> (In b es \/ In b (vals m)) -> ev_id a = ev_id b -> a = b) ->
    let r := fold_left (fun m e => kput eidord (ev_id e) e m) es m in
    ksorted eidord r /\ (forall i x, In (i, x) r <-> i = ev_id x /\ (In x es \/ In x (vals m))).
Proof.
  induction es as [|e es IH]; intros m Hs Hi Hu; cbn [fold_left].
  - split; auto. intros i x. split.
    + intros H. split; [eauto|]. right. apply vals_In. eauto.
    + intros [-> [[]|H]]. apply vals_In in H as [j H]. pose proof (Hi _ _ H). now subst.
  - assert (Hs' : ksorted eidord (kput eidord (ev_id e) e m)) by now apply ksorted_kput.
    assert (Hin : forall i x, In (i, x) (kput eidord (ev_id e) e m) <-> i = ev_id x /\ (x = e \/ In x (vals m))).
    { intros i x. rewrite <- (kget_In eidord) by auto. rewrite kget_kput. cbn [oeqb eidord]. destruct (eid_eqb i (ev_id e)) eqn:E.
      - apply eid_eqb_spec in E. subst i. split.
        + intros [= <-]. auto.
        + intros [A [->|B]]; auto. f_equal. symmetry. apply Hu; auto. left. now left.
      - rewrite (kget_In eidord) by auto. split.
        + intros H. split; [eauto|]. right. apply vals_In. eauto.
        + intros [-> [->|B]].
          * rewrite (proj2 (eid_eqb_spec _ _) eq_refl) in E. discriminate.
          * apply vals_In in B as [j B]. pose proof (Hi _ _ B). now subst. }
    assert (Hv : forall x, In x (vals (kput eidord (ev_id e) e m)) <-> x = e \/ In x (vals m)).
    { intros x. rewrite vals_In. split; [intros [i H]; now apply Hin in H|]. intros H. exists (ev_id x). now apply Hin. }
    destruct (IH (kput eidord (ev_id e) e m)) as [A B]; auto.
    + intros i x H. now apply Hin in H.
    + intros a b Ha Hb. apply Hu; [destruct Ha as [Ha|Ha]|destruct Hb as [Hb|Hb]]; cbn [In]; auto.
      * apply Hv in Ha. destruct Ha; auto.
      * apply Hv in Hb. destruct Hb; auto.
    + split; auto. intros i x. rewrite B, Hv. cbn [In]. intuition.
Qed.

Lemma ksorted_app : forall (V : Type) (a b : list (event_id * V)) k v, ksorted eidord (a ++ (k, v) :: b) -> forall k' v', In (k', v') a -> eid_ltb k' k = true.
Proof.
  intros V a. induction a as [|[k0 v0] a IH]; intros b k v H k' v' Hin; [easy|].
  cbn [app] in H. unfold ksorted in *. cbn [keys map fst] in H. inversion H as [|? ? Hs Hf]; subst. destruct Hin as [[= -> ->]|Hin].
  - rewrite Forall_forall in Hf. apply Hf. apply in_map_iff. exists (k, v). split; auto. apply in_or_app. right. now left.
  - eapply IH; eauto.
Qed.

(** Choice over a list. *)
Lemma choose : forall (A B : Type) (R : A -> B -> Prop) l, (forall x, In x l -> exists y, R x y) -> exists l', Forall2 R l l'.
Proof.
  intros A B R l. induction l as [|x l IH]; intros H; [exists []; constructor|].
  destruct (H x) as [y Hy]; [now left|]. destruct IH as [l' Hl]; [intros z Hz; apply H; now right|]. exists (y :: l'). now constructor.
Qed.

Lemma Forall2_in_r : forall (A B : Type) (R : A -> B -> Prop) l l' y, Forall2 R l l' -> In y l' -> exists x, In x l /\ R x y.
Proof. intros A B R l l' y H. induction H as [|a b l l' Hr H IH]; intros Hin; [easy|]. destruct Hin as [<-|Hin]; [exists a; cbn; auto|]. destruct (IH Hin) as (x & A1 & A2). exists x. cbn. auto. Qed.
Lemma Forall2_in_l : forall (A B : Type) (R : A -> B -> Prop) l l' x, Forall2 R l l' -> In x l -> exists y, In y l' /\ R x y.
Proof. intros A B R l l' y H. induction H as [|a b l l' Hr H IH]; intros Hin; [easy|]. destruct Hin as [<-|Hin]; [exists b; cbn; auto|]. destruct (IH Hin) as (x & A1 & A2). exists x. cbn. auto. Qed.

(** ** Entries *)

Section History.
  Variable c : ldb.
  Variable G : list event.
  Hypothesis HC : consistent_without c G.

  Definition entry_for (en : entry) : Prop :=
    let e := en_ev en in let cf := en_conf en in
    once_stored c G e /\ conf_ok cf /\ (forall x, cf_cond cf x = true) /\ (covers cf (ev_type e) = true <-> In e (vals (db_latest c))) /\
    (forall pt, In pt (cf_parts cf) -> exists k, In (k, e) (db_ts c) /\ In (fst (fst k), part_data_of pt) (db_parts c) /\ place pt e = Some (snd (fst k))) /\
    (forall k, In (k, e) (db_ts c) -> exists pt, In pt (cf_parts cf) /\ In (fst (fst k), part_data_of pt) (db_parts c) /\ place pt e = Some (snd (fst k))).

  Lemma parts_for : forall e l, once_stored c G e -> incl l (db_ts c) -> exists ps, Forall (fun pt => py_subscription (pt_sub pt)) ps /\
      (forall pt, In pt ps -> exists k, In (k, e) (db_ts c) /\ In (fst (fst k), part_data_of pt) (db_parts c) /\ place pt e = Some (snd (fst k))) /\
      (forall k, In (k, e) l -> exists pt, In pt ps /\ In (fst (fst k), part_data_of pt) (db_parts c) /\ place pt e = Some (snd (fst k))).
  Proof.
    intros e l Se. induction l as [|[[[p t] i] x] l IH]; intros Hl.
    - exists []. split; [constructor|]. split; intros ? [].
    - destruct IH as (ps & A & B & D); [intros y Hy; apply Hl; now right|].
      assert (Hx : In ((p, t, i), x) (db_ts c)) by (apply Hl; now left). destruct (cs_ts _ _ HC _ _ _ _ Hx) as (Ei & pt & P1 & P2 & P3).
      destruct (eid_eqb (ev_id x) (ev_id e)) eqn:E.
      + apply eid_eqb_spec in E. assert (x = e). { apply (cs_once _ _ HC); auto. left. right. apply vals_In. eauto. } subst x.
        exists (pt :: ps). split; [now constructor|]. split.
        * intros q [<-|Hq]; [|now apply B]. exists (p, t, i). auto.
        * intros k [[= <-]|Hk]; [exists pt; cbn; auto|]. destruct (D _ Hk) as (q & Q1 & Q2). exists q. cbn. auto.
      + exists ps. split; auto. split; auto. intros k [[= <- <-]|Hk]; auto. rewrite (proj2 (eid_eqb_spec _ _) eq_refl) in E. discriminate.
  Qed.

  Lemma star_valid : valid_query ["*"%string].
  Proof.
    intros p r E. destruct p as [|a p]; cbn in E; [now injection E as <-|]. injection E as _ E. destruct p; discriminate.
  Qed.

  Lemma entry_exists : forall e, once_stored c G e -> exists en, en_ev en = e /\ entry_for en.
  Proof.
    intros e Se. destruct (parts_for e (db_ts c) Se (incl_refl _)) as (ps & A & B & D).
    destruct (create_valid [["*"%string]]) as [nall Na]; [constructor; [exact star_valid|constructor]|].
    destruct (create_valid []) as [nno Nn]; [constructor|].
    set (inl := existsb (fun x => eid_eqb (ev_id x) (ev_id e)) (vals (db_latest c))).
    exists (Entry (Conf "" None (fun _ => true) (if inl then nall else nno) ps 0) e). split; [reflexivity|].
    unfold entry_for. cbn [en_ev en_conf cf_cond cf_parts]. split; auto. split; [|split; [auto|split; [|auto]]].
    - split; cbn [cf_latest cf_parts]; auto. destruct inl; eapply ps_new; eauto.
    - unfold covers. cbn [cf_latest]. destruct inl eqn:E; unfold inl in E.
      + split; [intros _|intros _].
        * apply existsb_exists in E as (x & X1 & X2). apply eid_eqb_spec in X2. rewrite <- (cs_once _ _ HC x e); auto. left. now left.
        * apply (create_matches _ _ Na). exists ["*"%string]. split; [now left|]. split; [exact star_valid|constructor].
      + split.
        * intros H. apply (create_matches _ _ Nn) in H. destruct H as (q & [] & _).
        * intros H. assert (X : existsb (fun x => eid_eqb (ev_id x) (ev_id e)) (vals (db_latest c)) = true).
          { apply existsb_exists. exists e. split; auto. now apply eid_eqb_spec. } congruence.
  Qed.

  (** Entries in order of ids. *)
  Definition in_order (H : history) : Prop := forall H1 a H2 b H3, H = H1 ++ a :: H2 ++ b :: H3 -> eid_lt (ev_id (en_ev a)) (ev_id (en_ev b)).

  Lemma history_exists : exists H, Forall entry_for H /\ in_order H /\ forall e, once_stored c G e -> exists en, In en H /\ en_ev en = e.
  Proof.
    set (es := (vals (db_latest c) ++ vals (db_ts c)) ++ G).
    assert (Hes : forall e, In e es <-> once_stored c G e) by (intros e; unfold es, once_stored, stored_event; rewrite !in_app_iff; tauto).
    destruct (by_id_spec es []) as [S I]; [constructor|intros ? ? []| |].
    { intros a b [Ha|[]] [Hb|[]]. apply (cs_once _ _ HC); now apply Hes. }
    set (m := fold_left (fun m e => kput eidord (ev_id e) e m) es []) in *.
    destruct (choose _ _ (fun (x : event_id * event) en => en_ev en = snd x /\ entry_for en) m) as [H F].
    { intros [i e] Hin. apply I in Hin as [_ [Hin|[]]]. cbn [snd]. apply entry_exists. now apply Hes. }
    exists H. split; [|split].
    - apply Forall_forall. intros en Hen. destruct (Forall2_in_r _ _ _ _ _ _ F Hen) as (x & _ & _ & E). exact E.
    - intros H1 a H2 b H3 E. rewrite E in F. apply Forall2_app_inv_r in F as (m1 & m2 & F1 & F2 & Em).
      inversion F2 as [|[i x] ? m3 ? [Ea _] F3]; subst. apply Forall2_app_inv_r in F3 as (m4 & m5 & F4 & F5 & Em'). inversion F5 as [|[j y] ? m6 ? [Eb _] F6]; subst.
      rewrite Em in S, I. cbn [snd] in Ea, Eb. rewrite app_comm_cons, app_assoc in S.
      assert (L : eid_ltb i j = true). { eapply (ksorted_app _ _ _ _ _ S i x). apply in_or_app. right. now left. }
      destruct (proj1 (I i x)) as [-> _]; [apply in_or_app; right; now left|].
      destruct (proj1 (I j y)) as [-> _]; [apply in_or_app; right; right; apply in_or_app; right; now left|].
      rewrite Ea, Eb. now apply eid_ltb_spec.
    - intros e Se. assert (Hin : In (ev_id e, e) m) by (apply I; split; auto; left; now apply Hes).
      destruct (Forall2_in_l _ _ _ _ _ _ F Hin) as (en & A & B & _). eauto.
  Qed.
End History.
