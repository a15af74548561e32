(** Synchronization over several connections: nothing is skipped. *)
From Coq Require Import String Bool ZArith Arith Lia Sorted List.
From Verif Require Import Base Model_Types Proof_Order Proof_Lmdb3 Model_LmdbSys Model_Sync Spec_Sync Proof_Sync Proof_Sync2 Proof_Sync3 Proof_Sync4 Proof_Sync5 Proof_Sync6 Model_Replica Spec_Replica.
Import ListNotations.
Open Scope string_scope.
Open Scope list_scope.
Open Scope nat_scope.

(** ** Within a connection *)

Lemma ltb_irr : forall a b, eid_ltb a b = true -> eid_leb b a = true -> False.
Proof.
  intros a b H1 H2. pose proof (ltb_leb_trans _ _ _ H1 H2) as H. now rewrite eid_ltb_irrefl in H.
Qed.

Lemma gives_given : forall sv last0 tr s w e, sync_run sv last0 tr s -> In e (concat (gives w tr)) -> In e (given tr).
Proof.
  intros sv last0 tr s w e H Hi. rewrite (n_given _ _ _ (ynote_run _ _ _ _ H)). rewrite !in_app_iff. destruct w; auto.
Qed.

Lemma late_pages : forall sv last0 tr s, sync_run sv last0 tr s -> y_phase s <> PEnd -> concat (gives FromQueue tr) ++ concat (gives FromNotify tr) <> [] ->
    (y_phase s = PDrain \/ y_phase s = PDone) /\ pcat tr = concat (gives FromQuery tr) /\ exists n, fin tr = Some n.
Proof.
  intros sv last0 tr s H Hp Hg. pose proof (ynote_run _ _ _ _ H) as N. pose proof (yflow_run _ _ _ _ H) as F. pose proof (ypage_run _ _ _ _ H) as P.
  pose proof (n_queue _ _ _ N) as Q. pose proof (g_split _ _ _ P Hp) as S.
  assert (C : y_phase s = PDrain \/ y_phase s = PDone).
  { destruct (y_phase s) eqn:E; auto; try (exfalso; apply Hp; reflexivity);
      destruct Q as (_ & Q1 & Q2); rewrite Q1, Q2 in Hg; exfalso; apply Hg; reflexivity. }
  split; [exact C|]. unfold yflow, coming in *. destruct C as [C|C]; rewrite C in *; destruct F as (_ & F1 & F2 & F3 & F4); rewrite F1, F4 in S; cbn in S; rewrite app_nil_r in S;
    (split; [exact S|]); destruct F2 as [[F2 _]|[_ F2]]; try congruence; destruct (fin tr) as [n|]; eauto; congruence.
Qed.

(** Everything up to an event that was given was given before. *)
Lemma gapless : forall sv last0 tr s, sync_run sv last0 tr s -> forall g e, In g (given tr) -> kept tr e -> fresh last0 e ->
    eid_leb (ev_id e) (ev_id g) = true -> In e (given tr).
Proof.
  intros sv last0. apply (yopen sv last0 (fun tr => forall g e, In g (given tr) -> kept tr e -> fresh last0 e -> eid_leb (ev_id e) (ev_id g) = true -> In e (given tr))).
  2:{ intros tr tr' E IH g e Hg [Hk1 Hk2]. destruct (close_same _ _ E) as (C & C0 & _). rewrite C0 in *. intros Hf Hl. apply (IH g e); auto. split.
      - destruct Hk1 as (b & Hb & Hb2). rewrite C in Hb. exists b. auto.
      - intros (l & Hr). apply Hk2. exists l. rewrite E. apply in_or_app. auto. }
  intros tr s H Hp g e Hg Hk Hf Hl.
  pose proof (ydone_run _ _ _ _ H) as D. pose proof (ynote_run _ _ _ _ H) as N. pose proof (ypage_run _ _ _ _ H) as P.
  assert (Q : In e (pcat tr) -> In g (concat (gives FromQuery tr)) -> In e (given tr)).
  { intros He Hq. destruct (g_pre _ _ _ P) as [r Hr]. pose proof (d_inc _ _ D) as I. rewrite Hr in He, I. apply in_app_or in He as [He|He].
    - eapply gives_given; eauto.
    - apply increasing_inv in I as (_ & _ & I). exfalso. eapply ltb_irr; [exact (I _ _ Hq He)|exact Hl]. }
  rewrite (n_given _ _ _ N) in Hg. apply in_app_or in Hg as [Hg|Hg].
  - apply Q; [|exact Hg]. apply (d_upto _ _ D); auto. eapply eid_leb_trans'; [exact Hl|]. apply last_id_max; [apply D|].
    destruct (g_pre _ _ _ P) as [r Hr]. rewrite Hr. apply in_or_app. auto.
  - destruct (late_pages _ _ _ _ H Hp) as (C & E & n & Hn); [intros X; rewrite X in Hg; destruct Hg|].
    destruct (leb_or_ltb (ev_id e) (last_id last0 (pcat tr))) as [Hle|Hlt].
    { eapply gives_given; [exact H|]. rewrite <- E. apply (d_upto _ _ D); auto. }
    destruct (ybatches _ _ _ _ H Hp) as (B & q & r & H1 & H2 & H3 & H4).
    destruct Hk as [(b & Hb & Hb2) Hk].
    assert (Ib : In e (batch b)) by (unfold batch; apply in_map_iff; exists (e, true); auto).
    assert (Hin : In (batch b) (unsent tr ++ B ++ q ++ gives FromNotify tr ++ r)) by (rewrite <- H1; now apply in_map).
    pose proof (n_inc _ _ _ N) as I. rewrite H1 in I. rewrite !concat_app in I.
    apply increasing_inv in I as (_ & I & _). apply increasing_inv in I as (_ & I & IB). apply increasing_inv in I as (_ & I & Iq). apply increasing_inv in I as (_ & _ & Ir).
    rewrite !in_app_iff in Hin. destruct Hin as [Hin|[Hin|[Hin|[Hin|Hin]]]].
    + exfalso. pose proof (yunsent _ _ _ _ H _ Hn) as L. destruct (d_fin _ _ D _ Hn) as (_ & _ & K).
      assert (In e (pcat tr)).
      { pose proof Hb as Hb'. rewrite <- (firstn_skipn n (commits tr)) in Hb'. apply in_app_or in Hb' as [Hb'|Hb']; [eapply K; eauto|]. exfalso.
        pose proof (n_inc _ _ _ N) as J. rewrite <- (firstn_skipn n (commits tr)), map_app, concat_app in J. apply increasing_inv in J as (_ & _ & J).
        assert (Hx : In (batch b) (map batch (firstn n (commits tr)))).
        { rewrite <- firstn_map, H1, firstn_app. apply in_or_app. left. rewrite firstn_all2; auto. }
        assert (X : id_lt e e); [apply J; apply in_concat; exists (batch b); split; auto; now apply in_map|]. unfold id_lt in X. now rewrite eid_ltb_irrefl in X. }
      eapply ltb_irr; [exact Hlt|]. apply last_id_max; [apply D|auto].
    + eapply (gives_given _ _ _ _ FromQueue); [exact H|]. rewrite H3. apply filter_In. split; [apply in_concat; eauto|exact Hlt].
    + exfalso. apply in_app_or in Hg as [Hg|Hg].
      * rewrite H3 in Hg. apply filter_In in Hg as [Hg _]. eapply ltb_irr; [apply (IB g e)|exact Hl]; auto. rewrite !in_app_iff. left. apply in_concat; eauto.
      * destruct C as [C|C]; [|rewrite (H4 C) in Hin; destruct Hin]. pose proof (n_queue _ _ _ N) as X. rewrite C in X. destruct X as [X _]. rewrite X in Hg. destruct Hg.
    + eapply (gives_given _ _ _ _ FromNotify); [exact H|]. apply in_concat; eauto.
    + exfalso. apply in_app_or in Hg as [Hg|Hg].
      * rewrite H3 in Hg. apply filter_In in Hg as [Hg _]. eapply ltb_irr; [apply (IB g e)|exact Hl]; auto. rewrite !in_app_iff. right. right. apply in_concat; eauto.
      * eapply ltb_irr; [apply (Ir g e)|exact Hl]; auto. apply in_concat; eauto.
Qed.
