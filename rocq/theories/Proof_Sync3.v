(** Synchronization: pages of the query. *)
From Coq Require Import String Bool ZArith Arith Lia Sorted List.
From Verif Require Import Base Model_Types Spec_Order Proof_Order Proof_Lmdb3 Model_Sync Spec_Sync Proof_Sync Proof_Sync2.
Import ListNotations.
Open Scope string_scope.
Open Scope list_scope.
Open Scope nat_scope.

(** ** Lists *)
Lemma last_id_app : forall i l l', last_id i (l ++ l') = last_id (last_id i l) l'.
Proof. intros. unfold last_id. rewrite rev_app_distr. destruct (rev l'); auto. Qed.
Lemma last_id_nil : forall i, last_id i [] = i.
Proof. reflexivity. Qed.
Lemma last_id_in : forall i l, l <> [] -> exists e, In e l /\ last_id i l = ev_id e.
Proof.
  intros i l H. unfold last_id. destruct (rev l) as [|e r] eqn:E.
  - exfalso. apply H. rewrite <- (rev_involutive l), E. reflexivity.
  - exists e. split; auto. apply in_rev. rewrite E. now left.
Qed.
Lemma last_id_any : forall i j l, l <> [] -> last_id i l = last_id j l.
Proof.
  intros i j l H. unfold last_id. destruct (rev l) eqn:E; auto. exfalso. apply H. rewrite <- (rev_involutive l), E. reflexivity.
Qed.
Lemma leb_refl : forall a, eid_leb a a = true.
Proof. intros. apply eid_leb_spec. now right. Qed.
Lemma ltb_leb : forall a b, eid_ltb a b = true -> eid_leb a b = true.
Proof. intros a b H. rewrite eid_leb_ltb. now rewrite (eid_ltb_asym _ _ H). Qed.
Lemma ltb_leb_trans : forall a b c, eid_ltb a b = true -> eid_leb b c = true -> eid_ltb a c = true.
Proof. intros a b c. rewrite eid_leb_spec, !eid_ltb_spec. intros H [H'| <-]; auto. eapply eid_lt_trans; eauto. Qed.
Lemma leb_or_ltb : forall a b, eid_leb a b = true \/ eid_ltb b a = true.
Proof. intros. rewrite eid_leb_ltb. destruct (eid_ltb b a); auto. Qed.
Lemma last_id_max : forall i l, increasing l -> forall e, In e l -> eid_leb (ev_id e) (last_id i l) = true.
Proof.
  intros i l H. induction l as [|x l IH]; intros e He; [destruct He|]. change (x :: l) with ([x] ++ l). rewrite last_id_app. cbn [last_id rev app].
  inversion_clear H as [|? ? H1 H2]. destruct l as [|y l].
  - destruct He as [->|[]]. apply leb_refl.
  - assert (N : y :: l <> []) by discriminate. rewrite (last_id_any _ i _ N). destruct He as [->|He]; auto.
    rewrite Forall_forall in H2. eapply eid_leb_trans'; [|apply IH; auto; now left]. apply ltb_leb. apply H2. now left.
Qed.
Lemma last_id_above : forall i l, above i l -> eid_leb i (last_id i l) = true.
Proof.
  intros i l H. destruct l as [|x l]; [apply leb_refl|]. destruct (last_id_in i (x :: l)) as (e & He & ->); [discriminate|].
  apply ltb_leb. unfold above in H. rewrite Forall_forall in H. auto.
Qed.
Lemma increasing_filter : forall f l, increasing l -> increasing (filter f l).
Proof.
  unfold increasing. intros f. induction l as [|x l IH]; cbn; intros H; auto. inversion_clear H as [|? ? H1 H2]. destruct (f x); auto. constructor; auto.
  rewrite Forall_forall in *. intros y Hy. apply filter_In in Hy as [Hy _]. auto.
Qed.
Lemma increasing_firstn : forall k l, increasing l -> increasing (firstn k l).
Proof. intros k l H. rewrite <- (firstn_skipn k l) in H. now apply increasing_inv in H. Qed.
Lemma increasing_NoDup : forall l, increasing l -> NoDup l.
Proof.
  unfold increasing. induction l as [|x l IH]; intros H; [constructor|]. inversion_clear H as [|? ? H1 H2]. constructor; auto.
  intros Hx. rewrite Forall_forall in H2. apply H2 in Hx. unfold id_lt in Hx. rewrite eid_ltb_irrefl in Hx. discriminate.
Qed.
Lemma in_firstn : forall (A : Type) k (l : list A) x, In x (firstn k l) -> In x l.
Proof. intros A k l x H. rewrite <- (firstn_skipn k l). apply in_or_app. auto. Qed.
(** A page has every event up to its last one. *)
Lemma page_all : forall i k l e, increasing l -> In e l -> eid_ltb i (ev_id e) = true -> eid_leb (ev_id e) (last_id i (firstn k l)) = true -> In e (firstn k l).
Proof.
  intros i k l e H He Hi Hl. rewrite <- (firstn_skipn k l) in He. apply in_app_or in He as [He|He]; auto. exfalso.
  destruct (firstn k l) as [|x p] eqn:E; [cbn in Hl; rewrite eid_leb_ltb, Hi in Hl; discriminate|].
  destruct (last_id_in i (x :: p)) as (y & Hy & Ey); [discriminate|]. rewrite Ey in Hl.
  rewrite <- (firstn_skipn k l) in H. apply increasing_inv in H as (_ & _ & H). rewrite E in H. specialize (H _ _ Hy He). unfold id_lt in H.
  rewrite eid_leb_ltb, H in Hl. discriminate.
Qed.

(** ** Sessions *)
Definition sess (e : event) : Z := eid_session (ev_id e).
Lemma sess_le : forall a b, eid_server (ev_id a) = eid_server (ev_id b) -> id_lt a b -> (sess a <= sess b)%Z.
Proof.
  intros a b H H'. unfold id_lt in H'. apply eid_ltb_spec in H'. unfold eid_lt in H'. unfold sess. lia.
Qed.
Lemma span_app : forall x l, fst (span_session x l) ++ snd (span_session x l) = l.
Proof. induction l as [|e l IH]; auto. cbn. destruct (Z.eqb _ _); cbn; auto. now rewrite IH. Qed.
Lemma span_fst : forall x l e, In e (fst (span_session x l)) -> sess e = x.
Proof.
  induction l as [|y l IH]; cbn; intros e H; [destruct H|]. destruct (Z.eqb_spec (eid_session (ev_id y)) x); cbn in H; [|destruct H]. destruct H as [->|H]; auto.
Qed.
Lemma span_snd : forall x l, match snd (span_session x l) with [] => Forall (fun e => sess e = x) l | e :: _ => sess e <> x end.
Proof.
  induction l as [|y l IH]; cbn; [constructor|]. destruct (Z.eqb_spec (eid_session (ev_id y)) x) as [E|E]; cbn.
  - destruct (snd (span_session x l)); auto.
  - exact E.
Qed.
Definition served (sv : Z) (l : list event) : Prop := Forall (fun e => eid_server (ev_id e) = sv) l.
Lemma span_split : forall sv l e r, l = e :: r -> increasing l -> served sv l -> sess e <> eid_session (last_id (ev_id e) l) ->
    let p := span_session (sess e) l in
    fst p <> [] /\ snd p <> [] /\ (forall a, In a (fst p) -> sess a = sess e) /\ forall b, In b (snd p) -> (sess e < sess b)%Z.
Proof.
  intros sv l e r El Hi Hs Hn p. pose proof (span_app (sess e) l) as Ha. fold p in Ha. pose proof (span_snd (sess e) l) as H2. fold p in H2.
  assert (Hf : fst p <> []). { unfold p. rewrite El. cbn. unfold sess. rewrite Z.eqb_refl. discriminate. }
  assert (Hb : snd p <> []).
  { intros E. rewrite E in H2. apply Hn. destruct (last_id_in (ev_id e) l) as (x & Hx & ->); [rewrite El; discriminate|]. rewrite Forall_forall in H2. symmetry. now apply H2. }
  split; auto. split; auto. split; [intros a; apply span_fst|]. intros b Hin. destruct (snd p) as [|x q] eqn:E; [destruct Hin|].
  assert (Hx : (sess e < sess x)%Z).
  { destruct (fst p) as [|e' f] eqn:F; [now destruct Hf|]. assert (e' = e) as -> by (rewrite El in Ha; now injection Ha). rewrite <- Ha in Hi, Hs. unfold served in Hs. rewrite Forall_forall in Hs.
    assert (sess e <= sess x)%Z; [|lia]. apply sess_le; [rewrite (Hs e), (Hs x); auto; [apply in_or_app; right; now left|now left]|]. apply increasing_inv in Hi as (_ & _ & Hi). apply Hi; now left. }
  destruct Hin as [->|Hin]; auto. assert (sess x <= sess b)%Z; [|lia]. rewrite <- Ha in Hi, Hs. unfold served in Hs. rewrite Forall_forall in Hs.
  apply sess_le; [rewrite (Hs x), (Hs b); auto; apply in_or_app; right; [now right|now left]|]. apply increasing_inv in Hi as (_ & Hi & _). inversion_clear Hi as [|? ? _ Hi']. rewrite Forall_forall in Hi'. auto.
Qed.
Lemma one_of : forall sv l e r, l = e :: r -> increasing l -> served sv l -> sess e = eid_session (last_id (ev_id e) l) -> one_session l.
Proof.
  intros sv l e r El Hi Hs Hn. assert (H : forall a, In a l -> sess a = sess e).
  { intros a Ha. destruct (last_id_in (ev_id e) l) as (x & Hx & Ex); [rewrite El; discriminate|]. rewrite Ex in Hn. change (sess e = sess x) in Hn. unfold served in Hs. rewrite Forall_forall in Hs.
    assert (L : (sess e <= sess a)%Z).
    { rewrite El in Ha. destruct Ha as [->|Ha]; [lia|]. apply sess_le; [rewrite (Hs e), (Hs a); auto; rewrite El; [now right|now left]|]. rewrite El in Hi. inversion_clear Hi as [|? ? _ Hi']. rewrite Forall_forall in Hi'. auto. }
    assert (U : (sess a <= sess x)%Z).
    { pose proof (last_id_max (ev_id e) l Hi a Ha) as Hm. rewrite Ex in Hm. apply eid_leb_spec in Hm as [Hm|Hm].
      - apply sess_le; [rewrite !Hs; auto|]. now apply eid_ltb_spec.
      - unfold sess. rewrite Hm. lia. }
    lia. }
  intros a b Ha Hb. change (sess a = sess b). rewrite (H _ Ha), (H _ Hb). reflexivity.
Qed.
Lemma apart_snoc : forall l es, apart l -> (forall e e', In e (concat l) -> In e' es -> sess e <> sess e') -> apart (l ++ [es]).
Proof.
  intros l es H H1 a b c x y E e e' He He'. destruct c as [|z c] using rev_ind.
  - assert (E' : l ++ [es] = (a ++ x :: b) ++ [y]) by (rewrite E, <- app_assoc; reflexivity). apply app_inj_tail in E' as [-> ->].
    apply H1; auto. rewrite concat_app. apply in_or_app. right. cbn. apply in_or_app. auto.
  - assert (E' : l ++ [es] = (a ++ x :: b ++ y :: c) ++ [z]) by (rewrite E, <- !app_assoc; cbn; rewrite <- !app_assoc; reflexivity).
    apply app_inj_tail in E' as [-> ->]. eapply H; eauto.
Qed.
