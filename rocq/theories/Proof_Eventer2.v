(** Eventer server: what the trace tells of the connections (C38). *)
From Coq Require Import String Bool ZArith Arith Lia List.
From Verif Require Import Base Model_Types Model_Subscription Spec_Subscription Proof_Subscription2 Model_Eventer Spec_Eventer Proof_Eventer.
Import ListNotations.
Open Scope string_scope.
Open Scope list_scope.
Open Scope nat_scope.

(** ** Traces *)

Lemma vouts_snoc : forall tr o l, vouts (tr ++ [(o, l)]) = vouts tr ++ l.
Proof. intros. unfold vouts. rewrite flat_map_app. cbn [flat_map snd]. now rewrite app_nil_r. Qed.

Lemma sent_in_app : forall c a b, sent_in c (a ++ b) = sent_in c a ++ sent_in c b.
Proof. intros. apply flat_map_app. Qed.
Lemma sent_to_snoc : forall c tr o l, sent_to c (tr ++ [(o, l)]) = sent_to c tr ++ sent_in c l.
Proof. intros. unfold sent_to. now rewrite vouts_snoc, sent_in_app. Qed.
Lemma sent_to_app : forall c a b, sent_to c (a ++ b) = sent_to c a ++ sent_to c b.
Proof. intros. unfold sent_to, vouts. now rewrite flat_map_app, sent_in_app. Qed.

Lemma sent_in_none : forall c l, (forall m, ~ In (Sent c m) l) -> sent_in c l = [].
Proof.
  intros c l H. induction l as [|x l IH]; [reflexivity|]. cbn [sent_in flat_map]. fold (sent_in c l). rewrite IH by (intros m Hm; apply (H m); now right).
  destruct x; auto. destruct (Nat.eqb_spec c0 c) as [->|]; auto. destruct (H m). now left.
Qed.

Lemma In_sent_in : forall c m l, In m (sent_in c l) <-> In (Sent c m) l.
Proof.
  intros c m l. unfold sent_in. rewrite in_flat_map. split.
  - intros (x & H & Hx). destruct x; try contradiction. destruct (Nat.eqb_spec c0 c) as [->|]; [|contradiction]. destruct Hx as [<-|[]]. auto.
  - intros H. exists (Sent c m). split; auto. rewrite Nat.eqb_refl. now left.
Qed.

Lemma ids_snoc : forall tr o l, ids (tr ++ [(o, l)]) = ids tr ++ ids_in l.
Proof. intros. unfold ids. rewrite vouts_snoc. apply flat_map_app. Qed.

Lemma gone_snoc : forall c tr o l, gone c (tr ++ [(o, l)]) = gone c tr || closes c o.
Proof. intros. unfold gone. rewrite existsb_app. cbn [existsb fst]. now rewrite orb_false_r. Qed.

Lemma init_of_snoc : forall c tr o l, init_of c (tr ++ [(o, l)]) = match init_of c tr with Some x => Some x | None => init_op c o end.
Proof.
  intros c tr o l. induction tr as [|[o' l'] tr IH]; cbn [app init_of]; [now destruct (init_op c o)|].
  destruct (init_op c o'); auto.
Qed.

Lemma welcomed_snoc : forall c tr o l, welcomed c (tr ++ [(o, l)]) = welcomed c tr || existsb is_welcome (sent_in c l).
Proof. intros. unfold welcomed. rewrite sent_to_snoc. apply existsb_app. Qed.

Lemma vruns_snoc_inv : forall sv tk s tr o l s2, vruns sv tk s (tr ++ [(o, l)]) s2 ->
    exists s1, vruns sv tk s tr s1 /\ vexec sv tk s1 o = Some (s2, l).
Proof.
  intros sv tk s tr o l s2 H. remember (tr ++ [(o, l)]) as t eqn:E. destruct H.
  - now destruct tr.
  - apply app_inj_tail in E as [-> [= -> ->]]. eauto.
Qed.

Lemma vruns_prefix : forall sv tk s a b s2, vruns sv tk s (a ++ b) s2 -> exists s1, vruns sv tk s a s1.
Proof.
  intros sv tk s a b. induction b as [|[o l] b IH] using rev_ind; intros s2 H.
  - rewrite app_nil_r in H. eauto.
  - rewrite app_assoc in H. apply vruns_snoc_inv in H as (s1 & H & _). eauto.
Qed.

(** ** The book *)

Definition noinit (m : smsg) : Prop := is_initres m = false.

(** Accepted, and what was sent. *)
Definition guest (token : option string) (c : nat) (tr : list vitem) (i : info) : Prop :=
  exists conv req st rest, sent_to c tr = MInitRes conv (Some st) :: rest /\ Forall noinit rest /\
    init_of c tr = Some (conv, req) /\ made token req i.

Definition was (token : option string) (c : nat) (tr : list vitem) : Prop :=
  sent_to c tr = [] \/ (exists conv, sent_to c tr = [MInitRes conv None]) \/ exists i, guest token c tr i.

Definition known (token : option string) (c : nat) (tr : list vitem) (i : info) : Prop :=
  exists conv req, init_of c tr = Some (conv, req) /\ made token req i.

Definition about (token : option string) (tr : list vitem) (s : vstate) (c : nat) : Prop :=
  match phase_of s c with
  | HNew => sent_to c tr = [] /\ init_of c tr = None
  | HHello conv i => sent_to c tr = [] /\ exists req, init_of c tr = Some (conv, req) /\ made token req i
  | HRefused => exists conv, sent_to c tr = [MInitRes conv None]
  | HIdle i | HRegister i _ _ | HQuery i _ => guest token c tr i
  | HBye i => is_up s c = false /\ was token c tr /\ known token c tr i
  | HEnd => is_up s c = false /\ was token c tr
  end.

Record vbook (token : option string) (tr : list vitem) (s : vstate) : Prop := {
  vb_infos : NoDup (keys (v_infos s));
  vb_live : forall c, nget c (v_infos s) = live (phase_of s c);
  vb_next : forall c, In c (keys (v_conns s)) -> c < v_next s;
  vb_ids : forall c, In c (ids tr) <-> In c (keys (v_conns s));
  vb_nodup : NoDup (ids tr);
  vb_up : forall c, is_up s c = true <-> In c (ids tr) /\ gone c tr = false;
  vb_about : forall c, about token tr s c;
  vb_fresh : forall c, ~ In c (keys (v_conns s)) -> gone c tr = false /\ init_of c tr = None /\ sent_to c tr = [];
  vb_refs : forall c, In c (refs s) -> welcomed c tr = true }.

Lemma guest_welcomed : forall tk c tr i, guest tk c tr i -> welcomed c tr = true.
Proof. intros tk c tr i (conv & req & st & rest & E & _). unfold welcomed. now rewrite E. Qed.

Lemma was_about : forall tk tr s c, about tk tr s c -> was tk c tr.
Proof.
  intros tk tr s c H. unfold about in H. destruct (phase_of s c).
  - left. apply H.
  - left. apply H.
  - right. now left.
  - right. right. eauto.
  - right. right. eauto.
  - right. right. eauto.
  - apply H.
  - apply H.
Qed.

(** Nothing new about a connection. *)
Lemma guest_snoc : forall tk c tr i o l, guest tk c tr i -> (forall m, In (Sent c m) l -> is_initres m = false) -> guest tk c (tr ++ [(o, l)]) i.
Proof.
  intros tk c tr i o l (conv & req & st & rest & E & Hf & Hi & Hm) Hl. exists conv, req, st, (rest ++ sent_in c l).
  rewrite sent_to_snoc, init_of_snoc, E, Hi. split; auto. split; auto. apply Forall_app. split; auto.
  apply Forall_forall. intros m Hin. apply Hl. now apply In_sent_in.
Qed.

Lemma was_snoc : forall tk c tr o l, was tk c tr -> (forall m, ~ In (Sent c m) l) -> was tk c (tr ++ [(o, l)]).
Proof.
  intros tk c tr o l H Hl. unfold was. rewrite sent_to_snoc, (sent_in_none c l Hl), app_nil_r. destruct H as [H|[H|[i H]]]; auto.
  right. right. exists i. apply guest_snoc; auto. intros m Hm. now destruct (Hl m).
Qed.

Lemma known_snoc : forall tk c tr i x, known tk c tr i -> known tk c (tr ++ [x]) i.
Proof. intros tk c tr i [o l] (conv & req & Hi & Hm). exists conv, req. now rewrite init_of_snoc, Hi. Qed.

Lemma known_about : forall tk tr s c i, about tk tr s c -> info_of (phase_of s c) = Some i -> known tk c tr i.
Proof.
  intros tk tr s c i H E. unfold about in H. destruct (phase_of s c); try discriminate; injection E as ->.
  - destruct H as (_ & req & Hi & Hm). exists conv, req. auto.
  - destruct H as (conv & req & st & rest & _ & _ & Hi & Hm). exists conv, req. auto.
  - destruct H as (cv & req & st & rest & _ & _ & Hi & Hm). exists cv, req. auto.
  - destruct H as (cv & req & st & rest & _ & _ & Hi & Hm). exists cv, req. auto.
Qed.

(** A connection that the step doesn't concern. *)
Lemma about_other : forall tk tr s s' c o l, about tk tr s c -> phase_of s' c = phase_of s c -> (is_up s c = false -> is_up s' c = false) ->
    init_op c o = None -> (forall m, ~ In (Sent c m) l) -> about tk (tr ++ [(o, l)]) s' c.
Proof.
  intros tk tr s s' c o l H Hp Hu Hi Hl. unfold about in *. rewrite Hp.
  assert (Hs : sent_to c (tr ++ [(o, l)]) = sent_to c tr) by (now rewrite sent_to_snoc, (sent_in_none c l Hl), app_nil_r).
  assert (Hn : init_of c (tr ++ [(o, l)]) = init_of c tr) by (rewrite init_of_snoc, Hi; now destruct (init_of c tr)).
  assert (Hg : forall i, guest tk c tr i -> guest tk c (tr ++ [(o, l)]) i).
  { intros i Hg. apply guest_snoc; auto. intros m Hm. now destruct (Hl m). }
  destruct (phase_of s c); rewrite ?Hs, ?Hn; auto.
  - destruct H as (H1 & H2 & H3). split; auto. split; [now apply was_snoc|now apply known_snoc].
  - destruct H as [H1 H2]. split; auto. now apply was_snoc.
Qed.

Lemma about_live : forall tk tr s s' c o l i, live (phase_of s c) = Some i -> live (phase_of s' c) = Some i -> about tk tr s c ->
    (forall m, In (Sent c m) l -> is_initres m = false) -> about tk (tr ++ [(o, l)]) s' c.
Proof.
  intros tk tr s s' c o l i Hp Hp' H Hl. assert (Hg : guest tk c tr i).
  { unfold about in H. destruct (phase_of s c); try discriminate; injection Hp as ->; exact H. }
  pose proof (guest_snoc tk c tr i o l Hg Hl) as Hg'. unfold about. destruct (phase_of s' c); try discriminate; injection Hp' as ->; exact Hg'.
Qed.

Lemma up_conns : forall s c, is_up s c = true -> In c (keys (v_conns s)).
Proof. intros s c H. unfold is_up in H. apply nget_keys. destruct (nget c (v_conns s)); [eauto|discriminate]. Qed.

Lemma phase_conns : forall s c, phase_of s c <> HEnd -> In c (keys (v_conns s)).
Proof. intros s c H. unfold phase_of in H. apply nget_keys. destruct (nget c (v_conns s)); [eauto|contradiction]. Qed.

Lemma keys_nset_in : forall A n (x : A) l, In n (keys l) -> keys (nset n x l) = keys l.
Proof. intros A n x l H. unfold nset. rewrite keys_dset. apply (dmem_In Nat.eqb_eq) in H. now rewrite H. Qed.

Lemma vbook_start : forall tk, vbook tk [] vstart.
Proof.
  intros tk. constructor; cbn; try easy; try (now constructor).
  intros c. unfold about, is_up, phase_of. cbn. split; auto. now left.
Qed.

(** Numbers that are no connections yet. *)
Lemma fresh_snoc : forall tk tr s s' o l c, vbook tk tr s -> ~ In c (keys (v_conns s')) ->
    (~ In c (keys (v_conns s')) -> ~ In c (keys (v_conns s))) -> closes c o = false -> init_op c o = None -> (forall m, ~ In (Sent c m) l) ->
    gone c (tr ++ [(o, l)]) = false /\ init_of c (tr ++ [(o, l)]) = None /\ sent_to c (tr ++ [(o, l)]) = [].
Proof.
  intros tk tr s s' o l c B Hc Hk Hx Hi Hl. destruct (vb_fresh _ _ _ B c (Hk Hc)) as (E1 & E2 & E3).
  rewrite gone_snoc, init_of_snoc, sent_to_snoc, E1, E2, E3, Hx, Hi, (sent_in_none c l Hl). auto.
Qed.

Lemma keys_set_phase : forall s c h, In c (keys (v_conns s)) -> keys (v_conns (set_phase s c h)) = keys (v_conns s).
Proof. intros s c h H. unfold set_phase. parts. now apply keys_nset_in. Qed.

Lemma keys_leave : forall s c, In c (keys (v_conns s)) -> keys (v_conns (leave s c)) = keys (v_conns s).
Proof. intros s c H. unfold leave. parts. now apply keys_nset_in. Qed.

(** Fields that only depend on the connections. *)
Lemma vbook_conns : forall tk tr s s' o l, vbook tk tr s -> keys (v_conns s') = keys (v_conns s) -> v_next s' = v_next s -> ids_in l = [] ->
    NoDup (keys (v_infos s')) ->
    (forall c, nget c (v_infos s') = live (phase_of s' c)) ->
    (forall c, is_up s' c = is_up s c && negb (closes c o)) ->
    (forall c, about tk (tr ++ [(o, l)]) s' c) ->
    (forall c, closes c o = true \/ init_op c o <> None \/ (exists m, In (Sent c m) l) -> In c (keys (v_conns s))) ->
    (forall c, In c (refs s') -> welcomed c (tr ++ [(o, l)]) = true) -> vbook tk (tr ++ [(o, l)]) s'.
Proof.
  intros tk tr s s' o l B Hk Hn Hi Hd Hl Hu Ha Hc Hr. constructor; auto.
  - rewrite Hk, Hn. apply B.
  - intros c. rewrite ids_snoc, Hi, app_nil_r, Hk. apply B.
  - rewrite ids_snoc, Hi, app_nil_r. apply B.
  - intros c. rewrite Hu, ids_snoc, Hi, app_nil_r, gone_snoc, andb_true_iff, (vb_up _ _ _ B), negb_true_iff, orb_false_iff. tauto.
  - intros c H. apply (fresh_snoc tk tr s s'); auto.
    + now rewrite Hk.
    + destruct (closes c o) eqn:E; auto. destruct H. rewrite Hk. auto.
    + destruct (init_op c o) eqn:E; auto. destruct H. rewrite Hk. apply Hc. right. left. congruence.
    + intros m Hm. destruct H. rewrite Hk. apply Hc. eauto.
Qed.

Lemma vbook_step : forall sv tk tr s o l s', vbook tk tr s -> vexec sv tk s o = Some (s', l) -> vbook tk (tr ++ [(o, l)]) s'.
Proof.
  intros sv tk tr s o l s' B Hx. pose proof (vexec_cstep _ _ _ _ _ _ Hx) as Hc.
  pose proof (fun c => vexec_refs _ _ _ _ _ _ c Hx) as Hr.
  assert (Rf : forall c, In c (refs s') -> welcomed c (tr ++ [(o, l)]) = true).
  { intros c Hin. rewrite welcomed_snoc. destruct (Hr c Hin) as [H|H]; [now rewrite (vb_refs _ _ _ B c H)|].
    apply nget_keys in H as [i H]. rewrite (vb_live _ _ _ B) in H. pose proof (vb_about _ _ _ B c) as Ha. unfold about in Ha.
    destruct (phase_of s c); try discriminate; now rewrite (guest_welcomed _ _ _ _ Ha). }
  assert (Wel : forall c, welcomed c tr = true -> is_up s c = true -> exists i, live (phase_of s c) = Some i).
  { intros c Hw Hu. pose proof (vb_about _ _ _ B c) as Ha. unfold about in Ha. unfold welcomed in Hw.
    destruct (phase_of s c); cbn [live]; eauto.
    - destruct Ha as [E _]. rewrite E in Hw. discriminate.
    - destruct Ha as [E _]. rewrite E in Hw. discriminate.
    - destruct Ha as [conv E]. rewrite E in Hw. discriminate.
    - destruct Ha. congruence.
    - destruct Ha. congruence. }
  clear Hr Hx. destruct Hc.
  - (* same *)
    assert (Hp : forall c, phase_of s' c = phase_of s c) by now apply phase_eq.
    assert (Hu : forall c, is_up s' c = is_up s c) by now apply up_eq.
    apply (vbook_conns tk tr s); auto.
    + now rewrite H.
    + rewrite H0. apply B.
    + intros c. rewrite H0, Hp. apply B.
    + intros c. now rewrite Hu, H3, andb_true_r.
    + intros c. destruct (live (phase_of s c)) as [i|] eqn:El.
      * apply (about_live tk tr s s' c o l i El); [now rewrite Hp|apply B|]. intros m Hm. now apply H5 in Hm.
      * apply (about_other tk tr s s'); [apply B|apply Hp|now rewrite Hu|apply H4|]. intros m Hm.
        destruct (H5 c m Hm) as (H6 & _ & [H7|H7]); [congruence|]. destruct (Wel c (vb_refs _ _ _ B c H7) H6) as [i Hi]. congruence.
    + intros c [Hz|[Hz|[m Hz]]]; [rewrite H3 in Hz; discriminate|rewrite H4 in Hz; congruence|]. apply up_conns. now apply (H5 c m).
  - (* new *)
    assert (Hn : ~ In (v_next s) (keys (v_conns s))). { intros X. apply (vb_next _ _ _ B) in X. lia. }
    assert (Hg : nget (v_next s) (v_conns s) = None). { destruct (nget _ _) eqn:E; auto. destruct Hn. apply nget_keys. eauto. }
    assert (Hp : forall c, phase_of s' c = if Nat.eqb c (v_next s) then HNew else phase_of s c).
    { intros c. unfold phase_of. rewrite H2, nget_snoc. destruct (Nat.eqb_spec c (v_next s)) as [->|]; [now rewrite Hg|].
      now destruct (nget c (v_conns s)). }
    assert (Hu : forall c, is_up s' c = if Nat.eqb c (v_next s) then true else is_up s c).
    { intros c. unfold is_up. rewrite H2, nget_snoc. destruct (Nat.eqb_spec c (v_next s)) as [->|]; [now rewrite Hg|].
      now destruct (nget c (v_conns s)). }
    assert (Ik : forall c, In c (keys (v_conns s')) <-> In c (keys (v_conns s)) \/ c = v_next s).
    { intros c. rewrite H2. unfold keys. rewrite map_app, in_app_iff. cbn. intuition. }
    assert (Ho : phase_of s (v_next s) = HEnd) by (unfold phase_of; now rewrite Hg).
    destruct (vb_fresh _ _ _ B _ Hn) as (F1 & F2 & F3).
    subst o l. constructor; auto.
    + rewrite H3. apply B.
    + intros c. rewrite H3, Hp, (vb_live _ _ _ B). destruct (Nat.eqb_spec c (v_next s)) as [->|]; auto. now rewrite Ho.
    + intros c Hc. apply Ik in Hc. rewrite H1. destruct Hc as [Hc| ->]; [|lia]. apply (vb_next _ _ _ B) in Hc. lia.
    + intros c. rewrite ids_snoc, in_app_iff, Ik, (vb_ids _ _ _ B). cbn. intuition.
    + rewrite ids_snoc. cbn [ids_in flat_map app]. apply NoDup_snoc; [apply B|]. now rewrite (vb_ids _ _ _ B).
    + intros c. rewrite Hu, ids_snoc, in_app_iff, gone_snoc. cbn [closes ids_in flat_map app In]. rewrite orb_false_r.
      destruct (Nat.eqb_spec c (v_next s)) as [->|Hne'].
      * split; auto.
      * rewrite (vb_up _ _ _ B). intuition. subst. congruence.
    + intros c. destruct (Nat.eqb_spec c (v_next s)) as [->|Hne'].
      * unfold about. rewrite Hp, Nat.eqb_refl, sent_to_snoc, init_of_snoc, F2, F3. auto.
      * apply (about_other tk tr s s'); [apply B|rewrite Hp; now apply Nat.eqb_neq in Hne' as ->|rewrite Hu; now apply Nat.eqb_neq in Hne' as ->|
          reflexivity|intros m [?|[]]; discriminate].
    + intros c Hc. apply (fresh_snoc tk tr s s'); auto; [|intros m [?|[]]; discriminate]. intros X Y. apply X. apply Ik. auto.
  - (* lost *)
    assert (Hk : In c (keys (v_conns s))) by (apply nget_keys; eauto). subst o l s'.
    assert (Hp : forall c', phase_of (with_conns s (nset c (Conn false (k_phase k)) (v_conns s))) c' = phase_of s c').
    { intros c'. unfold phase_of. parts. rewrite nget_nset. destruct (Nat.eqb_spec c' c) as [->|]; auto. now rewrite H0. }
    assert (Hu : forall c', is_up (with_conns s (nset c (Conn false (k_phase k)) (v_conns s))) c' = is_up s c' && negb (Nat.eqb c c')).
    { intros c'. unfold is_up. parts. rewrite nget_nset, (Nat.eqb_sym c). destruct (Nat.eqb c' c); cbn; [now rewrite andb_false_r|now rewrite andb_true_r]. }
    apply (vbook_conns tk tr s); auto.
    + parts. now apply keys_nset_in.
    + apply B.
    + intros c'. rewrite Hp. apply B.
    + intros c'. apply (about_other tk tr s); [apply B|apply Hp|rewrite Hu; now intros ->|reflexivity|intros m []].
    + intros c' [Hz|[Hz|[m []]]]; [|now destruct Hz]. cbn in Hz. apply Nat.eqb_eq in Hz. now subst.
  - (* leave *)
    subst s' l. assert (Hk : In c (keys (v_conns s))) by now apply phase_conns.
    apply (vbook_conns tk tr s); auto.
    + now apply keys_leave.
    + unfold leave. parts. apply NoDup_ndel, B.
    + intros c'. rewrite phase_leave. unfold leave. parts. rewrite nget_ndel by apply B. destruct (Nat.eqb_spec c' c) as [->|]; [|apply B].
      now destruct (info_of (phase_of s c)).
    + intros c'. rewrite up_leave. destruct (Nat.eqb_spec c' c) as [->|Hn].
      * destruct H3 as [H3|H3]; [now rewrite H3, andb_false_r|now rewrite H3].
      * destruct (closes c' o) eqn:E; [|now rewrite andb_true_r]. now apply H4 in E.
    + intros c'. destruct (Nat.eq_dec c' c) as [->|Hn].
      * pose proof (vb_about _ _ _ B c) as Ha.
        assert (X : is_up (leave s c) c = false /\ was tk c (tr ++ [(o, [])])).
        { split; [now rewrite up_leave, Nat.eqb_refl|]. apply was_snoc; [|intros m []]. eapply was_about, Ha. }
        unfold about. rewrite phase_leave, Nat.eqb_refl. destruct (info_of (phase_of s c)) as [i|] eqn:Ei; auto.
        destruct X as [X1 X2]. split; auto. split; auto. apply known_snoc. eapply known_about; eauto.
      * apply (about_other tk tr s); [apply B|rewrite phase_leave; now apply Nat.eqb_neq in Hn as ->|rewrite up_leave; now destruct (Nat.eqb c' c)| |intros m []].
        destruct (init_op c' o) eqn:E; auto. destruct (H5 c'); congruence.
    + intros c' [Hz|[Hz|[m []]]]; [apply H4 in Hz|apply H5 in Hz as [Hz _]]; now subst.
  - (* phase *)
    subst s'. assert (Hk : In c (keys (v_conns s))).
    { apply phase_conns. destruct (live h) eqn:E; [|destruct (H1 eq_refl) as [[i Hi] _]; congruence]. intros X. rewrite X in H0. discriminate. }
    apply (vbook_conns tk tr s); auto.
    + now apply keys_set_phase.
    + apply B.
    + intros c'. rewrite phase_set. change (v_infos (set_phase s c h)) with (v_infos s). rewrite (vb_live _ _ _ B).
      destruct (Nat.eqb_spec c' c) as [->|]; auto.
    + intros c'. now rewrite up_set, H3, andb_true_r.
    + intros c'. destruct (Nat.eq_dec c' c) as [->|Hn].
      * destruct (live h) as [i|] eqn:E.
        -- apply (about_live tk tr s _ c o l i); auto; [now rewrite phase_set, Nat.eqb_refl|apply B|]. intros m Hm. now apply H5 in Hm.
        -- destruct (H1 eq_refl) as [[i Hi] ->]. unfold about. rewrite phase_set, Nat.eqb_refl, up_set.
           pose proof (vb_about _ _ _ B c) as Ha. unfold about in Ha. rewrite Hi in Ha. destruct Ha as (Ha1 & Ha2 & _). split; auto.
           apply was_snoc; auto. intros m Hm. apply H5 in Hm as (_ & X & _). congruence.
      * apply (about_other tk tr s); [apply B|rewrite phase_set; now apply Nat.eqb_neq in Hn as ->|now rewrite up_set|apply H4|].
        intros m Hm. now apply H5 in Hm as [? _].
    + intros c' [Hz|[Hz|[m Hz]]]; [rewrite H3 in Hz; discriminate|now rewrite H4 in Hz|]. apply H5 in Hz as [-> _]. auto.
  - (* hello *)
    subst s' l o. assert (Hk : In c (keys (v_conns s))) by (apply phase_conns; congruence).
    pose proof (vb_about _ _ _ B c) as Ha. unfold about in Ha. rewrite H0 in Ha. destruct Ha as [Ha1 Ha2].
    apply (vbook_conns tk tr s); auto.
    + now apply keys_set_phase.
    + apply B.
    + intros c'. rewrite phase_set. change (v_infos (set_phase s c (HHello conv i))) with (v_infos s). rewrite (vb_live _ _ _ B).
      destruct (Nat.eqb_spec c' c) as [->|]; auto. now rewrite H0.
    + intros c'. now rewrite up_set, andb_true_r.
    + intros c'. destruct (Nat.eq_dec c' c) as [->|Hn].
      * unfold about. rewrite phase_set, Nat.eqb_refl, sent_to_snoc, init_of_snoc, Ha1, Ha2. split; auto. exists req.
        cbn [init_op]. now rewrite Nat.eqb_refl.
      * apply (about_other tk tr s); [apply B|rewrite phase_set; now apply Nat.eqb_neq in Hn as ->|now rewrite up_set| |intros m [?|[]]; discriminate].
        cbn [init_op]. destruct (Nat.eqb_spec c c'); congruence.
    + intros c' [Hz|[Hz|[m [Hz|[]]]]]; try discriminate. cbn [init_op] in Hz. destruct (Nat.eqb_spec c c') as [->|]; [auto|congruence].
  - (* accept *)
    assert (Hk : In c (keys (v_conns s))) by now apply up_conns.
    assert (Hi : exists req, init_of c (tr ++ [(o, l)]) = Some (conv, req) /\ made tk req i /\ sent_to c tr = []).
    { pose proof (vb_about _ _ _ B c) as Ha. unfold about in Ha. rewrite init_of_snoc. destruct H3 as [[Hp ->]|[Hp (req & e & -> & Hm)]]; rewrite Hp in Ha.
      - destruct Ha as (Ha1 & req & Ha2 & Ha3). exists req. rewrite Ha2. auto.
      - destruct Ha as [Ha1 Ha2]. exists req. rewrite Ha2. cbn [init_op]. rewrite Nat.eqb_refl. auto. }
    assert (Ho : forall c', c' <> c -> init_op c' o = None).
    { intros c' Hn. destruct H3 as [[_ ->]|[_ (req & e & -> & _)]]; cbn [init_op]; auto. destruct (Nat.eqb_spec c c'); congruence. }
    assert (Hp : forall c', phase_of s' c' = if Nat.eqb c' c then HIdle i else phase_of s c') by (intros c'; subst s'; exact (phase_set s c (HIdle i) c')).
    assert (Hu : forall c', is_up s' c' = is_up s c') by (intros c'; subst s'; exact (up_set s c (HIdle i) c')).
    subst s' l. apply (vbook_conns tk tr s); auto.
    + now apply (keys_set_phase s c (HIdle i)).
    + parts. apply NoDup_nset, B.
    + intros c'. rewrite Hp. parts. rewrite nget_nset. destruct (Nat.eqb c' c); auto. apply B.
    + intros c'. now rewrite Hu, H2, andb_true_r.
    + intros c'. destruct (Nat.eq_dec c' c) as [->|Hn].
      * unfold about. rewrite Hp, Nat.eqb_refl. destruct Hi as (req & Hi1 & Hi2 & Hi3). exists conv, req, (v_status s), [].
        rewrite sent_to_snoc, Hi3. cbn [sent_in flat_map app]. rewrite Nat.eqb_refl. auto.
      * apply (about_other tk tr s); [apply B|rewrite Hp; now apply Nat.eqb_neq in Hn as ->|now rewrite Hu|auto|]. intros m [Hm|[]]. congruence.
    + intros c' [Hz|[Hz|[m [Hz|[]]]]]; [rewrite H2 in Hz; discriminate| |congruence]. destruct (Nat.eq_dec c' c) as [->|Hn]; auto. now apply Ho in Hn.
  - (* refuse *)
    assert (Hk : In c (keys (v_conns s))) by (apply phase_conns; destruct H1 as [[[i Hi] _]|[Hi _]]; congruence).
    assert (Hi : sent_to c tr = []).
    { pose proof (vb_about _ _ _ B c) as Ha. unfold about in Ha. destruct H1 as [[[i Hp] _]|[Hp _]]; rewrite Hp in Ha; apply Ha. }
    assert (Hl : live (phase_of s c) = None) by (destruct H1 as [[[i Hp] _]|[Hp _]]; now rewrite Hp).
    assert (Ho : forall c', c' <> c -> init_op c' o = None).
    { intros c' Hn. destruct H1 as [[_ ->]|[_ (req & e & -> & _)]]; cbn [init_op]; auto. destruct (Nat.eqb_spec c c'); congruence. }
    destruct H as [(Hup & -> & ->)|(Hup & -> & ->)].
    + apply (vbook_conns tk tr s); auto.
      * now apply keys_set_phase.
      * apply B.
      * intros c'. rewrite phase_set. change (v_infos (set_phase s c HRefused)) with (v_infos s). rewrite (vb_live _ _ _ B).
        destruct (Nat.eqb_spec c' c) as [->|]; auto.
      * intros c'. now rewrite up_set, H0, andb_true_r.
      * intros c'. destruct (Nat.eq_dec c' c) as [->|Hn].
        -- unfold about. rewrite phase_set, Nat.eqb_refl, sent_to_snoc, Hi. exists conv. cbn [sent_in flat_map app]. now rewrite Nat.eqb_refl.
        -- apply (about_other tk tr s); [apply B|rewrite phase_set; now apply Nat.eqb_neq in Hn as ->|now rewrite up_set|auto|]. intros m [Hm|[]]. congruence.
      * intros c' [Hz|[Hz|[m [Hz|[]]]]]; [rewrite H0 in Hz; discriminate| |congruence]. destruct (Nat.eq_dec c' c) as [->|Hn]; auto. now apply Ho in Hn.
    + assert (Hk2 : In c (keys (v_conns (set_phase s c HRefused)))) by now rewrite keys_set_phase.
      apply (vbook_conns tk tr s); auto.
      * rewrite keys_leave by auto. now apply keys_set_phase.
      * unfold leave. parts. apply NoDup_ndel, B.
      * intros c'. rewrite phase_leave, !phase_set, Nat.eqb_refl. unfold leave. parts. rewrite nget_ndel by apply B.
        destruct (Nat.eqb_spec c' c) as [->|]; [reflexivity|apply B].
      * intros c'. rewrite up_leave, up_set, H0, andb_true_r. destruct (Nat.eqb_spec c' c) as [->|Hn]; auto.
      * intros c'. destruct (Nat.eq_dec c' c) as [->|Hn].
        -- unfold about. rewrite phase_leave, phase_set, Nat.eqb_refl. cbn [info_of]. split; [now rewrite up_leave, Nat.eqb_refl|].
           left. now rewrite sent_to_snoc, Hi.
        -- apply (about_other tk tr s); [apply B|rewrite phase_leave, !phase_set; now apply Nat.eqb_neq in Hn as ->|
             rewrite up_leave, up_set; now apply Nat.eqb_neq in Hn as ->|auto|intros m []].
      * intros c' [Hz|[Hz|[m []]]]; [rewrite H0 in Hz; discriminate|]. destruct (Nat.eq_dec c' c) as [->|Hn]; auto. now apply Ho in Hn.
Qed.

Lemma vbook_run : forall sv tk tr s, server_run sv tk tr s -> vbook tk tr s.
Proof.
  intros sv tk tr s H. unfold server_run in H. remember vstart as s0 eqn:E0. induction H; subst.
  - apply vbook_start.
  - eapply vbook_step; eauto.
Qed.
