(** Eventer server: the status clients are told (C37). *)
From Coq Require Import String Bool ZArith Arith Lia List.
From Verif Require Import Base Model_Types Model_Subscription Spec_Subscription Model_Eventer Spec_Eventer Proof_Eventer Proof_Eventer2 Proof_Eventer3 Proof_Eventer4 Proof_Eventer5.
Import ListNotations.
Open Scope string_scope.
Open Scope list_scope.
Open Scope nat_scope.

Lemma last_told_snoc : forall l m, last_told (l ++ [m]) = match told m with Some st => Some st | None => last_told l end.
Proof. intros. unfold last_told. now rewrite fold_left_app. Qed.

Lemma last_told_keep : forall st l' l, last_told l = Some st -> (forall m, In m l' -> told m = None \/ told m = Some st) -> last_told (l ++ l') = Some st.
Proof.
  intros st l'. induction l' as [|m l' IH] using rev_ind; intros l H Hm; [now rewrite app_nil_r|].
  rewrite app_assoc, last_told_snoc. destruct (Hm m) as [-> | ->]; auto; [apply in_or_app; right; now left|].
  apply IH; auto. intros x Hx. apply Hm. apply in_or_app. auto.
Qed.

Lemma last_told_new : forall st l' l m, In m l' -> told m = Some st -> (forall m, In m l' -> told m = None \/ told m = Some st) -> last_told (l ++ l') = Some st.
Proof.
  intros st l' l m Hin Ht Hm. apply in_split in Hin as (x & y & ->). change (x ++ m :: y) with (x ++ [m] ++ y). rewrite !app_assoc.
  apply last_told_keep; [now rewrite last_told_snoc, Ht|]. intros k Hk. apply Hm. apply in_or_app. right. now right.
Qed.

Definition rem (n : nat) (s : vstate) : list nat := match nget n (v_sets s) with Some cs => cs | None => [] end.

(** What a step tells clients. *)
Lemma vexec_told : forall sv tk s o s' l c m, vexec sv tk s o = Some (s', l) -> In (Sent c m) l -> told m = None \/ told m = Some (v_status s).
Proof.
  intros sv tk s o s' l c m H Hin.
  destruct o; vstep H; cbn [In] in Hin; try (match type of Hin with context [send] => unfold send in Hin; destruct (is_up _ _); cbn [In] in Hin end);
    try tauto; destruct Hin as [Hin|[]]; try discriminate; injection Hin as <- <-; cbn [told]; auto.
Qed.

(** Clients are accepted with the current status. *)
Lemma vexec_live : forall sv tk s o s' l c, vexec sv tk s o = Some (s', l) -> is_up s' c = true -> live (phase_of s' c) <> None ->
    is_up s c = true /\ live (phase_of s c) <> None \/ exists conv, In (Sent c (MInitRes conv (Some (v_status s)))) l.
Proof.
  intros sv tk s o s' l c H Hu Hl. apply vexec_cstep in H. destruct H.
  - left. erewrite <- (up_eq s s'), <- (phase_eq s s'); eauto.
  - left. unfold is_up, phase_of in *. rewrite H2, nget_snoc in *. destruct (nget c (v_conns s)); auto.
    destruct (Nat.eqb c (v_next s)); [now destruct Hl|discriminate].
  - subst s'. left. unfold is_up, phase_of in *. parts. rewrite nget_nset in *. destruct (Nat.eqb_spec c c0) as [->|]; [discriminate|auto].
  - subst s'. left. rewrite up_leave, phase_leave in *. destruct (Nat.eqb c c0); [discriminate|auto].
  - subst s'. left. rewrite up_set, phase_set in *. destruct (Nat.eqb_spec c c0) as [->|]; split; auto; congruence.
  - subst s'. left. rewrite up_set, phase_set in *. destruct (Nat.eqb_spec c c0) as [->|]; [now destruct Hl|auto].
  - subst s' l. assert (Hp : forall c', phase_of (with_infos (set_phase s c0 (HIdle i)) (nset c0 i (v_infos s))) c' = if Nat.eqb c' c0 then HIdle i else phase_of s c')
      by (intros c'; exact (phase_set s c0 (HIdle i) c')).
    assert (Hup : forall c', is_up (with_infos (set_phase s c0 (HIdle i)) (nset c0 i (v_infos s))) c' = is_up s c') by (intros c'; exact (up_set s c0 (HIdle i) c')).
    rewrite Hp, Hup in *. destruct (Nat.eqb_spec c c0) as [->|]; auto. right. exists conv. now left.
  - left. destruct H as [(_ & -> & _)|(_ & -> & _)].
    + rewrite up_set, phase_set in *. destruct (Nat.eqb c c0); [now destruct Hl|auto].
    + rewrite up_leave, phase_leave, up_set, !phase_set in *. destruct (Nat.eqb c c0); [discriminate|auto].
Qed.

(** The last call of [set_status] that changed the status. *)
Record scall (tr : list vitem) (s : vstate) : Prop := {
  sc_told : forall c, is_up s c = true -> live (phase_of s c) <> None ->
    last_told (sent_to c tr) = Some (v_status s) \/
    exists n, snd (status_at tr) = Some n /\ (In c (rem n s) \/ given_up n tr /\ ~ returned n tr);
  sc_used : forall n, snd (status_at tr) = Some n -> In n (v_used s) /\ nget n (v_notes s) = None /\ ~ In n (v_acks s);
  sc_done : forall n, snd (status_at tr) = Some n -> returned n tr -> nget n (v_sets s) = None;
  sc_gone : forall n, snd (status_at tr) = Some n -> given_up n tr -> nget n (v_sets s) = None }.

(** Which steps end or change calls. *)
Inductive sstep (n : nat) (s s' : vstate) (o : vop) (l : list vout) : Prop :=
| ss_same : rem n s' = rem n s -> nget n (v_sets s') = nget n (v_sets s) -> ~ In (Returned n) l -> o <> VGiveUp n -> sstep n s s' o l
| ss_send : forall c cs, nget n (v_sets s) = Some (c :: cs) -> nget n (v_sets s') = Some cs -> l = send s c (MStatus (v_status s)) -> o <> VGiveUp n -> sstep n s s' o l
| ss_done : nget n (v_sets s) = Some [] -> nget n (v_sets s') = None -> o <> VGiveUp n -> sstep n s s' o l
| ss_giveup : o = VGiveUp n -> nget n (v_sets s') = None -> l = [] -> sstep n s s' o l.

Lemma vexec_sstep : forall sv tk s o s' l n, vwf s -> vexec sv tk s o = Some (s', l) -> In n (v_used s) -> nget n (v_notes s) = None -> ~ In n (v_acks s) ->
    sstep n s s' o l /\ nget n (v_notes s') = None /\ ~ In n (v_acks s').
Proof.
  intros sv tk s o s' l n W H Hu Hn Ha.
  assert (Fresh : forall m, nmem m (v_used s) = false -> m <> n). { intros m E ->. apply nmem_In in Hu. congruence. }
  assert (Rem : forall x, nget n (v_sets x) = nget n (v_sets s) -> rem n x = rem n s). { intros x E. unfold rem. now rewrite E. }
  destruct o; vstep H.
  all: try solve [split; [|split; auto]; apply ss_same; [apply Rem; reflexivity|reflexivity|cbn [In]; intuition congruence|discriminate]].
  - apply Fresh in E. split; [|split; auto]. apply ss_same; [apply Rem; reflexivity|reflexivity|intros [[= X]|[]]; congruence|discriminate].
  - apply Fresh in E. assert (Hg : nget n (v_sets s ++ [(n0, keys (v_infos s))]) = nget n (v_sets s)).
    { rewrite nget_snoc. destruct (nget n (v_sets s)); auto. destruct (Nat.eqb_spec n n0); congruence. }
    split; [|split; auto]. apply ss_same; [apply Rem; exact Hg|exact Hg|intros []|discriminate].
  - split; [|split; auto]. destruct (Nat.eq_dec n0 n) as [->|Hne].
    + eapply ss_send; eauto; [|discriminate]. parts. now rewrite nget_nset, Nat.eqb_refl.
    + assert (Hg : nget n (nset n0 l1 (v_sets s)) = nget n (v_sets s)) by (rewrite nget_nset; destruct (Nat.eqb_spec n n0); congruence).
      apply ss_same; [apply Rem; exact Hg|exact Hg| |discriminate]. unfold send. destruct (is_up s n1); intros []; try discriminate; auto.
  - split; [|split; auto]. destruct (Nat.eq_dec n0 n) as [->|Hne].
    + apply ss_done; auto; [|discriminate]. parts. rewrite nget_ndel by apply W. now rewrite Nat.eqb_refl.
    + assert (Hg : nget n (ndel n0 (v_sets s)) = nget n (v_sets s)) by (rewrite nget_ndel by apply W; destruct (Nat.eqb_spec n n0); congruence).
      apply ss_same; [apply Rem; exact Hg|exact Hg|intros [[= X]|[]]; congruence|discriminate].
  - apply Fresh in E. split; [|split; auto]. apply ss_same; [apply Rem; reflexivity|reflexivity|intros [[= X]|[]]; congruence|discriminate].
  - apply Fresh in E. split; [|split; auto].
    + apply ss_same; [apply Rem; reflexivity|reflexivity|intros []|discriminate].
    + parts. rewrite in_app_iff. cbn [In]. intuition congruence.
  - apply Fresh in E. split; [|split; auto].
    + apply ss_same; [apply Rem; reflexivity|reflexivity|intros []|discriminate].
    + parts. rewrite nget_snoc, Hn. destruct (Nat.eqb_spec n n0); congruence.
  - split; [|split; auto].
    + apply ss_same; [apply Rem; reflexivity|reflexivity| |discriminate]. unfold send. destruct (is_up s n1); intros []; try discriminate; auto.
    + parts. rewrite nget_nset. destruct (Nat.eqb_spec n n0) as [->|]; congruence.
  - split; [|split; auto].
    + apply ss_same; [apply Rem; reflexivity|reflexivity|intros [[= X]|[]]; congruence|discriminate].
    + parts. rewrite nget_ndel by apply W. now destruct (Nat.eqb n n0).
  - apply andb_true_iff in E0 as [E0 _]. apply nmem_In in E0. split; [|split; auto].
    + apply ss_same; [apply Rem; reflexivity|reflexivity|intros [[= X]|[]]; congruence|discriminate].
    + parts. intros X. apply filter_In in X as [X _]. auto.
  - split; [|split].
    + destruct (Nat.eq_dec n0 n) as [->|Hne].
      * apply ss_giveup; auto. parts. rewrite nget_ndel by apply W. now rewrite Nat.eqb_refl.
      * assert (Hg : nget n (ndel n0 (v_sets s)) = nget n (v_sets s)) by (rewrite nget_ndel by apply W; destruct (Nat.eqb_spec n n0); congruence).
        apply ss_same; [apply Rem; exact Hg|exact Hg|intros []|congruence].
    + parts. rewrite nget_ndel by apply W. now destruct (Nat.eqb n n0).
    + parts. intros X. apply filter_In in X as [X _]. auto.
Qed.

Lemma status_step_change : forall sv tk s o s' l, vexec sv tk s o = Some (s', l) ->
    (forall x, status_step x (o, l) = x) /\ v_status s' = v_status s \/
    exists n st e, o = VSetStatus n st e /\ l = [] /\ ~ In n (v_used s) /\ v_conns s' = v_conns s /\ v_infos s' = v_infos s /\ In n (v_used s') /\
      v_notes s' = v_notes s /\ v_acks s' = v_acks s /\ v_sets s' = v_sets s ++ [(n, keys (v_infos s))] /\ v_status s' = st.
Proof.
  intros sv tk s o s' l H. destruct o; vstep H; try (left; split; [intros []; reflexivity|reflexivity]).
  right. exists n, st, engine. parts. assert (~ In n (v_used s)) by (intros X; apply nmem_In in X; congruence). repeat split; auto. apply in_or_app. right. now left.
Qed.

Definition used_ok (tr : list vitem) (s : vstate) : Prop := forall n, returned n tr \/ given_up n tr -> In n (v_used s).

Lemma used_run : forall sv tk tr s, server_run sv tk tr s -> used_ok tr s.
Proof.
  intros sv tk tr s H. unfold server_run in H. pose proof H as H'. remember vstart as s0 eqn:E0. induction H; subst.
  - intros n [[]|[x []]].
  - specialize (IHvruns eq_refl H). intros k Hk. rewrite returned_snoc, given_up_snoc in Hk.
    assert (W : vwf s1) by (eapply vwf_run; exact H).
    assert (K : In k (v_used s1) \/ In (Returned k) l \/ o = VGiveUp k).
    { destruct Hk as [[Hk|Hk]|[Hk|Hk]]; auto. }
    destruct K as [K|[K|K]].
    + eapply vexec_used; eauto.
    + destruct o; vstep H0; cbn [In] in K; try (match type of K with context [send] => unfold send in K; destruct (is_up _ _); cbn [In] in K end);
        try tauto; destruct K as [K|[]]; try discriminate; injection K as <-; parts.
      * apply in_or_app. right. now left.
      * apply (wf_usets _ W). apply nget_keys. eauto.
      * apply in_or_app. right. now left.
      * apply (wf_unotes _ W). apply nget_keys. eauto.
      * apply andb_true_iff in E0 as [E0 _]. apply nmem_In in E0. now apply (wf_uacks _ W).
    + subst o. vstep H0. parts. now apply nmem_In.
Qed.

Lemma scall_run : forall sv tk tr s, server_run sv tk tr s -> scall tr s.
Proof.
  intros sv tk tr s H. unfold server_run in H. pose proof H as H'. remember vstart as s0 eqn:E0. induction H; subst.
  - constructor; cbn; try discriminate.
  - specialize (IHvruns eq_refl H).
    assert (W : vwf s1) by (eapply vwf_run; exact H). pose proof (vbook_run _ _ _ _ H) as B. pose proof (used_run _ _ _ _ H) as U.
    assert (T : forall c, sent_to c (tr ++ [(o, l)]) = sent_to c tr ++ sent_in c l) by (intros; apply sent_to_snoc).
    destruct (status_step_change _ _ _ _ _ _ H0) as [[St Sv]|(n & st & e & -> & -> & Hf & Hc & Hi & Hu & Hn & Ha & Hs & Hst)].
    + assert (Snd : snd (status_at (tr ++ [(o, l)])) = snd (status_at tr)) by now rewrite status_at_snoc, St.
      destruct IHvruns as [I1 I2 I3 I4].
      assert (Step : forall n, snd (status_at tr) = Some n -> sstep n s1 s2 o l /\ nget n (v_notes s2) = None /\ ~ In n (v_acks s2)).
      { intros n Hn. destruct (I2 n Hn) as (J1 & J2 & J3). eapply vexec_sstep; eauto. }
      constructor; rewrite ?Snd.
      * intros c Hup Hl. rewrite T, Sv.
        assert (Tm : forall m, In m (sent_in c l) -> told m = None \/ told m = Some (v_status s1)).
        { intros m Hm. apply In_sent_in in Hm. eapply vexec_told; eauto. }
        destruct (vexec_live _ _ _ _ _ _ _ H0 Hup Hl) as [[K1 K2]|[conv K]].
        -- destruct (I1 c K1 K2) as [K|(n & Hn & K)].
           ++ left. now apply last_told_keep.
           ++ destruct (Step n Hn) as [[S1 S2 S3 S4|c0 cs S1 S2 S3 S4|S1 S2 S3|S1 S2 S3] _].
              ** right. exists n. split; auto. rewrite S1, given_up_snoc, returned_snoc. destruct K as [K|[Ka Kb]]; auto. right. split; auto. tauto.
              ** destruct K as [K|[Ka Kb]]; [|apply (I4 n Hn) in Ka; congruence]. unfold rem in K. rewrite S1 in K. destruct K as [->|K].
                 --- left. apply (last_told_new _ _ _ (MStatus (v_status s1))); auto. apply In_sent_in. rewrite S3. unfold send. rewrite K1. now left.
                 --- right. exists n. split; auto. left. unfold rem. now rewrite S2.
              ** destruct K as [K|[Ka Kb]]; [unfold rem in K; rewrite S1 in K; contradiction|apply (I4 n Hn) in Ka; congruence].
              ** right. exists n. split; auto. right. rewrite given_up_snoc, returned_snoc. split; auto. subst l. intros [X|[]].
                 destruct K as [K|[Ka Kb]]; auto. unfold rem in K. rewrite (I3 n Hn X) in K. contradiction.
        -- left. apply (last_told_new _ _ _ (MInitRes conv (Some (v_status s1)))); auto. now apply In_sent_in.
      * intros n Hn. destruct (Step n Hn) as (_ & J1 & J2). split; auto. eapply vexec_used; eauto. now apply I2.
      * intros n Hn Hr. rewrite returned_snoc in Hr. destruct (Step n Hn) as [[S1 S2 S3 S4|c0 cs S1 S2 S3 S4|S1 S2 S3|S1 S2 S3] _]; auto.
        -- rewrite S2. destruct Hr; [auto|contradiction].
        -- destruct Hr as [Hr|Hr]; [apply (I3 n Hn) in Hr; congruence|]. rewrite S3 in Hr. unfold send in Hr. destruct (is_up s1 c0); destruct Hr as [?|[]] || destruct Hr; discriminate.
      * intros n Hn Hg. rewrite given_up_snoc in Hg. destruct (Step n Hn) as [[S1 S2 S3 S4|c0 cs S1 S2 S3 S4|S1 S2 S3|S1 S2 S3] _]; auto.
        -- rewrite S2. destruct Hg; [auto|contradiction].
        -- destruct Hg as [Hg|Hg]; [apply (I4 n Hn) in Hg; congruence|contradiction].
    + assert (Snd : snd (status_at (tr ++ [(VSetStatus n st e, [])])) = Some n) by now rewrite status_at_snoc.
      assert (Nr : ~ (returned n tr \/ given_up n tr)) by (intros X; apply U in X; auto).
      assert (Hns : nget n (v_sets s1) = None). { destruct (nget n (v_sets s1)) eqn:E; auto. destruct Hf. apply (wf_usets _ W). apply nget_keys. eauto. }
      constructor; rewrite ?Snd.
      * intros c Hup Hl. right. exists n. split; auto. left. unfold rem. rewrite Hs, nget_snoc, Hns, Nat.eqb_refl.
        apply nget_keys. rewrite (vb_live _ _ _ B), <- (phase_eq s1 s2 Hc). destruct (live (phase_of s2 c)); [eauto|contradiction].
      * intros m [= <-]. rewrite Hn, Ha. split; auto. split.
        -- destruct (nget n (v_notes s1)) eqn:E; auto. destruct Hf. apply (wf_unotes _ W). apply nget_keys. eauto.
        -- intros X. apply Hf. now apply (wf_uacks _ W).
      * intros m [= <-]. rewrite returned_snoc. intros [X|[]]. tauto.
      * intros m [= <-]. rewrite given_up_snoc. intros [X|X]; [tauto|discriminate].
Qed.

(** ** Theorems *)

(** When the call that brought the current status has ended, all clients know
    the status. *)
Lemma final_C37_server : forall sv tk tr s c, server_run sv tk tr s -> welcomed c tr = true -> gone c tr = false ->
    (forall n, snd (status_at tr) = Some n -> returned n tr) ->
    last_told (sent_to c tr) = Some (fst (status_at tr)).
Proof.
  intros sv tk tr s c H Hw Hg Hn. pose proof (vbook_run _ _ _ _ H) as B. pose proof (scall_run _ _ _ _ H) as S.
  rewrite <- (status_run _ _ _ _ H). destruct (client_info _ _ _ _ B Hw Hg) as [i Hi]. apply In_nget in Hi; [|apply B].
  rewrite (vb_live _ _ _ B) in Hi.
  assert (Hu : is_up s c = true).
  { apply (vb_up _ _ _ B). split; auto. apply (vb_ids _ _ _ B), phase_conns. intros X. rewrite X in Hi. discriminate. }
  destruct (sc_told _ _ S c Hu) as [K|(n & E & K)]; auto; [congruence|].
  destruct K as [K|[_ K]]; [|destruct K; auto]. unfold rem in K. rewrite (sc_done _ _ S n E (Hn n E)) in K. contradiction.
Qed.
