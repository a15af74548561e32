(** Eventer server: answers to requests (C52). *)
From Coq Require Import String Bool ZArith Arith Lia List.
From Verif Require Import Base Model_Types Model_Subscription Spec_Subscription Model_Eventer Spec_Eventer Proof_Eventer Proof_Eventer2 Proof_Eventer3.
Import ListNotations.
Open Scope string_scope.
Open Scope list_scope.
Open Scope nat_scope.

Lemma asks_snoc : forall c tr o l, asks c (tr ++ [(o, l)]) = asks c tr ++ ask c o.
Proof. intros. unfold asks. rewrite flat_map_app. cbn [flat_map fst]. now rewrite app_nil_r. Qed.
Lemma answers_snoc : forall c tr o l, answers c (tr ++ [(o, l)]) = answers c tr ++ flat_map answer (sent_in c l).
Proof. intros. unfold answers. now rewrite sent_to_snoc, flat_map_app. Qed.


(** What is asked and not answered. *)
Definition open_ask (c : nat) (tr : list vitem) (h : phase) : Prop :=
  match h with
  | HRegister _ conv last =>
      asks c tr = answers c tr ++ (if last then [] else [(true, conv)]) /\
      exists a rs b, tr = a ++ (VRegister c conv last rs, [EngineCall c rs]) :: b /\ quiet c b
  | HQuery _ conv =>
      asks c tr = answers c tr ++ [(false, conv)] /\
      exists a p b, tr = a ++ (VQuery c conv p, [QueryCall c p]) :: b /\ quiet c b
  | HBye _ | HEnd => asks c tr = answers c tr \/ exists x, asks c tr = answers c tr ++ [x]
  | _ => asks c tr = answers c tr
  end.

Record aopen (tr : list vitem) (s : vstate) : Prop := {
  ao_open : forall c, open_ask c tr (phase_of s c);
  ao_fresh : forall c, nget c (v_conns s) = None -> asks c tr = [] /\ answers c tr = [];
  ao_next : forall c, In c (keys (v_conns s)) -> c < v_next s }.

Lemma open_end : forall c tr h, open_ask c tr h -> asks c tr = answers c tr \/ exists x, asks c tr = answers c tr ++ [x].
Proof.
  intros c tr h H. destruct h; cbn in H; auto.
  - destruct H as [H _]. destruct last; [rewrite app_nil_r in H; auto|eauto].
  - destruct H as [H _]. eauto.
Qed.

Lemma open_quiet : forall c tr h o l, open_ask c tr h -> handles o <> Some c -> ask c o = [] -> flat_map answer (sent_in c l) = [] ->
    open_ask c (tr ++ [(o, l)]) h.
Proof.
  intros c tr h o l H Hh Ha Hb. destruct h; cbn [open_ask] in *; rewrite ?asks_snoc, ?answers_snoc, ?Ha, ?Hb, ?app_nil_r; auto.
  - destruct H as (H & a & rs & b & E & Hq). split; [rewrite H; auto|]. exists a, rs, (b ++ [(o, l)]). rewrite E, <- app_assoc. split; [reflexivity|].
    apply Forall_app. auto.
  - destruct H as (H & a & rs & b & E & Hq). split; [rewrite H; auto|]. exists a, rs, (b ++ [(o, l)]). rewrite E, <- app_assoc. split; [reflexivity|].
    apply Forall_app. auto.
Qed.

(** Steps that don't handle a connection. *)
Lemma vexec_other : forall sv tk s o s' l c, vexec sv tk s o = Some (s', l) -> handles o <> Some c ->
    ask c o = [] /\ flat_map answer (sent_in c l) = [] /\
    (phase_of s' c = phase_of s c \/ (exists i, phase_of s c = HBye i) /\ phase_of s' c = HEnd \/ o = VAccept /\ c = v_next s /\ nget c (v_conns s) = None /\ phase_of s' c = HNew) /\
    (nget c (v_conns s') = None -> nget c (v_conns s) = None).
Proof.
  intros sv tk s o s' l c H Hh.
  assert (Hp : forall c0 h, c0 <> c -> phase_of (set_phase s c0 h) c = phase_of s c).
  { intros c0 h Hn. rewrite phase_set. destruct (Nat.eqb_spec c c0); congruence. }
  assert (Hl : forall x c0, c0 <> c -> phase_of (leave x c0) c = phase_of x c).
  { intros x c0 Hn. rewrite phase_leave. destruct (Nat.eqb_spec c c0); congruence. }
  assert (Gs : forall c0 k l0, c0 <> c -> nget c (nset c0 k l0 : list (nat * conn)) = None -> nget c l0 = None).
  { intros c0 k l0 Hn. rewrite nget_nset. destruct (Nat.eqb_spec c c0); congruence. }
  assert (Sn : forall c0 m, c0 <> c -> flat_map answer (sent_in c [Sent c0 m]) = []).
  { intros c0 m Hn. cbn [sent_in flat_map]. destruct (Nat.eqb_spec c0 c); [congruence|reflexivity]. }
  assert (Sa : forall c0 m, answer m = [] -> flat_map answer (sent_in c (send s c0 m)) = []).
  { intros c0 m Hm. unfold send. destruct (is_up s c0); [|reflexivity]. cbn [sent_in flat_map]. destruct (Nat.eqb c0 c); [|reflexivity]. cbn. now rewrite Hm. }
  destruct o; cbn [handles] in Hh; vstep H.
  all: try (assert (Hne : c0 <> c) by congruence; assert (Hnb : Nat.eqb c0 c = false) by now apply Nat.eqb_neq).
  all: try solve [split; [cbn; rewrite ?Hnb; auto; now destruct last|split; [first [reflexivity|apply Sn; assumption|apply Sa; reflexivity]|
         split; [left; first [reflexivity|exact (Hp _ _ Hne)|exact (Hl _ _ Hne)]|
         first [exact (fun x => x)|exact (Gs _ _ _ Hne)]]]]].
  - split; [reflexivity|]. split; [reflexivity|]. unfold phase_of. parts. rewrite nget_snoc. destruct (nget c (v_conns s)); [split; [auto|discriminate]|].
    split; [|auto]. destruct (Nat.eqb_spec c (v_next s)); auto 8.
  - split; [reflexivity|]. split; [reflexivity|]. split; [left; rewrite (Hl _ _ Hne); apply (Hp _ _ Hne)|]. intros X. apply (Gs _ _ _ Hne) in X. exact (Gs _ _ _ Hne X).
  - split; [reflexivity|]. split; [reflexivity|]. split; [left; rewrite (Hl _ _ Hne); apply (Hp _ _ Hne)|]. intros X. apply (Gs _ _ _ Hne) in X. exact (Gs _ _ _ Hne X).
  - split; [reflexivity|]. split; [reflexivity|]. split; [left; rewrite (Hl _ _ Hne); apply (Hp _ _ Hne)|]. intros X. apply (Gs _ _ _ Hne) in X. exact (Gs _ _ _ Hne X).
  - split; [reflexivity|]. split; [reflexivity|]. unfold phase_of. parts. rewrite nget_nset. destruct (Nat.eqb_spec c c0) as [->|]; [|auto].
    rewrite E. split; [auto|discriminate].
  - split; [reflexivity|]. split; [reflexivity|]. rewrite phase_set. unfold set_phase. parts. rewrite nget_nset.
    destruct (Nat.eqb_spec c c0) as [->|]; [split; [eauto 6|discriminate]|auto].
  - split; [reflexivity|]. split; [reflexivity|]. rewrite phase_set. unfold set_phase. parts. rewrite nget_nset.
    destruct (Nat.eqb_spec c c0) as [->|]; [split; [eauto 6|discriminate]|auto].
  - split; [reflexivity|]. split; [|auto]. cbn [sent_in flat_map]. now destruct (Nat.eqb c0 c).
Qed.

Lemma sent_self : forall c m, sent_in c [Sent c m] = [m].
Proof. intros. cbn. now rewrite Nat.eqb_refl. Qed.

Lemma phase_infos : forall s c h z, phase_of (with_infos (set_phase s c h) z) c = h.
Proof. intros. transitivity (phase_of (set_phase s c h) c); [reflexivity|]. now rewrite phase_set, Nat.eqb_refl. Qed.

Lemma vexec_own : forall sv tk tr s o s' l c, vexec sv tk s o = Some (s', l) -> handles o = Some c -> open_ask c tr (phase_of s c) ->
    open_ask c (tr ++ [(o, l)]) (phase_of s' c).
Proof.
  intros sv tk tr s o s' l c H Hh Ho.
  assert (End : forall x, phase_of x c = phase_of s c \/ phase_of x c = HRefused -> ask c o = [] \/ asks c tr = answers c tr /\ length (ask c o) <= 1 ->
            l = [] -> open_ask c (tr ++ [(o, l)]) (phase_of (leave x c) c)).
  { intros x Hx Ha ->. rewrite phase_leave, Nat.eqb_refl.
    assert (K : asks c (tr ++ [(o, [])]) = answers c (tr ++ [(o, [])]) \/ exists y, asks c (tr ++ [(o, [])]) = answers c (tr ++ [(o, [])]) ++ [y]).
    { rewrite asks_snoc, answers_snoc. cbn [sent_in flat_map]. rewrite app_nil_r. destruct Ha as [Ha|[Ha1 Ha2]].
      - rewrite Ha, app_nil_r. eapply open_end; eauto.
      - rewrite Ha1. destruct (ask c o) as [|y [|z w]]; [left; now rewrite app_nil_r|eauto|cbn in Ha2; lia]. }
    destruct (info_of (phase_of x c)); exact K. }
  destruct o; cbn [handles] in Hh; try discriminate; injection Hh as ->; vstep H.
  all: try solve [apply End; [auto|left; reflexivity|reflexivity]].
  all: try solve [apply End; [right; rewrite phase_set, Nat.eqb_refl; reflexivity|left; reflexivity|reflexivity]].
  all: try (match goal with E : phase_of _ _ = _ |- _ => rewrite ?E in Ho; cbn [open_ask] in Ho end).
  all: try (match goal with |- open_ask _ _ (phase_of (set_phase _ _ _) _) => rewrite phase_set, Nat.eqb_refl end).
  all: rewrite ?phase_infos.
  all: try solve [cbn [open_ask]; rewrite asks_snoc, answers_snoc; cbn [ask sent_in flat_map]; rewrite ?Nat.eqb_refl; cbn [app flat_map answer]; rewrite ?app_nil_r; exact Ho].
  - change (open_ask c (tr ++ [(VAck c conv, [])]) (phase_of s c)). rewrite E. cbn [open_ask]. rewrite asks_snoc, answers_snoc. cbn. now rewrite !app_nil_r.
  - cbn [open_ask]. rewrite asks_snoc, answers_snoc. cbn [ask sent_in flat_map]. rewrite Nat.eqb_refl, app_nil_r, Ho. split; [now destruct last|].
    exists tr, rs, []. split; auto. constructor.
  - rewrite E. cbn [open_ask]. rewrite asks_snoc, answers_snoc. cbn. now rewrite !app_nil_r.
  - rewrite E. cbn [open_ask]. rewrite asks_snoc, answers_snoc, sent_self. cbn. now rewrite Nat.eqb_refl, Ho.
  - apply End; auto. right. split; auto. cbn. rewrite Nat.eqb_refl. auto.
  - cbn [open_ask]. rewrite asks_snoc, answers_snoc. cbn. rewrite !app_nil_r. destruct Ho as [Ho _]. now rewrite app_nil_r in Ho.
  - cbn [open_ask]. rewrite asks_snoc, answers_snoc, sent_self. cbn. rewrite !app_nil_r. apply Ho.
  - cbn [open_ask]. rewrite asks_snoc, answers_snoc. cbn [ask sent_in flat_map]. rewrite Nat.eqb_refl, app_nil_r, Ho. split; auto.
    exists tr, p, []. split; auto. constructor.
  - cbn [open_ask]. rewrite asks_snoc, answers_snoc, sent_self. cbn. rewrite !app_nil_r. apply Ho.
Qed.

Lemma aopen_run : forall sv tk tr s, server_run sv tk tr s -> aopen tr s.
Proof.
  intros sv tk tr s H. pose proof H as H'. unfold server_run in H. remember vstart as s0 eqn:E0. induction H; subst.
  - constructor; cbn; auto. intros c [].
  - specialize (IHvruns eq_refl H). destruct IHvruns as [I1 I2 I3]. constructor.
    + intros c. destruct (handles o) as [k|] eqn:Eh; [destruct (Nat.eq_dec k c) as [->|Hn]|].
      * eapply vexec_own; eauto.
      * assert (Hh : handles o <> Some c) by congruence. destruct (vexec_other _ _ _ _ _ _ c H0 Hh) as (A1 & A2 & A3 & _).
        pose proof (open_quiet c tr _ o l (I1 c) Hh A1 A2) as K. destruct A3 as [-> |[[[i Hi] ->]|(_ & _ & Hg & ->)]]; auto.
        -- rewrite Hi in K. exact K.
        -- cbn [open_ask]. rewrite asks_snoc, answers_snoc, A1, A2. destruct (I2 c Hg) as [-> ->]. reflexivity.
      * assert (Hh : handles o <> Some c) by congruence. destruct (vexec_other _ _ _ _ _ _ c H0 Hh) as (A1 & A2 & A3 & _).
        pose proof (open_quiet c tr _ o l (I1 c) Hh A1 A2) as K. destruct A3 as [-> |[[[i Hi] ->]|(_ & _ & Hg & ->)]]; auto.
        -- rewrite Hi in K. exact K.
        -- cbn [open_ask]. rewrite asks_snoc, answers_snoc, A1, A2. destruct (I2 c Hg) as [-> ->]. reflexivity.
    + intros c Hc. assert (Hh : handles o <> Some c).
      { intros Hh. assert (K : In c (keys (v_conns s2))); [|apply nget_keys in K as [x K]; congruence].
        assert (Hk : In c (keys (v_conns s1))).
        { apply phase_conns. destruct o; cbn [handles] in Hh; try discriminate; injection Hh as ->; vstep H0; congruence. }
        pose proof (vbook_run _ _ _ _ H') as B'. pose proof (vbook_run _ _ _ _ H) as B. apply (vb_ids _ _ _ B'). rewrite ids_snoc. apply in_or_app. left.
        now apply (vb_ids _ _ _ B). }
      destruct (vexec_other _ _ _ _ _ _ c H0 Hh) as (A1 & A2 & _ & A4). rewrite asks_snoc, answers_snoc, A1, A2. destruct (I2 c (A4 Hc)) as [-> ->]. auto.
    + apply (vb_next _ _ _ (vbook_run _ _ _ _ H')).
Qed.

(** ** Theorems *)

Lemma final_C52_order : forall sv tk tr s c, server_run sv tk tr s ->
    asks c tr = answers c tr \/ exists x, asks c tr = answers c tr ++ [x].
Proof. intros sv tk tr s c H. eapply open_end, (ao_open _ _ (aopen_run _ _ _ _ H)). Qed.

(** The engine's answer goes to the client that asked, for that request. *)
Lemma final_C52_register : forall sv tk a c r l b s, server_run sv tk (a ++ (VRegistered c r, l) :: b) s ->
    exists a1 conv last rs a2, a = a1 ++ (VRegister c conv last rs, [EngineCall c rs]) :: a2 /\ quiet c a2 /\
      (gone c a = false -> l = if last then [] else [Sent c (MRegisterRes conv r)]).
Proof.
  intros sv tk a c r l b s H. apply run_at in H as (s1 & s2 & H1 & Hx & _). pose proof (ao_open _ _ (aopen_run _ _ _ _ H1) c) as Ho.
  pose proof (vbook_run _ _ _ _ H1) as B. cbn [vexec] in Hx. destruct (phase_of s1 c) eqn:E; try discriminate. cbn [open_ask] in Ho.
  destruct Ho as (_ & a1 & rs & a2 & -> & Hq). exists a1, conv, last, rs, a2. split; auto. split; auto. intros Hg.
  assert (Hu : is_up s1 c = true). { apply (vb_up _ _ _ B). split; auto. apply (vb_ids _ _ _ B), phase_conns. congruence. }
  rewrite Hu in Hx. destruct last; injection Hx as <- <-; auto.
Qed.

Lemma final_C52_query : forall sv tk a c r l b s, server_run sv tk (a ++ (VQueried c r, l) :: b) s ->
    exists a1 conv p a2, a = a1 ++ (VQuery c conv p, [QueryCall c p]) :: a2 /\ quiet c a2 /\
      (gone c a = false -> l = [Sent c (MQueryRes conv r)]).
Proof.
  intros sv tk a c r l b s H. apply run_at in H as (s1 & s2 & H1 & Hx & _). pose proof (ao_open _ _ (aopen_run _ _ _ _ H1) c) as Ho.
  pose proof (vbook_run _ _ _ _ H1) as B. cbn [vexec] in Hx. destruct (phase_of s1 c) eqn:E; try discriminate. cbn [open_ask] in Ho.
  destruct Ho as (_ & a1 & p & a2 & -> & Hq). exists a1, conv, p, a2. split; auto. split; auto. intros Hg.
  assert (Hu : is_up s1 c = true). { apply (vb_up _ _ _ B). split; auto. apply (vb_ids _ _ _ B), phase_conns. congruence. }
  rewrite Hu in Hx. injection Hx as <- <-; auto.
Qed.

(** Without an engine the answer to a register request is a failure. *)
Lemma final_C52_no_engine : forall sv tk a c conv last rs l b s, server_run sv tk (a ++ (VRegister c conv last rs, l) :: b) s -> gone c a = false ->
    l = [EngineCall c rs] \/ l = if last then [] else [Sent c (MRegisterRes conv None)].
Proof.
  intros sv tk a c conv last rs l b s H Hg. apply run_at in H as (s1 & s2 & H1 & Hx & _).
  pose proof (vbook_run _ _ _ _ H1) as B. cbn [vexec] in Hx. destruct (phase_of s1 c) eqn:E; try discriminate.
  assert (Hu : is_up s1 c = true). { apply (vb_up _ _ _ B). split; auto. apply (vb_ids _ _ _ B), phase_conns. congruence. }
  rewrite Hu in Hx. destruct (v_engine s1); [injection Hx as <- <-; auto|]. destruct last; injection Hx as <- <-; auto.
Qed.
