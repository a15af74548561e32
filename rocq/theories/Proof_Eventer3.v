(** Eventer server: admission (C38). *)
From Coq Require Import String Bool ZArith Arith Lia List.
From Verif Require Import Base Model_Types Model_Subscription Spec_Subscription Spec_Creation Proof_Creation Model_Eventer Spec_Eventer Proof_Eventer Proof_Eventer2.
Import ListNotations.
Open Scope string_scope.
Open Scope list_scope.
Open Scope nat_scope.

(** ** Parts of runs *)

Lemma vruns_split : forall sv tk s a b s2, vruns sv tk s (a ++ b) s2 -> exists s1, vruns sv tk s a s1 /\ vruns sv tk s1 b s2.
Proof.
  intros sv tk s a b. induction b as [|[o l] b IH] using rev_ind; intros s2 H.
  - rewrite app_nil_r in H. exists s2. split; auto. constructor.
  - rewrite app_assoc in H. apply vruns_snoc_inv in H as (s1 & H & Hx). apply IH in H as (s0 & H0 & H1).
    exists s0. split; auto. econstructor; eauto.
Qed.

Lemma vruns_one : forall sv tk s o l b s2, vruns sv tk s ((o, l) :: b) s2 -> exists s1, vexec sv tk s o = Some (s1, l) /\ vruns sv tk s1 b s2.
Proof.
  intros sv tk s o l b s2 H. change ((o, l) :: b) with ([(o, l)] ++ b) in H. apply vruns_split in H as (s1 & H & Hb).
  exists s1. split; auto. change [(o, l)] with ([] ++ [(o, l)]) in H. apply vruns_snoc_inv in H as (s0 & H & Hx). inversion H; subst; auto.
  now destruct tr.
Qed.

Lemma run_at : forall sv tk a o l b s, server_run sv tk (a ++ (o, l) :: b) s ->
    exists s1 s2, server_run sv tk a s1 /\ vexec sv tk s1 o = Some (s2, l) /\ vruns sv tk s2 b s.
Proof.
  intros sv tk a o l b s H. unfold server_run in *. apply vruns_split in H as (s1 & H & Hb). apply vruns_one in Hb as (s2 & Hx & Hb). eauto 6.
Qed.

Lemma init_of_app : forall c a b x, init_of c a = Some x -> init_of c (a ++ b) = Some x.
Proof.
  intros c a b x. induction a as [|[o l] a IH]; cbn [app init_of]; [discriminate|]. destruct (init_op c o); auto.
Qed.

Lemma In_vouts : forall x tr, In x (vouts tr) -> exists a o l b, tr = a ++ (o, l) :: b /\ In x l.
Proof.
  intros x tr H. apply in_flat_map in H as ([o l] & H & Hx). apply in_split in H as (a & b & ->). eauto 6.
Qed.

Lemma In_sent_to : forall c m tr, In m (sent_to c tr) <-> In (Sent c m) (vouts tr).
Proof. intros. apply In_sent_in. Qed.

Lemma status_at_snoc : forall tr i, status_at (tr ++ [i]) = status_step (status_at tr) i.
Proof. intros. unfold status_at. now rewrite fold_left_app. Qed.

Lemma status_run : forall sv tk tr s, server_run sv tk tr s -> v_status s = fst (status_at tr).
Proof.
  intros sv tk tr s H. unfold server_run in H. remember vstart as s0 eqn:E0. induction H; subst; auto.
  specialize (IHvruns eq_refl). rewrite status_at_snoc. destruct o; cbn [status_step]; vstep H0; auto.
  all: try (unfold send; destruct (is_up _ _)); auto.
Qed.

(** ** Admission *)


Lemma creatable_iff : forall req, creatable req <-> py_create (ir_subs req) <> None.
Proof.
  intros req. unfold creatable. rewrite <- final_C01_creation. destruct (py_create (ir_subs req)); split; try congruence; eauto.
  intros [n [=]].
Qed.

Lemma final_C38_accepted : forall sv tk tr s c conv st, server_run sv tk tr s -> In (MInitRes conv (Some st)) (sent_to c tr) ->
    exists req, init_of c tr = Some (conv, req) /\ token_ok tk req /\ creatable req.
Proof.
  intros sv tk tr s c conv st H Hin. apply vbook_run in H. pose proof (was_about _ _ _ _ (vb_about _ _ _ H c)) as Hw.
  destruct Hw as [E|[[cv E]|[i Hg]]].
  - rewrite E in Hin. contradiction.
  - rewrite E in Hin. destruct Hin as [?|[]]. discriminate.
  - destruct Hg as (cv & req & st' & rest & E & Hf & Hi & Hm). rewrite E in Hin. destruct Hin as [[= <- <-]|Hin].
    + exists req. split; auto. destruct Hm as (Hm & _ & _ & _ & Ht). split; auto. apply creatable_iff. congruence.
    + rewrite Forall_forall in Hf. apply Hf in Hin. discriminate.
Qed.

Lemma final_C38_refused : forall sv tk tr s c conv, server_run sv tk tr s -> In (MInitRes conv None) (sent_to c tr) ->
    exists req, init_of c tr = Some (conv, req) /\ (~ (token_ok tk req /\ creatable req) \/ exists l, In (VHello c false, l) tr).
Proof.
  intros sv tk tr s c conv H Hin. apply In_sent_to, In_vouts in Hin as (a & o & l & b & -> & Hin).
  apply run_at in H as (s1 & s2 & H1 & Hx & _). pose proof (vbook_run _ _ _ _ H1) as B. pose proof (vb_about _ _ _ B) as Ha.
  apply vexec_cstep in Hx. destruct Hx.
  - match goal with X : forall c m, In (Sent c m) l -> _ |- _ => apply X in Hin as (_ & Hin & _) end. discriminate.
  - subst l. destruct Hin as [?|[]]; discriminate.
  - subst l. contradiction.
  - subst l. contradiction.
  - match goal with X : forall c m, In (Sent c m) l -> _ |- _ => apply X in Hin as (_ & _ & Hin & _) end. discriminate.
  - subst l. destruct Hin as [?|[]]; discriminate.
  - subst l. destruct Hin as [?|[]]; discriminate.
  - destruct H as [(_ & _ & ->)|(_ & _ & ->)]; [|contradiction]. destruct Hin as [[= <- <-]|[]]. specialize (Ha c0). unfold about in Ha.
    destruct H2 as [[[i Hp] ->]|[Hp (req & e & -> & Hn)]]; rewrite Hp in Ha.
    + destruct Ha as (_ & req & Hi & _). exists req. split; [now apply init_of_app|]. right. eexists. apply in_or_app. right. now left.
    + destruct Ha as [_ Hi]. exists req. split.
      * clear -Hi. induction a as [|[o l] a IH]; cbn [app init_of] in *.
        -- cbn [init_op]. now rewrite Nat.eqb_refl.
        -- destruct (init_op c0 o); [discriminate|auto].
      * left. now rewrite creatable_iff.
Qed.

(** What happens upon an init request, and when the engine has answered. *)
Lemma final_C38_answer : forall sv tk a c conv req e l b s, server_run sv tk (a ++ (VInit c conv req e, l) :: b) s -> gone c a = false ->
    (token_ok tk req -> creatable req ->
       l = [Sent c (MInitRes conv (Some (fst (status_at a))))] \/
       exists r, l = [EngineCall c [r]]) /\
    (~ (token_ok tk req /\ creatable req) -> l = [Sent c (MInitRes conv None)]).
Proof.
  intros sv tk a c conv req e l b s H Hg. apply run_at in H as (s1 & s2 & H1 & Hx & _). pose proof (vbook_run _ _ _ _ H1) as B.
  rewrite <- (status_run _ _ _ _ H1). rewrite creatable_iff. rewrite <- bad_token_spec. cbn [vexec] in Hx.
  destruct (phase_of s1 c) eqn:Ep; try discriminate.
  assert (Hu : is_up s1 c = true). { apply (vb_up _ _ _ B). split; auto. apply (vb_ids _ _ _ B). apply phase_conns. congruence. }
  fold (bad_token (ir_token req) tk) in Hx. unfold accept, refuse in Hx. rewrite Hu in Hx.
  destruct (py_create (ir_subs req)) as [sub|].
  - destruct (bad_token (ir_token req) tk).
    + injection Hx as <- <-. split; [discriminate|auto].
    + split; [|intros X; destruct X; split; congruence]. intros _ _. destruct (v_engine s1 && e); injection Hx as <- <-; eauto.
  - injection Hx as <- <-. split; [now intros _ X|auto].
Qed.

Lemma final_C38_engine : forall sv tk a c ok l b s, server_run sv tk (a ++ (VHello c ok, l) :: b) s -> gone c a = false ->
    exists conv req, init_of c a = Some (conv, req) /\ l = [Sent c (MInitRes conv (if ok then Some (fst (status_at a)) else None))].
Proof.
  intros sv tk a c ok l b s H Hg. apply run_at in H as (s1 & s2 & H1 & Hx & _). pose proof (vbook_run _ _ _ _ H1) as B.
  rewrite <- (status_run _ _ _ _ H1). cbn [vexec] in Hx.
  destruct (phase_of s1 c) eqn:Ep; try discriminate.
  assert (Hu : is_up s1 c = true). { apply (vb_up _ _ _ B). split; auto. apply (vb_ids _ _ _ B). apply phase_conns. congruence. }
  pose proof (vb_about _ _ _ B c) as Ha. unfold about in Ha. rewrite Ep in Ha. destruct Ha as (_ & req & Hi & _). exists conv, req. split; auto.
  unfold accept, refuse in Hx. rewrite Hu in Hx. destruct ok; injection Hx as <- <-; auto.
Qed.

(** What a client is sent: nothing; a refusal; an acceptance followed by other
    messages. *)
Lemma final_C38_messages : forall sv tk tr s c, server_run sv tk tr s ->
    sent_to c tr = [] \/ (exists conv, sent_to c tr = [MInitRes conv None]) \/
    exists conv st rest, sent_to c tr = MInitRes conv (Some st) :: rest /\ forall m, In m rest -> is_initres m = false.
Proof.
  intros sv tk tr s c H. apply vbook_run in H. destruct (was_about _ _ _ _ (vb_about _ _ _ H c)) as [E|[E|[i Hg]]]; auto.
  right. right. destruct Hg as (cv & req & st' & rest & E & Hf & _). exists cv, st', rest. split; auto. now apply Forall_forall.
Qed.

Lemma final_C38_ids : forall sv tk tr s, server_run sv tk tr s -> NoDup (ids tr).
Proof. intros sv tk tr s H. apply vbook_run in H. apply H. Qed.


Lemma live_welcomed : forall tk tr s c i, vbook tk tr s -> live (phase_of s c) = Some i -> welcomed c tr = true.
Proof.
  intros tk tr s c i B H. pose proof (vb_about _ _ _ B c) as Ha. unfold about in Ha.
  destruct (phase_of s c); try discriminate; eapply guest_welcomed; eauto.
Qed.

(** Only accepted clients reach the backend. *)
Lemma final_C38_query : forall sv tk a o l b s c p, server_run sv tk (a ++ (o, l) :: b) s -> In (QueryCall c p) l ->
    welcomed c a = true /\ exists conv, o = VQuery c conv p.
Proof.
  intros sv tk a o l b s c p H Hin. apply run_at in H as (s1 & s2 & H1 & Hx & _). pose proof (vbook_run _ _ _ _ H1) as B.
  destruct o; vstep Hx; cbn [In] in Hin; try (match type of Hin with context [send] => unfold send in Hin; destruct (is_up _ _); cbn [In] in Hin end); try tauto;
    destruct Hin as [Hin|[]]; try discriminate.
  injection Hin as <- <-. split; eauto. eapply live_welcomed; eauto. rewrite E. reflexivity.
Qed.

(** Only accepted clients reach the engine, apart from events about clients. *)
Lemma final_C38_register : forall sv tk a o l b s c rs, server_run sv tk (a ++ (o, l) :: b) s -> In (EngineCall c rs) l ->
    (welcomed c a = true /\ exists conv last, o = VRegister c conv last rs) \/
    exists conv req r, init_of c (a ++ [(o, l)]) = Some (conv, req) /\ rs = [r] /\ about_client sv (ir_name req) r.
Proof.
  intros sv tk a o l b s c rs H Hin. apply run_at in H as (s1 & s2 & H1 & Hx & _). pose proof (vbook_run _ _ _ _ H1) as B.
  pose proof (vb_about _ _ _ B c) as Ha. unfold about in Ha.
  destruct o; vstep Hx; cbn [In] in Hin; try (match type of Hin with context [send] => unfold send in Hin; destruct (is_up _ _); cbn [In] in Hin end); try tauto;
    destruct Hin as [Hin|[]]; try discriminate; injection Hin as <- <-.
  - right. rewrite E in Ha. destruct Ha as [_ Hi]. exists conv, req. eexists. rewrite init_of_snoc, Hi. cbn [init_op]. rewrite Nat.eqb_refl.
    split; auto. split; [reflexivity|]. exists "CONNECTED". split; auto.
  - left. split; eauto. eapply live_welcomed; eauto. rewrite E. reflexivity.
  - right. rewrite E in Ha. destruct Ha as (_ & _ & conv & req & Hi & Hm). exists conv, req. eexists. rewrite init_of_snoc, Hi.
    split; auto. split; [reflexivity|]. exists "DISCONNECTED". split; auto. destruct Hm as (_ & _ & _ & Hm & _). now rewrite <- Hm.
Qed.
