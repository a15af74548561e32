(** Eventer client: requests and responses (C40). *)
From Coq Require Import String Bool ZArith Arith Lia List.
From Verif Require Import Base Model_Types Model_Eventer Spec_Eventer Proof_Eventer Proof_Eventer2 Model_Client Spec_Client Proof_Client.
Import ListNotations.
Open Scope string_scope.
Open Scope list_scope.
Open Scope nat_scope.

Lemma cloop_run : forall tr s, client_run tr s -> cloop tr s.
Proof.
  intros tr s H. unfold client_run in H. remember cstart as s0 eqn:E0. induction H; subst.
  - constructor; cbn; auto; discriminate.
  - eapply cloop_step; eauto.
Qed.
Lemma cbook_run : forall tr s, client_run tr s -> cbook tr s.
Proof.
  intros tr s H. unfold client_run in H. remember cstart as s0 eqn:E0. induction H; subst.
  - constructor; cbn; auto; try easy; try apply NoDup_nil. intros n (a & q & l & b & E & _). now destruct a.
  - eapply cbook_step; eauto. apply cloop_run. exact H.
Qed.

Lemma cruns_app : forall s tr1 s1 tr2 s2, cruns s tr1 s1 -> cruns s1 tr2 s2 -> cruns s (tr1 ++ tr2) s2.
Proof. intros s tr1 s1 tr2 s2 H1 H2. induction H2; [now rewrite app_nil_r|]. rewrite app_assoc. econstructor; eauto. Qed.
Lemma cruns_split : forall s tr s2, cruns s tr s2 -> forall a b, tr = a ++ b -> exists s1, cruns s a s1 /\ cruns s1 b s2.
Proof.
  intros s tr s2 H. induction H; intros a b E.
  - symmetry in E. apply app_eq_nil in E as [-> ->]. exists s. split; constructor.
  - destruct b as [|x b] using rev_ind.
    + rewrite app_nil_r in E. subst. exists s2. split; [econstructor; eauto|constructor].
    + clear IHb. rewrite app_assoc in E. apply app_inj_tail in E as [-> <-]. destruct (IHcruns a b eq_refl) as (m & H1 & H2).
      exists m. split; auto. econstructor; eauto.
Qed.
Lemma crun_at : forall a o l b s, client_run (a ++ (o, l) :: b) s -> exists s1 s2, client_run a s1 /\ cexec s1 o = Some (s2, l) /\ cruns s2 b s.
Proof.
  intros a o l b s H. destruct (cruns_split _ _ _ H (a ++ [(o, l)]) b) as (s2 & H1 & H2); [now rewrite <- app_assoc|].
  inversion H1; subst; [destruct a; discriminate|]. apply app_inj_tail in H0 as [-> E]. injection E as -> ->. eauto.
Qed.
Lemma crun_step : forall tr s o l s', client_run tr s -> cexec s o = Some (s', l) -> client_run (tr ++ [(o, l)]) s'.
Proof. intros. econstructor; eauto. Qed.

(** Results belong to their requests. *)
Lemma final_C40_own : forall a o l b s n r, client_run (a ++ (o, l) :: b) s -> In (CAnswer n r) l ->
    exists a1 q conv a2 a3 m k a4, a = a1 ++ (CRequest n q, [CSent (request_msg conv q)]) :: a2 ++ (CWait n, []) :: a3 ++ (CMsg m, k) :: a4 /\
      wants_response q = true /\ response m = Some (conv, r) /\ responded conv a3 = false.
Proof.
  intros a o l b s n r H Hin. apply crun_at in H as (s1 & s2 & H1 & Hx & _). pose proof (cbook_run _ _ H1) as B.
  cstepd Hx; cbn in Hin; try (destruct Hin as [Hin|Hin]; [discriminate|]); try tauto; try (destruct Hin as [Hin|Hin]; [discriminate|tauto]).
  destruct Hin as [Hin|[]]. injection Hin as -> ->.
  match goal with E : find_req _ _ = Some _ |- _ => apply find_req_in in E as [Hr Hc] end. cbn in Hc. subst.
  apply (kb_pend _ _ B) in Hr. cbn in Hr. destruct Hr as (a1 & q & b0 & -> & Hw & _ & b1 & b2 & m & k & b3 & -> & H2 & H3).
  exists a1, q, p_conv, b1, b2, m, k, b3. auto.
Qed.

Lemma final_C40_once : forall tr s, client_run tr s -> NoDup (fins tr).
Proof. intros tr s H. apply (kb_fins _ _ (cbook_run _ _ H)). Qed.
Lemma final_C40_convs : forall tr s, client_run tr s -> NoDup (map conv_of (filter is_request (csent tr))).
Proof. intros tr s H. apply (kb_convs _ _ (cbook_run _ _ H)). Qed.

(** Errors. *)
Lemma final_C40_error : forall a o l b s n, client_run (a ++ (o, l) :: b) s -> In (CError n) l -> shut a = true.
Proof.
  intros a o l b s n H Hin. apply crun_at in H as (s1 & s2 & H1 & Hx & _). pose proof (cbook_run _ _ H1) as B. pose proof (cloop_run _ _ H1) as K.
  cstepd Hx; cbn in Hin; try (destruct Hin as [Hin|Hin]; [discriminate|]); try tauto; try (destruct Hin as [Hin|Hin]; [discriminate|tauto]).
  all: try solve [rewrite (kl_shut _ _ K); match goal with E : c_open _ = _ |- _ => rewrite E; reflexivity end].
  match goal with E : find_req _ _ = Some _ |- _ => apply find_req_in in E as [Hr _] end. apply (kb_pend _ _ B) in Hr. cbn in Hr.
  destruct Hr as (a1 & q & b0 & _ & _ & _ & Hs). exact Hs.
Qed.
Lemma final_C40_after : forall a n q l b s, client_run (a ++ (CRequest n q, l) :: b) s -> shut a = true -> l = [CError n].
Proof.
  intros a n q l b s H Hs. apply crun_at in H as (s1 & s2 & H1 & Hx & _). pose proof (cloop_run _ _ H1) as K. rewrite (kl_shut _ _ K) in Hs.
  apply negb_true_iff in Hs. cbn [cexec] in Hx. rewrite Hs in Hx. destruct (c_loop s1), (nmem n (c_used s1)); try discriminate; now injection Hx as _ <-.
Qed.

Lemma final_C40_sent : forall a n q l b s, client_run (a ++ (CRequest n q, l) :: b) s -> shut a = false ->
    exists conv, l = CSent (request_msg conv q) :: if wants_response q then [] else [CReturned n].
Proof.
  intros a n q l b s H Hs. apply crun_at in H as (s1 & s2 & H1 & Hx & _). pose proof (cloop_run _ _ H1) as K. rewrite (kl_shut _ _ K) in Hs.
  apply negb_false_iff in Hs. cbn [cexec] in Hx. rewrite Hs in Hx. exists (c_conv s1).
  destruct q as [[|]|]; cbn [wants wants_response] in *; destruct (c_loop s1), (nmem n (c_used s1)); try discriminate; now injection Hx as _ <-.
Qed.

(** Requests open when the connection is closed. *)
Lemma find_req_of : forall l x, NoDup (map p_call l) -> In x l -> find_req (p_call x) l = Some x.
Proof.
  induction l as [|y l IH]; cbn; intros x H Hx; [destruct Hx|]. inversion_clear H as [|? ? H1 H2]. unfold find_req in *. cbn.
  destruct Hx as [-> |Hx]; [now rewrite Nat.eqb_refl|]. destruct (Nat.eqb_spec (p_call x) (p_call y)) as [E|E]; auto.
  exfalso. apply H1. rewrite <- E. now apply in_map.
Qed.

Lemma final_C40_closed : forall tr s n, client_run tr s -> shut tr = true -> started tr = true -> outstanding n tr ->
    exists ext s', client_run (tr ++ ext) s' /\ (forall o l, In (o, l) ext -> o = CStop \/ o = CWait n \/ o = CResume n) /\
      (In (CError n) (couts ext) \/ exists r, In (CAnswer n r) (couts ext)).
Proof.
  intros tr s n H Hs Hst Ho. pose proof (cbook_run _ _ H) as B. pose proof (cloop_run _ _ H) as K.
  assert (Hop : c_open s = false) by (rewrite (kl_shut _ _ K) in Hs; now apply negb_true_iff in Hs).
  apply (kb_out _ _ B) in Ho. apply in_map_iff in Ho as (x & <- & Hx). pose proof (find_req_of _ _ (kb_calls _ _ B) Hx) as Hf.
  destruct x as [n conv st]. cbn [p_call] in *. destruct st.
  - exists [(CWait n, [CError n])]. eexists. split; [eapply crun_step; eauto; cbn [cexec]; rewrite Hf, Hop; reflexivity|]. split.
    + intros o l [E|[]]. injection E as <- _. auto.
    + left. cbn. auto.
  - destruct (c_loop s) eqn:El.
    + pose proof (kl_on _ _ K) as X. rewrite El in X. congruence.
    + pose proof (kl_on _ _ K) as X. rewrite El in X. congruence.
    + assert (Hx1 : cexec s CStop = Some (finish s, [])) by (cbn [cexec]; now rewrite Hop, El).
      pose proof (crun_step _ _ _ _ _ H Hx1) as H1. pose proof (cbook_run _ _ H1) as B1.
      assert (Hin : In (Pend n conv RFail) (c_reqs (finish s))). { cbn. apply in_map_iff. exists (Pend n conv RWait). auto. }
      pose proof (find_req_of _ _ (kb_calls _ _ B1) Hin) as Hf1. cbn [p_call] in Hf1.
      exists ([(CStop, [])] ++ [(CResume n, [CError n])]). eexists. rewrite app_assoc. split; [eapply crun_step; [exact H1|]; cbn [cexec]; rewrite Hf1; reflexivity|].
      split; [|left; cbn; auto]. intros o l [E|[E|[]]]; injection E as <- _; auto.
    + assert (Hx1 : cexec s CStop = Some (finish s, [])) by (cbn [cexec]; now rewrite Hop, El).
      pose proof (crun_step _ _ _ _ _ H Hx1) as H1. pose proof (cbook_run _ _ H1) as B1.
      assert (Hin : In (Pend n conv RFail) (c_reqs (finish s))). { cbn. apply in_map_iff. exists (Pend n conv RWait). auto. }
      pose proof (find_req_of _ _ (kb_calls _ _ B1) Hin) as Hf1. cbn [p_call] in Hf1.
      exists ([(CStop, [])] ++ [(CResume n, [CError n])]). eexists. rewrite app_assoc. split; [eapply crun_step; [exact H1|]; cbn [cexec]; rewrite Hf1; reflexivity|].
      split; [|left; cbn; auto]. intros o l [E|[E|[]]]; injection E as <- _; auto.
    + assert (Hx1 : cexec s CStop = Some (finish s, [])) by (cbn [cexec]; now rewrite Hop, El).
      pose proof (crun_step _ _ _ _ _ H Hx1) as H1. pose proof (cbook_run _ _ H1) as B1.
      assert (Hin : In (Pend n conv RFail) (c_reqs (finish s))). { cbn. apply in_map_iff. exists (Pend n conv RWait). auto. }
      pose proof (find_req_of _ _ (kb_calls _ _ B1) Hin) as Hf1. cbn [p_call] in Hf1.
      exists ([(CStop, [])] ++ [(CResume n, [CError n])]). eexists. rewrite app_assoc. split; [eapply crun_step; [exact H1|]; cbn [cexec]; rewrite Hf1; reflexivity|].
      split; [|left; cbn; auto]. intros o l [E|[E|[]]]; injection E as <- _; auto.
    + exfalso. eapply (kl_wait _ _ K); eauto.
  - exists [(CResume n, [CAnswer n r])]. eexists. split; [eapply crun_step; eauto; cbn [cexec]; rewrite Hf; reflexivity|]. split.
    + intros o l [E|[]]. injection E as <- _. auto.
    + right. exists r. cbn. auto.
  - exists [(CResume n, [CError n])]. eexists. split; [eapply crun_step; eauto; cbn [cexec]; rewrite Hf; reflexivity|]. split.
    + intros o l [E|[]]. injection E as <- _. auto.
    + left. cbn. auto.
Qed.

(** Responses nobody waits for. *)
Lemma cinit_run : forall tr s, client_run tr s -> c_loop s = LInit -> couts tr = [].
Proof.
  intros tr s H. unfold client_run in H. remember cstart as s0 eqn:E0. induction H; subst; auto. specialize (IHcruns eq_refl). intros El.
  rewrite couts_snoc. cstepd H0; cbn in El; try discriminate; try (rewrite IHcruns by congruence; reflexivity); try congruence.
  all: exfalso; pose proof (cloop_run _ _ H) as K; match goal with E : find_req _ _ = Some _ |- _ => rewrite (kl_init _ _ K El) in E; discriminate end.
Qed.

Lemma final_C40_ignored : forall a m l b s conv r, client_run (a ++ (CMsg m, l) :: b) s -> connected a -> response m = Some (conv, r) -> ~ waiting conv a ->
    l = [] /\ client_run (a ++ b) s.
Proof.
  intros a m l b s conv r H Hc Hm Hw. apply crun_at in H as (s1 & s2 & H1 & Hx & H2). pose proof (cbook_run _ _ H1) as B.
  assert (Er : resolve s1 conv r = s1).
  { unfold resolve, c_with_reqs. destruct s1 as [op lo st cv rq us]. cbn in *. f_equal. rewrite <- (map_id rq) at 2. apply map_ext_in. intros x Hx1.
    destruct (p_state x) eqn:Es; auto. destruct (Nat.eqb_spec conv (p_conv x)) as [E|E]; auto. exfalso. apply Hw.
    pose proof (kb_pend _ _ B x Hx1) as P. rewrite Es, <- E in P. destruct P as (a1 & q & b0 & -> & _ & He & b1 & b2 & -> & Hr).
    exists a1, (p_call x), q, b1, b2. auto. }
  cbn [cexec] in Hx. destruct (c_loop s1) eqn:El; try discriminate.
  - pose proof (cinit_run _ _ H1 El) as X. unfold connected in Hc. rewrite X in Hc. destruct Hc.
  - destruct m; try discriminate; injection Hm as -> <-; rewrite Er in Hx; injection Hx as <- <-; split; auto; eapply cruns_app; eauto.
Qed.
