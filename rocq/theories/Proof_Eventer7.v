(** Eventer server: acknowledged notifications (C39). *)
From Coq Require Import String Bool ZArith Arith Lia List.
From Verif Require Import Base Model_Types Model_Subscription Spec_Subscription Model_Eventer Spec_Eventer Proof_Eventer Proof_Eventer2 Proof_Eventer3 Proof_Eventer4 Proof_Eventer5 Proof_Eventer6.
Import ListNotations.
Open Scope string_scope.
Open Scope list_scope.
Open Scope nat_scope.

Definition leaves (s : vstate) (o : vop) : Prop := exists c, handles o = Some c /\ (closes c o = true \/ is_up s c = false).

(** What happens to a task. *)
Lemma vexec_tasks : forall sv tk s o s' l n c st, vwf s -> vexec sv tk s o = Some (s', l) -> In (Task n c st) (v_tasks s) ->
    In (Task n c st) (v_tasks s') \/
    (exists es, st = TNew es /\ is_up s c = true /\ In (Task n c (TSent (v_conv s))) (v_tasks s') /\ l = [Sent c (MEvents (v_conv s) es false)]) \/
    is_up s c = false \/
    (exists conv, st = TSent conv /\ In (Task n c (TWait conv)) (v_tasks s')) \/
    (exists conv, st = TWait conv /\ o = VAck c conv) \/
    leaves s o \/ o = VTaskCancel n c.
Proof.
  intros sv tk s o s' l n c st W H Hin.
  assert (Set_ : forall m k x y, find_task m k (v_tasks s) = Some y ->
            In (Task n c st) (set_task m k x (v_tasks s)) \/ m = n /\ k = c /\ st = y /\ In (Task n c x) (set_task m k x (v_tasks s))).
  { intros m k x y Hf. destruct (find_split _ _ _ _ (wf_pairs _ W) Hf) as (a & b & E1 & E2 & _). rewrite E2.
    rewrite E1 in Hin. apply in_app_or in Hin as [Hin|[Hin|Hin]].
    - left. apply in_or_app. auto.
    - injection Hin as -> -> ->. right. repeat split; auto. apply in_or_app. right. now left.
    - left. apply in_or_app. right. now right. }
  assert (Del_ : forall m k, In (Task n c st) (del_task m k (v_tasks s)) \/ m = n /\ k = c).
  { intros m k. unfold del_task. rewrite filter_In. unfold of_task. cbn [tk_call tk_conn].
    destruct (Nat.eqb_spec m n); destruct (Nat.eqb_spec k c); auto. }
  assert (Lv : forall k, handles o = Some k -> closes k o = true \/ is_up s k = false ->
             In (Task n c st) (filter (fun t => match tk_state t with TWait _ => false | _ => true end) (v_tasks s)) \/ leaves s o).
  { intros k Hk Hc. right. exists k. auto. }
  destruct o; vstep H; auto.
  all: try solve [right; right; right; right; right; left; eexists; split; [reflexivity|first [right; assumption|left; cbn; apply Nat.eqb_refl]]].
  - parts. destruct (Nat.eqb_spec c0 c) as [->|Hne].
    + destruct st as [es|cv|cv].
      * left. apply filter_In. split; auto. cbn. now rewrite andb_false_r.
      * left. apply filter_In. split; auto. cbn. now rewrite andb_false_r.
      * destruct (Nat.eq_dec conv cv) as [->|Hne]; [right; right; right; right; left; eauto|]. left. apply filter_In. split; auto. cbn.
        apply Nat.eqb_neq in Hne. now rewrite Hne, andb_false_r.
    + left. apply filter_In. split; auto. cbn. apply Nat.eqb_neq in Hne. now rewrite Hne.
  - left. parts. apply in_or_app. auto.
  - destruct (Set_ _ _ (TSent (v_conv s)) _ E) as [K|(-> & -> & -> & K)]; [left; exact K|]. right. left. exists es. auto.
  - destruct (Del_ n0 c0) as [K|[-> ->]]; [left; exact K|auto].
  - destruct (Set_ _ _ (TWait conv) _ E) as [K|(-> & -> & -> & K)]; [left; exact K|]. right. right. right. left. eauto.
  - destruct (Del_ n0 c0) as [K|[-> ->]]; [left; exact K|auto 8].
Qed.


Lemma answered_snoc : forall c es b x, answered c es b -> answered c es (b ++ [x]).
Proof. intros c es b x (b1 & l & b2 & conv & -> & H). exists b1, l, (b2 ++ [x]), conv. split; auto. rewrite <- app_assoc. reflexivity. Qed.
Lemma noticed_snoc : forall pre b x, noticed pre b -> noticed pre (b ++ [x]).
Proof. intros pre b x (b1 & o & l & b2 & c' & -> & H). exists b1, o, l, (b2 ++ [x]), c'. split; auto. rewrite <- app_assoc. reflexivity. Qed.

Definition awaits (n c : nat) (es : list event) (pre b : list vitem) (s : vstate) : Prop :=
  In (Task n c (TNew es)) (v_tasks s) \/
  (exists conv st, In (Task n c st) (v_tasks s) /\ (st = TSent conv \/ st = TWait conv) /\ In (Sent c (MEvents conv es false)) (vouts b)) \/
  answered c es b \/ gone c (pre ++ b) = true \/ noticed pre b \/ dropped n c b.

Lemma down_gone : forall tk tr s c, vbook tk tr s -> In c (ids tr) -> is_up s c = false -> gone c tr = true.
Proof.
  intros tk tr s c B Hi Hu. destruct (gone c tr) eqn:E; auto. assert (is_up s c = true); [|congruence]. apply (vb_up _ _ _ B). auto.
Qed.

Lemma handles_ids : forall sv tk tr s o s' l c, vbook tk tr s -> vexec sv tk s o = Some (s', l) -> handles o = Some c -> In c (ids tr).
Proof.
  intros sv tk tr s o s' l c B H Hc. apply (vb_ids _ _ _ B), phase_conns.
  destruct o; cbn [handles] in Hc; try discriminate; injection Hc as ->; vstep H; congruence.
Qed.

Lemma awaits_step : forall sv tk n c es pre b s o s' l, vbook tk (pre ++ b) s -> vwf s -> In c (ids pre) -> vexec sv tk s o = Some (s', l) ->
    awaits n c es pre b s -> awaits n c es pre (b ++ [(o, l)]) s'.
Proof.
  intros sv tk n c es pre b s o s' l B W Hid Hx A.
  assert (Hic : In c (ids (pre ++ b))) by (rewrite ids_app; apply in_or_app; auto).
  assert (Gn : forall k, gone k (pre ++ b) = true -> gone k (pre ++ b ++ [(o, l)]) = true).
  { intros k Hg. now rewrite app_assoc, gone_snoc, Hg. }
  assert (Lv : leaves s o -> noticed pre (b ++ [(o, l)])).
  { intros (k & Hk & Hc). exists b, o, l, [], k. split; auto. split; auto. rewrite app_assoc, gone_snoc. destruct Hc as [Hc|Hc]; [now rewrite Hc, orb_true_r|].
    apply orb_true_iff. left. eapply down_gone; eauto. eapply handles_ids; eauto. }
  unfold awaits in *. destruct A as [A|[(conv & st & A1 & A2 & A3)|[A|[A|[A|A]]]]].
  - destruct (vexec_tasks _ _ _ _ _ _ _ _ _ W Hx A) as [K|[(es' & [= <-] & K1 & K2 & ->)|[K|[(cv & [=] & _)|[(cv & [=] & _)|[K| ->]]]]]]; auto.
    + right. left. exists (v_conv s), (TSent (v_conv s)). split; auto. split; auto. rewrite vouts_snoc. apply in_or_app. right. now left.
    + right. right. right. left. apply Gn. eapply down_gone; eauto.
    + right. right. right. right. left. auto.
    + right. right. right. right. right. apply dropped_app. right. exists l. now left.
  - assert (A3' : In (Sent c (MEvents conv es false)) (vouts (b ++ [(o, l)]))) by (rewrite vouts_snoc; apply in_or_app; auto).
    destruct (vexec_tasks _ _ _ _ _ _ _ _ _ W Hx A1) as [K|[(es' & -> & _)|[K|[(cv & -> & K)|[(cv & -> & ->)|[K| ->]]]]]].
    + right. left. exists conv, st. auto.
    + destruct A2; discriminate.
    + right. right. right. left. apply Gn. eapply down_gone; eauto.
    + right. left. destruct A2 as [[= ->]|[=]]. exists conv, (TWait conv). auto.
    + destruct A2 as [[=]|[= ->]]. right. right. left. exists b, l, [], conv. auto.
    + right. right. right. right. left. auto.
    + right. right. right. right. right. apply dropped_app. right. exists l. now left.
  - right. right. left. now apply answered_snoc.
  - right. right. right. left. auto.
  - right. right. right. right. left. now apply noticed_snoc.
  - right. right. right. right. right. apply dropped_app. auto.
Qed.

Lemma awaits_run : forall sv tk a n es p l b s, server_run sv tk (a ++ (VNotify n es p true, l) :: b) s ->
    exists s1, server_run sv tk a s1 /\ forall c es', In (c, es') (targets (v_infos s1) es p) -> awaits n c es' (a ++ [(VNotify n es p true, l)]) b s.
Proof.
  intros sv tk a n es p l b s H. pose proof (run_at _ _ _ _ _ _ _ H) as (s1 & s2 & H1 & Hx & Hb). exists s1. split; auto.
  intros c es' Hin. set (pre := a ++ [(VNotify n es p true, l)]) in *. assert (Hpre : server_run sv tk pre s2) by (econstructor; eauto).
  assert (Hid : In c (ids pre)).
  { unfold pre. rewrite ids_app. apply in_or_app. left. eapply live_ids; [eapply vbook_run; eauto|]. eapply targets_infos; eauto. }
  assert (K0 : awaits n c es' pre [] s2).
  { left. cbn [vexec] in Hx. destruct (nmem n (v_used s1)); [discriminate|]. destruct (targets (v_infos s1) es p) as [|t ts] eqn:ET; [contradiction|].
    injection Hx as <- <-. parts. apply in_or_app. right.
    change (In (Task n c (TNew es')) (map (fun x => Task n (fst x) (TNew (snd x))) (t :: ts))). apply in_map_iff. exists (c, es'). auto. }
  assert (K : server_run sv tk (pre ++ b) s /\ awaits n c es' pre b s); [|apply K]. clear H Hx Hin.
  induction Hb as [s|s b s3 o l' s4 Hb IH Hx].
  - rewrite app_nil_r. auto.
  - destruct (IH Hpre K0) as [R K]. split.
    + rewrite app_assoc. econstructor; eauto.
    + exact (awaits_step sv tk _ _ _ _ _ s3 o s4 l' (vbook_run _ _ _ _ R) (vwf_run _ _ _ _ R) Hid Hx K).
Qed.

Lemma sets_tasks : forall sv tk tr s n, server_run sv tk tr s -> In n (keys (v_sets s)) -> ~ In n (map tk_call (v_tasks s)).
Proof.
  intros sv tk tr s n H. unfold server_run in H. pose proof H as H'. remember vstart as s0 eqn:E0. induction H; subst; intros Hs Ht.
  - destruct Hs.
  - specialize (IHvruns eq_refl H). assert (W : vwf s1) by (eapply vwf_run; exact H).
    assert (Hu : In n (v_used s1)).
    { assert (K : In n (keys (v_sets s1)) \/ In n (map tk_call (v_tasks s1))).
      { destruct o; vstep H0; parts; auto. }
      destruct K as [K|K]; [now apply (wf_usets _ W)|now apply (wf_utasks _ W)]. }
    apply IHvruns; [|eapply vexec_no_tasks; eauto]. destruct (nget n (v_sets s1)) eqn:E; [apply nget_keys; eauto|].
    pose proof (vexec_no_sets _ _ _ _ _ _ n W H0 Hu E) as K. apply nget_keys in Hs as [x Hs]. congruence.
Qed.

(** A returned call has no tasks any more. *)
Lemma returned_tasks : forall sv tk tr s n, server_run sv tk tr s -> returned n tr -> ~ In n (map tk_call (v_tasks s)).
Proof.
  intros sv tk tr s n H. unfold server_run in H. pose proof H as H'. remember vstart as s0 eqn:E0. induction H; subst; intros Hr.
  - destruct Hr.
  - specialize (IHvruns eq_refl H). assert (W : vwf s1) by (eapply vwf_run; exact H). rewrite returned_snoc in Hr.
    assert (Hu : In n (v_used s1) -> ~ In n (map tk_call (v_tasks s1)) -> ~ In n (map tk_call (v_tasks s2))).
    { intros Hu K X. eapply vexec_no_tasks in X; eauto. }
    destruct Hr as [Hr|Hr]; [apply Hu; auto; eapply Proof_Eventer6.used_run; [exact H|auto]|].
    assert (Fresh : forall m, nmem m (v_used s1) = false -> ~ In m (map tk_call (v_tasks s1))).
    { intros m E X. apply (wf_utasks _ W) in X. apply nmem_In in X. congruence. }
    destruct o; vstep H0; cbn [In] in Hr; try (match type of Hr with context [send] => unfold send in Hr; destruct (is_up _ _); cbn [In] in Hr end);
        try tauto; destruct Hr as [Hr|[]]; try discriminate; injection Hr as ->; parts; auto.
    + eapply sets_tasks; [exact H|]. apply nget_keys. eauto.
    + apply (wf_disj _ W). apply nget_keys. eauto.
    + apply andb_true_iff in E0 as [_ E0]. rewrite forallb_forall in E0. intros X. apply in_map_iff in X as (t & <- & Ht). apply E0 in Ht.
      rewrite Nat.eqb_refl in Ht. discriminate.
Qed.

Lemma final_C39 : forall sv tk a n es p l b s c es' last, server_run sv tk (a ++ (VNotify n es p true, l) :: b) s ->
    In (c, es', last) (notes n b) -> returned n b ->
    answered c es' b \/ gone c (a ++ (VNotify n es p true, l) :: b) = true \/ noticed (a ++ [(VNotify n es p true, l)]) b \/ dropped n c b.
Proof.
  intros sv tk a n es p l b s c es' last H Hin Hr.
  assert (Hr' : returned n (a ++ (VNotify n es p true, l) :: b)).
  { unfold returned, vouts in *. rewrite flat_map_app. apply in_or_app. right. cbn [flat_map]. apply in_or_app. auto. }
  pose proof (returned_tasks _ _ _ _ _ H Hr') as Ht.
  pose proof (ncall_run _ _ _ _ _ _ _ _ _ _ H) as (s1 & H1 & N & _). apply (nc_sent _ _ _ _ _ _ N) in Hin as [Hin _].
  apply awaits_run in H as (s1' & H1' & A).
  assert (Es : s1' = s1).
  { clear -H1 H1'. revert s1 s1' H1 H1'. unfold server_run. induction a as [|[o l] a IH] using rev_ind; intros s1 s1' H1 H1'.
    - inversion H1 as [E|? ? ? ? ? ? ? ? E]; [|now destruct tr]. inversion H1' as [E'|? ? ? ? ? ? ? ? E']; [|now destruct tr]. congruence.
    - apply vruns_snoc_inv in H1 as (x & Hx & Ex). apply vruns_snoc_inv in H1' as (y & Hy & Ey). rewrite (IH _ _ Hx Hy) in Ey. congruence. }
  subst s1'. specialize (A c es' Hin). unfold awaits in A.
  assert (No : forall st, ~ In (Task n c st) (v_tasks s)). { intros st X. apply Ht. apply (in_map tk_call) in X. exact X. }
  destruct A as [A|[(conv & st & A & _)|[A|[A|[A|A]]]]]; auto.
  - now apply No in A.
  - now apply No in A.
  - right. left. rewrite <- app_assoc in A. exact A.
Qed.
