(** Eventer server: calls. *)
From Coq Require Import String Bool ZArith Arith Lia FinFun List.
From Verif Require Import Base Model_Types Model_Subscription Spec_Subscription Model_Eventer Spec_Eventer Proof_Eventer Proof_Eventer2 Proof_Eventer3.
Import ListNotations.
Open Scope string_scope.
Open Scope list_scope.
Open Scope nat_scope.

(** ** Tasks *)

Definition pairs (l : list task) : list (nat * nat) := map (fun t => (tk_call t, tk_conn t)) l.

Lemma of_task_spec : forall n c t, of_task n c t = true <-> tk_call t = n /\ tk_conn t = c.
Proof. intros n c t. unfold of_task. rewrite andb_true_iff, !Nat.eqb_eq. intuition. Qed.

Lemma not_of_task : forall n c l, ~ In (n, c) (pairs l) -> forall t, In t l -> of_task n c t = false.
Proof.
  intros n c l H t Ht. destruct (of_task n c t) eqn:E; auto. destruct H. apply of_task_spec in E as [<- <-].
  apply in_map_iff. eauto.
Qed.

Lemma set_task_none : forall n c x l, (forall t, In t l -> of_task n c t = false) -> set_task n c x l = l.
Proof. intros n c x l H. unfold set_task. rewrite <- (map_id l) at 2. apply map_ext_in. intros t Ht. now rewrite H. Qed.

Lemma filter_all : forall A (f : A -> bool) l, (forall x, In x l -> f x = true) -> filter f l = l.
Proof.
  intros A f l H. induction l as [|x l IH]; [reflexivity|]. cbn [filter]. rewrite H by now left. f_equal. apply IH. intros y Hy. apply H. now right.
Qed.

Lemma del_task_none : forall n c l, (forall t, In t l -> of_task n c t = false) -> del_task n c l = l.
Proof. intros n c l H. unfold del_task. apply filter_all. intros t Ht. now rewrite H. Qed.

Lemma find_split : forall n c l st, NoDup (pairs l) -> find_task n c l = Some st ->
    exists l1 l2, l = l1 ++ Task n c st :: l2 /\ (forall x, set_task n c x l = l1 ++ Task n c x :: l2) /\ del_task n c l = l1 ++ l2.
Proof.
  intros n c l st. induction l as [|t l IH]; intros Hd H; [discriminate|]. unfold find_task in H. cbn [find] in H.
  cbn [pairs map] in Hd. fold (pairs l) in Hd. inversion Hd as [|? ? Hn Hd']; subst. destruct (of_task n c t) eqn:E.
  - injection H as <-. pose proof E as E'. apply of_task_spec in E' as [<- <-]. exists [], l. cbn [app].
    pose proof (not_of_task _ _ _ Hn) as Ht. split; [now destruct t|]. split.
    + intros x. unfold set_task. cbn [map]. rewrite E. f_equal. now apply set_task_none.
    + unfold del_task. cbn [filter]. rewrite E. cbn [negb]. now apply del_task_none.
  - destruct (IH Hd' H) as (l1 & l2 & -> & H2 & H3). exists (t :: l1), l2. split; [reflexivity|]. split.
    + intros x. unfold set_task. cbn [map]. rewrite E. cbn [app]. f_equal. apply H2.
    + unfold del_task. cbn [filter]. rewrite E. cbn [negb app]. f_equal. apply H3.
Qed.

(** ** Calls in general *)

Record vwf (s : vstate) : Prop := {
  wf_sets : NoDup (keys (v_sets s));
  wf_notes : NoDup (keys (v_notes s));
  wf_usets : incl (keys (v_sets s)) (v_used s);
  wf_unotes : incl (keys (v_notes s)) (v_used s);
  wf_uacks : incl (v_acks s) (v_used s);
  wf_utasks : incl (map tk_call (v_tasks s)) (v_used s);
  wf_pairs : NoDup (pairs (v_tasks s));
  wf_disj : forall n, In n (keys (v_notes s)) -> ~ In n (v_acks s) /\ ~ In n (map tk_call (v_tasks s));
  wf_infos : NoDup (keys (v_infos s)) }.

Lemma targets_app : forall a b es p, targets (a ++ b) es p = targets a es p ++ targets b es p.
Proof. intros. unfold targets. apply flat_map_app. Qed.

Lemma NoDup_targets : forall infos es p, NoDup (keys infos) -> NoDup (map fst (targets infos es p)).
Proof.
  intros infos es p. induction infos as [|[c i] infos IH]; intros H; [constructor|]. inversion H as [|? ? Hn H']; subst.
  unfold targets. cbn [flat_map fst snd]. fold (targets infos es p). destruct (Bool.eqb _ _); auto. destruct (wanted i es); auto.
  cbn [app map fst]. constructor; auto. intros Hin. apply in_map_iff in Hin as ([k es'] & <- & Hk). cbn [fst] in Hn.
  apply Hn. eapply targets_infos; eauto.
Qed.

Lemma pairs_tasks : forall n (ts : list (nat * list event)), pairs (map (fun x => Task n (fst x) (TNew (snd x))) ts) = map (fun c => (n, c)) (map fst ts).
Proof. intros. unfold pairs. rewrite !map_map. reflexivity. Qed.

Lemma keys_nset_incl : forall A n (x : A) l, In n (keys l) -> keys (nset n x l) = keys l.
Proof. exact keys_nset_in. Qed.

Lemma NoDup_filter_map : forall A B (g : A -> B) f l, NoDup (map g l) -> NoDup (map g (filter f l)).
Proof.
  intros A B g f l. induction l as [|x l IH]; intros H; [constructor|]. cbn [filter map] in *. inversion H as [|? ? Hn H']; subst.
  destruct (f x); auto. cbn [map]. constructor; auto. intros Hin. apply Hn. apply in_map_iff in Hin as (y & E & Hy). apply filter_In in Hy as [Hy _].
  apply in_map_iff. eauto.
Qed.

Lemma pairs_set : forall n c x l, pairs (set_task n c x l) = pairs l.
Proof.
  intros n c x l. unfold pairs, set_task. rewrite map_map. apply map_ext. intros t. destruct (of_task n c t) eqn:E; auto.
  apply of_task_spec in E as [<- <-]. reflexivity.
Qed.

Lemma calls_set : forall n c x l, map tk_call (set_task n c x l) = map tk_call l.
Proof.
  intros n c x l. unfold set_task. rewrite map_map. apply map_ext. intros t. destruct (of_task n c t) eqn:E; auto.
  apply of_task_spec in E as [<- <-]. reflexivity.
Qed.

Lemma incl_filter_map : forall A B (g : A -> B) f l u, incl (map g l) u -> incl (map g (filter f l)) u.
Proof.
  intros A B g f l u H y Hy. apply in_map_iff in Hy as (x & <- & Hx). apply filter_In in Hx as [Hx _]. apply H. now apply in_map.
Qed.

Lemma vwf_step : forall sv tk s o s' l, vwf s -> NoDup (keys (v_infos s')) -> vexec sv tk s o = Some (s', l) -> vwf s'.
Proof.
  intros sv tk s o s' l W Hi H. destruct W.
  assert (App : forall x y : list nat, incl x y -> forall z, incl x (y ++ z)). { intros x y Hx z k Hk. apply in_or_app. auto. }
  assert (Fil : forall f k, In k (map tk_call (filter f (v_tasks s))) -> In k (map tk_call (v_tasks s))).
  { intros f k Hk. apply in_map_iff in Hk as (t & <- & Ht). apply filter_In in Ht as [Ht _]. now apply in_map. }
  destruct o; vstep H.
  all: try solve [constructor; auto].
  all: try solve [constructor; parts; auto].
  all: try solve [constructor; auto; parts; first [apply incl_filter_map; assumption|apply NoDup_filter_map; assumption|
         intros k Hk; destruct (wf_disj0 k Hk); split; auto; intros X; apply Fil in X; auto]].
  - assert (Hn : ~ In n (v_used s)) by (intros X; apply nmem_In in X; congruence).
    constructor; parts; auto; unfold keys; rewrite map_app; [apply NoDup_snoc; auto|].
    intros k Hk. apply in_app_or in Hk. apply in_or_app. destruct Hk as [Hk|Hk]; auto.
  - assert (Hk : In n (keys (v_sets s))) by (apply nget_keys; eauto). constructor; parts; auto; now rewrite keys_nset_in.
  - constructor; parts; auto; [now apply NoDup_ndel|]. intros k Hk. apply wf_usets0. eapply keys_ddel_incl; exact Hk.
  - assert (Hn : ~ In n (v_used s)) by (intros X; apply nmem_In in X; congruence).
    assert (Hc : forall k, In k (map tk_call (map (fun x => Task n (fst x) (TNew (snd x))) (p :: l0))) -> k = n).
    { intros k Hk. rewrite map_map in Hk. apply in_map_iff in Hk as (x & <- & _). reflexivity. }
    constructor; parts; auto.
    + intros k Hk. apply in_app_or in Hk. apply in_or_app. destruct Hk as [Hk|Hk]; auto.
    + rewrite map_app. intros k Hk. apply in_app_or in Hk. apply in_or_app. destruct Hk as [Hk|Hk]; auto. right. left. symmetry. now apply Hc.
    + change (Task n (fst p) (TNew (snd p)) :: map (fun x => Task n (fst x) (TNew (snd x))) l0) with (map (fun x => Task n (fst x) (TNew (snd x))) (p :: l0)).
      rewrite <- E0. unfold pairs. rewrite map_app. fold (pairs (v_tasks s)).
      fold (pairs (map (fun x => Task n (fst x) (TNew (snd x))) (targets (v_infos s) es persisted))). rewrite pairs_tasks.
      apply NoDup_app_intro; auto.
      * apply FinFun.Injective_map_NoDup; [intros x y [= ->]; reflexivity|]. now apply NoDup_targets.
      * intros [m c] H1 H2. apply in_map_iff in H2 as (c' & [= -> ->] & _). apply Hn, wf_utasks0.
        apply in_map_iff in H1 as (t & [= <- <-] & Ht). now apply in_map.
    + intros k Hk. destruct (wf_disj0 k Hk) as [D1 D2]. apply wf_unotes0 in Hk. rewrite map_app, !in_app_iff. split.
      * intros [X|[<-|[]]]; auto.
      * intros [X|X]; auto. apply Hc in X. now subst.
  - assert (Hn : ~ In n (v_used s)) by (intros X; apply nmem_In in X; congruence).
    constructor; parts; auto; unfold keys; rewrite map_app; [apply NoDup_snoc; auto| |].
    + intros k Hk. apply in_app_or in Hk. apply in_or_app. destruct Hk as [Hk|Hk]; auto.
    + intros k Hk. apply in_app_or in Hk. destruct Hk as [Hk|[<-|[]]]; [now apply wf_disj0|]. split; intros X; apply Hn; [now apply wf_uacks0|now apply wf_utasks0].
  - assert (Hk : In n (keys (v_notes s))) by (apply nget_keys; eauto). constructor; parts; auto; now rewrite keys_nset_in.
  - constructor; parts; auto; [now rewrite calls_set|now rewrite pairs_set|]. now rewrite calls_set.
  - constructor; parts; auto; [now rewrite calls_set|now rewrite pairs_set|]. now rewrite calls_set.
  - constructor; parts; auto; [now apply NoDup_ndel| |].
    + intros k Hk. apply wf_unotes0. eapply keys_ddel_incl; exact Hk.
    + intros k Hk. apply wf_disj0. eapply keys_ddel_incl; exact Hk.
  - constructor; parts; auto.
    + intros k Hk. apply filter_In in Hk as [Hk _]. auto.
    + intros k Hk. destruct (wf_disj0 k Hk). split; auto. intros X. apply filter_In in X as [X _]. auto.
  - constructor; parts; auto; try now apply NoDup_ndel.
    + intros k Hk. apply wf_usets0. eapply keys_ddel_incl; exact Hk.
    + intros k Hk. apply wf_unotes0. eapply keys_ddel_incl; exact Hk.
    + intros k Hk. apply filter_In in Hk as [Hk _]. auto.
    + intros k Hk. assert (Hk' : In k (keys (v_notes s))) by (eapply keys_ddel_incl; exact Hk). destruct (wf_disj0 k Hk'). split; auto.
      intros X. apply filter_In in X as [X _]. auto.
Qed.

Lemma vwf_run : forall sv tk tr s, server_run sv tk tr s -> vwf s.
Proof.
  intros sv tk tr s H. pose proof (vbook_run _ _ _ _ H) as B. unfold server_run in H. remember vstart as s0 eqn:E0. induction H; subst.
  - constructor; cbn; try apply NoDup_nil; try (intros k []); intros n [].
  - eapply vwf_step; [apply IHvruns; auto| |eassumption].
    + eapply vbook_run. exact H.
    + apply B.
Qed.

(** ** One call of [notify_events] *)

Definition tnew (n : nat) (l : list task) : list (nat * list event) :=
  flat_map (fun t => if Nat.eqb (tk_call t) n then match tk_state t with TNew es => [(tk_conn t, es)] | _ => [] end else []) l.

(** What is left to be sent. *)
Definition pend (n : nat) (s : vstate) : list (nat * list event) :=
  match nget n (v_notes s) with Some ts => ts | None => [] end ++ tnew n (v_tasks s).

Lemma tnew_app : forall n a b, tnew n (a ++ b) = tnew n a ++ tnew n b.
Proof. intros. apply flat_map_app. Qed.

Lemma tnew_filter : forall n f l, (forall t, In t l -> f t = false -> forall es, tk_call t = n -> tk_state t <> TNew es) -> tnew n (filter f l) = tnew n l.
Proof.
  intros n f l H. induction l as [|t l IH]; [reflexivity|]. cbn [filter]. assert (IH' : tnew n (filter f l) = tnew n l). { apply IH. intros; eapply H; eauto. now right. }
  destruct (f t) eqn:E.
  - unfold tnew in *. cbn [flat_map]. now rewrite IH'.
  - rewrite IH'. unfold tnew at 2. cbn [flat_map]. fold (tnew n l). destruct (Nat.eqb_spec (tk_call t) n) as [Ht|]; auto.
    destruct (tk_state t) eqn:Es; auto. destruct (H t (or_introl eq_refl) E es Ht Es).
Qed.

Lemma tnew_other : forall n m (ts : list (nat * list event)), n <> m -> tnew n (map (fun x => Task m (fst x) (TNew (snd x))) ts) = [].
Proof.
  intros n m ts H. induction ts as [|x ts IH]; [reflexivity|]. unfold tnew in *. cbn [map flat_map tk_call]. rewrite IH.
  destruct (Nat.eqb_spec m n); [congruence|reflexivity].
Qed.

Lemma tnew_own : forall n (ts : list (nat * list event)), tnew n (map (fun x => Task n (fst x) (TNew (snd x))) ts) = ts.
Proof.
  intros n ts. induction ts as [|[c es] ts IH]; [reflexivity|]. unfold tnew in *. cbn [map flat_map tk_call tk_state tk_conn fst snd]. rewrite IH.
  now rewrite Nat.eqb_refl.
Qed.

Lemma tnew_nil : forall n l, (forall t, In t l -> tk_call t <> n) -> tnew n l = [].
Proof.
  intros n l H. induction l as [|t l IH]; [reflexivity|]. unfold tnew in *. cbn [flat_map]. rewrite IH by (intros; apply H; now right).
  destruct (Nat.eqb_spec (tk_call t) n) as [E|]; auto. destruct (H t); auto. now left.
Qed.

(** Messages of the call in one step. *)
Definition note_in (n : nat) (o : vop) (l : list vout) : list (nat * list event * bool) := notes n [(o, l)].
Lemma notes_snoc : forall n tr o l, notes n (tr ++ [(o, l)]) = notes n tr ++ note_in n o l.
Proof. intros. unfold notes, note_in. now rewrite flat_map_app. Qed.

Inductive nstep (n : nat) (s s' : vstate) (o : vop) (l : list vout) : Prop :=
| ns_same : pend n s' = pend n s -> nget n (v_notes s') = nget n (v_notes s) -> (In n (v_acks s') <-> In n (v_acks s)) ->
    note_in n o l = [] -> ~ In (Returned n) l -> o <> VGiveUp n -> nstep n s s' o l
| ns_send : forall x y c es last, pend n s = x ++ (c, es) :: y -> pend n s' = x ++ y ->
    is_up s c = true /\ note_in n o l = [(c, es, last)] \/ is_up s c = false /\ note_in n o l = [] \/ (exists l', In (VTaskCancel n c, l') [(o, l)]) /\ note_in n o l = [] ->
    last = false /\ nget n (v_notes s') = nget n (v_notes s) /\ In n (map tk_call (v_tasks s)) \/ last = true /\ nget n (v_notes s) <> None /\ nget n (v_notes s') <> None ->
    (In n (v_acks s') <-> In n (v_acks s)) -> ~ In (Returned n) l -> o <> VGiveUp n -> nstep n s s' o l
| ns_return : pend n s = [] -> pend n s' = [] -> nget n (v_notes s') = None -> ~ In n (v_acks s') -> note_in n o l = [] -> l = [Returned n] ->
    nget n (v_notes s) <> None \/ In n (v_acks s) -> o <> VGiveUp n -> nstep n s s' o l
| ns_giveup : o = VGiveUp n -> pend n s' = tnew n (v_tasks s) -> nget n (v_notes s') = None -> ~ In n (v_acks s') -> l = [] -> nstep n s s' o l.

Lemma vexec_nstep : forall sv tk s o s' l n, vwf s -> vexec sv tk s o = Some (s', l) -> In n (v_used s) -> nget n (v_sets s) = None -> nstep n s s' o l.
Proof.
  intros sv tk s o s' l n W H Hu Hs.
  assert (Same : forall x, v_notes x = v_notes s -> tnew n (v_tasks x) = tnew n (v_tasks s) -> pend n x = pend n s).
  { intros x E1 E2. unfold pend. now rewrite E1, E2. }
  assert (Fresh : forall m, nmem m (v_used s) = false -> m <> n). { intros m E ->. apply nmem_In in Hu. congruence. }
  assert (Wt : tnew n (filter (fun t => match tk_state t with TWait _ => false | _ => true end) (v_tasks s)) = tnew n (v_tasks s)).
  { apply tnew_filter. intros t _ Hf es _ X. rewrite X in Hf. discriminate. }
  destruct o; vstep H.
  all: try solve [apply ns_same; [apply Same; [reflexivity|first [reflexivity|exact Wt]]|reflexivity|reflexivity|reflexivity|cbn [In]; intuition congruence|discriminate]].
  - apply ns_same; [apply Same; [reflexivity|]|reflexivity|reflexivity|reflexivity|intros []|discriminate].
    apply tnew_filter. intros t _ Hf es _ X. rewrite X, andb_false_r in Hf. discriminate.
  - apply Fresh in E. apply ns_same; [apply Same; reflexivity|reflexivity|reflexivity|reflexivity|intros [[= X]|[]]; congruence|discriminate].
  - apply ns_same; [apply Same; reflexivity|reflexivity|reflexivity|reflexivity| |discriminate]. unfold send. destruct (is_up s n1); intros []; try discriminate; auto.
  - apply Fresh in E. apply ns_same; [apply Same; reflexivity|reflexivity|reflexivity|reflexivity|intros [[= X]|[]]; congruence|discriminate].
  - apply Fresh in E. apply ns_same; [|reflexivity| |reflexivity|intros []|discriminate].
    + apply Same; [reflexivity|]. parts.
      change (Task n0 (fst p) (TNew (snd p)) :: map (fun x => Task n0 (fst x) (TNew (snd x))) l0) with (map (fun x => Task n0 (fst x) (TNew (snd x))) (p :: l0)).
      rewrite tnew_app, tnew_other by congruence. apply app_nil_r.
    + parts. rewrite in_app_iff. cbn [In]. intuition congruence.
  - apply Fresh in E. assert (Hg : nget n (v_notes s ++ [(n0, p :: l0)]) = nget n (v_notes s)).
    { rewrite nget_snoc. destruct (nget n (v_notes s)); auto. destruct (Nat.eqb_spec n n0); congruence. }
    apply ns_same; [|exact Hg|reflexivity|reflexivity|intros []|discriminate]. unfold pend. parts. now rewrite Hg.
  - destruct (Nat.eq_dec n0 n) as [->|Hn].
    + assert (Hg : nget n (nset n l1 (v_notes s)) = Some l1) by now rewrite nget_nset, Nat.eqb_refl.
      apply (ns_send _ _ _ _ _ [] (l1 ++ tnew n (v_tasks s)) n1 l2 true).
      * unfold pend. rewrite E. reflexivity.
      * unfold pend. parts. rewrite Hg. reflexivity.
      * unfold note_in, notes, send. cbn [flat_map fst snd step_of]. rewrite Nat.eqb_refl. destruct (is_up s n1); auto.
      * right. parts. rewrite Hg, E. repeat split; discriminate.
      * reflexivity.
      * unfold send. destruct (is_up s n1); intros []; try discriminate; auto.
      * discriminate.
    + assert (Hg : nget n (nset n0 l1 (v_notes s)) = nget n (v_notes s)) by (rewrite nget_nset; destruct (Nat.eqb_spec n n0); congruence).
      apply ns_same; [|exact Hg|reflexivity| | |discriminate].
      * unfold pend. parts. now rewrite Hg.
      * unfold note_in, notes. cbn [flat_map fst snd step_of]. apply Nat.eqb_neq in Hn. now rewrite Hn.
      * unfold send. destruct (is_up s n1); intros []; try discriminate; auto.
  - destruct (find_split _ _ _ _ (wf_pairs _ W) E) as (x & y & H1 & H2 & H3). destruct (Nat.eq_dec n0 n) as [->|Hn].
    + apply (ns_send _ _ _ _ _ (match nget n (v_notes s) with Some ts => ts | None => [] end ++ tnew n x) (tnew n y) c es false).
      * unfold pend. rewrite H1, tnew_app. unfold tnew at 2. cbn [flat_map tk_call tk_state tk_conn]. rewrite Nat.eqb_refl. fold (tnew n y). cbn [app].
        now rewrite <- app_assoc.
      * unfold pend. parts. rewrite H2, tnew_app. unfold tnew at 2. cbn [flat_map tk_call tk_state]. rewrite Nat.eqb_refl. fold (tnew n y). cbn [app].
        now rewrite <- app_assoc.
      * left. split; auto. unfold note_in, notes. cbn [flat_map fst snd step_of]. now rewrite Nat.eqb_refl.
      * left. repeat split. rewrite H1. rewrite map_app. apply in_or_app. right. now left.
      * reflexivity.
      * intros [?|[]]; discriminate.
      * discriminate.
    + apply ns_same; [|reflexivity|reflexivity| |intros [?|[]]; discriminate|discriminate].
      * apply Same; [reflexivity|]. parts. rewrite H2, H1, !tnew_app. f_equal. unfold tnew. cbn [flat_map tk_call tk_state].
        apply Nat.eqb_neq in Hn. now rewrite Hn.
      * unfold note_in, notes. cbn [flat_map fst snd step_of]. apply Nat.eqb_neq in Hn. now rewrite Hn.
  - destruct (find_split _ _ _ _ (wf_pairs _ W) E) as (x & y & H1 & H2 & H3). destruct (Nat.eq_dec n0 n) as [->|Hn].
    + apply (ns_send _ _ _ _ _ (match nget n (v_notes s) with Some ts => ts | None => [] end ++ tnew n x) (tnew n y) c es false).
      * unfold pend. rewrite H1, tnew_app. unfold tnew at 2. cbn [flat_map tk_call tk_state tk_conn]. rewrite Nat.eqb_refl. fold (tnew n y). cbn [app].
        now rewrite <- app_assoc.
      * unfold pend. parts. rewrite H3, tnew_app. now rewrite <- app_assoc.
      * right. left. split; auto. unfold note_in, notes. cbn [flat_map fst snd step_of]. now rewrite Nat.eqb_refl.
      * left. repeat split. rewrite H1. rewrite map_app. apply in_or_app. right. now left.
      * reflexivity.
      * intros [].
      * discriminate.
    + apply ns_same; [|reflexivity|reflexivity| |intros []|discriminate].
      * apply Same; [reflexivity|]. parts. rewrite H3, H1, !tnew_app. f_equal. unfold tnew. cbn [flat_map tk_call tk_state].
        apply Nat.eqb_neq in Hn. now rewrite Hn.
      * unfold note_in, notes. cbn [flat_map fst snd step_of]. apply Nat.eqb_neq in Hn. now rewrite Hn.
  - destruct (find_split _ _ _ _ (wf_pairs _ W) E) as (x & y & H1 & H2 & H3).
    apply ns_same; [|reflexivity|reflexivity|reflexivity|intros []|discriminate]. apply Same; [reflexivity|]. parts.
    rewrite H2, H1, !tnew_app. reflexivity.
  - destruct (Nat.eq_dec n0 n) as [->|Hn].
    + assert (Hg : nget n (ndel n (v_notes s)) = None) by (rewrite nget_ndel by apply W; now rewrite Nat.eqb_refl).
      destruct (wf_disj _ W n) as [D1 D2]; [apply nget_keys; eauto|].
      assert (Ht : tnew n (v_tasks s) = []). { apply tnew_nil. intros t Ht X. apply D2. rewrite <- X. now apply in_map. }
      apply ns_return; [| |exact Hg|exact D1|reflexivity|reflexivity| |discriminate].
      * unfold pend. now rewrite E, Ht.
      * unfold pend. parts. now rewrite Hg, Ht.
      * left. congruence.
    + assert (Hg : nget n (ndel n0 (v_notes s)) = nget n (v_notes s)) by (rewrite nget_ndel by apply W; destruct (Nat.eqb_spec n n0); congruence).
      apply ns_same; [|exact Hg|reflexivity|reflexivity|intros [[= X]|[]]; congruence|discriminate]. unfold pend. parts. now rewrite Hg.
  - apply andb_true_iff in E0 as [E1 E2]. destruct (Nat.eq_dec n0 n) as [->|Hn].
    + assert (Ht : tnew n (v_tasks s) = []).
      { apply tnew_nil. intros t Ht X. rewrite forallb_forall in E2. apply E2 in Ht. rewrite X, Nat.eqb_refl in Ht. discriminate. }
      apply ns_return; [| | | |reflexivity|reflexivity| |discriminate].
      * unfold pend. now rewrite E, Ht.
      * unfold pend. parts. now rewrite E, Ht.
      * exact E.
      * parts. intros X. apply filter_In in X as [_ X]. rewrite Nat.eqb_refl in X. discriminate.
      * right. now apply nmem_In.
    + apply ns_same; [apply Same; reflexivity|reflexivity| |reflexivity|intros [[= X]|[]]; congruence|discriminate].
      parts. rewrite filter_In, negb_true_iff, Nat.eqb_neq. tauto.
  - destruct (Nat.eq_dec n0 n) as [->|Hn].
    + assert (Hg : nget n (ndel n (v_notes s)) = None) by (rewrite nget_ndel by apply W; now rewrite Nat.eqb_refl).
      apply ns_giveup; auto.
      * unfold pend. parts. now rewrite Hg.
      * parts. intros X. apply filter_In in X as [_ X]. rewrite Nat.eqb_refl in X. discriminate.
    + assert (Hg : nget n (ndel n0 (v_notes s)) = nget n (v_notes s)) by (rewrite nget_ndel by apply W; destruct (Nat.eqb_spec n n0); congruence).
      apply ns_same; [|exact Hg| |reflexivity|intros []|congruence].
      * unfold pend. parts. now rewrite Hg.
      * parts. rewrite filter_In, negb_true_iff, Nat.eqb_neq. tauto.
  - destruct (find_split _ _ _ _ (wf_pairs _ W) E0) as (x & y & H1 & H2 & H3). destruct (Nat.eq_dec n0 n) as [->|Hn].
    + destruct t as [es|cv|cv].
      * apply (ns_send _ _ _ _ _ (match nget n (v_notes s) with Some ts => ts | None => [] end ++ tnew n x) (tnew n y) c es false).
        -- unfold pend. rewrite H1, tnew_app. unfold tnew at 2. cbn [flat_map tk_call tk_state tk_conn]. rewrite Nat.eqb_refl. fold (tnew n y). cbn [app].
           now rewrite <- app_assoc.
        -- unfold pend. parts. rewrite H3, tnew_app. now rewrite <- app_assoc.
        -- right. right. split; [|reflexivity]. eexists. now left.
        -- left. repeat split. rewrite H1. rewrite map_app. apply in_or_app. right. now left.
        -- reflexivity.
        -- intros [].
        -- discriminate.
      * apply ns_same; [|reflexivity|reflexivity|reflexivity|intros []|discriminate].
        apply Same; [reflexivity|]. parts. rewrite H3, H1, !tnew_app. f_equal. unfold tnew. cbn [flat_map tk_call tk_state]. now destruct (Nat.eqb n n).
      * apply ns_same; [|reflexivity|reflexivity|reflexivity|intros []|discriminate].
        apply Same; [reflexivity|]. parts. rewrite H3, H1, !tnew_app. f_equal. unfold tnew. cbn [flat_map tk_call tk_state]. now destruct (Nat.eqb n n).
    + apply ns_same; [|reflexivity|reflexivity|reflexivity|intros []|discriminate].
      apply Same; [reflexivity|]. parts. rewrite H3, H1, !tnew_app. f_equal. unfold tnew. cbn [flat_map tk_call tk_state].
      apply Nat.eqb_neq in Hn. now rewrite Hn.
Qed.

(** Calls that are used up stay that way. *)
Lemma vexec_used : forall sv tk s o s' l n, vexec sv tk s o = Some (s', l) -> In n (v_used s) -> In n (v_used s').
Proof.
  intros sv tk s o s' l n H Hu. destruct o; vstep H; parts; auto; apply in_or_app; auto.
Qed.

Lemma vexec_no_sets : forall sv tk s o s' l n, vwf s -> vexec sv tk s o = Some (s', l) -> In n (v_used s) -> nget n (v_sets s) = None -> nget n (v_sets s') = None.
Proof.
  intros sv tk s o s' l n W H Hu Hs. destruct o; vstep H; parts; auto.
  - rewrite nget_snoc, Hs. destruct (Nat.eqb_spec n n0) as [->|]; auto. apply nmem_In in Hu. congruence.
  - rewrite nget_nset. destruct (Nat.eqb_spec n n0) as [->|]; auto. congruence.
  - rewrite nget_ndel by apply W. now destruct (Nat.eqb n n0).
  - rewrite nget_ndel by apply W. now destruct (Nat.eqb n n0).
Qed.

Lemma vexec_no_tasks : forall sv tk s o s' l n, vexec sv tk s o = Some (s', l) -> In n (v_used s) ->
    In n (map tk_call (v_tasks s')) -> In n (map tk_call (v_tasks s)).
Proof.
  intros sv tk s o s' l n H Hu Hn.
  assert (Fil : forall f, In n (map tk_call (filter f (v_tasks s))) -> In n (map tk_call (v_tasks s))).
  { intros f Hk. apply in_map_iff in Hk as (t & <- & Ht). apply filter_In in Ht as [Ht _]. now apply in_map. }
  destruct o; vstep H; auto; try solve [eapply Fil; exact Hn]; parts; try (rewrite calls_set in Hn; exact Hn).
  rewrite map_app in Hn. apply in_app_or in Hn as [Hn|Hn]; auto.
  change (Task n0 (fst p) (TNew (snd p)) :: map (fun x => Task n0 (fst x) (TNew (snd x))) l0) with (map (fun x => Task n0 (fst x) (TNew (snd x))) (p :: l0)) in Hn.
  rewrite map_map in Hn. apply in_map_iff in Hn as (x & Hx & _). cbn [tk_call] in Hx. subst. apply nmem_In in Hu. congruence.
Qed.
