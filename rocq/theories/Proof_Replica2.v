(** A remote seen without its former clients. *)
From Coq Require Import String Bool ZArith Arith Lia Sorted List.
From Verif Require Import Base Model_Types Proof_Order Proof_Lmdb3 Model_LmdbSys Model_Sync Spec_Sync Proof_Sync Proof_Sync2 Proof_Sync3 Proof_Sync4 Proof_Sync5 Proof_Sync6 Model_Replica Spec_Replica.
Import ListNotations.
Open Scope string_scope.
Open Scope list_scope.
Open Scope nat_scope.

(** ** The last id matters at the start of the synchronization only *)
Lemma yexec_any : forall sv l0 l1 s o, o <> YBegin -> yexec sv l0 s o = yexec sv l1 s o.
Proof. intros sv l0 l1 s o H. unfold yexec. destruct (y_phase s) eqn:E; destruct o; try reflexivity; exfalso; now apply H. Qed.

Ltac pcase H s := let X := fresh "X" in let Hp := fresh "Hp" in pose proof H as X; apply yexec_case in X as [Hp X]; inversion X; subst; clear X; turns s; proj.

Lemma phase_new : forall sv l0 s o s' l, yexec sv l0 s o = Some (s', l) -> y_phase s' = PNew -> y_phase s = PNew /\ o <> YBegin.
Proof.
  intros sv l0 s1 o s' l H. pcase H s1; intros E; try congruence; try (split; congruence).
Qed.
Lemma phase_any : forall sv l0 tr s, sync_run sv l0 tr s -> y_phase s = PNew -> forall l1, sync_run sv l1 tr s.
Proof.
  intros sv l0 tr s H. unfold sync_run in *. induction H as [s|s tr s1 o l s2 H IH Hx]; intros E l1; [constructor|].
  destruct (phase_new _ _ _ _ _ _ Hx E) as [E1 Hn]. econstructor; [apply IH; auto|]. now rewrite (yexec_any _ _ l0).
Qed.

(** ** The trace without the client *)
Definition deaf (i : yitem) : list yitem :=
  match fst i with
  | RCommit b => [(RCommit b, [])]
  | RClean j => [(RClean j, [])]
  | RNotify => [(RNotify, flat_map (fun x => match x with Sent b | Unsent b => [Unsent b] | _ => [] end) (snd i))]
  | _ => []
  end.
Definition alone (tr : list yitem) : list yitem := flat_map deaf tr.

Lemma alone_snoc : forall tr i, alone (tr ++ [i]) = alone tr ++ deaf i.
Proof. intros. unfold alone. rewrite flat_map_app. cbn. now rewrite app_nil_r. Qed.

Lemma alone_run : forall sv l0 l1 tr s, sync_run sv l0 tr s -> sync_run sv l1 (alone tr) (renew sv s).
Proof.
  intros sv l0 l1 tr s H. unfold sync_run in *. remember (ystart sv) as s0 eqn:E0. induction H as [s|s tr s1 o l s2 H IH Hx]; [subst; constructor|].
  specialize (IH E0). subst s. rewrite alone_snoc.
  assert (K : (deaf (o, l) = [] /\ renew sv s2 = renew sv s1) \/ exists o' l', deaf (o, l) = [(o', l')] /\ yexec sv l1 (renew sv s1) o' = Some (renew sv s2, l')).
  { pcase Hx s1; try (left; split; reflexivity); right; cbn [deaf fst snd flat_map app]; do 2 eexists; (split; [reflexivity|]);
      unfold yexec, renew; cbn [y_phase r_top r_lag r_up r_stored]; unfold y_remote; proj.
    - rewrite H0. reflexivity.
    - reflexivity.
    - rewrite H0. reflexivity.
    - rewrite H0. reflexivity. }
  destruct K as [[-> ->]|(o' & l' & -> & K)]; [now rewrite app_nil_r|]. econstructor; eauto.
Qed.

Lemma alone_commits : forall tr, commits (alone tr) = commits tr.
Proof.
  assert (A : forall a b, commits (a ++ b) = commits a ++ commits b) by (intros; unfold commits; apply flat_map_app).
  induction tr as [|[o l] tr IH]; [reflexivity|]. change (commits (deaf (o, l) ++ alone tr) = commits ([(o, l)] ++ tr)). rewrite !A, IH. f_equal. destruct o; reflexivity.
Qed.
Lemma alone_call : forall tr, call (alone tr) = call tr.
Proof. intros. unfold call. now rewrite alone_commits. Qed.
Lemma alone_removed : forall tr e, removed (alone tr) e <-> removed tr e.
Proof.
  intros tr e. unfold removed, alone. split.
  - intros (l & H). apply in_flat_map in H as ([o l'] & H & H1). destruct o; cbn in H1; try (now destruct H1); destruct H1 as [H1|[]]; try discriminate. injection H1 as -> <-. eauto.
  - intros (l & H). exists []. apply in_flat_map. exists (RClean (ev_id e), l). split; auto. now left.
Qed.
Lemma alone_kept : forall tr e, kept (alone tr) e <-> kept tr e.
Proof. intros. unfold kept, persisted. now rewrite alone_commits, alone_removed. Qed.
Lemma alone_outs : forall tr x, In x (youts (alone tr)) -> exists b, x = Unsent b.
Proof.
  intros tr x H. unfold youts, alone in H. apply in_flat_map in H as (i & H & H1). apply in_flat_map in H as ([o l] & _ & H).
  destruct o; cbn in H; try (now destruct H); destruct H as [<-|[]]; cbn in H1; try (now destruct H1).
  apply in_flat_map in H1 as (y & _ & H1). destruct y; try (now destruct H1); destruct H1 as [<-|[]]; eauto.
Qed.

(** A remote whose batches were notified to nobody. *)
Definition lag_of (tr : list yitem) : list (list event) := skipn (length (unsent tr ++ sent tr)) (map batch (commits tr)).
Definition relag (tr : list yitem) : list yitem := alone tr ++ map (fun b => (RNotify, [Unsent b])) (lag_of tr).

Lemma lag_of_run : forall sv l0 tr s, sync_run sv l0 tr s -> lag_of tr = r_lag s.
Proof.
  intros sv l0 tr s H. unfold lag_of. rewrite (n_all _ _ _ (ynote_run _ _ _ _ H)), app_assoc, skipn_app, skipn_all, Nat.sub_diag. reflexivity.
Qed.
Lemma notify_all : forall sv l1 lag s0 tr s, yruns sv l1 s0 tr s -> r_lag s = lag -> r_up s = false -> y_phase s = PNew ->
    yruns sv l1 s0 (tr ++ map (fun b => (RNotify, [Unsent b])) lag)
      (y_remote s (r_stored s) (r_top s) [] (r_up s) (r_req s) (r_resp s) (r_chan s)).
Proof.
  intros sv l1. induction lag as [|b lag IH]; intros s0 tr s H E U P.
  - cbn [map]. rewrite app_nil_r. replace (y_remote s (r_stored s) (r_top s) [] (r_up s) (r_req s) (r_resp s) (r_chan s)) with s; [exact H|]. destruct s. cbn in E. subst. reflexivity.
  - set (s1 := y_remote s (r_stored s) (r_top s) lag (r_up s) (r_req s) (r_resp s) (r_chan s)).
    assert (H1 : yruns sv l1 s0 (tr ++ [(RNotify, [Unsent b])]) s1).
    { econstructor; [exact H|]. unfold yexec. rewrite P, E, U. unfold s1. rewrite U. reflexivity. }
    specialize (IH s0 _ s1 H1 eq_refl U P). cbn [map]. rewrite <- app_assoc in IH. exact IH.
Qed.
Lemma relag_run : forall sv l0 l1 tr s, sync_run sv l0 tr s -> sync_run sv l1 (relag tr) (restarted sv (r_top s) s).
Proof.
  intros sv l0 l1 tr s H. unfold relag. rewrite (lag_of_run _ _ _ _ H). pose proof (alone_run _ _ l1 _ _ H) as A.
  exact (notify_all sv l1 (r_lag s) _ _ _ A eq_refl eq_refl eq_refl).
Qed.
Lemma relag_commits : forall tr, commits (relag tr) = commits tr.
Proof.
  intros tr. unfold relag, commits. rewrite flat_map_app. fold (commits (alone tr)). rewrite alone_commits.
  replace (flat_map _ (map _ (lag_of tr))) with (@nil (list (event * bool))); [now rewrite app_nil_r|]. induction (lag_of tr); auto.
Qed.
Lemma relag_call : forall tr, call (relag tr) = call tr.
Proof. intros. unfold call. now rewrite relag_commits. Qed.
Lemma relag_removed : forall tr e, removed (relag tr) e <-> removed tr e.
Proof.
  intros tr e. rewrite <- (alone_removed tr e). unfold removed, relag. split; intros (l & H).
  - apply in_app_or in H as [H|H]; [eauto|]. apply in_map_iff in H as (b & H & _). discriminate.
  - exists l. apply in_or_app. auto.
Qed.
Lemma relag_kept : forall tr e, kept (relag tr) e <-> kept tr e.
Proof. intros. unfold kept, persisted. now rewrite relag_commits, relag_removed. Qed.
Lemma relag_outs : forall tr x, In x (youts (relag tr)) -> exists b, x = Unsent b.
Proof.
  intros tr x H. unfold youts, relag in H. rewrite flat_map_app in H. apply in_app_or in H as [H|H]; [now apply alone_outs in H|].
  apply in_flat_map in H as (i & H1 & H2). apply in_map_iff in H1 as (b & <- & _). destruct H2 as [<-|[]]. eauto.
Qed.

(** A trace in which nothing happens to a client. *)
Definition mute (tr : list yitem) : Prop := forall x, In x (youts tr) -> exists b, x = Unsent b.
Lemma mute_given : forall tr, mute tr -> given tr = [].
Proof.
  intros tr H. unfold mute, given in *. induction (youts tr) as [|x l IH]; [reflexivity|]. cbn [flat_map].
  rewrite IH by (intros; apply H; now right). destruct (H x) as (b & ->); [now left|]. reflexivity.
Qed.
Lemma mute_told : forall tr, mute tr -> told tr = [].
Proof.
  intros tr H. unfold mute, told in *. induction (youts tr) as [|x l IH]; [reflexivity|]. cbn [flat_map].
  rewrite IH by (intros; apply H; now right). destruct (H x) as (b & ->); [now left|]. reflexivity.
Qed.
Lemma mute_answer : forall tr i q, mute tr -> In i tr -> ~ In (Answered q) (snd i).
Proof.
  intros tr i q M H H1. destruct (M (Answered q)) as (b & X); [|discriminate]. unfold youts. apply in_flat_map. eauto.
Qed.

(** The last id of the remote. *)
Lemma last_id_app' : forall i a b, last_id i (a ++ b) = last_id (last_id i a) b.
Proof. intros. unfold last_id. rewrite rev_app_distr. destruct (rev b); reflexivity. Qed.
Lemma top_last : forall sv l0 tr s, sync_run sv l0 tr s -> r_top s = last_id (Eid sv 0 0) (call tr).
Proof.
  intros sv l0 tr s H. unfold sync_run in H. remember (ystart sv) as s0 eqn:E0. induction H as [s|s tr s1 o l s2 H IH Hx]; [subst; reflexivity|].
  specialize (IH E0). rewrite call_snoc, last_id_app', <- IH.
  pcase Hx s1; try reflexivity.
Qed.

(** ** The view of the current connection *)
Definition view1 (T : list yitem) (x : rstep) : list yitem := match x with RSync i _ => T ++ [i] | RLocal _ => T | RAgain => alone T | RRestart => relag T end.
Definition viewed (tr : list rstep) : list yitem := fold_left view1 tr [].
Lemma viewed_snoc : forall tr x, viewed (tr ++ [x]) = view1 (viewed tr) x.
Proof. intros. unfold viewed. now rewrite fold_left_app. Qed.
Lemma sync_part_snoc : forall tr x, sync_part (tr ++ [x]) = sync_part tr ++ match x with RSync i _ => [i] | _ => [] end.
Proof. intros. unfold sync_part. rewrite flat_map_app. cbn. now rewrite app_nil_r. Qed.
Lemma local_part_snoc : forall tr x, local_part (tr ++ [x]) = local_part tr ++ match x with RSync _ xs => xs | RLocal x => [x] | RAgain | RRestart => [] end.
Proof. intros. unfold local_part. rewrite flat_map_app. cbn. now rewrite app_nil_r. Qed.

Lemma viewed_commits : forall tr, commits (viewed tr) = commits (sync_part tr).
Proof.
  induction tr as [|x tr IH] using rev_ind; [reflexivity|]. rewrite viewed_snoc, sync_part_snoc. destruct x as [[o l] xs|x| |]; cbn [view1].
  - now rewrite !commits_snoc, IH.
  - now rewrite app_nil_r.
  - now rewrite app_nil_r, alone_commits.
  - now rewrite app_nil_r, relag_commits.
Qed.
Lemma viewed_removed : forall tr e, removed (viewed tr) e <-> removed (sync_part tr) e.
Proof.
  intros tr e. induction tr as [|x tr IH] using rev_ind; [reflexivity|]. rewrite viewed_snoc, sync_part_snoc. destruct x as [[o l] xs|x| |]; cbn [view1].
  - unfold removed in *. split; intros (j & Hj); apply in_app_or in Hj as [Hj|Hj].
    + destruct IH as [IH _]. destruct IH as (k & Hk); eauto. exists k. apply in_or_app. auto.
    + exists j. apply in_or_app. auto.
    + destruct IH as [_ IH]. destruct IH as (k & Hk); eauto. exists k. apply in_or_app. auto.
    + exists j. apply in_or_app. auto.
  - now rewrite app_nil_r.
  - rewrite app_nil_r, alone_removed. exact IH.
  - rewrite app_nil_r, relag_removed. exact IH.
Qed.
Lemma viewed_kept : forall tr e, kept (viewed tr) e <-> kept (sync_part tr) e.
Proof. intros. unfold kept, persisted. now rewrite viewed_commits, viewed_removed. Qed.
Lemma viewed_call : forall tr, call (viewed tr) = remote_events tr.
Proof. intros. unfold call, remote_events. now rewrite viewed_commits. Qed.

Lemma current_snoc : forall tr x, current (tr ++ [x]) = if again x then [] else current tr ++ [x].
Proof.
  intros tr x. induction tr as [|y tr IH].
  - cbn. now destruct (again x).
  - cbn [app current existsb]. rewrite existsb_app. cbn [existsb]. rewrite orb_false_r. destruct (again x) eqn:E.
    + rewrite !orb_true_r. exact IH.
    + rewrite orb_false_r. destruct (again y || existsb again tr); [exact IH|reflexivity].
Qed.
Lemma viewed_current : forall tr, exists X, mute X /\ viewed tr = X ++ sync_part (current tr).
Proof.
  induction tr as [|x tr (X & M & IH)] using rev_ind; [exists []; split; [intros ? []|reflexivity]|]. rewrite viewed_snoc, current_snoc. destruct x as [i xs|x| |]; cbn [view1 again].
  - exists X. split; [exact M|]. rewrite sync_part_snoc, IH. now rewrite app_assoc.
  - exists X. split; [exact M|]. rewrite sync_part_snoc, IH. now rewrite app_nil_r.
  - exists (alone (viewed tr)). split; [exact (alone_outs _)|]. cbn. now rewrite app_nil_r.
  - exists (relag (viewed tr)). split; [exact (relag_outs _)|]. cbn. now rewrite app_nil_r.
Qed.
Lemma viewed_told : forall tr, told (viewed tr) = told (sync_part (current tr)).
Proof.
  intros tr. destruct (viewed_current tr) as (X & M & ->). unfold told, youts. rewrite flat_map_app, flat_map_app. change (flat_map _ (flat_map snd X)) with (told X). now rewrite mute_told.
Qed.
Lemma viewed_split : forall tr X i q Z, viewed tr = X ++ i :: Z -> In (Answered q) (snd i) ->
    exists a xs b, tr = a ++ RSync i xs :: b /\ existsb again b = false /\ viewed a = X.
Proof.
  intros tr. induction tr as [|x tr IH] using rev_ind; intros X i q Z E Hq; [destruct X; discriminate|]. rewrite viewed_snoc in E. destruct x as [j xs|x| |]; cbn [view1] in E.
  - destruct Z as [|z Z'] using rev_ind.
    + apply app_inj_tail in E as [E ->]. exists tr, xs, []. auto.
    + change (X ++ i :: Z' ++ [z]) with (X ++ (i :: Z') ++ [z]) in E. rewrite app_assoc in E. apply app_inj_tail in E as [E ->].
      destruct (IH _ _ _ _ E Hq) as (a & ys & b & -> & Hb & Ha). exists a, ys, (b ++ [RSync z xs]). rewrite <- app_assoc. split; [reflexivity|]. rewrite existsb_app, Hb. auto.
  - destruct (IH _ _ _ _ E Hq) as (a & ys & b & -> & Hb & Ha). exists a, ys, (b ++ [RLocal x]). rewrite <- app_assoc. split; [reflexivity|]. rewrite existsb_app, Hb. auto.
  - exfalso. eapply (mute_answer _ _ _ (alone_outs _)); [|exact Hq]. rewrite E. apply in_or_app. right. now left.
  - exfalso. eapply (mute_answer _ _ _ (relag_outs _)); [|exact Hq]. rewrite E. apply in_or_app. right. now left.
Qed.

(** ** Restarts of the remote *)
Lemma stored_snoc : forall tr x, stored_so_far (tr ++ [x]) = stored_so_far tr ++ match x with RSync (RCommit b, _) _ => map fst (filter snd b) | _ => [] end.
Proof. intros. unfold stored_so_far. rewrite flat_map_app. cbn [flat_map]. now rewrite app_nil_r. Qed.
Lemma stored_commits : forall tr, stored_so_far tr = map fst (filter snd (concat (commits (sync_part tr)))).
Proof.
  induction tr as [|x tr IH] using rev_ind; [reflexivity|]. rewrite stored_snoc, sync_part_snoc, IH. destruct x as [[o l] xs|x| |]; rewrite ?app_nil_r; try reflexivity.
  rewrite commits_snoc. destruct o; rewrite ?app_nil_r; try reflexivity. rewrite concat_app, filter_app, map_app. cbn [concat]. now rewrite app_nil_r.
Qed.
Lemma call_commits : forall tr, remote_events tr = map fst (concat (commits (sync_part tr))).
Proof. intros. unfold remote_events, batch. now rewrite concat_map. Qed.
Lemma stored_top_safe : forall sv tr, ends_stored tr -> stored_top sv tr = last_id (Eid sv 0 0) (remote_events tr).
Proof.
  intros sv tr H. unfold stored_top. rewrite stored_commits, call_commits. unfold ends_stored in H. destruct (concat (commits (sync_part tr))) as [|x l] using rev_ind; [reflexivity|].
  destruct x as [e ok]. rewrite (H l e ok eq_refl). rewrite filter_app, !map_app, !last_id_app'. reflexivity.
Qed.
