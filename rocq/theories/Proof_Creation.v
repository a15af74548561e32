(** Subscriptions: when creation fails (C01, C38). *)
From Coq Require Import String Bool List.
From Verif Require Import Base Model_Types Model_Subscription Spec_Subscription Spec_Creation Proof_Subscription.
Import ListNotations.
Open Scope string_scope.
Open Scope list_scope.

(** A '*' on the way along [path]. *)
Fixpoint hs (n : node) (path : etype) : bool :=
  let 'Node _ ch := n in
  smem "*" ch || match path with [] => false | h :: t => match sget h ch with Some c => hs c t | None => false end end.

Lemma add_None : forall q n, add_query_type n q = None <->
    exists p x r, q = p ++ "*" :: x :: r /\ ~ In "*" p /\ hs n p = false.
Proof.
  induction q as [|h q IH]; intros [l ch].
  - cbn [add_query_type]. split; [destruct (smem "*" ch); discriminate|]. intros (p & x & r & E & _). now destruct p.
  - cbn [add_query_type]. destruct (smem "*" ch) eqn:Es.
    { split; [discriminate|]. intros (p & x & r & _ & _ & H). destruct p; cbn [hs] in H; rewrite Es in H; discriminate. }
    destruct (String.eqb_spec h "*") as [->|Hh].
    + destruct q as [|x q]; split; try discriminate.
      * intros (p & x & r & E & Hp & _). destruct p as [|y p]; [discriminate|]. injection E as <- E. destruct Hp. now left.
      * intros _. exists [], x, q. cbn [app In hs]. rewrite Es. auto.
      * reflexivity.
    + set (c := match sget h ch with Some c => c | None => Node false [] end).
      specialize (IH c).
      assert (E : match add_query_type c q with Some child => Some (Node l (sset h child ch)) | None => None end = None <->
                  add_query_type c q = None) by (destruct (add_query_type c q); split; congruence).
      rewrite E, IH. clear E IH. split.
      * intros (p & x & r & -> & Hp & H). exists (h :: p), x, r. cbn [app]. split; auto. split; [intros [?|?]; auto; congruence|].
        cbn [hs]. rewrite Es. subst c. destruct (sget h ch); auto.
      * intros (p & x & r & E & Hp & H). destruct p as [|y p]; [injection E; congruence|]. injection E as <- ->.
        exists p, x, r. split; auto. split; [intros ?; apply Hp; now right|]. cbn [hs] in H. rewrite Es in H. cbn [orb] in H.
        subst c. destruct (sget h ch); auto. now destruct p.
Qed.

Lemma add_hs : forall q n n' path, add_query_type n q = Some n' -> ~ In "*" path ->
    (hs n' path = true <-> hs n path = true \/ exists p r, q = p ++ ["*"] /\ path = p ++ r).
Proof.
  induction q as [|h q IH]; intros [l ch] n' path H Hp; cbn [add_query_type] in H.
  - assert (E : hs n' path = hs (Node l ch) path) by (destruct (smem "*" ch); injection H as <-; destruct path; reflexivity).
    rewrite E. split; auto. intros [?|(p & r & X & _)]; auto. now destruct p.
  - destruct (smem "*" ch) eqn:Es.
    { injection H as <-. split; auto. intros _. destruct path; cbn [hs]; now rewrite Es. }
    destruct (String.eqb_spec h "*") as [->|Hh].
    + destruct q; [|discriminate]. injection H as <-. split.
      * intros _. right. now exists [], path.
      * intros _. destruct path; reflexivity.
    + set (c := match sget h ch with Some c => c | None => Node false [] end) in *.
      destruct (add_query_type c q) as [c'|] eqn:Ea; [|discriminate]. injection H as <-.
      assert (Es' : smem "*" (sset h c' ch) = false).
      { unfold smem, dmem in *. rewrite (dget_dset_other seqb_spec) by congruence. exact Es. }
      destruct path as [|y path].
      * cbn [hs]. rewrite Es, Es'. split; [discriminate|]. intros [?|(p & r & X & Y)]; [discriminate|].
        symmetry in Y. apply app_eq_nil in Y as [-> ->]. injection X. congruence.
      * cbn [hs]. rewrite Es, Es'. cbn [orb]. destruct (String.eqb_spec y h) as [->|Hy].
        -- rewrite (dget_dset_same seqb_spec). rewrite (IH _ _ path Ea) by (intros ?; apply Hp; now right).
           subst c. split.
           ++ intros [X|(p & r & -> & ->)]; [|right; now exists (h :: p), r].
              left. destruct (sget h ch); auto. destruct path; discriminate.
           ++ intros [X|(p & r & X & Y)].
              ** left. destruct (sget h ch); auto. discriminate.
              ** destruct p as [|z p]; [injection X; congruence|]. injection X as <- ->. injection Y as ->. right. now exists p, r.
        -- rewrite (dget_dset_other seqb_spec) by auto. split; auto. intros [X|(p & r & X & Y)]; auto.
           destruct p as [|z p]; [injection X; congruence|]. injection X as <- ->. injection Y as ->. congruence.
Qed.

Lemma app_star_inv : forall (p q : etype) x r s, ~ In x p -> ~ In x q -> p ++ x :: r = q ++ x :: s -> p = q /\ r = s.
Proof.
  induction p as [|a p IH]; intros [|b q] x r s Hp Hq E; cbn [app] in E.
  - injection E as ->. auto.
  - injection E as -> _. destruct Hq. now left.
  - injection E as -> _. destruct Hp. now left.
  - injection E as -> E. destruct (IH q x r s) as [-> ->]; auto; intros ?; [apply Hp|apply Hq]; now right.
Qed.

Lemma first_star : forall q : etype, In "*" q -> exists p r, q = p ++ "*" :: r /\ ~ In "*" p.
Proof.
  induction q as [|h q IH]; intros H; [easy|]. destruct (String.eqb_spec h "*") as [->|Hn].
  - exists [], q. auto.
  - destruct H as [?|H]; [congruence|]. destruct (IH H) as (p & r & -> & Hp). exists (h :: p), r. cbn. intuition.
Qed.

Lemma valid_starless : forall q p x r, valid_query q -> q = p ++ "*" :: x :: r -> False.
Proof. intros q p x r Hv E. specialize (Hv _ _ E). discriminate. Qed.

Lemma adds_None : forall qs n before, (forall path, ~ In "*" path -> (hs n path = true <-> exists p r, In (p ++ ["*"]) before /\ path = p ++ r)) ->
    ((exists n', add_query_types n qs = Some n') <->
     forall a q b, qs = a ++ q :: b -> valid_query q \/ shadowed (before ++ a) q).
Proof.
  induction qs as [|q qs IH]; intros n before Hb.
  - split; [|cbn; eauto]. intros _ a q b E. now destruct a.
  - cbn [add_query_types]. destruct (add_query_type n q) as [n'|] eqn:Ea.
    + assert (Hb' : forall path, ~ In "*" path -> (hs n' path = true <-> exists p r, In (p ++ ["*"]) (before ++ [q]) /\ path = p ++ r)).
      { intros path Hp. rewrite (add_hs _ _ _ _ Ea Hp), (Hb _ Hp). split.
        - intros [(p & r & H & ->)|(p & r & -> & ->)]; exists p, r; rewrite in_app_iff; cbn; auto.
        - intros (p & r & H & ->). apply in_app_or in H as [H|[H|[]]]; [left; eauto|right; eauto]. }
      rewrite (IH n' _ Hb'). split.
      * intros H a x b E. destruct a as [|y a]; cbn [app] in E; injection E as <- ->.
        -- rewrite app_nil_r. destruct (in_dec string_dec "*" q) as [Hi|Hi].
           2:{ left. intros p r ->. destruct Hi. apply in_or_app. right. now left. }
           destruct (first_star q Hi) as (p & r & -> & Hp). destruct r as [|z r].
           { left. intros p' r' E'. apply app_star_inv in E' as [_ <-]; auto. intros Hin.
             destruct (first_star p' Hin) as (u & v & -> & Hu). rewrite <- app_assoc in E'. cbn [app] in E'.
             apply app_star_inv in E' as [_ E']; auto. now destruct v. }
           right. destruct (hs n p) eqn:Eh.
           ++ apply (Hb p Hp) in Eh as (p0 & r0 & Hin & ->). exists p0, (r0 ++ "*" :: z :: r). rewrite app_assoc. split; auto.
              split; auto. intros ?. apply Hp. apply in_or_app. auto.
           ++ exfalso. assert (Hn : add_query_type n (p ++ "*" :: z :: r) = None) by (apply add_None; exists p, z, r; auto). congruence.
        -- specialize (H a x b eq_refl). rewrite <- app_assoc in H. exact H.
      * intros H a x b E. specialize (H (q :: a) x b). rewrite <- app_assoc. apply H. cbn [app]. now rewrite E.
    + split; [intros [? [=]]|]. intros H. exfalso. apply add_None in Ea as (p & x & r & -> & Hp & Hh).
      destruct (H [] _ qs eq_refl) as [Hv|(p' & r' & Hin & Hp' & E)]; [now apply (valid_starless _ _ _ _ Hv eq_refl)|].
      rewrite app_nil_r in Hin.
      assert (E' : exists s, p = p' ++ s).
      { clear - Hp' E. revert p E. induction p' as [|y p' IH]; intros p E; [now exists p|].
        destruct p as [|z p]; cbn [app] in E; injection E as E1 E2; subst; [destruct Hp'; now left|].
        destruct (IH ltac:(intros ?; apply Hp'; now right) p E2) as (s & ->). now exists s. }
      destruct E' as [s ->]. assert (X : hs n (p' ++ s) = true) by (apply Hb; eauto). congruence.
Qed.

Lemma final_C01_creation : forall qs, (exists n, py_create qs = Some n) <->
    forall a q b, qs = a ++ q :: b -> valid_query q \/ shadowed a q.
Proof.
  intros qs. apply (adds_None qs (Node false []) []). intros path Hp. destruct path; cbn; (split; [discriminate|]);
    intros (p & r & [] & _).
Qed.
