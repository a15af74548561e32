From Coq Require Import Bool Arith Lia List Sorted.
From Verif Require Import Model_Main Spec_Main Proof_Main.
Import ListNotations.
Open Scope list_scope.

(** ** What was created *)

Lemma began_app : forall o cur o', began cur (o ++ o') = began (began cur o) o'.
Proof. intros. unfold began. apply fold_left_app. Qed.

Lemma made_from_snoc : forall tr cur e o, made_from cur (tr ++ [(e, o)]) =
  made_from cur tr ++ match e, began cur (seen tr) with ECreated, Some r => [r] | _, _ => [] end.
Proof.
  induction tr as [|[e' o'] tr IH]; intros cur e o.
  - cbn. destruct e, cur; reflexivity.
  - cbn [app made_from]. rewrite !IH. unfold seen. cbn [flat_map snd]. fold (seen tr). rewrite began_app.
    destruct e'; try reflexivity. destruct cur; reflexivity.
Qed.

Lemma began_creates : forall l r, began None (map OCreate (l ++ [r])) = Some r.
Proof. intros l r. rewrite map_app, began_app. reflexivity. Qed.

Lemma made_created : forall cf tr s, mruns cf minit tr s -> made tr = m_created s.
Proof.
  intros cf. apply mruns_ind_r; [reflexivity|]. intros tr s e o s' R M H. unfold made in *. rewrite made_from_snoc, M.
  assert (I := minv_run _ _ _ R).
  destruct e; cbn [mstep] in H;
    try (rewrite app_nil_r;
         repeat match type of H with
         | context[match ?x with _ => _ end] => destruct x; try discriminate H
         end; unfold stop, next_creation, loop in H;
         repeat match type of H with
         | context[match ?x with _ => _ end] => destruct x; try discriminate H
         end; injection H as <- _; reflexivity).
  destruct I as [I _]. destruct (m_phase s) as [|r l| | | | | | | |] eqn:Ph; try discriminate. destruct (m_open s); [|discriminate].
  destruct I as [_ I]. rewrite I, began_creates. unfold next_creation in H.
  destruct l; [destruct (mc_monitor cf)|]; injection H as <- _; reflexivity.
Qed.

Lemma engine_monitor : forall cf tr s, mruns cf minit tr s -> m_engine s = true -> mc_monitor cf = true.
Proof.
  intros cf. apply (mruns_ind_r cf minit (fun tr s => m_engine s = true -> mc_monitor cf = true)); [discriminate|].
  intros tr s e o s' R M H. destruct (mc_monitor cf) eqn:Mc; auto. intros E. apply M. rewrite <- E. clear E M R.
  destruct e; cbn [mstep] in H; rewrite ?Mc in H; cbn [andb] in H; unfold stop, next_creation, loop in H;
    repeat match type of H with
    | context[match ?x with _ => _ end] => destruct x; try discriminate H
    end; try discriminate H; injection H as <- _; reflexivity.
Qed.

(** ** Shape of what is seen *)

Definition is_start (x : mout) : Prop := match x with OCreate _ | OReady _ => True | _ => False end.

Lemma base_start : forall cf c o, base cf c o -> forall x, In x o -> is_start x.
Proof.
  intros cf c o [(r & l & _ & ->)|(_ & n & _ & ->)] x I.
  - apply in_map_iff in I. destruct I as (y & <- & _). exact Logic.I.
  - apply in_app_or in I. destruct I as [I|I]; apply in_map_iff in I; destruct I as (y & <- & _); exact Logic.I.
Qed.

Lemma shape : forall cf tr s, mruns cf minit tr s -> exists o p q ov,
  seen tr = o ++ map action_out p ++ ov /\ (forall x, In x o -> is_start x) /\
  stops (m_created s) (m_engine s) = p ++ q /\ (ov = [] \/ ov = [OOver] /\ q = [] /\ m_phase s = POver) /\
  (p = [] \/ m_open s = false) /\ (m_phase s = POver -> ov = [OOver]) /\
  ((base cf (m_created s) o) \/ o = []).
Proof.
  intros cf tr s R. assert (I := minv_run _ _ _ R). assert (B := inv_base _ _ _ I). destruct I as (P & _).
  destruct (waits (m_phase s)) eqn:W.
  - specialize (B eq_refl). exists (seen tr), [], (stops (m_created s) (m_engine s)), [].
    split; [cbn; now rewrite app_nil_r|]. split; [now apply (base_start _ _ _ B)|]. split; auto. split; auto. split; auto.
    split; [intros E; rewrite E in W; discriminate|auto].
  - destruct (m_phase s) as [| | | | | | | |a l|] eqn:Ph; try discriminate.
    + destruct P as [P _]. exists [], [], (stops (m_created s) (m_engine s)), []. rewrite P. repeat split; auto. intros x []. discriminate.
    + destruct P as (Op & o & done & Bo & E & S). exists o, (done ++ [a]), l, []. rewrite app_nil_r. split; auto.
      split; [now apply (base_start _ _ _ Bo)|]. split; [now rewrite <- app_assoc|]. split; auto. split; auto. split; [discriminate|auto].
    + destruct P as (Op & o & Bo & S). exists o, (stops (m_created s) (m_engine s)), [], [OOver]. split; auto.
      split; [destruct Bo as [Bo|(_ & _ & ->)]; [now apply (base_start _ _ _ Bo)|intros x []]|]. split; [now rewrite app_nil_r|].
      split; [right; auto|]. split; auto. split; auto. destruct Bo as [Bo|(_ & _ & ->)]; auto.
Qed.

(** ** Order of closing *)

Definition closes (l : list action) : list res := flat_map (fun a => match a with AClose r => [r] | AFlush => [] end) l.
Definition oclosed (l : list mout) : list res := flat_map (fun a => match a with OClose r => [r] | _ => [] end) l.

Lemma oclosed_app : forall a b, oclosed (a ++ b) = oclosed a ++ oclosed b.
Proof. intros. apply flat_map_app. Qed.
Lemma oclosed_start : forall o, (forall x, In x o -> is_start x) -> oclosed o = [].
Proof.
  induction o as [|x o IH]; intros H; [reflexivity|].
  assert (X := H x (or_introl eq_refl)). assert (Y : oclosed o = []) by (apply IH; intros y I; apply H; now right).
  destruct x; try destruct X; exact Y.
Qed.
Lemma oclosed_actions : forall l, oclosed (map action_out l) = closes l.
Proof. induction l as [|[r|] l IH]; [reflexivity| |exact IH]. exact (f_equal (cons r) IH). Qed.
Lemma In_oclosed : forall r l, In r (oclosed l) <-> In (OClose r) l.
Proof.
  intros r l. unfold oclosed. rewrite in_flat_map. split.
  - intros (x & I & J). destruct x; try destruct J as [<-|[]]; auto; destruct J.
  - intros I. exists (OClose r). split; auto. now left.
Qed.
Lemma closes_app : forall a b, closes (a ++ b) = closes a ++ closes b.
Proof. intros. apply flat_map_app. Qed.

Lemma closes_close : forall r l, closes (AClose r :: l) = r :: closes l.
Proof. reflexivity. Qed.
Lemma closes_flush : forall l, closes (AFlush :: l) = closes l.
Proof. reflexivity. Qed.

Definition before (a b : res) : Prop := rank a < rank b.

Lemma stops_sorted : forall c e, StronglySorted before (closes (stops c e)).
Proof.
  intros c e. unfold stops.
  destruct (has REngine c), e, (has RMonitor c), (has RClient c), (has RAdminer c), (has RServer c), (has RBackend c);
    cbn; repeat (constructor; unfold before; cbn; try lia).
Qed.

Lemma SS_app_l : forall A (R : A -> A -> Prop) a b, StronglySorted R (a ++ b) -> StronglySorted R a.
Proof.
  intros A R a b. induction a as [|x a IH]; cbn; intros H; [constructor|]. inversion H as [|? ? H1 H2]; subst. constructor; auto.
  rewrite Forall_app in H2. tauto.
Qed.
Lemma SS_pair : forall A (R : A -> A -> Prop) a x b y c, StronglySorted R (a ++ x :: b ++ y :: c) -> R x y.
Proof.
  intros A R a x b y c. induction a as [|z a IH]; cbn; intros H; inversion H as [|? ? H1 H2]; subst; auto.
  rewrite Forall_forall in H2. apply H2. apply in_or_app. right. now left.
Qed.

Lemma closed_sorted : forall cf tr s, mruns cf minit tr s -> StronglySorted before (oclosed (seen tr)).
Proof.
  intros cf tr s R. destruct (shape _ _ _ R) as (o & p & q & ov & E & St & Sp & Ov & _). rewrite E, !oclosed_app, (oclosed_start o St), oclosed_actions.
  assert (X : oclosed ov = []) by (destruct Ov as [->|(-> & _)]; reflexivity). rewrite X, app_nil_r. cbn [app].
  assert (S := stops_sorted (m_created s) (m_engine s)). rewrite Sp, closes_app in S. now apply SS_app_l in S.
Qed.

Lemma final_C59_order : forall cf tr s a r b r' c, mruns cf minit tr s ->
  seen tr = a ++ OClose r :: b ++ OClose r' :: c -> rank r < rank r'.
Proof.
  intros cf tr s a r b r' c R E. assert (S := closed_sorted _ _ _ R). rewrite E, oclosed_app in S.
  change (oclosed (OClose r :: b ++ OClose r' :: c)) with (r :: oclosed (b ++ OClose r' :: c)) in S. rewrite oclosed_app in S.
  change (oclosed (OClose r' :: c)) with (r' :: oclosed c) in S. exact (SS_pair _ _ _ _ _ _ _ S).
Qed.

(** ** Everything is closed *)

Lemma In_stops : forall c e r, In r (closes (stops c e)) <->
  match r with REngine => (In REngine c \/ e = true) /\ ~ In RMonitor c | _ => In r c end.
Proof.
  intros c e r. destruct r; rewrite <- !has_In; unfold stops;
    destruct (has REngine c), e, (has RMonitor c), (has RClient c), (has RAdminer c), (has RServer c), (has RBackend c);
    cbn; intuition congruence.
Qed.

Lemma created_prefix : forall cf tr s, mruns cf minit tr s -> exists l, creations cf = m_created s ++ l.
Proof.
  intros cf tr s R. assert (I := minv_run _ _ _ R). destruct (waits (m_phase s)) eqn:W.
  - apply inv_base in I; auto. destruct I as [(r & l & E & _)|(E & _)]; [eexists; exact E|]. exists []. now rewrite app_nil_r.
  - destruct I as (P & _). destruct (m_phase s) as [| | | | | | | |a l|]; try discriminate.
    + destruct P as [_ ->]. exists (creations cf). reflexivity.
    + destruct P as (_ & o & d & [(r & k & E & _)|(E & _)] & _); [eexists; exact E|]. exists []. now rewrite app_nil_r.
    + destruct P as (_ & o & [[(r & k & E & _)|(E & _)]|(E & _)] & _); [eexists; exact E| |rewrite E; exists (creations cf); reflexivity]. exists []. now rewrite app_nil_r.
Qed.

Lemma created_kind : forall cf tr s r, mruns cf minit tr s -> In r (m_created s) -> In r (creations cf).
Proof. intros cf tr s r R I. destruct (created_prefix _ _ _ R) as (l & E). rewrite E. apply in_or_app. now left. Qed.

Lemma monitor_kind : forall cf, (In RMonitor (creations cf) <-> mc_monitor cf = true) /\ (In REngine (creations cf) <-> mc_monitor cf = false).
Proof. intros [[] []]; unfold creations; cbn; intuition congruence. Qed.

Lemma over_closes : forall cf tr s, mruns cf minit tr s -> In OOver (seen tr) ->
  oclosed (seen tr) = closes (stops (m_created s) (m_engine s)).
Proof.
  intros cf tr s R Ov. destruct (shape _ _ _ R) as (o & p & q & ov & E & St & Sp & Hv & _). rewrite E in *.
  destruct Hv as [->|(-> & -> & _)].
  - exfalso. rewrite app_nil_r in Ov. apply in_app_or in Ov. destruct Ov as [Ov|Ov]; [apply (St _ Ov)|].
    apply in_map_iff in Ov. destruct Ov as ([|] & X & _); discriminate.
  - rewrite !oclosed_app, (oclosed_start o St), oclosed_actions. cbn. now rewrite app_nil_r, Sp, app_nil_r.
Qed.

Lemma final_C59_all : forall cf tr s r, mruns cf minit tr s -> In OOver (seen tr) ->
  (r = REngine -> mc_monitor cf = false) -> (In (OClose r) (seen tr) <-> In r (made tr)).
Proof.
  intros cf tr s r R Ov C. rewrite <- In_oclosed, (over_closes _ _ _ R Ov), (made_created _ _ _ R), In_stops.
  destruct r; try reflexivity. specialize (C eq_refl). destruct (monitor_kind cf) as [Km _].
  split; [intros [[X|X] _]; auto|intros X; split; auto].
  - apply (engine_monitor _ _ _ R) in X. congruence.
  - intros Y. apply (created_kind _ _ _ _ R) in Y. apply Km in Y. congruence.
Qed.

(** An engine runner made for a monitor component that could not be created. *)
Lemma engine_seen : forall cf tr s, mruns cf minit tr s -> (exists o, In (EEngine, o) tr) <-> m_engine s = true.
Proof.
  intros cf. apply (mruns_ind_r cf minit (fun tr s => (exists o, In (EEngine, o) tr) <-> m_engine s = true)).
  { split; [intros (o & [])|discriminate]. }
  intros tr s e o s' R M H.
  assert (X : (exists o', In (EEngine, o') (tr ++ [(e, o)])) <-> (exists o', In (EEngine, o') tr) \/ e = EEngine).
  { split.
    - intros (o' & I). apply in_app_or in I. destruct I as [I|[[= <- <-]|[]]]; eauto.
    - intros [(o' & I)| ->]; eexists; apply in_or_app; [left; exact I|right; now left]. }
  rewrite X, M. clear X M R.
  destruct e; cbn [mstep] in H; unfold stop, next_creation, loop in H;
    repeat match type of H with
    | context[match ?x with _ => _ end] => destruct x; try discriminate H
    end; injection H as <- _; cbn; intuition congruence.
Qed.

Lemma final_C59_engine : forall cf tr s o, mruns cf minit tr s -> In OOver (seen tr) -> In (EEngine, o) tr ->
  In (OClose RMonitor) (seen tr) \/ In (OClose REngine) (seen tr).
Proof.
  intros cf tr s o R Ov I. rewrite <- !In_oclosed, (over_closes _ _ _ R Ov), !In_stops.
  assert (E : m_engine s = true) by (apply (engine_seen _ _ _ R); eauto).
  destruct (has RMonitor (m_created s)) eqn:H; [left; now apply has_In|right]. split; auto. intros X. apply has_In in X. congruence.
Qed.

(** ** Nothing is closed while it is used *)

Lemma SS_earlier : forall (a : list res) u b r, StronglySorted before (a ++ u :: b) -> In r (a ++ u :: b) -> rank r < rank u -> In r a.
Proof.
  induction a as [|x a IH]; cbn; intros u b r S I L.
  - exfalso. destruct I as [<-|I]; [lia|]. inversion S as [|? ? _ H]; subst. rewrite Forall_forall in H. apply H in I. unfold before in I. lia.
  - destruct I as [<-|I]; [now left|right]. inversion S as [|? ? S' _]; subst. eauto.
Qed.

Lemma uses_rank : forall r u, uses r u -> rank r < rank u.
Proof. intros [] []; cbn; intros H; try lia; exfalso; intuition discriminate. Qed.

Lemma final_C59_uses : forall cf tr s a u b r, mruns cf minit tr s -> seen tr = a ++ OClose u :: b ->
  uses r u -> In r (made tr) -> In (OClose r) a.
Proof.
  intros cf tr s a u b r R E U M. rewrite (made_created _ _ _ R) in M.
  destruct (shape _ _ _ R) as (o & p & q & ov & Es & St & Sp & Ov & _).
  assert (A : oclosed (seen tr) = closes p).
  { rewrite Es, !oclosed_app, (oclosed_start o St), oclosed_actions.
    assert (X : oclosed ov = []) by (destruct Ov as [->|(-> & _)]; reflexivity). now rewrite X, app_nil_r. }
  rewrite E, oclosed_app in A. change (oclosed (OClose u :: b)) with (u :: oclosed b) in A.
  assert (S := stops_sorted (m_created s) (m_engine s)). rewrite Sp, closes_app, <- A, <- app_assoc in S.
  assert (I : In r (closes (stops (m_created s) (m_engine s)))).
  { apply In_stops. destruct r; auto. split; auto. intros Y. destruct (monitor_kind cf) as [K1 K2].
    apply (created_kind _ _ _ _ R) in Y, M. apply K1 in Y. apply K2 in M. congruence. }
  rewrite Sp, closes_app, <- A, <- app_assoc in I. apply In_oclosed. eapply SS_earlier; [exact S|exact I|]. now apply uses_rank.
Qed.

(** ** Flushing *)

Lemma stops_flush : forall c e, In RServer c -> exists x y, stops c e = x ++ AFlush :: AClose RServer :: y /\
  ~ In (AClose RServer) x /\ ~ In AFlush x /\ ~ In AFlush y /\ ~ In (AClose RServer) y.
Proof.
  intros c e H. apply has_In in H. unfold stops. rewrite H. rewrite !app_assoc. rewrite <- app_assoc. cbn [app].
  eexists. eexists. split; [reflexivity|].
  repeat split; intros I; repeat (apply in_app_or in I; destruct I as [I|I]);
    match type of I with In _ (if ?b then _ else _) => destruct b end; cbn in I; intuition discriminate.
Qed.

Lemma app_in_prefix : forall A (p q x : list A) z y, p ++ q = x ++ z :: y -> In z p -> ~ In z x -> exists y', p = x ++ z :: y'.
Proof.
  induction p as [|a p IH]; intros q x z y E I N; [destruct I|]. destruct x as [|b x]; cbn [app] in E; injection E as <- E.
  - exists p. reflexivity.
  - destruct I as [->|I]; [exfalso; apply N; now left|]. destruct (IH _ _ _ _ E I) as (y' & ->); [intros K; apply N; now right|].
    exists y'. reflexivity.
Qed.

Lemma final_C59_flush : forall cf tr s, mruns cf minit tr s -> In (OClose RServer) (seen tr) ->
  exists a b, seen tr = a ++ OFlush :: OClose RServer :: b /\ ~ In (OClose RServer) a /\ ~ In (OClose RBackend) a /\ ~ In OFlush b.
Proof.
  intros cf tr s R I. destruct (shape _ _ _ R) as (o & p & q & ov & Es & St & Sp & Ov & _).
  assert (Ip : In (AClose RServer) p).
  { rewrite Es in I. apply in_app_or in I. destruct I as [I|I]; [exfalso; apply (St _ I)|]. apply in_app_or in I.
    destruct I as [I|I]; [|exfalso; destruct Ov as [->|(-> & _)]; cbn in I; intuition discriminate].
    apply in_map_iff in I. destruct I as ([r|] & X & I); cbn in X; [|discriminate]. injection X as ->. exact I. }
  assert (C : In RServer (m_created s)).
  { assert (J : In RServer (closes (stops (m_created s) (m_engine s)))).
    { rewrite Sp, closes_app. apply in_or_app. left. unfold closes. apply in_flat_map. exists (AClose RServer). split; auto. now left. }
    apply In_stops in J. exact J. }
  destruct (stops_flush _ (m_engine s) C) as (x & y & E & N1 & N2 & N3 & N4).
  rewrite Sp in E. change (x ++ AFlush :: AClose RServer :: y) with (x ++ [AFlush] ++ AClose RServer :: y) in E. rewrite app_assoc in E.
  destruct (app_in_prefix _ _ _ _ _ _ E Ip) as (y' & ->).
  { intros K. apply in_app_or in K. destruct K as [K|[K|[]]]; [auto|discriminate]. }
  rewrite <- app_assoc in E. injection (app_inv_head _ _ _ E) as Ey.
  assert (SS := stops_sorted (m_created s) (m_engine s)).
  rewrite Sp in SS. rewrite <- !app_assoc in Es, SS. cbn [app] in Es, SS.
  exists (o ++ map action_out x), (map action_out y' ++ ov). rewrite Es. split; [rewrite map_app, <- !app_assoc; reflexivity|].
  assert (Na : forall r, In (OClose r) (o ++ map action_out x) -> In (AClose r) x).
  { intros r K. apply in_app_or in K. destruct K as [K|K]; [exfalso; apply (St _ K)|]. apply in_map_iff in K.
    destruct K as ([r'|] & X & K); cbn in X; [|discriminate]. now injection X as ->. }
  split; [intros K; now apply Na in K|]. split.
  - intros K. apply Na in K. apply in_split in K. destruct K as (x1 & x2 & Ex). subst x.
    repeat (rewrite ?closes_app, ?closes_close, ?closes_flush, <- ?app_assoc in SS; cbn [app] in SS).
    apply SS_pair in SS. unfold before in SS. cbn in SS. lia.
  - intros K. apply in_app_or in K. destruct K as [K|K]; [|destruct Ov as [->|(-> & _)]; cbn in K; intuition discriminate].
    apply in_map_iff in K. destruct K as ([r'|] & X & K); cbn in X; [discriminate|]. apply N3. rewrite <- Ey. apply in_or_app. now left.
Qed.
