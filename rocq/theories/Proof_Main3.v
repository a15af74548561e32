From Coq Require Import Bool Arith Lia List Sorted.
From Verif Require Import Model_Main Spec_Main Proof_Main Proof_Main2.
Import ListNotations.
Open Scope list_scope.

Ltac msolve H :=
  cbn [mstep] in H; unfold stop, next_creation, loop in H;
  repeat match type of H with
  | context[match ?x with _ => _ end] => destruct x eqn:?; try discriminate H
  end; try discriminate H.

(** ** Starting *)

Lemma mruns_last : forall cf tr e o s, mruns cf minit (tr ++ [(e, o)]) s -> exists s1, mruns cf minit tr s1 /\ mstep cf s1 e = Some (s, o).
Proof.
  intros cf tr e o s R. apply mruns_split in R. destruct R as (s1 & R & L). exists s1. split; auto.
  inversion L as [|? ? ? ? ? ? H N]; subst. inversion N; subst. exact H.
Qed.

Lemma create_phase : forall cf s e s' o r, mstep cf s e = Some (s', o) -> In (OCreate r) o -> exists l, m_phase s' = PStart r l.
Proof.
  intros cf s e s' o r H I. destruct e; msolve H; injection H as <- <-; cbn in I |- *; try tauto;
    repeat (destruct I as [I|I]; [try discriminate I|try destruct I]); try (injection I as ->; eauto).
  all: match goal with x : action |- _ => destruct x; discriminate end.
Qed.

Lemma planned_creations : forall cf, planned cf = creations cf.
Proof. intros [[] []]; reflexivity. Qed.

Lemma final_C59_start : forall cf tr e o s r, mruns cf minit (tr ++ [(e, o)]) s -> In (OCreate r) o ->
  seen (tr ++ [(e, o)]) = map OCreate (made (tr ++ [(e, o)]) ++ [r]) /\
  exists l, planned cf = made (tr ++ [(e, o)]) ++ r :: l.
Proof.
  intros cf tr e o s r R I. rewrite (made_created _ _ _ R), planned_creations. assert (V := minv_run _ _ _ R).
  destruct (mruns_last _ _ _ _ _ R) as (s1 & _ & H). destruct (create_phase _ _ _ _ _ _ H I) as (l & P).
  destruct V as [V _]. rewrite P in V. destruct V as [V1 V2]. eauto.
Qed.

Lemma planned_needs : forall cf a r b u, planned cf = a ++ r :: b -> needs r u -> In u a.
Proof.
  intros [[] []] a r b u E N; cbn in E;
    repeat (destruct a as [|? a]; [injection E as <- E; unfold needs in N; cbn in N |- *; intuition (try congruence; subst; auto)|
      injection E as <- E]); try discriminate E.
  all: destruct a; discriminate E.
Qed.

Lemma final_C59_needs : forall cf tr e o s r u, mruns cf minit (tr ++ [(e, o)]) s -> In (OCreate r) o -> needs r u ->
  In u (made (tr ++ [(e, o)])).
Proof. intros cf tr e o s r u R I N. destruct (final_C59_start _ _ _ _ _ _ R I) as (_ & l & E). eapply planned_needs; eauto. Qed.

(** ** Nothing starts after a reason to stop *)

Lemma closed_quiet : forall cf tr s s', m_open s = false -> mruns cf s tr s' ->
  m_open s' = false /\ forall x, In x (seen tr) -> ~ is_start x.
Proof.
  intros cf tr. induction tr as [|[e o] tr IH]; intros s s' C R; inversion R as [|? ? ? s1 ? ? H N]; subst.
  - split; [exact C|intros x []].
  - assert (X : m_open s1 = false /\ forall x, In x o -> ~ is_start x).
    { clear IH R N. destruct e; msolve H; injection H as <- <-; cbn; (split; [try reflexivity; congruence|]);
        intros x I; cbn in I; try tauto; try congruence.
      all: repeat match goal with
        | A : (_ && _)%bool = true |- _ => apply andb_prop in A; destruct A
        end; try congruence.
      all: destruct I as [<-|[]]; try (match goal with a : action |- _ => destruct a end); cbn; auto. }
    destruct X as [C1 Q]. destruct (IH _ _ C1 N) as [C2 Q']. split; auto. intros x I. unfold seen in I. cbn [flat_map snd] in I.
    apply in_app_or in I. destruct I as [I|I]; auto.
Qed.

Lemma reason_closes : forall cf s e s' o, mstep cf s e = Some (s', o) ->
  e = EClose \/ e = ERaise \/ e = EBound \/ e = ECancel -> m_open s' = false /\ forall x, In x o -> ~ is_start x.
Proof.
  intros cf s e s' o H [-> | [-> | [-> | ->]]]; msolve H; injection H as <- <-; (split; [try reflexivity; auto|]); intros x I; cbn in I; try tauto;
    destruct I as [<-|[]]; try (match goal with a : action |- _ => destruct a end); cbn; auto.
Qed.

Lemma final_C59_quiet : forall cf tr e o tr' s x, mruns cf minit (tr ++ (e, o) :: tr') s ->
  e = EClose \/ e = ERaise \/ e = EBound \/ e = ECancel -> In x (o ++ seen tr') -> match x with OCreate _ | OReady _ => False | _ => True end.
Proof.
  intros cf tr e o tr' s x R E I. apply mruns_split in R. destruct R as (s1 & _ & R). inversion R as [|? ? ? s2 ? ? H N]; subst.
  destruct (reason_closes _ _ _ _ _ H E) as [C Q]. destruct (closed_quiet _ _ _ _ C N) as [_ Q'].
  assert (X : ~ is_start x) by (apply in_app_or in I; destruct I as [I|I]; auto). destruct x; cbn in X; tauto.
Qed.

(** ** Ending *)

Lemma reason_state : forall cf tr s, mruns cf minit tr s ->
  (must_end tr <-> (m_open s = false \/ m_ending s <> [])) /\ (waits (m_phase s) = false -> m_phase s = PNew \/ m_open s = false).
Proof.
  intros cf. apply (mruns_ind_r cf minit (fun tr s => (must_end tr <-> (m_open s = false \/ m_ending s <> [])) /\
     (waits (m_phase s) = false -> m_phase s = PNew \/ m_open s = false))).
  - cbn. split; [split|auto]; [intros (e & o & [] & _)|intros [H|H]; congruence].
  - intros tr s e o s' R [M W] H.
    assert (X : must_end (tr ++ [(e, o)]) <-> must_end tr \/ (e = EClose \/ e = ERaise \/ exists r, e = EEnding r)).
    { unfold must_end. split.
      - intros (e' & o' & I & K). apply in_app_or in I. destruct I as [I|[[= <- <-]|[]]]; eauto.
      - intros [(e' & o' & I & K)|K]; [exists e', o'; split; auto; apply in_or_app; now left|].
        exists e, o. split; auto. apply in_or_app. right. now left. }
    rewrite X, M. clear X R M. destruct e; msolve H; injection H as <- _; cbn in *;
      repeat match goal with A : (_ && _)%bool = true |- _ => apply andb_prop in A; destruct A end;
      rewrite ?negb_true_iff in *;
      repeat match goal with A : m_ending ?s = _ |- _ => rewrite A in * end;
      split; try (split; intros K); intuition (try congruence; eauto);
      try match goal with A : exists r, _ = _ |- _ => destruct A; congruence end.
    all: try (left; left; congruence).
    all: try (rewrite ?Heqp in *; cbn in *; intuition congruence).
    left. right. intros E. rewrite E in *. discriminate.
Qed.

Lemma final_C59_reason : forall cf tr s x, mruns cf minit tr s -> In x (seen tr) ->
  match x with OClose _ | OFlush | OOver => must_end tr | _ => True end.
Proof.
  intros cf tr s x R I. assert (X : ~ is_start x -> must_end tr).
  { intros N. apply (reason_state _ _ _ R). left. assert (V := minv_run _ _ _ R). destruct V as [V _].
    destruct (shape _ _ _ R) as (o & p & q & ov & E & St & Sp & Ov & Op & _). rewrite E in I.
    apply in_app_or in I. destruct I as [I|I]; [exfalso; apply N; auto|]. apply in_app_or in I. destruct I as [I|I].
    - destruct Op as [->|Op]; [destruct I|exact Op].
    - destruct Ov as [->|(_ & _ & Ph)]; [destruct I|]. rewrite Ph in V. tauto. }
  destruct x; cbn in X; auto.
Qed.

Lemma stop_ends : forall cf l s a, m_phase s = PStop a l -> exists tr s', mruns cf s tr s' /\
  (forall e o, In (e, o) tr -> own_step e) /\ In OOver (seen tr).
Proof.
  intros cf. induction l as [|b l IH]; intros s a P.
  - exists [(EDone, [OOver])], (with_phase s POver). split.
    + apply mr_step with (with_phase s POver); [cbn; now rewrite P|constructor].
    + split; [intros e o [[= <- <-]|[]]; unfold own_step; auto|now left].
  - destruct (IH (with_phase s (PStop b l)) b eq_refl) as (tr & s' & R & O & S).
    exists ((EDone, [action_out b]) :: tr), s'. split; [|split].
    + apply mr_step with (with_phase s (PStop b l)); auto. cbn. now rewrite P.
    + intros e o [[= <- <-]|I]; [unfold own_step; auto|eauto].
    + unfold seen. cbn [flat_map snd]. apply in_or_app. now right.
Qed.

Lemma cancel_ends : forall cf s, m_open s = false -> waits (m_phase s) = true \/ m_phase s = PNew -> exists tr s', mruns cf s tr s' /\
  (forall e o, In (e, o) tr -> own_step e) /\ In OOver (seen tr).
Proof.
  intros cf s C W. destruct W as [W|P].
  - assert (H : mstep cf s ECancel = Some (stop s)).
    { cbn. rewrite C. destruct (m_phase s); try discriminate W; reflexivity. }
    unfold stop in H. destruct (stops (m_created s) (m_engine s)) as [|a l].
    + eexists [(ECancel, [OOver])], _. split; [eapply mr_step; [exact H|constructor]|].
      split; [intros e o [[= <- <-]|[]]; unfold own_step; auto|now left].
    + match type of H with _ = Some (?s1, _) => destruct (stop_ends cf l s1 a eq_refl) as (tr & s' & R & O & S) end.
      eexists ((ECancel, [action_out a]) :: tr), s'. split; [eapply mr_step; [exact H|exact R]|]. split.
      * intros e o [[= <- <-]|I]; [unfold own_step; auto|eauto].
      * unfold seen. cbn [flat_map snd]. apply in_or_app. now right.
  - exists [(ECancel, [OOver])], (with_phase s POver). split; [eapply mr_step; [cbn; rewrite C, P; reflexivity|constructor]|].
    split; [intros e o [[= <- <-]|[]]; unfold own_step; auto|now left].
Qed.

Lemma final_C59_ends : forall cf tr s, mruns cf minit tr s -> must_end tr ->
  exists tr' s', mruns cf s tr' s' /\ (forall e o, In (e, o) tr' -> own_step e) /\ In OOver (seen (tr ++ tr')).
Proof.
  intros cf tr s R M. destruct (reason_state _ _ _ R) as [X W]. apply X in M.
  assert (V := minv_run _ _ _ R). destruct V as [V _].
  assert (D : waits (m_phase s) = true \/ m_phase s = PNew \/ (exists a l, m_phase s = PStop a l) \/ m_phase s = POver)
    by (destruct (m_phase s); cbn; auto; right; right; left; eauto).
  assert (Y : forall tr' s', mruns cf s tr' s' -> (forall e o, In (e, o) tr' -> own_step e) -> In OOver (seen tr') ->
    exists tr' s', mruns cf s tr' s' /\ (forall e o, In (e, o) tr' -> own_step e) /\ In OOver (seen (tr ++ tr'))).
  { intros tr' s' A B C. exists tr', s'. split; auto. split; auto. rewrite seen_app. apply in_or_app. now right. }
  destruct D as [D|[D|[(a & l & D)|D]]].
  3: { destruct (stop_ends cf l s a D) as (tr' & s' & A & B & C). eauto. }
  3: { rewrite D in V. destruct V as (_ & o & _ & E). exists [], s. split; [constructor|]. split; [intros e o' []|].
       rewrite app_nil_r, E. apply in_or_app. right. apply in_or_app. right. now left. }
  all: destruct (m_open s) eqn:Op;
    [|destruct (cancel_ends cf s Op) as (tr' & s' & A & B & C); [auto|eauto]].
  all: destruct M as [M|M]; [discriminate|].
  all: assert (H : mstep cf s EBound = Some (Mst (m_phase s) false (m_created s) (m_ending s) (m_engine s) (m_reset s) (m_token s), []))
    by (cbn; rewrite Op; destruct (m_ending s); [congruence|reflexivity]).
  all: match type of H with _ = Some (?s1, _) => destruct (cancel_ends cf s1 eq_refl) as (tr' & s' & A & B & C); [cbn; auto|] end.
  all: apply (Y ((EBound, []) :: tr') s'); [now apply mr_step with (2 := A)| |exact C];
    intros e o [[= <- <-]|I]; [unfold own_step; auto|eauto].
Qed.

(** ** Readiness *)

Lemma ready_phase : forall cf s e s' o b, mstep cf s e = Some (s', o) -> In (OReady b) o ->
  o = [OReady b] /\ m_phase s' = (if b then PTrue else PFalse) /\ m_open s' = m_open s /\
  if b then (exists r, m_phase s = PStart r [] /\ e = ECreated) \/ m_phase s = PTokenDone
  else m_phase s = PWait /\ m_reset s = true.
Proof.
  intros cf s e s' o b H I. destruct e; msolve H; injection H as <- <-; cbn in I; try tauto;
    destruct I as [I|[]]; try discriminate I; try (destruct a; discriminate I).
  all: try (injection I as <-; cbn).
  all: try solve [exfalso; destruct (creations_start cf) as (r & l & E); congruence].
  all: try solve [split; auto; split; auto; split; auto; left; eauto].
  all: try solve [auto].
  apply andb_prop in Heqb0. tauto.
  destruct a0; discriminate I.
Qed.

Lemma final_C60_cycle : forall cf tr e o s b, mruns cf minit (tr ++ [(e, o)]) s -> In (OReady b) o ->
  o = [OReady b] /\ mc_monitor cf = true /\ made (tr ++ [(e, o)]) = planned cf /\
  exists n, b = Nat.even n /\ seen tr = map OCreate (planned cf) ++ map OReady (alternate true n).
Proof.
  intros cf tr e o s b R I. rewrite (made_created _ _ _ R), planned_creations. assert (V := minv_run _ _ _ R).
  destruct (mruns_last _ _ _ _ _ R) as (s1 & R1 & H). destruct (ready_phase _ _ _ _ _ _ H I) as (-> & P & _).
  destruct V as [V _]. rewrite P in V. split; auto. rewrite seen_snoc in V.
  assert (A : exists n, Nat.even n = negb b /\ m_created s = creations cf /\ mc_monitor cf = true /\
     seen tr ++ [OReady b] = map OCreate (creations cf) ++ rout (alternate true n)).
  { destruct b; destruct V as (V1 & V2 & n & V3 & V4); exists n; auto. }
  destruct A as (n & E & -> & -> & A). split; auto. split; auto.
  destruct n as [|n].
  - exfalso. cbn [alternate rout map] in A. rewrite app_nil_r in A.
    assert (J : In (OReady b) (map OCreate (creations cf))) by (rewrite <- A; apply in_or_app; right; now left).
    apply in_map_iff in J. destruct J as (x & J & _). discriminate.
  - exists n. rewrite Nat.even_succ, <- Nat.negb_even in E. split; [destruct b, (Nat.even n); auto; discriminate|].
    rewrite alternate_snoc in A. unfold rout in A. rewrite map_app, app_assoc in A. apply app_inj_tail in A. tauto.
Qed.

Lemma token_run : forall cf tr s, mruns cf minit tr s -> m_token s = token_after tr.
Proof.
  intros cf. apply (mruns_ind_r cf minit (fun tr s => m_token s = token_after tr)); [reflexivity|].
  intros tr s e o s' R M H. unfold token_after in *. rewrite fold_left_app, <- M. cbn [fold_left fst].
  clear M. destruct e; msolve H; injection H as <- _; cbn; congruence.
Qed.

Lemma readies_app : forall a b, readies (a ++ b) = readies a ++ readies b.
Proof. intros. apply flat_map_app. Qed.

Lemma readies_cons : forall e o tr, readies (seen ((e, o) :: tr)) = readies o ++ readies (seen tr).
Proof. intros. unfold seen. cbn [flat_map snd]. apply readies_app. Qed.

Lemma readies_snoc : forall tr e o, readies (seen (tr ++ [(e, o)])) = readies (seen tr) ++ readies o.
Proof. intros. rewrite seen_snoc. apply readies_app. Qed.

(** From a call of [set_ready(True)] on. *)
Definition waited (tr : list (mevent * list mout)) (s' : mstate) : Prop :=
  (m_phase s' = PTrue /\ (forall o, ~ In (EReady, o) tr)) \/
  (m_phase s' = PWait /\ exists u o v, tr = u ++ (EReady, o) :: v /\ (forall o', ~ In (EReady, o') u) /\ (forall o', ~ In (EReady, o') v) /\
     (m_reset s' = true <-> exists o', In (EReset, o') v)) \/
  (waits (m_phase s') = false /\ m_phase s' <> PNew).

Lemma waited_more : forall u o' v e o s1 s2, m_phase s2 = PWait ->
  (forall o', ~ In (EReady, o') u) -> (forall o', ~ In (EReady, o') v) -> (m_reset s1 = true <-> exists o', In (EReset, o') v) ->
  e <> EReady -> (e = EReset -> m_reset s2 = true) -> (e <> EReset -> m_reset s2 = m_reset s1) ->
  waited ((u ++ (EReady, o') :: v) ++ [(e, o)]) s2.
Proof.
  intros u o' v e o s1 s2 P Q1 Q2 Q3 N1 N2 N3. right. left. split; auto. exists u, o', (v ++ [(e, o)]).
  split; [now rewrite <- app_assoc|]. split; auto.
  split; [intros o1 I; apply in_app_or in I; destruct I as [I|[I|[]]]; [apply (Q2 _ I)|congruence]|].
  assert (D : e = EReset \/ e <> EReset) by (destruct e; auto; right; discriminate). destruct D as [D|D].
  - subst e. split; [|auto]. intros _. exists o. apply in_or_app. right. now left.
  - rewrite (N3 D), Q3. split; intros (o1 & I); exists o1; [apply in_or_app; now left|].
    apply in_app_or in I. destruct I as [I|[I|[]]]; [exact I|congruence].
Qed.

Lemma after_true : forall cf s tr s', m_phase s = PTrue -> mruns cf s tr s' -> readies (seen tr) = [] -> waited tr s'.
Proof.
  intros cf s tr s' P. revert tr s'. apply (mruns_ind_r cf s (fun tr s' => readies (seen tr) = [] -> waited tr s')).
  - intros _. left. split; auto.
  - intros tr s1 e o s2 R M H N. rewrite readies_snoc in N. apply app_eq_nil in N. destruct N as [N No]. specialize (M N).
    destruct M as [(P1 & Q)|[(P1 & u & o' & v & E & Q1 & Q2 & Q3)|(W & W')]].
    + destruct e; cbn [mstep] in H; rewrite ?P1 in H; cbn [waits] in H;
        try (msolve H; injection H as <- <-; cbn; rewrite ?P1;
             solve [left; split; auto; intros o' I; apply in_app_or in I; destruct I as [I|[I|[]]]; [apply (Q _ I)|discriminate]
                   |right; right; split; [reflexivity|discriminate]]).
      msolve H. injection H as <- <-. right. left. split; [reflexivity|]. exists tr, [], []. split; auto. split; auto.
      split; [intros ? []|]. cbn. split; [discriminate|intros (? & [])].
    + destruct e; cbn [mstep] in H; rewrite ?P1 in H; cbn [waits] in H;
        try (msolve H; injection H as <- <-; cbn in *; rewrite ?P1; try discriminate No;
             solve [subst tr; apply (waited_more _ _ _ _ _ s1); cbn; auto; congruence
                   |right; right; split; [reflexivity|discriminate]]).
    + right. right. destruct e; cbn [mstep] in H; destruct (m_phase s1) eqn:P1; try discriminate W; try congruence; msolve H; injection H as <- <-; cbn; rewrite ?P1;
        split; auto; discriminate.
Qed.

Lemma final_C60_false : forall cf t1 e1 t2 e2 s, mruns cf minit (t1 ++ (e1, [OReady true]) :: t2 ++ [(e2, [OReady false])]) s ->
  readies (seen t2) = [] -> exists u o v o', t2 = u ++ (EReady, o) :: v /\ In (EReset, o') v.
Proof.
  intros cf t1 e1 t2 e2 s R N.
  change (t1 ++ (e1, [OReady true]) :: t2 ++ [(e2, [OReady false])]) with (t1 ++ [(e1, [OReady true])] ++ t2 ++ [(e2, [OReady false])]) in R.
  rewrite !app_assoc in R. apply mruns_last in R. destruct R as (s2 & R & H2). apply mruns_split in R. destruct R as (s1 & R1 & R2).
  apply mruns_last in R1. destruct R1 as (s0 & _ & H1).
  destruct (ready_phase _ _ _ _ _ true H1 (or_introl eq_refl)) as (_ & P1 & _).
  destruct (ready_phase _ _ _ _ _ false H2 (or_introl eq_refl)) as (_ & _ & _ & P2 & Rs).
  destruct (after_true _ _ _ _ P1 R2 N) as [(X & _)|[(_ & u & o & v & E & _ & _ & Q)|(W & _)]]; try congruence.
  - apply Q in Rs. destruct Rs as (o' & I). eauto 6.
  - rewrite P2 in W. discriminate.
Qed.

(** A reset while readiness is set makes the runner withdraw it. *)
Lemma final_C60_reset : forall cf t1 e1 u o v s o', mruns cf minit (t1 ++ (e1, [OReady true]) :: u ++ (EReady, o) :: v) s ->
  readies (seen (u ++ (EReady, o) :: v)) = [] -> In (EReset, o') v -> m_open s = true ->
  mstep cf s EWake = Some (with_phase s PFalse, [OReady false]).
Proof.
  intros cf t1 e1 u o v s o' R N I Op.
  change (t1 ++ (e1, [OReady true]) :: u ++ (EReady, o) :: v) with (t1 ++ [(e1, [OReady true])] ++ u ++ (EReady, o) :: v) in R.
  assert (V := proj1 (minv_run _ _ _ R)).
  rewrite app_assoc in R. apply mruns_split in R. destruct R as (s1 & R1 & R2).
  apply mruns_last in R1. destruct R1 as (s0 & _ & H1).
  destruct (ready_phase _ _ _ _ _ true H1 (or_introl eq_refl)) as (_ & P1 & _).
  destruct (after_true _ _ _ _ P1 R2 N) as [(_ & X)|[(P2 & u' & o1 & v' & E & Q1 & Q2 & Q)|(W & W')]].
  - exfalso. apply (X o). apply in_or_app. right. now left.
  - assert (Ev : v = v').
    { clear - E Q1 Q2. revert u' E Q1. induction u as [|x u IH]; intros u' E Q1; destruct u' as [|y u']; cbn [app] in E; injection E as E1 E2; auto.
      - exfalso. apply (Q1 o). left. congruence.
      - exfalso. subst x. apply (Q2 o). rewrite <- E2. apply in_or_app. right. now left.
      - subst. eapply IH; [exact E2|]. intros o2 K. apply (Q1 o2). now right. }
    subst v'. cbn. rewrite P2, Op. cbn [andb]. assert (Z : m_reset s = true) by (apply Q; eauto). now rewrite Z.
  - exfalso. destruct (m_phase s); try discriminate W; try congruence; destruct V as [V _]; congruence.
Qed.

(** From a call of [set_ready(False)] on; [past]: what was before. *)
Definition calm (past tr : list (mevent * list mout)) : Prop :=
  (exists o, In (ETimeout, o) tr) \/ exists u v, tr = u ++ v /\ token_after (past ++ u) = false.

Lemma calm_more : forall past tr x, calm past tr -> calm past (tr ++ [x]).
Proof.
  intros past tr x [(o & I)|(u & v & -> & T)]; [left; exists o; apply in_or_app; now left|].
  right. exists u, (v ++ [x]). split; auto. now rewrite app_assoc.
Qed.

Definition withdrawn (past tr : list (mevent * list mout)) (s : mstate) : Prop :=
  match m_phase s with
  | PFalse => forall o, ~ In (EReady, o) tr
  | PToken _ => exists o, In (EReady, o) tr
  | PTokenDone => (exists o, In (EReady, o) tr) /\ calm past tr
  | PStop _ _ | POver => True
  | _ => False
  end.

Lemma after_false : forall cf past s tr s', mruns cf minit past s -> m_phase s = PFalse -> mruns cf s tr s' -> readies (seen tr) = [] ->
  withdrawn past tr s'.
Proof.
  intros cf past s tr s' R0 P. revert tr s'. apply (mruns_ind_r cf s (fun tr s' => readies (seen tr) = [] -> withdrawn past tr s')).
  - intros _. unfold withdrawn. rewrite P. intros o [].
  - intros tr s1 e o s2 R M H N. rewrite readies_snoc in N. apply app_eq_nil in N. destruct N as [N No]. specialize (M N).
    assert (T := token_run _ _ _ (mruns_app _ _ _ _ _ _ R0 R)).
    assert (C : m_token s1 = false -> calm past tr).
    { intros F. right. exists tr, []. rewrite app_nil_r. split; congruence. }
    unfold withdrawn in *.
    assert (Y : (exists o', In (EReady, o') tr) -> exists o', In (EReady, o') (tr ++ [(e, o)]))
      by (intros (o' & I); exists o'; apply in_or_app; now left).
    destruct (m_phase s1) eqn:P1; try destruct M; destruct e; cbn [mstep] in H; rewrite ?P1 in H; cbn [waits] in H;
      msolve H; injection H as <- <-; cbn in *; rewrite ?P1; auto; try discriminate No;
      try (intros o' I; apply in_app_or in I; destruct I as [I|[I|[]]]; [apply (M _ I)|discriminate]);
      try (eexists; apply in_or_app; right; left; reflexivity);
      try (split; [first [apply Y; eauto; fail | eexists; apply in_or_app; right; left; reflexivity]|]);
      try (left; eexists; apply in_or_app; right; left; reflexivity); try (apply calm_more; auto); try (apply Y; eauto).
Qed.

Lemma final_C60_true : forall cf t1 e1 t2 e2 s, mruns cf minit (t1 ++ (e1, [OReady false]) :: t2 ++ [(e2, [OReady true])]) s ->
  readies (seen t2) = [] ->
  (exists o, In (EReady, o) t2) /\
  ((exists o, In (ETimeout, o) t2) \/ exists u v, t2 = u ++ v /\ token_after (t1 ++ (e1, [OReady false]) :: u) = false).
Proof.
  intros cf t1 e1 t2 e2 s R N.
  change (t1 ++ (e1, [OReady false]) :: t2 ++ [(e2, [OReady true])]) with (t1 ++ [(e1, [OReady false])] ++ t2 ++ [(e2, [OReady true])]) in R.
  rewrite !app_assoc in R. apply mruns_last in R. destruct R as (s2 & R & H2). apply mruns_split in R. destruct R as (s1 & R1 & R2).
  assert (R1' := R1). apply mruns_last in R1. destruct R1 as (s0 & _ & H1).
  destruct (ready_phase _ _ _ _ _ false H1 (or_introl eq_refl)) as (_ & P1 & _).
  destruct (ready_phase _ _ _ _ _ true H2 (or_introl eq_refl)) as (_ & _ & _ & P2).
  assert (W := after_false _ _ _ _ _ R1' P1 R2 N). unfold withdrawn in W.
  destruct P2 as [(r & P2 & _)|P2]; rewrite P2 in W; [destruct W|]. destruct W as [W1 W2]. split; auto.
  destruct W2 as [W2|(u & v & E & W2)]; auto. right. exists u, v. split; auto. now rewrite <- app_assoc in W2.
Qed.

(** ** Running a list of steps *)

Fixpoint mexec (cf : mconf) (s : mstate) (es : list mevent) : option (list (mevent * list mout) * mstate) :=
  match es with
  | [] => Some ([], s)
  | e :: es' => match mstep cf s e with
                | Some (s1, o) => match mexec cf s1 es' with Some (tr, s2) => Some ((e, o) :: tr, s2) | None => None end
                | None => None
                end
  end.

Lemma mexec_runs : forall cf es s tr s', mexec cf s es = Some (tr, s') -> mruns cf s tr s'.
Proof.
  intros cf. induction es as [|e es IH]; intros s tr s' H; cbn [mexec] in H.
  - injection H as <- <-. constructor.
  - destruct (mstep cf s e) as [[s1 o]|] eqn:E; [|discriminate]. destruct (mexec cf s1 es) as [[tr1 s2]|] eqn:F; [|discriminate].
    injection H as <- <-. econstructor; eauto.
Qed.

Lemma final_C60_lost : exists cf t1 e1 t2 o s,
  mruns cf minit (t1 ++ (e1, [OReady true]) :: (EReset, o) :: t2) s /\ m_open s = true /\ readies (seen t2) = [] /\
  forall e s' o', mstep cf s e = Some (s', o') -> e = EClose \/ e = EReset \/ e = EEngine \/ (exists r, e = EEnding r) \/ exists b, e = EState b.
Proof.
  exists (Mconf false true), [(EStart, [OCreate RBackend]); (ECreated, [OCreate RServer]); (ECreated, [OCreate RClient]); (ECreated, [OCreate RMonitor])],
    ECreated, [(EReady, [])], [], (Mst PWait true [RBackend; RServer; RClient; RMonitor] [] false false false).
  split; [apply (mexec_runs _ [EStart; ECreated; ECreated; ECreated; ECreated; EReset; EReady]); reflexivity|].
  split; [reflexivity|]. split; [reflexivity|].
  intros [] s' o' H; cbn in H; try discriminate; eauto 6.
Qed.

Lemma final_C59_client : exists cf tr s a b o,
  mruns cf minit tr s /\ In (EEngine, o) tr /\ In RMonitor (made tr) /\ seen tr = a ++ OClose RClient :: b /\
  ~ In (OClose RMonitor) a /\ In (OClose RMonitor) b.
Proof.
  exists (Mconf false true),
    [(EStart, [OCreate RBackend]); (ECreated, [OCreate RServer]); (ECreated, [OCreate RClient]); (ECreated, [OCreate RMonitor]);
     (ECreated, [OReady true]); (EEngine, []); (EReady, []); (EClose, []); (ECancel, [OClose RClient]); (EDone, [OClose RMonitor])],
    (Mst (PStop (AClose RMonitor) [AFlush; AClose RServer; AClose RBackend]) false [RBackend; RServer; RClient; RMonitor] [] true false false),
    [OCreate RBackend; OCreate RServer; OCreate RClient; OCreate RMonitor; OReady true], [OClose RMonitor], [].
  split; [apply (mexec_runs _ [EStart; ECreated; ECreated; ECreated; ECreated; EEngine; EReady; EClose; ECancel; EDone]); reflexivity|].
  split; [cbn; tauto|]. split; [cbn; tauto|]. split; [reflexivity|].
  split; [cbn; intros [X|[X|[X|[X|[X|[]]]]]]; discriminate|now left].
Qed.
