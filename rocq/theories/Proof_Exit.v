(** Lemmas for C79: the end of the process. *)
From Coq Require Import String Bool ZArith Arith Lia List.
From Verif Require Import Base Model_Types Model_Lmdb Model_LmdbSys Spec_Lmdb Spec_LmdbContent Spec_LmdbQuery Model_LmdbFlush Spec_LmdbFlush
  Proof_LmdbFlush Proof_LmdbFlush2 Proof_LmdbFlush3 Proof_LmdbFlush4 Model_Exit Spec_Exit.
From Verif Require Model_Main Spec_Main Proof_Main Proof_Main2 Proof_Main3.
Import ListNotations.
Open Scope list_scope.
Open Scope nat_scope.



(** ** The backend *)

Lemma done_stays : forall O b o b2 xs l, fexec O b o = Some (b2, xs, l) -> f_loop b = LDone -> f_loop b2 = LDone.
Proof.
  intros O b o b2 xs l H E. destruct o; cbn [fexec] in H; rewrite ?E in H; try discriminate.
  all: repeat match type of H with context [match ?x with _ => _ end] => destruct x eqn:?; try discriminate end.
  all: injection H as <- _ _; cbn [f_loop set_sys set_loop]; auto.
Qed.

Lemma done_ended : forall O d tr b, fruns O (fstart d) tr b -> f_loop b = LDone -> In FEnd (done_of tr).
Proof.
  intros O d tr b H. remember (fstart d) as b0 eqn:E0. induction H as [|s tr s1 o xs l s2 H IH Hx]; intros E; [subst; discriminate|].
  rewrite done_app, in_app_iff. cbn [done_of map fst]. specialize (IH E0).
  assert (D : f_loop s1 = LDone \/ o = FEnd).
  { destruct o; auto; left; cbn [fexec finalise] in Hx.
    all: repeat match type of Hx with context [match ?x with _ => _ end] => destruct x eqn:?; try discriminate end.
    all: injection Hx as <- _ _; cbn [f_loop set_sys set_loop] in E; try discriminate; auto; congruence. }
  destruct D as [D| ->]; [left; auto|right; now left].
Qed.

Lemma closed_stays : forall O b o b2 xs l, fexec O b o = Some (b2, xs, l) -> f_open b = false -> f_open b2 = false.
Proof.
  intros O b o b2 xs l H E. destruct o; cbn [fexec finalise] in H; rewrite ?E in H; try discriminate.
  all: repeat match type of H with context [match ?x with _ => _ end] => destruct x eqn:?; try discriminate end.
  all: injection H as <- _ _; cbn [f_open set_sys set_loop]; auto.
Qed.

(** ** The main runner *)

Lemma mruns_app : forall cf s a s1 b s2, Model_Main.mruns cf s a s1 -> Model_Main.mruns cf s1 b s2 -> Model_Main.mruns cf s (a ++ b) s2.
Proof. intros cf s a s1 b s2 H. induction H; intros; [assumption|]. cbn [app]. econstructor; eauto. Qed.

Lemma mruns_one : forall cf s e o s1, Model_Main.mstep cf s e = Some (s1, o) -> Model_Main.mruns cf s [(e, o)] s1.
Proof. intros. econstructor; eauto. constructor. Qed.

(** ** Parts of an execution *)

Lemma main_app : forall a b, main_of (a ++ b) = main_of a ++ main_of b.
Proof. intros. apply flat_map_app. Qed.
Lemma back_app : forall a b, back_of (a ++ b) = back_of a ++ back_of b.
Proof. intros. apply flat_map_app. Qed.
Lemma xops_app : forall a b, ops_of_process (a ++ b) = ops_of_process a ++ ops_of_process b.
Proof. intros. apply map_app. Qed.

Lemma stops_last : forall c e l, Model_Main.stops c e = l -> (In (Model_Main.AClose Model_Main.RBackend) l <-> In Model_Main.RBackend c) /\
    (forall a b, l = a ++ Model_Main.AClose Model_Main.RBackend :: b -> b = []).
Proof.
  intros c e l <-. unfold Model_Main.stops.
  assert (H : Model_Main.has Model_Main.RBackend c = true <-> In Model_Main.RBackend c).
  { unfold Model_Main.has. rewrite existsb_exists. split; [intros (x & Hi & E); destruct x; try discriminate E; exact Hi|intros Hi; exists Model_Main.RBackend; auto]. }
  destruct (Model_Main.has Model_Main.RBackend c) eqn:E.
  - split; [split; [intros _; now apply H|intros _; rewrite !in_app_iff; cbn [In]; tauto]|]. intros a b. rewrite !app_assoc.
    match goal with |- ?x ++ _ = _ -> _ => assert (N : ~ In (Model_Main.AClose Model_Main.RBackend) x) by
      (rewrite !in_app_iff; repeat match goal with |- context [if ?y then _ else _] => destruct y end; cbn [In]; intuition discriminate); generalize dependent x end.
    intros x N Ex. destruct b as [|y b _] using rev_ind; [reflexivity|exfalso]. change (a ++ Model_Main.AClose Model_Main.RBackend :: b ++ [y]) with (a ++ (Model_Main.AClose Model_Main.RBackend :: b) ++ [y]) in Ex.
    rewrite app_assoc in Ex. apply app_inj_tail in Ex as [-> _]. apply N. rewrite in_app_iff. cbn [In]. auto.
  - assert (N : ~ In (Model_Main.AClose Model_Main.RBackend) (Model_Main.stops c e)).
    { unfold Model_Main.stops. rewrite E, !in_app_iff. repeat match goal with |- context [if ?y then _ else _] => destruct y end; cbn [In]; intuition discriminate. }
    unfold Model_Main.stops in N. rewrite E in N. split; [split; [intros Hi; contradiction|intros Hi; apply H in Hi; discriminate]|].
    intros a b Eq. exfalso. apply N. rewrite Eq. apply in_or_app. right. now left.
Qed.

(** ** Steps of the main runner *)

Definition going (p : Model_Main.phase) : bool := match p with Model_Main.PStop _ _ | Model_Main.POver => false | _ => true end.

Definition adds (s : Model_Main.mstate) (e : Model_Main.mevent) : list Model_Main.res :=
  match e, Model_Main.m_phase s with Model_Main.ECreated, Model_Main.PStart r _ => [r] | _, _ => [] end.

Lemma mstep_created : forall cf s e s2 o, Model_Main.mstep cf s e = Some (s2, o) -> Model_Main.m_created s2 = Model_Main.m_created s ++ adds s e.
Proof.
  intros cf s e s2 o H. unfold adds. destruct e; cbn [Model_Main.mstep] in H; unfold Model_Main.next_creation, Model_Main.stop, Model_Main.loop in H.
  all: repeat match type of H with context [match ?x with _ => _ end] => destruct x eqn:?; try discriminate end.
  all: injection H as <- _; cbn [Model_Main.m_created Model_Main.with_phase]; rewrite ?app_nil_r; auto; congruence.
Qed.

Lemma mstep_open : forall cf s e s2 o, Model_Main.mstep cf s e = Some (s2, o) -> Model_Main.m_open s = false -> Model_Main.m_open s2 = false.
Proof.
  intros cf s e s2 o H E. destruct e; cbn [Model_Main.mstep] in H; unfold Model_Main.next_creation, Model_Main.stop, Model_Main.loop in H; rewrite ?E in H; try discriminate.
  all: repeat match type of H with context [match ?x with _ => _ end] => destruct x eqn:?; try discriminate end.
  all: injection H as <- _; cbn [Model_Main.m_open Model_Main.with_phase]; auto.
Qed.

Lemma mstep_cases : forall cf s e s2 o, Model_Main.mstep cf s e = Some (s2, o) ->
    (going (Model_Main.m_phase s2) = true /\ closes o = false) \/
    (Model_Main.m_phase s2 = Model_Main.m_phase s /\ going (Model_Main.m_phase s) = false /\ o = []) \/
    (Model_Main.stop s = (s2, o) /\ going (Model_Main.m_phase s) = true /\ adds s e = []) \/
    (e = Model_Main.EDone /\ exists a l, Model_Main.m_phase s = Model_Main.PStop a l /\ match l with
       | [] => Model_Main.m_phase s2 = Model_Main.POver /\ o = [Model_Main.OOver]
       | a' :: l' => Model_Main.m_phase s2 = Model_Main.PStop a' l' /\ o = [Model_Main.action_out a'] end) \/
    (Model_Main.m_phase s = Model_Main.PNew /\ Model_Main.m_phase s2 = Model_Main.POver /\ o = [Model_Main.OOver] /\ adds s e = []).
Proof.
  intros cf s e s2 o H. unfold adds. destruct e; cbn [Model_Main.mstep] in H; unfold Model_Main.next_creation, Model_Main.loop in H.
  all: destruct (Model_Main.m_phase s) eqn:Ep; try discriminate.
  all: cbn [Model_Main.waits] in H.
  all: try (destruct (Model_Main.stop s) as [z y] eqn:Es).
  all: repeat match type of H with context [match ?x with _ => _ end] => destruct x eqn:?; try discriminate end.
  all: injection H as <- <-; cbn [Model_Main.m_phase Model_Main.with_phase going closes existsb]; rewrite ?Ep; cbn [going]; auto 8.
  all: try (right; right; right; left; split; [reflexivity|]; eexists _, _; split; [reflexivity|]; cbn iota; auto; fail).
Qed.

Lemma stop_cases : forall s s2 o, Model_Main.stop s = (s2, o) ->
    match Model_Main.stops (Model_Main.m_created s) (Model_Main.m_engine s) with
    | [] => Model_Main.m_phase s2 = Model_Main.POver /\ o = [Model_Main.OOver]
    | a :: l => Model_Main.m_phase s2 = Model_Main.PStop a l /\ o = [Model_Main.action_out a]
    end /\ Model_Main.m_open s2 = false.
Proof. intros s s2 o H. unfold Model_Main.stop in H. destruct (Model_Main.stops _ _); injection H as <- <-; auto. Qed.

Lemma closes_one : forall a, closes [Model_Main.action_out a] = true <-> a = Model_Main.AClose Model_Main.RBackend.
Proof. intros [[]|]; cbn; split; intros; congruence. Qed.

(** ** What holds all the time *)

Definition in_back (O : oracle) (d : sys) (tr : list xitem) (b : option fstate) : Prop :=
  match b with Some f => fruns O (fstart d) (back_of tr) f | None => back_of tr = [] end.

Record xinv (O : oracle) (mc : Model_Main.mconf) (d : sys) (tr : list xitem) (s : xstate) : Prop := {
  xi_main : Model_Main.mruns mc Model_Main.minit (main_of tr) (x_main s);
  xi_back : in_back O d tr (x_back s);
  xi_has : x_back s <> None <-> In Model_Main.RBackend (Model_Main.m_created (x_main s));
  xi_over : Model_Main.m_phase (x_main s) = Model_Main.POver -> forall f, x_back s = Some f -> f_loop f = LDone;
  xi_shut : forall l, Model_Main.m_phase (x_main s) = Model_Main.PStop (Model_Main.AClose Model_Main.RBackend) l -> exists f, x_back s = Some f /\ f_open f = false;
  xi_at : x_at s <> AWait -> Model_Main.m_open (x_main s) = false;
  xi_clean : x_at s = AClose \/ x_at s = AWait \/ Model_Main.m_phase (x_main s) = Model_Main.POver;
  xi_exit : In XExit (ops_of_process tr) <-> x_at s = AGone;
  xi_signal : In XSignal (ops_of_process tr) -> x_at s <> AWait }.

(** The last thing that is stopped is the backend, if there is one. *)
Lemma stop_last : forall mc tr m a l, Model_Main.mruns mc Model_Main.minit tr m -> Model_Main.m_phase m = Model_Main.PStop a l ->
    (In Model_Main.RBackend (Model_Main.m_created m) -> In (Model_Main.AClose Model_Main.RBackend) (a :: l)) /\ (a = Model_Main.AClose Model_Main.RBackend -> l = [] /\ In Model_Main.RBackend (Model_Main.m_created m)).
Proof.
  intros mc tr m a l H E. pose proof (Proof_Main.minv_run _ _ _ H) as [V _]. rewrite E in V. destruct V as (_ & o & done & _ & Es & _).
  destruct (stops_last _ _ _ Es) as [A B]. split.
  - intros Hi. apply A in Hi. apply in_app_or in Hi as [Hi|Hi]; [|exact Hi]. exfalso. apply in_split in Hi as (u & v & ->).
    assert (v ++ a :: l = []) as N; [|destruct v; discriminate]. apply (B u). rewrite <- app_assoc. reflexivity.
  - intros ->. split; [apply (B done); reflexivity|]. apply A. apply in_or_app. right. now left.
Qed.

Lemma close_back_spec : forall O b, exists b2, close_back O b = (b2, match b with Some _ => [(FClose, [], [])] | None => [] end) /\
    match b with Some f => fexec O f FClose = Some (FState (f_sys f) false (f_qopen f) (f_put f) (f_queue f) (f_gone f) (f_used f) (f_reg f) (f_loop f), [], []) /\
                           b2 = Some (FState (f_sys f) false (f_qopen f) (f_put f) (f_queue f) (f_gone f) (f_used f) (f_reg f) (f_loop f)) | None => b2 = None end.
Proof. intros O [f|]; cbn; eauto. Qed.

Lemma xinv_step : forall O mc d tr s o ms fs s2, xinv O mc d tr s -> xexec O mc d s o = Some (s2, ms, fs) -> xinv O mc d (tr ++ [(o, ms, fs)]) s2.
Proof.
  intros O mc d tr s o ms fs s2 [Hm Hb Hh Ho Hs Ha Hc He Hg] H.
  assert (Em : main_of (tr ++ [(o, ms, fs)]) = main_of tr ++ ms) by (rewrite main_app; cbn; now rewrite app_nil_r).
  assert (Eb : back_of (tr ++ [(o, ms, fs)]) = back_of tr ++ fs) by (rewrite back_app; cbn; now rewrite app_nil_r).
  assert (Eo : ops_of_process (tr ++ [(o, ms, fs)]) = ops_of_process tr ++ [o]) by (rewrite xops_app; reflexivity).
  assert (Gone : x_at s <> AGone) by (intros E; unfold xexec in H; rewrite E in H; discriminate).
  assert (NE : ~ In XExit (ops_of_process tr)) by (intros E; apply He in E; contradiction).
  assert (Clean : x_at s = AWait -> clean mc s = Some (s2, ms, fs) -> o <> XExit -> xinv O mc d (tr ++ [(o, ms, fs)]) s2).
  { intros Ew Hcl No. unfold clean in Hcl. cbn [Model_Main.mstep] in Hcl. injection Hcl as <- <- <-. rewrite ?app_nil_r in *. split; cbn [x_main x_back x_at].
    - rewrite Em. eapply Proof_Main.mruns_snoc; [exact Hm|reflexivity].
    - unfold in_back in *. rewrite Eb. exact Hb.
    - exact Hh.
    - exact Ho.
    - exact Hs.
    - reflexivity.
    - auto.
    - rewrite Eo, in_app_iff. cbn [In]. split; [|discriminate]. intros [E|[E|[]]]; [contradiction|congruence].
    - discriminate. }
  unfold xexec in H. destruct o as [e|o| | | |].
  - (* main runner *)
    assert (H' : (if allowed s e then match Model_Main.mstep mc (x_main s) e with
               | Some (m, l) => let b := created d s e in let '(b', i) := if closes l then close_back O b else (b, []) in Some (Xst m b' (x_at s), [(e, l)], i)
               | None => None end else None) = Some (s2, ms, fs)) by (revert H Gone; destruct (x_at s); intros H Gone; [exact H|exact H|exact H|congruence]).
    clear H. rename H' into H. destruct (allowed s e) eqn:Hal; [|discriminate]. destruct (Model_Main.mstep mc (x_main s) e) as [[m l]|] eqn:Hst; [|discriminate].
    cbv zeta in H. set (b := created d s e) in *.
    assert (Hm2 : Model_Main.mruns mc Model_Main.minit (main_of tr ++ [(e, l)]) m) by (eapply Proof_Main.mruns_snoc; eauto).
    (* the backend is created at most once *)
    assert (Hb2 : in_back O d tr b /\ (b <> None <-> In Model_Main.RBackend (Model_Main.m_created m)) /\ (b = x_back s \/ (going (Model_Main.m_phase m) = true /\ closes l = false))).
    { rewrite (mstep_created _ _ _ _ _ Hst). unfold adds. unfold b, created.
      destruct e; try (rewrite app_nil_r; auto). destruct (Model_Main.m_phase (x_main s)) as [|r lr| | | | | | | |] eqn:Ep; try (rewrite app_nil_r; auto).
      pose proof (Proof_Main.minv_run _ _ _ Hm) as [V _]. rewrite Ep in V. destruct V as [V _].
      assert (D : r = Model_Main.RBackend \/ r <> Model_Main.RBackend) by (destruct r; auto; right; discriminate). destruct D as [->|D].
      - assert (N : Model_Main.m_created (x_main s) = []).
        { destruct (Model_Main.m_created (x_main s)) as [|y ys]; [reflexivity|exfalso]. unfold Model_Main.creations in V. cbn [app] in V. injection V as _ V.
          assert (I : In Model_Main.RBackend (Model_Main.RServer :: (if Model_Main.mc_adminer mc then [Model_Main.RAdminer] else []) ++ (if Model_Main.mc_monitor mc then [Model_Main.RClient; Model_Main.RMonitor] else [Model_Main.REngine])))
            by (rewrite V; apply in_or_app; right; now left).
          destruct (Model_Main.mc_adminer mc), (Model_Main.mc_monitor mc); cbn [In app] in I; repeat (destruct I as [I|I]; [discriminate|]); exact I. }
        assert (Nb : x_back s = None) by (destruct (x_back s) eqn:Eq; [exfalso; destruct Hh as [Hh _]; rewrite N in Hh; apply Hh; discriminate|reflexivity]).
        rewrite Nb in Hb. cbn [in_back] in Hb. split; [cbn [in_back]; rewrite Hb; constructor|]. split.
        + split; [intros _; apply in_or_app; right; now left|discriminate].
        + right. cbn [Model_Main.mstep] in Hst. rewrite Ep in Hst. destruct (Model_Main.m_open (x_main s)); [|discriminate]. unfold Model_Main.next_creation in Hst.
          destruct lr; [destruct (Model_Main.mc_monitor mc)|]; injection Hst as <- <-; split; reflexivity.
      - assert (Ec : match r with Model_Main.RBackend => Some (fstart d) | _ => x_back s end = x_back s) by (destruct r; congruence). rewrite Ec. split; [exact Hb|]. split; [|auto].
        rewrite Hh, in_app_iff. cbn [In]. split; [auto|]. intros [I|[I|[]]]; [exact I|congruence]. }
    destruct Hb2 as (Hb2 & Hh2 & Hsame).
    assert (Hat : x_at s <> AWait -> Model_Main.m_open m = false) by (intros E; eapply mstep_open; eauto).
    assert (Hcl : x_at s = AClose \/ x_at s = AWait \/ Model_Main.m_phase m = Model_Main.POver).
    { destruct Hc as [Hc|[Hc|Hc]]; auto. right. right. destruct (mstep_cases _ _ _ _ _ Hst) as [[G _]|[(G & _)|[(_ & G & _)|[(_ & a & l' & G & _)|(G & _)]]]]; try congruence; [|now rewrite Hc in G].
      exfalso. pose proof (Proof_Main.minv_run _ _ _ Hm2) as [V _]. clear - Hst G Hc. destruct e; cbn [Model_Main.mstep] in Hst; rewrite ?Hc in Hst; try discriminate.
      all: repeat match type of Hst with context [match ?x with _ => _ end] => destruct x eqn:?; try discriminate end; injection Hst as <- <-; cbn [Model_Main.m_phase] in G; try rewrite Hc in G; try discriminate. }
    assert (Hex : In XExit (ops_of_process (tr ++ [(XMain e, ms, fs)])) <-> x_at s = AGone).
    { rewrite Eo, in_app_iff. cbn [In]. split; [intros [E|[E|[]]]; [contradiction|discriminate]|contradiction]. }
    assert (Hsg : In XSignal (ops_of_process (tr ++ [(XMain e, ms, fs)])) -> x_at s <> AWait).
    { rewrite Eo, in_app_iff. cbn [In]. intros [E|[E|[]]]; [auto|discriminate]. }
    (* where the main runner gets *)
    assert (Hov : Model_Main.m_phase m = Model_Main.POver -> forall f, b = Some f -> f_loop f = LDone).
    { intros Ev f Ef. destruct Hsame as [Es|[G _]]; [|rewrite Ev in G; discriminate]. rewrite Es in Ef.
      destruct (mstep_cases _ _ _ _ _ Hst) as [[G _]|[(G & _)|[(G & _ & Gc)|[(-> & a & l' & G & Gl)|(G & _)]]]].
      - rewrite Ev in G. discriminate.
      - apply Ho; [congruence|exact Ef].
      - exfalso. destruct (stop_cases _ _ _ G) as [G2 _]. assert (Hi : In Model_Main.RBackend (Model_Main.m_created (x_main s))) by (apply Hh; congruence).
        destruct (stops_last (Model_Main.m_created (x_main s)) (Model_Main.m_engine (x_main s)) _ eq_refl) as [A _]. apply A in Hi. destruct (Model_Main.stops _ _); [destruct Hi|]. destruct G2. congruence.
      - destruct l' as [|a' l']; [|destruct Gl; congruence]. assert (Hi : In Model_Main.RBackend (Model_Main.m_created (x_main s))) by (apply Hh; congruence).
        destruct (stop_last _ _ _ _ _ Hm G) as [A _]. destruct (A Hi) as [->|[]]. cbn [allowed] in Hal. rewrite G, Ef in Hal. destruct (f_loop f); congruence.
      - exfalso. pose proof (Proof_Main.minv_run _ _ _ Hm) as [V _]. rewrite G in V. destruct V as [_ V].
        assert (Hi : In Model_Main.RBackend (Model_Main.m_created (x_main s))) by (apply Hh; congruence). rewrite V in Hi. destruct Hi. }
    assert (Hsh : forall l', Model_Main.m_phase m = Model_Main.PStop (Model_Main.AClose Model_Main.RBackend) l' -> b = x_back s /\ ((closes l = false /\ Model_Main.m_phase (x_main s) = Model_Main.PStop (Model_Main.AClose Model_Main.RBackend) l') \/ closes l = true)).
    { intros l' Ev. destruct Hsame as [Es|[G _]]; [|rewrite Ev in G; discriminate]. split; [exact Es|].
      destruct (mstep_cases _ _ _ _ _ Hst) as [[G _]|[(G & _ & ->)|[(G & _ & Gc)|[(-> & a & l2 & G & Gl)|(_ & G & _)]]]].
      - rewrite Ev in G. discriminate.
      - left. split; [reflexivity|congruence].
      - right. destruct (stop_cases _ _ _ G) as [G2 _]. destruct (Model_Main.stops _ _) as [|a l2]; destruct G2 as [G2 ->]; [congruence|]. apply closes_one. congruence.
      - right. destruct l2 as [|a' l2]; destruct Gl as [G2 ->]; [congruence|]. apply closes_one. congruence.
      - congruence. }
    destruct (closes l) eqn:Ecl.
    + destruct (close_back_spec O b) as (b2 & Ebk & Hbk). rewrite Ebk in H. injection H as <- <- <-. split; cbn [x_main x_back x_at]; rewrite ?Em; auto.
      * destruct b as [f|].
        -- destruct Hbk as [Hx ->]. unfold in_back in *. rewrite Eb. econstructor; eauto.
        -- subst b2. unfold in_back in *. rewrite Eb, Hb2. reflexivity.
      * rewrite <- Hh2. destruct b; [destruct Hbk as [_ ->]; split; intros _; discriminate|subst b2; reflexivity].
      * intros Ev f Ef. destruct b as [f0|]; [|congruence]. destruct Hbk as [_ ->]. injection Ef as <-. cbn [f_loop]. eapply Hov; eauto.
      * intros l' Ev. destruct b as [f0|]; [destruct Hbk as [_ ->]; eauto|]. exfalso. subst b2.
        destruct (stop_last _ _ _ _ _ Hm2 Ev) as [_ A]. destruct (A eq_refl) as [_ Hi]. apply Hh2 in Hi. congruence.
    + injection H as <- <- <-. rewrite app_nil_r in Eb. split; cbn [x_main x_back x_at]; rewrite ?Em; auto.
      * unfold in_back in *. rewrite Eb. exact Hb2.
      * intros l' Ev. destruct (Hsh l' Ev) as [-> [[_ G]|G]]; [eauto|discriminate].
  - (* backend *)
    assert (H' : exists f f2 xs l, x_back s = Some f /\ fexec O f o = Some (f2, xs, l) /\ s2 = Xst (x_main s) (Some f2) (x_at s) /\ ms = [] /\ fs = [(o, xs, l)]).
    { revert H. destruct (x_back s) as [f|]; [|destruct (x_at s), o; discriminate]. destruct (fexec O f o) as [[[f2 xs] l]|] eqn:Hx; [|destruct (x_at s), o; discriminate].
      intros H. exists f, f2, xs, l. split; [reflexivity|]. split; [exact Hx|]. revert H. destruct (x_at s), o; intros H; try discriminate H; injection H as <- <- <-; auto. }
    destruct H' as (f & f2 & xs & l & Ef & Hx & -> & -> & ->). rewrite app_nil_r in Em. rewrite Ef in *.
    split; cbn [x_main x_back x_at]; rewrite ?Em; auto.
    + unfold in_back in *. rewrite Eb. econstructor; eauto.
    + rewrite <- Hh. split; intros _; discriminate.
    + intros Ev f' E. injection E as <-. eapply done_stays; eauto.
    + intros l' Ev. destruct (Hs l' Ev) as (f' & E & Hop). injection E as <-. exists f2. split; [reflexivity|]. eapply closed_stays; eauto.
    + rewrite Eo, in_app_iff. cbn [In]. split; [intros [E|[E|[]]]; [contradiction|discriminate]|contradiction].
    + rewrite Eo, in_app_iff. cbn [In]. intros [E|[E|[]]]; [auto|discriminate].
  - (* signal *)
    destruct (x_at s) eqn:Ea; try congruence; [apply Clean; auto; discriminate| |].
    all: injection H as <- <- <-; rewrite ?app_nil_r in *; split; rewrite ?Em, ?Ea; auto; try discriminate.
    all: try (unfold in_back in *; rewrite Eb; exact Hb).
    all: rewrite Eo, in_app_iff; cbn [In]; split; [intros [E|[E|[]]]; [contradiction|discriminate]|discriminate].
  - destruct (x_at s) eqn:Ea; try discriminate. destruct (Model_Main.m_open (x_main s)) eqn:Eop; [discriminate|]. apply Clean; auto. discriminate.
  - assert (H' : x_at s = AClose /\ Model_Main.m_phase (x_main s) = Model_Main.POver /\ s2 = Xst (x_main s) (x_back s) ASleep /\ ms = [] /\ fs = []).
    { destruct (x_at s); try discriminate; destruct (Model_Main.m_phase (x_main s)); try discriminate; injection H as <- <- <-; auto. }
    destruct H' as (Ea & Ev & -> & -> & ->). rewrite ?app_nil_r in *. split; cbn [x_main x_back x_at]; rewrite ?Em; auto; try discriminate.
    + unfold in_back in *. rewrite Eb. exact Hb.
    + intros _. apply Ha. congruence.
    + rewrite Eo, in_app_iff. cbn [In]. split; [intros [E|[E|[]]]; [contradiction|discriminate]|discriminate].
  - assert (H' : x_at s = ASleep /\ s2 = Xst (x_main s) (x_back s) AGone /\ ms = [] /\ fs = []).
    { destruct (x_at s); try discriminate; injection H as <- <- <-; auto. }
    destruct H' as (Ea & -> & -> & ->). rewrite ?app_nil_r in *. split; cbn [x_main x_back x_at]; rewrite ?Em; auto; try discriminate.
    + unfold in_back in *. rewrite Eb. exact Hb.
    + intros _. apply Ha. congruence.
    + right. right. destruct Hc as [Hc|[Hc|Hc]]; congruence.
    + rewrite Eo, in_app_iff. cbn [In]. split; [reflexivity|intros _; right; now left].
Qed.

Lemma xinv_run : forall O mc d tr s, xruns O mc d tr s -> xinv O mc d tr s.
Proof.
  intros O mc d tr s H. induction H as [|tr s o ms fs s2 H IH Hx].
  - split; cbn; auto; try discriminate; try tauto; try constructor; try (intros []; fail). all: try (split; [congruence|intros []]). congruence.
  - eapply xinv_step; eauto.
Qed.
