From Coq Require Import Bool Arith Lia List.
From Verif Require Import Model_Main Spec_Main.
Import ListNotations.
Open Scope list_scope.

Lemma res_eqb_spec : forall a b, res_eqb a b = true <-> a = b.
Proof. intros [] []; cbn; split; intros H; try discriminate; auto. Qed.
Lemma has_In : forall r l, has r l = true <-> In r l.
Proof.
  intros r l. unfold has. rewrite existsb_exists. split.
  - intros (x & I & E). apply res_eqb_spec in E. now subst.
  - intros I. exists r. split; auto. now apply res_eqb_spec.
Qed.

Lemma mruns_snoc : forall cf s tr s1 e o s2, mruns cf s tr s1 -> mstep cf s1 e = Some (s2, o) -> mruns cf s (tr ++ [(e, o)]) s2.
Proof.
  intros cf s tr s1 e o s2 H. induction H as [s|s e' o' s1' tr s2' S R IH]; intros E.
  - econstructor; [exact E|constructor].
  - cbn [app]. econstructor; eauto.
Qed.
Lemma mruns_app : forall cf s tr s1 tr' s2, mruns cf s tr s1 -> mruns cf s1 tr' s2 -> mruns cf s (tr ++ tr') s2.
Proof. intros cf s tr s1 tr' s2 H. induction H; cbn [app]; auto. intros K. econstructor; eauto. Qed.
Lemma mruns_split : forall cf tr s tr' s2, mruns cf s (tr ++ tr') s2 -> exists s1, mruns cf s tr s1 /\ mruns cf s1 tr' s2.
Proof.
  intros cf. induction tr as [|x tr IH]; intros s tr' s2 H; cbn [app] in H.
  - exists s. split; [constructor|auto].
  - inversion H as [|? e o s1 ? ? St Rs]; subst. apply IH in Rs. destruct Rs as (s3 & A & B). exists s3. split; auto. econstructor; eauto.
Qed.
Lemma mruns_ind_r : forall cf s (P : list (mevent * list mout) -> mstate -> Prop), P [] s ->
  (forall tr s1 e o s2, mruns cf s tr s1 -> P tr s1 -> mstep cf s1 e = Some (s2, o) -> P (tr ++ [(e, o)]) s2) ->
  forall tr s', mruns cf s tr s' -> P tr s'.
Proof.
  intros cf s P H0 HS tr. induction tr as [|x tr IH] using rev_ind; intros s' H.
  - inversion H; subst. exact H0.
  - apply mruns_split in H. destruct H as (s1 & A & B). inversion B as [|? e o s3 ? ? St Rs]; subst. inversion Rs; subst. eauto.
Qed.

Lemma seen_app : forall a b, seen (a ++ b) = seen a ++ seen b.
Proof. intros. unfold seen. apply flat_map_app. Qed.
Lemma seen_snoc : forall a e o, seen (a ++ [(e, o)]) = seen a ++ o.
Proof. intros. rewrite seen_app. unfold seen at 2. cbn. now rewrite app_nil_r. Qed.

Definition rout (l : list bool) : list mout := map OReady l.

Lemma alternate_snoc : forall n b, alternate b (S n) = alternate b n ++ [if Nat.even n then b else negb b].
Proof.
  induction n as [|n IH]; intros b; [reflexivity|]. cbn [alternate app]. f_equal.
  change (negb b :: alternate (negb (negb b)) n) with (alternate (negb b) (S n)). rewrite IH. f_equal. f_equal.
  rewrite Nat.even_succ, <- Nat.negb_even. destruct (Nat.even n), b; reflexivity.
Qed.

(** What was seen before the runner stops. *)
Definition base (cf : mconf) (created : list res) (o : list mout) : Prop :=
  (exists r l, creations cf = created ++ r :: l /\ o = map OCreate (created ++ [r])) \/
  (created = creations cf /\ exists n, (n = 0 \/ mc_monitor cf = true) /\ o = map OCreate (creations cf) ++ rout (alternate true n)).

Definition minv (cf : mconf) (tr : list (mevent * list mout)) (s : mstate) : Prop :=
  match m_phase s with
  | PNew => seen tr = [] /\ m_created s = []
  | PStart r l => creations cf = m_created s ++ r :: l /\ seen tr = map OCreate (m_created s ++ [r])
  | PForever => m_created s = creations cf /\ seen tr = map OCreate (creations cf) /\ mc_monitor cf = false
  | PTrue | PWait => m_created s = creations cf /\ mc_monitor cf = true /\
      exists n, Nat.even n = false /\ seen tr = map OCreate (creations cf) ++ rout (alternate true n)
  | PFalse | PToken _ | PTokenDone => m_created s = creations cf /\ mc_monitor cf = true /\
      exists n, Nat.even n = true /\ seen tr = map OCreate (creations cf) ++ rout (alternate true n)
  | PStop a l => m_open s = false /\ exists o done, base cf (m_created s) o /\
      stops (m_created s) (m_engine s) = done ++ a :: l /\ seen tr = o ++ map action_out (done ++ [a])
  | POver => m_open s = false /\ exists o, (base cf (m_created s) o \/ (m_created s = [] /\ m_engine s = false /\ o = [])) /\
      seen tr = o ++ map action_out (stops (m_created s) (m_engine s)) ++ [OOver]
  end /\
  (m_engine s = true -> has RMonitor (m_created s) = true \/ match m_phase s with PStart RMonitor _ | PStop _ _ | POver => True | _ => False end) /\
  (forall r, In r (m_ending s) -> In r (m_created s)).

Lemma minv_seen : forall cf tr tr' s, seen tr = seen tr' -> minv cf tr s -> minv cf tr' s.
Proof. intros cf tr tr' s E. unfold minv. now rewrite E. Qed.

Lemma stops_engine : forall created e, has RMonitor created = true -> stops created e = stops created false.
Proof. intros created e H. unfold stops. rewrite H. cbn [negb]. now rewrite !andb_false_r. Qed.

Lemma stop_inv : forall cf tr s s1 o e, base cf (m_created s) (seen tr) ->
  (m_engine s = true -> has RMonitor (m_created s) = true \/ True) ->
  (forall r, In r (m_ending s) -> In r (m_created s)) ->
  stop s = (s1, o) -> minv cf (tr ++ [(e, o)]) s1.
Proof.
  intros cf tr s s1 o e B En K H. unfold stop in H. destruct (stops (m_created s) (m_engine s)) as [|a l] eqn:E; injection H as <- <-.
  - unfold minv. cbn [m_phase m_open m_created m_ending m_engine]. rewrite E, seen_snoc. split; [|split; auto].
    split; auto. exists (seen tr). auto.
  - unfold minv. cbn [m_phase m_open m_created m_ending m_engine]. rewrite E, seen_snoc. split; [|split; auto].
    split; auto. exists (seen tr), []. split; auto.
Qed.

Lemma creations_start : forall cf, exists r l, creations cf = r :: l.
Proof. intros cf. unfold creations. cbn. eauto. Qed.

Lemma inv_base : forall cf tr s, minv cf tr s -> waits (m_phase s) = true -> base cf (m_created s) (seen tr).
Proof.
  intros cf tr s (P & _) W. unfold base. destruct (m_phase s) as [|r l| | | | |b| |a l|]; try discriminate.
  - left. destruct P as (A & B). eauto.
  - right. destruct P as (A & B & C). split; auto. exists 0. split; auto. cbn. now rewrite app_nil_r.
  - right. destruct P as (A & C & n & _ & B). split; eauto.
  - right. destruct P as (A & C & n & _ & B). split; eauto.
  - right. destruct P as (A & C & n & _ & B). split; eauto.
  - right. destruct P as (A & C & n & _ & B). split; eauto.
  - right. destruct P as (A & C & n & _ & B). split; eauto.
Qed.

Lemma alt_odd : forall n, Nat.even n = true -> rout (alternate true (S n)) = rout (alternate true n) ++ [OReady true].
Proof. intros n H. rewrite alternate_snoc, H. unfold rout. now rewrite map_app. Qed.
Lemma alt_even : forall n, Nat.even n = false -> rout (alternate true (S n)) = rout (alternate true n) ++ [OReady false].
Proof. intros n H. rewrite alternate_snoc, H. unfold rout. now rewrite map_app. Qed.

Lemma Some_inj : forall A (x y : A), Some x = Some y -> x = y.
Proof. congruence. Qed.

Ltac flds := cbn [m_phase m_open m_created m_ending m_engine m_reset m_token with_phase].

Lemma next_inv : forall cf tr s l s1 o e, seen tr = map OCreate (m_created s) -> creations cf = m_created s ++ l ->
  (m_engine s = true -> has RMonitor (m_created s) = true) -> (forall r, In r (m_ending s) -> In r (m_created s)) ->
  next_creation cf s l = (s1, o) -> minv cf (tr ++ [(e, o)]) s1.
Proof.
  intros cf tr s l s1 o e E C En K H. unfold next_creation in H. destruct l as [|r l].
  - rewrite app_nil_r in C. destruct (mc_monitor cf) eqn:M; injection H as <- <-; unfold minv; flds; rewrite seen_snoc, E.
    + split; [|auto]. split; auto. split; auto. exists 1. split; auto. now rewrite C.
    + split; [|auto]. split; auto. split; auto. now rewrite C, app_nil_r.
  - injection H as <- <-. unfold minv. flds. rewrite seen_snoc, E. split; [|auto]. split; auto. now rewrite map_app.
Qed.

Theorem minv_run : forall cf tr s, mruns cf minit tr s -> minv cf tr s.
Proof.
  intros cf. apply mruns_ind_r.
  { split; [split; reflexivity|]. split; [discriminate|intros r []]. }
  intros tr s e o s' R I H. assert (I0 := I). destruct I as (P & En & K).
  assert (W := inv_base cf tr s I0).
  destruct e; cbn [mstep] in H.
  - (* EStart *) destruct (m_phase s) eqn:Ph; try discriminate. destruct (m_open s); [|discriminate]. apply Some_inj in H.
    destruct P as (A & B). eapply (next_inv _ _ s (creations cf)); [..|exact K|exact H].
    + now rewrite A, B.
    + now rewrite B.
    + intros X. apply En in X. destruct X as [X|[]]. exact X.
  - (* ECreated *) destruct (m_phase s) as [|r l| | | | | | | |] eqn:Ph; try discriminate. destruct (m_open s); [|discriminate]. apply Some_inj in H.
    destruct P as (A & B). eapply (next_inv _ _ _ l); [..|exact H]; flds.
    + exact B.
    + now rewrite A, <- app_assoc.
    + intros X. apply has_In. apply in_or_app. destruct (En X) as [Y|Y]; [left; now apply has_In|right]. destruct r; destruct Y. now left.
    + intros x X. apply in_or_app. left. auto.
  - (* ERaise *)
    assert (W' : waits (m_phase s) = true) by (destruct (m_phase s); try discriminate; reflexivity).
    assert (H' : Some (stop s) = Some (s', o)) by (destruct (m_phase s); try discriminate; exact H). apply Some_inj in H'.
    eapply stop_inv; eauto.
  - (* EEnding *) destruct (has r (m_created s)) eqn:Hr; [|discriminate]. injection H as <- <-.
    apply (minv_seen _ tr); [rewrite seen_snoc; now rewrite app_nil_r|]. unfold minv. flds. split; [exact P|]. split; auto.
    intros x [<-|X]; [now apply has_In|auto].
  - (* EBound *) destruct (m_open s && _) eqn:Hb; [|discriminate]. injection H as <- <-.
    apply (minv_seen _ tr); [rewrite seen_snoc; now rewrite app_nil_r|]. unfold minv. flds. split; [|auto].
    destruct (m_phase s); auto; destruct P; auto.
  - (* EClose *) injection H as <- <-.
    apply (minv_seen _ tr); [rewrite seen_snoc; now rewrite app_nil_r|]. unfold minv. flds. split; [|auto].
    destruct (m_phase s); auto; destruct P; auto.
  - (* ECancel *) destruct (m_open s) eqn:Op; [discriminate|].
    destruct (waits (m_phase s)) eqn:Wp.
    + assert (H' : Some (stop s) = Some (s', o)) by (destruct (m_phase s); try discriminate; exact H). apply Some_inj in H'.
      eapply stop_inv; eauto.
    + destruct (m_phase s); try discriminate. injection H as <- <-. destruct P as (A & B). unfold minv. flds. rewrite seen_snoc, A, B.
      assert (En' : m_engine s = false).
      { destruct (m_engine s); auto. destruct (En eq_refl) as [X|[]]. rewrite B in X. discriminate. }
      rewrite En'. split; [|split; [discriminate|intros r X; now rewrite <- B; apply K]]. split; auto. exists []. split; [right; auto|reflexivity].
  - (* EReady *) destruct (m_open s); [|discriminate]. destruct (m_phase s) eqn:Ph; try discriminate.
    + injection H as <- <-. apply (minv_seen _ tr); [rewrite seen_snoc; now rewrite app_nil_r|]. unfold minv, loop. flds. split; auto.
    + destruct (m_token s); injection H as <- <-; (apply (minv_seen _ tr); [rewrite seen_snoc; now rewrite app_nil_r|]); unfold minv; flds; split; auto.
  - (* EReset *) injection H as <- <-. apply (minv_seen _ tr); [rewrite seen_snoc; now rewrite app_nil_r|]. unfold minv. flds. auto.
  - (* EWake *) destruct (m_phase s) eqn:Ph; try discriminate. destruct (m_open s && m_reset s); [|discriminate]. injection H as <- <-.
    unfold minv. flds. split; [|auto]. destruct P as (A & B & n & C & D). split; auto. split; auto. exists (S n).
    split; [rewrite Nat.even_succ, <- Nat.negb_even, C; reflexivity|]. now rewrite seen_snoc, D, alt_even, app_assoc.
  - (* EState *) injection H as <- <-. apply (minv_seen _ tr); [rewrite seen_snoc; now rewrite app_nil_r|]. unfold minv. flds.
    split; [destruct (m_phase s); exact P|]. split; auto. intros X. destruct (En X) as [Y|Y]; [auto|right]. destruct (m_phase s); auto.
  - (* ECheck *) destruct (m_phase s) as [| | | | | |[]| | |] eqn:Ph; try discriminate.
    destruct (m_token s); injection H as <- <-; (apply (minv_seen _ tr); [rewrite seen_snoc; now rewrite app_nil_r|]); unfold minv; flds; split; auto.
  - (* ETimeout *) destruct (m_phase s) eqn:Ph; try discriminate. injection H as <- <-.
    apply (minv_seen _ tr); [rewrite seen_snoc; now rewrite app_nil_r|]. unfold minv; flds; split; auto.
  - (* EToken *) destruct (m_phase s) eqn:Ph; try discriminate. destruct (m_open s); [|discriminate]. injection H as <- <-.
    unfold minv. flds. split; [|auto]. destruct P as (A & B & n & C & D). split; auto. split; auto. exists (S n).
    split; [rewrite Nat.even_succ, <- Nat.negb_even, C; reflexivity|]. now rewrite seen_snoc, D, alt_odd, app_assoc.
  - (* EEngine *) destruct (mc_monitor cf && _) eqn:G; [|discriminate]. injection H as <- <-. apply andb_prop in G. destruct G as [_ G].
    apply (minv_seen _ tr); [rewrite seen_snoc; now rewrite app_nil_r|]. unfold minv. flds.
    assert (G' : has RMonitor (m_created s) = true \/ exists l, m_phase s = PStart RMonitor l).
    { apply orb_prop in G. destruct G as [G|G]; [auto|right]. destruct (m_phase s) as [|[] l| | | | | | | |]; try discriminate. eauto. }
    split; [|split; [|auto]].
    + destruct (m_phase s) eqn:Ph; auto; destruct G' as [G'|(l' & G')]; try discriminate.
      * rewrite (stops_engine _ true), <- (stops_engine _ (m_engine s)) by exact G'. exact P.
      * rewrite (stops_engine _ true) by exact G'. destruct P as (A & x & [B|(B & _)] & C).
        -- split; auto. exists x. split; auto. now rewrite (stops_engine _ (m_engine s)) in C by exact G'.
        -- rewrite B in G'. discriminate.
    + intros _. destruct G' as [G'|(l' & ->)]; auto.
  - (* EDone *) destruct (m_phase s) as [| | | | | | | |a [|b l]|] eqn:Ph; try discriminate; injection H as <- <-;
      destruct P as (A & x & done & B & C & D); unfold minv; flds; (split; [|auto]).
    + split; auto. exists x. split; auto. rewrite seen_snoc, D, C, app_assoc. reflexivity.
    + split; auto. exists x, (done ++ [a]). split; auto. split; [now rewrite <- app_assoc|].
      rewrite seen_snoc, D, !map_app, !app_assoc. reflexivity.
Qed.
