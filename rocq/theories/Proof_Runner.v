(** Invariant of the engine runner. *)
From Coq Require Import Bool Arith Lia List.
From Verif Require Import Base Model_Types Model_Runner Spec_Runner.
Import ListNotations.
Open Scope list_scope.
Open Scope nat_scope.

Lemma done_snoc : forall tr o l, done_ (tr ++ [(o, l)]) = done_ tr ++ l.
Proof. intros. unfold done_. rewrite flat_map_app. cbn. now rewrite app_nil_r. Qed.
Lemma sets_app : forall a b, sets (a ++ b) = sets a ++ sets b.
Proof. intros. unfold sets. apply flat_map_app. Qed.
Lemma statuses_app : forall a b, statuses (a ++ b) = statuses a ++ statuses b.
Proof. intros. unfold statuses. rewrite sets_app. apply map_app. Qed.

Lemma cycle_snoc : forall l st x, cycle st l -> x = next_status (last l st) -> cycle st (l ++ [x]).
Proof.
  induction l as [|y l IH]; intros st x H E; cbn in *; auto. destruct H as [H1 H2]. split; auto. apply IH; auto.
  destruct l as [|z l]; cbn in *; auto. rewrite E. f_equal. clear. revert z. induction l; intros; cbn in *; auto.
Qed.

Lemma settled_app : forall n l x, settled n l -> settled n (l ++ x).
Proof. intros n l x (a & b & c & ->). exists a, b, (c ++ x). rewrite <- !app_assoc. cbn. now rewrite <- app_assoc. Qed.
Lemma settled_now : forall n l x, In (EngineClosed n) l -> settled n (l ++ Flushed :: x).
Proof. intros n l x H. apply in_split in H. destruct H as (a & b & ->). exists a, b, x. now rewrite <- app_assoc. Qed.

Lemma last_map : forall A B (f : A -> B) l d, last (map f l) (f d) = f (last l d).
Proof. induction l as [|x l IH]; intros d; cbn; auto. destruct l; cbn in *; auto. Qed.

(** What each place of the task means. *)
Definition place (O : list nout) (s : nstate) : Prop :=
  match n_pc s with
  | NNew => O = [] /\ n_srv s = STANDBY
  | NWait => n_srv s = STANDBY
  | NStart | NCreate => n_srv s = STARTING
  | NOper | NRun | NSub => n_srv s = OPERATIONAL /\ n_eng s <> None
  | NStop _ | NFlush _ => n_srv s = STOPPING
  | NEngine _ => n_srv s = STOPPING /\ n_eng s <> None
  | NStandby _ => n_srv s = STANDBY
  | NDone => n_srv s <> OPERATIONAL
  end.
Definition in_final (pc : npc) : bool :=
  match pc with NStop true | NEngine true | NFlush true | NStandby true => true | _ => false end.
Definition tail_of (pc : npc) : list (list status) :=
  match pc with
  | NStop true | NEngine true | NFlush true => [[STOPPING]]
  | NStandby true => [[STOPPING; STANDBY]]
  | NDone => [[]; [STOPPING]; [STOPPING; STANDBY]]
  | _ => [[]]
  end.
Definition rest (pc : npc) : bool := match pc with NNew | NWait | NStart | NCreate | NStandby _ => true | _ => false end.

Record ninv (O : list nout) (s : nstate) : Prop := NI {
  ni_last : last (sets O) (STANDBY, None) = (n_srv s, n_seng s);
  ni_pairs : forall st e, In (SetStatus st e) O -> (st = OPERATIONAL <-> e <> None);
  ni_refused : ~ In Refused O;
  ni_place : place O s;
  ni_seng : n_seng s = match n_srv s with OPERATIONAL => n_eng s | _ => None end;
  ni_cycle : exists c t, statuses O = c ++ t /\ cycle STANDBY c /\ In t (tail_of (n_pc s));
  ni_final : in_final (n_pc s) = true \/ n_pc s = NDone -> n_open s = false;
  ni_num : forall n, In (Created n) O <-> n < n_next s;
  ni_eng : n_eng s = match n_next s with 0 => None | S k => Some k end;
  ni_old : forall n, S n < n_next s -> settled n O;
  ni_rest : rest (n_pc s) = true -> forall n, n < n_next s -> settled n O;
  ni_flush : forall f, n_pc s = NFlush f -> forall n, n < n_next s -> In (EngineClosed n) O;
  ni_closing : forall n, In (Closing n) O -> n < n_next s /\ (n_eng s = Some n -> n_eopen s = false);
  ni_oper : n_srv s = OPERATIONAL -> forall n, n_eng s = Some n -> ~ In (Closing n) O
}.

Lemma ninv_start : ninv [] nstart.
Proof.
  constructor; cbn; auto; try easy; try lia.
  - exists [], []. cbn. auto.
  - intros [|]; discriminate.
Qed.

Ltac outs := repeat (rewrite ?in_app_iff in *; cbn [In app] in *).

(** Steps that set no status and create nothing. *)
Lemma same_inv : forall O s s' l, ninv O s ->
  (forall x, In x l -> exists n, x = ToEngine n \/ x = EngineClosed n \/ x = FlushBegin \/ x = CreateEngine) ->
  n_srv s' = n_srv s -> n_seng s' = n_seng s -> n_eng s' = n_eng s -> n_next s' = n_next s -> (n_eopen s' = true -> n_eopen s = true) ->
  place (O ++ l) s' -> (exists c t, statuses O = c ++ t /\ cycle STANDBY c /\ In t (tail_of (n_pc s'))) ->
  (in_final (n_pc s') = true \/ n_pc s' = NDone -> n_open s' = false) ->
  (rest (n_pc s') = true -> forall n, n < n_next s -> settled n (O ++ l)) ->
  (forall f, n_pc s' = NFlush f -> forall n, n < n_next s -> In (EngineClosed n) (O ++ l)) ->
  ninv (O ++ l) s'.
Proof.
  intros O s s' l I Hl E1 E2 E3 E4 E5 P C F R Fl.
  assert (S0 : sets l = []).
  { clear -Hl. induction l as [|x l IH]; auto. unfold sets in *; cbn. destruct (Hl x) as (n & H); [cbn; auto|].
    rewrite IH; [|intros y Hy; apply Hl; cbn; auto]. destruct H as [->|[->|[->| ->]]]; reflexivity. }
  assert (NI_ : forall x, In x (O ++ l) -> match x with Created _ | Closing _ | SetStatus _ _ | Refused => In x O | _ => True end).
  { intros x Hx. rewrite in_app_iff in Hx. destruct Hx as [Hx|Hx]; [destruct x; auto|]. destruct (Hl _ Hx) as (n & [->|[->|[->| ->]]]); exact Logic.I. }
  constructor; rewrite ?E1, ?E2, ?E3, ?E4; auto.
  - rewrite sets_app, S0, app_nil_r. apply (ni_last _ _ I).
  - intros st e H. apply (ni_pairs _ _ I). exact (NI_ _ H).
  - intros H. apply (ni_refused _ _ I). exact (NI_ _ H).
  - apply (ni_seng _ _ I).
  - rewrite statuses_app. unfold statuses at 2. rewrite S0. cbn. now rewrite app_nil_r.
  - intros n. rewrite <- (ni_num _ _ I n). split; [intros H; exact (NI_ _ H)|]. rewrite in_app_iff. auto.
  - apply (ni_eng _ _ I).
  - intros n H. apply settled_app. now apply (ni_old _ _ I).
  - intros n H. specialize (NI_ _ H). cbn in NI_. apply (ni_closing _ _ I) in NI_. destruct NI_ as [A B]. split; auto. intros H1. specialize (B H1).
    destruct (n_eopen s'); auto. rewrite E5 in B; auto.
  - intros H n Hn X. apply (ni_oper _ _ I H n Hn). exact (NI_ _ X).
Qed.

Lemma open_tail : forall O s, ninv O s -> in_final (n_pc s) = false -> n_pc s <> NDone -> cycle STANDBY (statuses O).
Proof.
  intros O s I F D. destruct (ni_cycle _ _ I) as (c & t & E & C & T).
  assert (t = []). { destruct (n_pc s) as [| | | | | | |[]|[]|[]|[]|]; cbn in *; try discriminate; try congruence; destruct T as [<-|[]]; auto. }
  subst. now rewrite E, app_nil_r.
Qed.

Lemma last_status : forall O s, ninv O s -> last (statuses O) STANDBY = n_srv s.
Proof. intros O s I. unfold statuses. change STANDBY with (fst (STANDBY, @None nat)). rewrite last_map, (ni_last _ _ I). reflexivity. Qed.

Lemma closing_pre : forall O s n, ninv O s -> In (Closing n) (match n_eng s with Some k => [Closing k] | None => [] end) -> n < n_next s.
Proof.
  intros O s n I H. rewrite (ni_eng _ _ I) in H. destruct (n_next s); cbn in H; [easy|]. destruct H as [[= <-]|[]]. lia.
Qed.
Lemma closing_pre_other : forall O s x, ninv O s -> In x (match n_eng s with Some k => [Closing k] | None => [] end) -> exists n, x = Closing n.
Proof. intros O s x I H. destruct (n_eng s); cbn in H; [|easy]. destruct H as [<-|[]]. eauto. Qed.

(** Setting STOPPING. *)
Lemma stopping_inv : forall O s fin op, ninv O s -> in_final (n_pc s) = false -> n_pc s <> NDone ->
  (fin = true /\ op = false \/ fin = false /\ n_srv s = OPERATIONAL) ->
  ninv (O ++ (match n_eng s with Some n => [Closing n] | None => [] end) ++ [SetStatus STOPPING None])
       (Nstate (NStop fin) (n_eng s) false (n_next s) (n_restart s) (n_remote s) (n_woken s) op STOPPING None).
Proof.
  intros O s fin op I F D Hf. pose proof (open_tail _ _ I F D) as C. pose proof (last_status _ _ I) as L.
  set (cl := match n_eng s with Some n => [Closing n] | None => [] end).
  assert (Scl : sets cl = []) by (unfold cl; destruct (n_eng s); reflexivity).
  assert (Hcl : forall x, In x cl -> exists n, x = Closing n) by (intros x; apply (closing_pre_other _ _ _ I)).
  constructor; cbn [n_pc n_eng n_eopen n_next n_srv n_seng n_open]; auto.
  - rewrite !sets_app, Scl. cbn. now rewrite last_last.
  - intros st e H. outs. destruct H as [H|[H|[[= <- <-]|[]]]].
    + now apply (ni_pairs _ _ I).
    + destruct (Hcl _ H) as (n & X). discriminate.
    + split; [discriminate|congruence].
  - intros H. outs. destruct H as [H|[H|[[=]|[]]]]; [now apply (ni_refused _ _ I)|]. destruct (Hcl _ H) as (n & X). discriminate.
  - reflexivity.
  - rewrite !statuses_app. unfold statuses at 2. rewrite Scl. cbn. destruct Hf as [[-> ->]|[-> E]].
    + exists (statuses O), [STOPPING]. cbn. auto.
    + exists (statuses O ++ [STOPPING]), []. rewrite app_nil_r. cbn. split; auto. split; auto. apply cycle_snoc; auto. rewrite L, E. reflexivity.
  - destruct Hf as [[-> ->]|[-> E]]; auto. intros [X|X]; discriminate.
  - intros n. rewrite <- (ni_num _ _ I n). outs. split; auto. intros [H|[H|[[=]|[]]]]; auto. destruct (Hcl _ H) as (k & X). discriminate.
  - apply (ni_eng _ _ I).
  - intros n H. apply settled_app. now apply (ni_old _ _ I).
  - discriminate.
  - discriminate.
  - intros n H. outs. split; auto. destruct H as [H|[H|[[=]|[]]]]; [now apply (ni_closing _ _ I)|]. now apply (closing_pre _ _ _ I).
  - discriminate.
Qed.

Lemma final_inv : forall O s, ninv O s -> in_final (n_pc s) = false -> n_pc s <> NDone -> ninv (O ++ snd (final s)) (fst (final s)).
Proof. intros O s I F D. unfold final, stop_fin, srv_set, at_pc. cbn. apply stopping_inv; auto. Qed.
Lemma stop_inv : forall O s, ninv O s -> n_pc s = NSub -> ninv (O ++ snd (stop s)) (fst (stop s)).
Proof.
  intros O s I E. unfold stop, srv_set, at_pc. cbn. apply stopping_inv; auto; rewrite ?E; auto; [discriminate|].
  right. split; auto. pose proof (ni_place _ _ I) as P. unfold place in P. rewrite E in P. tauto.
Qed.

Lemma settled_all : forall O s l, ninv O s -> rest (n_pc s) = true -> forall n, n < n_next s -> settled n (O ++ l).
Proof. intros O s l I R n H. apply settled_app. now apply (ni_rest _ _ I). Qed.

(** The head of the loop. *)
Lemma nhead_inv : forall O s, ninv O s -> rest (n_pc s) = true -> in_final (n_pc s) = false -> n_srv s = STANDBY -> ninv (O ++ snd (nhead s)) (fst (nhead s)).
Proof.
  intros O s I R F E. assert (D : n_pc s <> NDone) by (destruct (n_pc s); discriminate). pose proof (open_tail _ _ I F D) as C. pose proof (last_status _ _ I) as L.
  unfold nhead. destruct (n_remote s) eqn:Er; cbn [fst snd].
  - apply (same_inv _ _ _ _ I); cbn; auto.
    + easy.
    + exists (statuses O), []. rewrite app_nil_r. cbn. auto.
    + intros [|]; discriminate.
    + intros _. now apply settled_all.
    + discriminate.
  - unfold srv_set, at_pc. cbn [fst snd n_pc n_eng n_eopen n_next n_srv n_seng n_open n_restart n_remote n_woken].
    constructor; cbn [n_pc n_eng n_eopen n_next n_srv n_seng n_open]; auto.
    + rewrite sets_app. cbn. now rewrite last_last.
    + intros st e H. outs. destruct H as [H|[[= <- <-]|[]]]; [now apply (ni_pairs _ _ I)|]. split; [discriminate|congruence].
    + intros H. outs. destruct H as [H|[[=]|[]]]. now apply (ni_refused _ _ I).
    + reflexivity.
    + rewrite statuses_app. cbn. exists (statuses O ++ [STARTING]), []. rewrite app_nil_r. split; auto. split; [|cbn; auto]. apply cycle_snoc; auto. rewrite L, E. reflexivity.
    + intros [|]; discriminate.
    + intros n. rewrite <- (ni_num _ _ I n). outs. split; auto. intros [H|[[=]|[]]]; auto.
    + apply (ni_eng _ _ I).
    + intros n H. apply settled_app. now apply (ni_old _ _ I).
    + intros _. now apply settled_all.
    + discriminate.
    + intros n H. outs. destruct H as [H|[[=]|[]]]. now apply (ni_closing _ _ I).
    + discriminate.
Qed.

Lemma created_inv : forall O s, ninv O s -> n_pc s = NCreate -> ninv (O ++ snd (created s)) (fst (created s)).
Proof.
  intros O s I E. assert (F : in_final (n_pc s) = false) by now rewrite E. assert (D : n_pc s <> NDone) by (rewrite E; discriminate).
  pose proof (open_tail _ _ I F D) as C. pose proof (last_status _ _ I) as L. pose proof (ni_place _ _ I) as P. unfold place in P. rewrite E in P.
  assert (R : rest (n_pc s) = true) by now rewrite E.
  unfold created, srv_set, at_pc. cbn [fst snd n_pc n_eng n_eopen n_next n_srv n_seng n_open n_restart n_remote n_woken].
  constructor; cbn [n_pc n_eng n_eopen n_next n_srv n_seng n_open]; auto.
  - rewrite sets_app. cbn. now rewrite last_last.
  - intros st e H. outs. destruct H as [H|[[=]|[[= <- <-]|[]]]]; [now apply (ni_pairs _ _ I)|]. split; [discriminate|auto].
  - intros H. outs. destruct H as [H|[[=]|[[=]|[]]]]. now apply (ni_refused _ _ I).
  - cbn. split; [auto|discriminate].
  - rewrite statuses_app. cbn. exists (statuses O ++ [OPERATIONAL]), []. rewrite app_nil_r. split; auto. split; [|cbn; auto]. apply cycle_snoc; auto. rewrite L, P. reflexivity.
  - intros [|]; discriminate.
  - intros n. pose proof (ni_num _ _ I n) as H. outs. split.
    + intros [X|[[= <-]|[[=]|[]]]]; [|lia]. apply H in X. lia.
    + intros X. destruct (Nat.eq_dec n (n_next s)) as [->|]; auto. left. apply H. lia.
  - intros n H. apply (settled_all _ _ _ I R). lia.
  - discriminate.
  - discriminate.
  - intros n H. outs. destruct H as [H|[[=]|[[=]|[]]]]. apply (ni_closing _ _ I) in H. split; [lia|]. intros [= X]. lia.
  - intros _ n [= <-] H. outs. destruct H as [H|[[=]|[[=]|[]]]]. apply (ni_closing _ _ I) in H. lia.
Qed.

Lemma standby_inv : forall O s f, ninv O s -> n_pc s = NFlush f -> (f = true -> n_open s = false) -> ninv (O ++ snd (standby s f)) (fst (standby s f)).
Proof.
  intros O s f I E Ho. pose proof (last_status _ _ I) as L. pose proof (ni_place _ _ I) as P. unfold place in P. rewrite E in P.
  unfold standby, srv_set, at_pc. cbn [fst snd n_pc n_eng n_eopen n_next n_srv n_seng n_open n_restart n_remote n_woken].
  constructor; cbn [n_pc n_eng n_eopen n_next n_srv n_seng n_open]; auto.
  - rewrite sets_app. cbn. now rewrite last_last.
  - intros st e H. outs. destruct H as [H|[[=]|[[= <- <-]|[]]]]; [now apply (ni_pairs _ _ I)|]. split; [discriminate|congruence].
  - intros H. outs. destruct H as [H|[[=]|[[=]|[]]]]. now apply (ni_refused _ _ I).
  - reflexivity.
  - rewrite statuses_app. cbn. destruct (ni_cycle _ _ I) as (c & t & Et & Ct & T). rewrite E in T. destruct f.
    + cbn in T. destruct T as [<-|[]]. exists c, [STOPPING; STANDBY]. rewrite Et, <- app_assoc. cbn. auto.
    + cbn in T. destruct T as [<-|[]]. exists (c ++ [STANDBY]), []. rewrite app_nil_r in *. rewrite Et. split; auto. split; [|cbn; auto].
      apply cycle_snoc; auto. rewrite <- Et, L, P. reflexivity.
  - destruct f; auto. intros [|]; discriminate.
  - intros n. rewrite <- (ni_num _ _ I n). outs. split; auto. intros [H|[[=]|[[=]|[]]]]; auto.
  - apply (ni_eng _ _ I).
  - intros n H. apply settled_app. now apply (ni_old _ _ I).
  - intros _ n H. apply settled_now. now apply (ni_flush _ _ I f).
  - discriminate.
  - intros n H. outs. destruct H as [H|[[=]|[[=]|[]]]]. now apply (ni_closing _ _ I).
  - discriminate.
Qed.

Lemma settled_closed : forall n O, settled n O -> In (EngineClosed n) O.
Proof. intros n O (x & y & z & ->). rewrite in_app_iff. cbn. auto. Qed.

Lemma tail_some : forall O s, ninv O s -> forall pc', incl (tail_of (n_pc s)) (tail_of pc') -> exists c t, statuses O = c ++ t /\ cycle STANDBY c /\ In t (tail_of pc').
Proof. intros O s I pc' H. destruct (ni_cycle _ _ I) as (c & t & X & Y & Z). exists c, t. auto. Qed.

Lemma fail_inv : forall O s f, ninv O s -> (n_pc s = NStop f \/ n_pc s = NEngine f \/ n_pc s = NFlush f \/ n_pc s = NStandby f) -> ninv (O ++ snd (fail s f)) (fst (fail s f)).
Proof.
  intros O s f I H. unfold fail. destruct f; cbn [fst snd].
  - assert (Op : n_open s = false) by (apply (ni_final _ _ I); destruct H as [E|[E|[E|E]]]; rewrite E; auto).
    apply (same_inv _ _ _ _ I); cbn; auto; try easy.
    + pose proof (ni_place _ _ I) as P. unfold place in *. cbn. destruct H as [E|[E|[E|E]]]; rewrite E in P; try (match type of P with _ /\ _ => destruct P as [P _] end); rewrite P; discriminate.
    + destruct (ni_cycle _ _ I) as (c & t & X & Y & Z). exists c, t. split; auto. split; auto. destruct H as [E|[E|[E|E]]]; rewrite E in Z; cbn in *; tauto.
  - apply final_inv; auto; destruct H as [E|[E|[E|E]]]; rewrite E; auto; discriminate.
Qed.

Ltac flds := cbn [at_pc n_pc n_eng n_eopen n_next n_srv n_seng n_open n_restart n_remote n_woken fst snd].

Lemma nstep_inv : forall O s o s' l, ninv O s -> nexec s o = Some (s', l) -> ninv (O ++ l) s'.
Proof.
  intros O s o s' l I H.
  assert (Pr : forall p : nstate * list nout, (s', l) = p -> s' = fst p /\ l = snd p) by (intros p <-; auto).
  pose proof (ni_place _ _ I) as P. unfold place in P.
  destruct o; cbn [nexec] in H.
  - destruct (n_pc s) eqn:E; try discriminate. destruct (n_open s); [|discriminate].
    destruct (Pr (nhead s)) as [-> ->]; [congruence|]. apply nhead_inv; auto; rewrite ?E; auto. tauto.
  - injection H as <- <-. apply (same_inv _ _ _ _ I); flds; auto; try easy; try (unfold place; cbn; solve [auto | tauto]); try apply I.
    + rewrite app_nil_r. exact (ni_place _ _ I).
    + intros R. now apply settled_all.
    + intros f X n Y. rewrite app_nil_r. eapply (ni_flush _ _ I); eauto.
  - destruct (n_pc s) eqn:E; try discriminate. destruct (n_woken s && n_open s); [|discriminate].
    destruct (Pr (nhead s)) as [-> ->]; [congruence|]. apply nhead_inv; auto; rewrite ?E; auto.
  - destruct (n_pc s) as [| | | | | | |f|f|f|f|] eqn:E; try discriminate.
    + destruct (n_open s) eqn:Op; [|discriminate]. injection H as <- <-. apply (same_inv _ _ _ _ I); flds; auto; try easy; try (unfold place; cbn; solve [auto | tauto]).
      * intros x [<-|[]]. exists 0. auto.
      * apply (tail_some _ _ I). rewrite E. cbn. apply incl_refl.
      * intros [|]; discriminate.
      * intros _. apply settled_all; auto. now rewrite E.
    + destruct (n_open s) eqn:Op; [|discriminate]. destruct (Pr (created s)) as [-> ->]; [congruence|]. now apply created_inv.
    + destruct (n_open s) eqn:Op; [|discriminate]. injection H as <- <-. apply (same_inv _ _ _ _ I); flds; auto; try easy; try (unfold place; cbn; solve [auto | tauto]).
      * apply (tail_some _ _ I). rewrite E. cbn. apply incl_refl.
      * intros [|]; discriminate.
    + destruct (n_open s && (n_restart s || negb (n_eopen s))) eqn:Op; [|discriminate]. injection H as <- <-. apply (same_inv _ _ _ _ I); flds; auto; try easy; try (unfold place; cbn; solve [auto | tauto]).
      * apply (tail_some _ _ I). rewrite E. cbn. apply incl_refl.
      * intros [|]; discriminate.
    + destruct (n_open s) eqn:Op; [|discriminate]. destruct (n_eopen s).
      * destruct (Pr (stop s)) as [-> ->]; [congruence|]. now apply stop_inv.
      * destruct (Pr (final s)) as [-> ->]; [congruence|]. apply final_inv; auto; rewrite E; auto; discriminate.
    + destruct (n_open s || f) eqn:Op; [|discriminate].
      assert (Hf : f = true -> n_open s = false) by (intros ->; apply (ni_final _ _ I); rewrite E; auto).
      destruct (Pr (engine_close s f)) as [-> ->]; [congruence|]. unfold engine_close. destruct (n_eng s) eqn:En; cbn [fst snd].
      * apply (same_inv _ _ _ _ I); flds; auto; try easy; try (unfold place; cbn; solve [auto | tauto]).
        -- unfold place; cbn. split; auto. congruence.
        -- apply (tail_some _ _ I). rewrite E. destruct f; cbn; apply incl_refl.
        -- destruct f; [auto|]. intros [|]; discriminate.
      * assert (Z : n_next s = 0). { pose proof (ni_eng _ _ I) as Q. rewrite En in Q. destruct (n_next s); [auto|discriminate]. }
        apply (same_inv _ _ _ _ I); flds; auto; try easy; try (unfold place; cbn; solve [auto | tauto]).
        -- intros x [<-|[]]. exists 0. auto.
        -- apply (tail_some _ _ I). rewrite E. destruct f; cbn; apply incl_refl.
        -- destruct f; [auto|]. intros [|]; discriminate.
        -- intros _ _ n X. lia.
    + destruct (n_eng s) as [k|] eqn:En; [|discriminate]. destruct (n_open s || f) eqn:Op; [|discriminate]. injection H as <- <-.
      assert (Hf : f = true -> n_open s = false) by (intros ->; apply (ni_final _ _ I); rewrite E; auto).
      apply (same_inv _ _ _ _ I); flds; auto; try easy; try (unfold place; cbn; solve [auto | tauto]).
      * intros x [<-|[<-|[]]]; exists k; auto.
      * apply (tail_some _ _ I). rewrite E. destruct f; cbn; apply incl_refl.
      * destruct f; [auto|]. intros [|]; discriminate.
      * intros _ _ n X. pose proof (ni_eng _ _ I) as Q. rewrite En in Q. destruct (n_next s) as [|m] eqn:Nn; [discriminate|]. injection Q as ->.
        rewrite in_app_iff. destruct (Nat.eq_dec n m) as [->|]; [right; cbn; auto|]. left. apply settled_closed. apply (ni_old _ _ I). lia.
    + destruct (n_open s || f) eqn:Op; [|discriminate].
      assert (Hf : f = true -> n_open s = false) by (intros ->; apply (ni_final _ _ I); rewrite E; auto).
      destruct (Pr (standby s f)) as [-> ->]; [congruence|]. now apply standby_inv.
    + destruct f.
      * injection H as <- <-. assert (Op : n_open s = false) by (apply (ni_final _ _ I); rewrite E; auto). apply (same_inv _ _ _ _ I); flds; auto; try easy; try (unfold place; cbn; solve [auto | tauto]).
        -- unfold place; cbn. rewrite P. discriminate.
        -- apply (tail_some _ _ I). rewrite E. intros x [<-|[]]; cbn; auto.
      * destruct (n_open s) eqn:Op; [|discriminate]. destruct (Pr (nhead s)) as [-> ->]; [congruence|]. apply nhead_inv; auto; rewrite ?E; auto.
  - destruct (n_pc s) as [| | | | | | |f|f|f|f|] eqn:E; try discriminate;
      try (destruct (n_open s) eqn:Op; [|discriminate]; destruct (Pr (final s)) as [-> ->]; [congruence|]; apply final_inv; auto; rewrite E; auto; discriminate);
      (destruct (n_open s || f); [|discriminate]; destruct (Pr (fail s f)) as [-> ->]; [congruence|]; apply fail_inv; auto; rewrite E; auto).
  - destruct (n_eng s) eqn:En; [|discriminate]. injection H as <- <-. apply (same_inv _ _ _ _ I); flds; auto; try easy; try (unfold place; cbn; solve [auto | tauto]); try apply I.
    + rewrite app_nil_r. pose proof (ni_place _ _ I) as Q. unfold place in *. cbn. now rewrite En in Q.
    + intros R. now apply settled_all.
    + intros f X n' Y. rewrite app_nil_r. eapply (ni_flush _ _ I); eauto.
  - injection H as <- <-. apply (same_inv _ _ _ _ I); flds; auto; try easy; try (unfold place; cbn; solve [auto | tauto]); try apply I.
    + rewrite app_nil_r. exact (ni_place _ _ I).
    + intros R. now apply settled_all.
    + intros f X n' Y. rewrite app_nil_r. eapply (ni_flush _ _ I); eauto.
  - injection H as <- <-. apply (same_inv _ _ _ _ I); flds; auto; try easy; try (unfold place; cbn; solve [auto | tauto]); try apply I.
    + rewrite app_nil_r. exact (ni_place _ _ I).
    + intros R. now apply settled_all.
    + intros f X n' Y. rewrite app_nil_r. eapply (ni_flush _ _ I); eauto.
  - destruct (n_open s) eqn:Op; [discriminate|].
    destruct (n_pc s) as [| | | | | | |[]|[]|[]|[]|] eqn:E; try discriminate;
      try (destruct (Pr (final s)) as [-> ->]; [congruence|]; apply final_inv; auto; rewrite E; auto; discriminate).
    injection H as <- <-. apply (same_inv _ _ _ _ I); flds; auto; try easy; try (unfold place; cbn; solve [auto | tauto]).
    + unfold place; cbn. destruct P as [_ ->]. discriminate.
    + apply (tail_some _ _ I). rewrite E. intros x [<-|[]]; cbn; auto.
  - assert (T : s' = s /\ (forall x, In x l -> exists n, x = ToEngine n)).
    { injection H as <- <-. split; auto. intros x Hx. destruct (n_seng s); cbn in Hx; [|easy]. destruct Hx as [<-|[]]. eauto. }
    destruct T as [-> T]. apply (same_inv _ _ _ _ I); auto; try apply I.
    + intros x Hx. destruct (T _ Hx) as (n & ->). eauto.
    + unfold place. destruct (n_pc s); auto. destruct P as [-> P]. pose proof (ni_seng _ _ I) as Q. rewrite P in Q. injection H as <-. rewrite Q. auto.
    + intros R. now apply settled_all.
    + intros f X n Y. rewrite in_app_iff. left. eapply (ni_flush _ _ I); eauto.
  - assert (T : s' = s /\ (forall x, In x l -> exists n, x = ToEngine n)).
    { injection H as <- <-. split; auto. intros x Hx. destruct (n_seng s); cbn in Hx; [|easy]. destruct (n_eopen s); [|easy]. destruct Hx as [<-|[]]. eauto. }
    destruct T as [-> T]. apply (same_inv _ _ _ _ I); auto; try apply I.
    + intros x Hx. destruct (T _ Hx) as (n & ->). eauto.
    + unfold place. destruct (n_pc s); auto. destruct P as [-> P]. pose proof (ni_seng _ _ I) as Q. rewrite P in Q. injection H as <-. rewrite Q. auto.
    + intros R. now apply settled_all.
    + intros f X n Y. rewrite in_app_iff. left. eapply (ni_flush _ _ I); eauto.
  - assert (T : s' = s /\ (forall x, In x l -> exists n, x = ToEngine n)).
    { injection H as <- <-. split; auto. intros x Hx. destruct (n_eng s); cbn in Hx; [|easy]. destruct (n_eopen s); [|easy]. destruct Hx as [<-|[]]. eauto. }
    destruct T as [-> T]. apply (same_inv _ _ _ _ I); auto; try apply I.
    + intros x Hx. destruct (T _ Hx) as (n & ->). eauto.
    + unfold place. destruct (n_pc s); auto. destruct P as [-> P]. pose proof (ni_eng _ _ I) as Q. assert (Z : n_next s = 0). { destruct (n_next s) as [|m] eqn:En; auto. exfalso. assert (X : In (Created m) []) by (apply (ni_num _ _ I); lia). easy. }
      rewrite Z in Q. injection H as <-. rewrite Q. auto.
    + intros R. now apply settled_all.
    + intros f X n Y. rewrite in_app_iff. left. eapply (ni_flush _ _ I); eauto.
Qed.

Lemma ninv_runs : forall tr s, nruns tr s -> ninv (done_ tr) s.
Proof.
  intros tr s H. induction H as [|tr s o s' l R IH E]; [exact ninv_start|]. rewrite done_snoc. eapply nstep_inv; eauto.
Qed.
