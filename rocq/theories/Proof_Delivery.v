(** Delivery of events to one client: calls, messages, callbacks. *)
From Coq Require Import String Bool ZArith Arith Lia List.
From Verif Require Import Base Model_Types Model_Subscription Spec_Subscription Model_Eventer Spec_Eventer Model_Client Spec_Client
  Proof_Eventer Proof_Eventer2 Proof_Eventer3 Proof_Eventer4 Proof_Eventer5 Proof_Eventer6 Proof_Eventer7 Proof_Client3 Spec_Delivery.
Import ListNotations.
Open Scope list_scope.
Open Scope nat_scope.

(** ** Lists *)

Lemma prefix_refl : forall A (l : list A), prefix l l.
Proof. intros A l. exists []. now rewrite app_nil_r. Qed.
Lemma prefix_trans : forall A (a b c : list A), prefix a b -> prefix b c -> prefix a c.
Proof. intros A a b c [x ->] [y ->]. exists (x ++ y). now rewrite app_assoc. Qed.
Lemma prefix_app : forall A (l a b : list A), prefix a b -> prefix (l ++ a) (l ++ b).
Proof. intros A l a b [x ->]. exists x. now rewrite app_assoc. Qed.
Lemma prefix_app_l : forall A (l a : list A), prefix l (l ++ a).
Proof. intros A l a. now exists a. Qed.
Lemma prefix_nil : forall A (l : list A), prefix l [] -> l = [].
Proof. intros A l [x H]. symmetry in H. now apply app_eq_nil in H as [H _]. Qed.

Lemma picked_fun : forall A (P : A -> Prop) l a, picked P l a -> forall b, picked P l b -> a = b.
Proof.
  intros A P l a H. induction H; intros b Hb; inversion Hb; subst; auto; try contradiction. f_equal. auto.
Qed.
Lemma picked_app : forall A (P : A -> Prop) l1 a1, picked P l1 a1 -> forall l2 a2, picked P l2 a2 -> picked P (l1 ++ l2) (a1 ++ a2).
Proof. intros A P l1 a1 H. induction H; intros; cbn [app]; [auto|apply picked_take; auto|apply picked_skip; auto]. Qed.

Lemma from_app : forall x a b, from x (a ++ b) = from x a ++ from x b.
Proof. intros. apply filter_app. Qed.
Lemma from_prefix : forall x a b, prefix a b -> prefix (from x a) (from x b).
Proof. intros x a b [r ->]. rewrite from_app. apply prefix_app_l. Qed.

Lemma picked_from : forall P X es l, picked P es l -> picked (fun e => P e /\ X e = true) es (from X l).
Proof.
  intros P X es l H. induction H as [|e es l He H IH|e es l He H IH].
  - constructor.
  - unfold from. cbn [filter]. fold (from X l). destruct (X e) eqn:E.
    + apply picked_take; auto.
    + apply picked_skip; auto. intros [_ K]. congruence.
  - apply picked_skip; auto. tauto.
Qed.

Lemma from_none : forall P X es l, picked P es l -> from X es = [] -> from X l = [].
Proof.
  intros P X es l H. induction H as [|e es l He H IH|e es l He H IH]; auto; unfold from; cbn [filter]; destruct (X e); auto; discriminate.
Qed.

Lemma announced_app : forall N p a b, announced N p (a ++ b) = announced N p a ++ announced N p b.
Proof. intros. apply flat_map_app. Qed.

Lemma sent_to_cons : forall c i tr, sent_to c (i :: tr) = sent_in c (snd i) ++ sent_to c tr.
Proof. intros. change (i :: tr) with ([i] ++ tr). rewrite sent_to_app. f_equal. unfold sent_to, vouts. cbn [flat_map]. now rewrite app_nil_r. Qed.

Lemma since_app : forall c a b, since c (a ++ b) = if welcomed c a then since c a ++ b else since c b.
Proof.
  intros c a b. induction a as [|i a IH]; [reflexivity|]. cbn [app since]. unfold welcomed in *. rewrite sent_to_cons, existsb_app.
  destruct (existsb is_welcome (sent_in c (snd i))); [reflexivity|]. cbn [orb]. exact IH.
Qed.
Lemma since_none : forall c tr, welcomed c tr = false -> since c tr = [].
Proof. intros c tr H. pose proof (since_app c tr []) as E. rewrite H, app_nil_r in E. exact E. Qed.

Lemma events_in_app : forall a b, events_in (a ++ b) = events_in a ++ events_in b.
Proof. intros. apply flat_map_app. Qed.
Lemma events_prefix : forall a b, prefix a b -> prefix (events_in a) (events_in b).
Proof. intros a b [r ->]. rewrite events_in_app. apply prefix_app_l. Qed.

(** ** Messages belong to calls *)

(** After a call has returned, it sends nothing. *)
Lemma silent_after : forall sv tk a n es p ack l b s b', server_run sv tk (a ++ (VNotify n es p ack, l) :: b ++ b') s ->
    returned n ((VNotify n es p ack, l) :: b) -> notes n b' = [].
Proof.
  intros sv tk a n es p ack l b s b'. revert s. induction b' as [|[o k] b' IH] using rev_ind; intros s H Hr; [reflexivity|].
  assert (E : a ++ (VNotify n es p ack, l) :: b ++ b' ++ [(o, k)] = (a ++ (VNotify n es p ack, l) :: b ++ b') ++ [(o, k)]).
  { rewrite <- app_assoc. cbn [app]. now rewrite <- app_assoc. }
  pose proof H as Hw. rewrite E in H. apply vruns_snoc_inv in H as (s1 & H1 & Hx). rewrite notes_snoc, (IH _ H1 Hr). cbn [app].
  pose proof H1 as H2. apply ncall_run in H2 as (s0 & H0 & Nc & Hl). apply ncall_run in Hw as (s0' & _ & Nc' & Hl').
  assert (Hr' : returned n (b ++ b') \/ In (Returned n) l).
  { unfold returned, vouts in *. cbn [flat_map snd] in Hr. rewrite flat_map_app. apply in_app_or in Hr as [Hr|Hr]; auto. left. apply in_or_app. auto. }
  destruct Hr' as [Hr'|Hr'].
  - destruct (nc_done _ _ _ _ _ _ Nc Hr') as (Hp & Hn & Ha).
    destruct (vexec_nstep _ _ _ _ _ _ n (vwf_run _ _ _ _ H1) Hx (nc_used _ _ _ _ _ _ Nc) (nc_sets _ _ _ _ _ _ Nc)) as [| |E1 E2 E3 E4 E5 E6 [E7|E7]|].
    + assumption.
    + rewrite Hp in H. destruct x; discriminate.
    + congruence.
    + contradiction.
    + subst k. unfold note_in, notes. cbn [flat_map fst snd]. now destruct (step_of n o).
  - assert (T : targets (v_infos s0') es p = []) by (apply Hl'; intros ->; contradiction).
    destruct (note_in n o k) as [|[[c e] f] r] eqn:En; auto. destruct (nc_sent _ _ _ _ _ _ Nc' c e f) as [X _].
    + rewrite app_assoc, notes_snoc, En. apply in_or_app. right. now left.
    + rewrite T in X. contradiction.
Qed.

(** Events of the messages to one client. *)
Definition events_for (c : nat) (l : list (nat * list event * bool)) : list event :=
  flat_map (fun x => if Nat.eqb (conn_of x) c then snd (fst x) else []) l.
Lemma events_for_app : forall c a b, events_for c (a ++ b) = events_for c a ++ events_for c b.
Proof. intros. apply flat_map_app. Qed.

Lemma item_events : forall sv tk s o s' k c, vexec sv tk s o = Some (s', k) ->
   (events_in (sent_in c k) = [] /\ forall n, events_for c (note_in n o k) = []) \/
   exists m es last, note_in m o k = [(c, es, last)] /\ events_in (sent_in c k) = es /\
     (In m (keys (v_notes s)) \/ In m (map tk_call (v_tasks s))) /\ forall n, n <> m -> note_in n o k = [].
Proof.
  intros sv tk s o s' k c H.
  assert (Other : events_in (sent_in c k) = [] -> (forall n, step_of n o = false) -> events_in (sent_in c k) = [] /\ forall n, events_for c (note_in n o k) = []).
  { intros E S. split; auto. intros n. unfold note_in, notes. cbn [flat_map fst]. now rewrite (S n). }
  assert (One : forall m c' v es last, (forall n, step_of n o = Nat.eqb m n) -> k = [Sent c' (MEvents v es last)] -> In m (keys (v_notes s)) \/ In m (map tk_call (v_tasks s)) ->
     (events_in (sent_in c k) = [] /\ forall n, events_for c (note_in n o k) = []) \/
     exists m es last, note_in m o k = [(c, es, last)] /\ events_in (sent_in c k) = es /\
     (In m (keys (v_notes s)) \/ In m (map tk_call (v_tasks s))) /\ forall n, n <> m -> note_in n o k = []).
  { intros m c' v es last S -> Hm. cbn [sent_in flat_map]. destruct (Nat.eqb_spec c' c) as [->|D].
    - right. exists m, es, last. unfold note_in, notes. cbn [flat_map fst snd app]. rewrite S, Nat.eqb_refl. split; auto. split; [apply app_nil_r|]. split; auto.
      intros n Hn. rewrite S. destruct (Nat.eqb_spec m n); [congruence|reflexivity].
    - left. split; auto. intros n. unfold note_in, notes. cbn [flat_map fst snd app]. rewrite S. destruct (Nat.eqb m n); auto.
      unfold events_for. cbn [flat_map app conn_of fst snd]. destruct (Nat.eqb_spec c' c); [congruence|reflexivity]. }
  destruct o; try solve [left; apply Other; [|reflexivity]; vstep H; cbn [sent_in flat_map];
    try (match goal with |- context [send] => unfold send; destruct (is_up _ _) end); cbn [sent_in flat_map];
    repeat match goal with |- context [Nat.eqb ?a ?b] => destruct (Nat.eqb a b) end; reflexivity].
  - cbn [vexec] in H. destruct (nget n (v_notes s)) as [[|[c' es] ts]|] eqn:E; try discriminate. injection H as <- <-.
    unfold send in One |- *. destruct (is_up s c').
    + apply (One n c' (v_conv s) es true); auto. left. apply nget_keys. eauto.
    + left. split; auto. intros m. unfold note_in, notes. cbn [flat_map fst snd]. now destruct (step_of _ _).
  - cbn [vexec] in H. destruct (find_task n c0 (v_tasks s)) as [[es| |]|] eqn:E; try discriminate. destruct (is_up s c0); injection H as <- <-.
    + apply (One n c0 (v_conv s) es false); auto. right. unfold find_task in E. destruct (find _ _) eqn:Ef; [|discriminate].
      apply find_some in Ef as [Ef1 Ef2]. apply of_task_spec in Ef2 as [<- _]. now apply in_map.
    + left. split; auto. intros m. unfold note_in, notes. cbn [flat_map fst snd]. now destruct (step_of _ _).
Qed.

Lemma init_of_app : forall c a b, init_of c (a ++ b) = match init_of c a with Some x => Some x | None => init_of c b end.
Proof. intros c a b. induction a as [|[o l] a IH]; [reflexivity|]. cbn [app init_of]. now destruct (init_op c o). Qed.

(** The client has asked for that kind of notifications. *)
Definition of_kind (c : nat) (p : bool) (tr : list vitem) : Prop := forall conv req, init_of c tr = Some (conv, req) -> ir_persisted req = p.
Lemma of_kind_app : forall c p a b, of_kind c p (a ++ b) -> of_kind c p a.
Proof. intros c p a b H conv req E. apply (H conv req). now rewrite init_of_app, E. Qed.

(** A step sends watched events to the client for a chosen call only. *)
Lemma step_events : forall sv tk N x p c tr o k s, server_run sv tk (tr ++ [(o, k)]) s -> only_by N x p (tr ++ [(o, k)]) -> of_kind c p (tr ++ [(o, k)]) ->
   (from x (events_in (sent_in c k)) = [] /\ forall n, N n = true -> events_for c (note_in n o k) = []) \/
   exists m es last, N m = true /\ begun m tr /\ note_in m o k = [(c, es, last)] /\ events_in (sent_in c k) = es /\ forall n, n <> m -> note_in n o k = [].
Proof.
  intros sv tk N x kind c tr o k s H Ho Hk. pose proof H as Hs. apply vruns_snoc_inv in Hs as (s1 & H1 & Hx).
  destruct (item_events _ _ _ _ _ _ c Hx) as [[E1 E2]|(m & es & last & E1 & E2 & E3 & E4)].
  - left. rewrite E1. auto.
  - pose proof (begun_run _ _ _ _ H1 m E3) as Hb. destruct (N m) eqn:En.
    + right. exists m, es, last. auto.
    + left. destruct Hb as (es0 & p & ack & l & Hb). split.
      * pose proof Hb as Hb0. apply in_split in Hb as (a & b & ->). rewrite <- app_assoc in H. cbn [app] in H. apply final_C36_message in H as [_ H].
        destruct (H c es last) as (_ & _ & _ & conv & req & Hi & Hp0 & Hp).
        -- rewrite notes_snoc, E1. apply in_or_app. right. now left.
        -- rewrite E2. eapply from_none; [exact Hp|]. assert (p = kind). { rewrite <- Hp0. apply (Hk conv req). now rewrite <- !app_assoc, init_of_app, Hi. }
           subst kind. apply (Ho m es0 ack l); [|assumption]. apply in_or_app. left. exact Hb0.
      * intros n Hn. rewrite E4; [reflexivity|]. congruence.
Qed.

Lemma notes_app : forall n a b, notes n (a ++ b) = notes n a ++ notes n b.
Proof. intros. apply flat_map_app. Qed.
Lemma begun_app : forall n a b, begun n (a ++ b) <-> begun n a \/ begun n b.
Proof.
  intros n a b. unfold begun. split.
  - intros (es & p & ack & l & H). apply in_app_or in H as [H|H]; [left|right]; eauto.
  - intros [(es & p & ack & l & H)|(es & p & ack & l & H)]; exists es, p, ack, l; apply in_or_app; auto.
Qed.
Lemma only_by_app : forall N x p a b, only_by N x p (a ++ b) -> only_by N x p a.
Proof. intros N x p a b H n es ack l Hi. apply (H n es ack l). apply in_or_app. auto. Qed.

(** While no chosen call but [n] sends, events of the server [x] are those of [n]. *)
Lemma events_one : forall sv tk N x p c n pre b s, N n = true -> server_run sv tk (pre ++ b) s -> only_by N x p (pre ++ b) -> of_kind c p (pre ++ b) ->
    (forall m, N m = true -> begun m (pre ++ b) -> m <> n -> notes m b = []) ->
    from x (events_in (sent_to c b)) = from x (events_for c (notes n b)).
Proof.
  intros sv tk N x p c n pre b s Hn. revert s. induction b as [|[o k] b IH] using rev_ind; intros s H Ho Hk Hs; [reflexivity|].
  rewrite app_assoc in H, Ho, Hk. pose proof H as H'. apply vruns_snoc_inv in H' as (s1 & H1 & Hx).
  rewrite sent_to_snoc, events_in_app, notes_snoc, events_for_app, !from_app, (IH _ H1 (only_by_app _ _ _ _ _ Ho) (of_kind_app _ _ _ _ Hk)).
  - f_equal. destruct (step_events _ _ _ _ _ c _ _ _ _ H Ho Hk) as [[E1 E2]|(m & es & last & Em & Eb & E1 & E2 & E3)].
    + now rewrite E1, (E2 n Hn).
    + destruct (Nat.eq_dec m n) as [->|D].
      * rewrite E1, E2. unfold events_for. cbn [flat_map conn_of fst snd]. now rewrite Nat.eqb_refl, app_nil_r.
      * assert (Z : notes m (b ++ [(o, k)]) = []). { apply Hs; auto. rewrite app_assoc. apply begun_snoc; auto. }
        rewrite notes_snoc, E1 in Z. destruct (notes m b); discriminate.
  - intros m Hm Hb D. assert (Z : notes m (b ++ [(o, k)]) = []). { apply Hs; auto. rewrite app_assoc. now apply begun_snoc. }
    rewrite notes_snoc in Z. now apply app_eq_nil in Z as [Z _].
Qed.

Lemma events_no_call : forall sv tk N x p c b s, server_run sv tk b s -> only_by N x p b -> of_kind c p b -> (forall m, N m = true -> ~ begun m b) ->
    from x (events_in (sent_to c b)) = [].
Proof.
  intros sv tk N x p c b. induction b as [|[o k] b IH] using rev_ind; intros s H Ho Hk Hs; [reflexivity|].
  pose proof H as H'. apply vruns_snoc_inv in H' as (s1 & H1 & Hx). rewrite sent_to_snoc, events_in_app, from_app.
  assert (Hs' : forall m, N m = true -> ~ begun m b) by (intros m Hm Hb; apply (Hs m Hm); now apply begun_snoc).
  rewrite (IH _ H1 (only_by_app _ _ _ _ _ Ho) (of_kind_app _ _ _ _ Hk) Hs').
  destruct (step_events _ _ _ _ _ c _ _ _ _ H Ho Hk) as [[E1 E2]|(m & es & last & Em & Eb & E1 & E2 & E3)]; [exact E1|]. destruct (Hs' m Em Eb).
Qed.

(** The last of the chosen calls. *)
Lemma last_call : forall N tr, (forall m, N m = true -> ~ begun m tr) \/
    exists a n es p ack l b, tr = a ++ (VNotify n es p ack, l) :: b /\ N n = true /\ forall m, N m = true -> ~ begun m b.
Proof.
  intros N tr. induction tr as [|[o l] tr IH].
  - left. intros m _ (es & p & ack & l & []).
  - destruct IH as [IH|(a & n & es & p & ack & l' & b & -> & Hn & Hb)].
    + assert (K : (exists n es p ack, o = VNotify n es p ack /\ N n = true) \/ forall m, N m = true -> ~ begun m [(o, l)]).
      { destruct o; try (right; intros m _ (es' & p' & ack' & l' & [X|[]]); discriminate). destruct (N n) eqn:E; [left; eauto 8|].
        right. intros m Hm (es' & p' & ack' & l' & [X|[]]). injection X as -> _ _ _ _. congruence. }
      destruct K as [(n & es & p & ack & -> & Hn)|K].
      * right. exists [], n, es, p, ack, l, tr. auto.
      * left. intros m Hm Hb. apply (begun_app m [(o, l)] tr) in Hb as [Hb|Hb]; [apply (K m)|apply (IH m)]; auto.
    + right. exists ((o, l) :: a), n, es, p, ack, l', b. auto.
Qed.

Lemma sent_up : forall sv tk s o s' l c m, vexec sv tk s o = Some (s', l) -> In (Sent c m) l -> is_up s c = true.
Proof.
  intros sv tk s o s' l c m H Hi. apply vexec_cstep in H. destruct H; subst; try contradiction; try (destruct Hi as [Hi|[]]; try discriminate; injection Hi as <- <-; auto; fail).
  - match goal with K : forall c m, In (Sent c m) l -> _ |- _ => apply K in Hi; tauto end.
  - match goal with K : forall c' m, In (Sent c' m) l -> _ |- _ => apply K in Hi; destruct Hi as (-> & Hi & _); auto end.
  - destruct H as [(U & _ & ->)|(_ & _ & ->)]; [|contradiction]. destruct Hi as [Hi|[]]. injection Hi as <- <-. auto.
Qed.

(** Nothing is sent on a closed connection. *)
Lemma gone_app : forall c a b, gone c (a ++ b) = gone c a || gone c b.
Proof. intros. apply existsb_app. Qed.
Lemma gone_silent : forall sv tk c a b s, server_run sv tk (a ++ b) s -> gone c a = true -> sent_to c b = [].
Proof.
  intros sv tk c a b. induction b as [|[o k] b IH] using rev_ind; intros s H Hg; [reflexivity|]. rewrite app_assoc in H.
  apply vruns_snoc_inv in H as (s1 & H1 & Hx). rewrite sent_to_snoc, (IH _ H1 Hg). cbn [app].
  destruct (sent_in c k) as [|m r] eqn:E; auto. assert (Hi : In (Sent c m) k).
  { assert (In m (sent_in c k)) as X by (rewrite E; now left). unfold sent_in in X. apply in_flat_map in X as (y & X1 & X2). destruct y; try contradiction.
    destruct (Nat.eqb_spec c0 c) as [->|]; [|contradiction]. destruct X2 as [->|[]]. auto. }
  apply (sent_up _ _ _ _ _ _ _ _ Hx) in Hi. apply (vb_up _ _ _ (vbook_run _ _ _ _ H1)) in Hi as [_ Hi]. rewrite gone_app, Hg in Hi. discriminate.
Qed.

Lemma call_silent : forall sv tk s n es p ack s' l, vexec sv tk s (VNotify n es p ack) = Some (s', l) -> forall c, sent_in c l = [].
Proof. intros sv tk s n es p ack s' l H c. vstep H; reflexivity. Qed.

Lemma call_fresh : forall sv tk s n es p ack s' l, vexec sv tk s (VNotify n es p ack) = Some (s', l) -> ~ In n (v_used s).
Proof.
  intros sv tk s n es p ack s' l H Hi. apply nmem_In in Hi. cbn [vexec] in H. rewrite Hi in H. discriminate.
Qed.

Lemma not_begun : forall N p tr, (forall m, N m = true -> ~ begun m tr) -> announced N p tr = [].
Proof.
  intros N p tr. induction tr as [|[o l] tr IH]; intros H; [reflexivity|]. unfold announced. cbn [flat_map fst]. fold (announced N p tr).
  rewrite IH; [|intros m Hm Hb; apply (H m Hm), (begun_app m [(o, l)] tr); auto]. rewrite app_nil_r.
  destruct o; auto. destruct (N n) eqn:E; auto. destruct (H n E). exists es, persisted, ack, l. now left.
Qed.

Lemma begun_since : forall n c tr, begun n (since c tr) -> begun n tr.
Proof.
  intros n c tr. induction tr as [|i tr IH]; intros H; [exact H|]. cbn [since] in H. apply (begun_app n [i] tr). right.
  destruct (existsb _ _); auto.
Qed.

Lemma announced_begun : forall N p tr n es, In (n, es) (announced N p tr) -> N n = true /\ begun n tr.
Proof.
  intros N p tr n es H. unfold announced in H. apply in_flat_map in H as ([o l] & H1 & H2). cbn [fst] in H2. destruct o; try contradiction.
  destruct (N n0) eqn:E; [|contradiction]. cbn [andb] in H2. destruct (Bool.eqb persisted p); [|contradiction]. destruct H2 as [[= -> ->]|[]]. split; auto.
  exists es, persisted, ack, l. auto.
Qed.

Lemma welcomed_guest : forall tk tr s c, vbook tk tr s -> welcomed c tr = true -> exists i, guest tk c tr i.
Proof.
  intros tk tr s c B W. destruct (was_about _ _ _ _ (vb_about _ _ _ B c)) as [E|[[conv E]|E]]; auto; unfold welcomed in W; rewrite E in W; discriminate.
Qed.
Lemma unwelcomed_events : forall tk tr s c, vbook tk tr s -> welcomed c tr = false -> events_in (sent_to c tr) = [].
Proof.
  intros tk tr s c B W. destruct (was_about _ _ _ _ (vb_about _ _ _ B c)) as [E|[[conv E]|[i (conv & req & st & rest & E & _)]]]; try (rewrite E; reflexivity).
  unfold welcomed in W. rewrite E in W. discriminate.
Qed.

Lemma events_for_none : forall c l, (forall es last, ~ In (c, es, last) l) -> events_for c l = [].
Proof.
  intros c l. induction l as [|[[c' es] last] l IH]; intros H; [reflexivity|]. unfold events_for. cbn [flat_map conn_of fst snd]. fold (events_for c l).
  rewrite IH; [|intros es' last' Hi; apply (H es' last'); now right]. destruct (Nat.eqb_spec c' c) as [->|]; auto. destruct (H es last). now left.
Qed.
Lemma events_for_one : forall c l, NoDup (map conn_of l) -> events_for c l = [] /\ (forall es last, ~ In (c, es, last) l) \/
    exists es last, In (c, es, last) l /\ events_for c l = es.
Proof.
  intros c l. induction l as [|[[c' es] last] l IH]; intros H.
  - left. split; auto.
  - cbn [map conn_of fst] in H. apply NoDup_cons_iff in H as [H1 H2]. unfold events_for. cbn [flat_map conn_of fst snd]. fold (events_for c l).
    destruct (Nat.eqb_spec c' c) as [->|D].
    + right. exists es, last. split; [now left|]. rewrite events_for_none; [apply app_nil_r|]. intros es' last' Hi. apply H1. now apply (in_map conn_of) in Hi.
    + destruct (IH H2) as [[E K]|(es' & last' & K & E)].
      * left. split; auto. intros es' last' [X|X]; [congruence|]. now apply K in X.
      * right. exists es', last'. split; [now right|exact E].
Qed.

Lemma dropped_app' : forall n c a b, dropped n c b -> dropped n c (a ++ b).
Proof. intros n c a b [l H]. exists l. apply in_or_app. auto. Qed.

(** ** Delivery by the server *)

Theorem final_C67_server : forall sv tk N x tr s c conv req, server_run sv tk tr s -> in_turn N tr -> only_by N x (ir_persisted req) tr -> undropped N c tr ->
    init_of c tr = Some (conv, req) ->
    exists l, picked (asked_from req x) (concat (map snd (announced N (ir_persisted req) (since c tr)))) l /\
      prefix (from x (events_in (sent_to c tr))) l /\
      (gone c tr = false -> all_returned N (ir_persisted req) c tr -> from x (events_in (sent_to c tr)) = l).
Proof.
  intros sv tk N x tr. remember (length tr) as k eqn:Hk. revert tr Hk. induction k as [k IH] using lt_wf_ind. intros tr -> s c conv req H Ht Ho Hd Hi.
  assert (Hk : of_kind c (ir_persisted req) tr) by (intros cv rq E; rewrite Hi in E; injection E as <- <-; reflexivity).
  destruct (last_call N tr) as [Hn|(a & n & es & p & ack & l & b & E & Hn & Hb)].
  - rewrite (events_no_call _ _ _ _ _ c _ _ H Ho Hk Hn). exists []. rewrite not_begun; [|intros m Hm X; apply begun_since in X; now apply (Hn m)].
    split; [constructor|]. split; [apply prefix_refl|auto].
  - subst tr. set (call := (VNotify n es p ack, l)) in *.
    assert (Ha : exists sa, server_run sv tk a sa /\ exists sb, vexec sv tk sa (VNotify n es p ack) = Some (sb, l)).
    { pose proof H as H'. change (call :: b) with ([call] ++ b) in H'. rewrite app_assoc in H'. apply vruns_prefix in H' as (s1 & H').
      apply vruns_snoc_inv in H' as (s0 & H0 & Hx). eauto. }
    destruct Ha as (sa & Ha & sb & Hx). pose proof (vbook_run _ _ _ _ Ha) as Ba.
    assert (Ret : forall m, N m = true -> begun m a -> exists a1 es1 p1 ack1 l1 b1, a = a1 ++ (VNotify m es1 p1 ack1, l1) :: b1 /\ returned m ((VNotify m es1 p1 ack1, l1) :: b1)).
    { intros m Hm (es1 & p1 & ack1 & l1 & X). apply in_split in X as (a1 & b1 & ->). exists a1, es1, p1, ack1, l1, b1. split; auto.
      refine (Ht a1 m es1 p1 ack1 l1 b1 n es p ack l b _ Hm Hn). rewrite <- app_assoc. reflexivity. }
    assert (G : from x (events_in (sent_to c (a ++ call :: b))) = from x (events_in (sent_to c a)) ++ from x (events_for c (notes n b))).
    { rewrite sent_to_app, events_in_app, from_app. f_equal. rewrite sent_to_cons. unfold call at 1. cbn [snd]. rewrite (call_silent _ _ _ _ _ _ _ _ _ Hx c). cbn [app].
      apply (events_one sv tk N x (ir_persisted req) c n (a ++ [call]) b s Hn); try (rewrite <- app_assoc; cbn [app]; assumption).
      intros m Hm Hbm D. rewrite <- app_assoc in Hbm. cbn [app] in Hbm. apply begun_app in Hbm as [Hbm|Hbm].
      - destruct (Ret m Hm Hbm) as (a1 & es1 & p1 & ack1 & l1 & b1 & -> & R).
        apply (silent_after sv tk a1 m es1 p1 ack1 l1 b1 s (call :: b)) in R; [|rewrite <- app_assoc in H; exact H].
        change (call :: b) with ([call] ++ b) in R. rewrite notes_app in R. now apply app_eq_nil in R as [_ R].
      - apply (begun_app m [call] b) in Hbm as [(? & ? & ? & ? & [X|[]])|X]; [unfold call in X; congruence|]. now apply Hb in X. }
    rewrite G. pose proof H as Hm. apply final_C36_message in Hm as [Nd Hm].
    destruct (welcomed c a) eqn:W.
    + (* the client is accepted *)
      destruct (welcomed_guest _ _ _ _ Ba W) as (i & conv' & req' & st & rest & _ & _ & Hi' & Hmade).
      assert (E : conv' = conv /\ req' = req). { rewrite init_of_app, Hi' in Hi. injection Hi as -> ->. auto. }
      destruct E as [-> ->].
      destruct (IH (length a) ltac:(rewrite app_length; cbn [length]; lia) a eq_refl sa c conv req Ha) as (la & P1 & P2 & P3); auto.
      { intros a1 m es1 p1 ack1 l1 b1 m2 es2 p2 ack2 l2 d E. apply (Ht a1 m es1 p1 ack1 l1 b1 m2 es2 p2 ack2 l2 (d ++ call :: b)).
        rewrite E, <- app_assoc. cbn [app]. now rewrite <- app_assoc. }
      { eapply only_by_app; eauto. }
      { intros m Hm' X. apply (Hd m Hm'). destruct X as [z X]. exists z. apply in_or_app. auto. }
      assert (Ar : all_returned N (ir_persisted req) c a).
      { intros m es1 X. apply announced_begun in X as [X1 X2]. apply begun_since in X2. destruct (Ret m X1 X2) as (a1 & es2 & p2 & ack2 & l2 & b2 & -> & R).
        unfold returned, vouts in *. rewrite flat_map_app. apply in_or_app. auto. }
      pose proof (picked_from _ x _ _ (wanted_picked _ _ _ es Hmade)) as Pn. fold (asked_from req x) in Pn.
      rewrite since_app, W, announced_app. change (call :: b) with ([call] ++ b) at 1. rewrite announced_app, (not_begun N _ b Hb), app_nil_r, map_app, concat_app.
      unfold announced at 2. cbn [flat_map call fst]. rewrite Hn. cbn [andb]. rewrite app_nil_r.
      assert (K : exists ln, picked (asked_from req x) (concat (map snd (if Bool.eqb p (ir_persisted req) then [(n, es)] else []))) ln /\
         (gone c a = false -> prefix (from x (events_for c (notes n b))) ln) /\
         (gone c (a ++ call :: b) = false -> all_returned N (ir_persisted req) c (a ++ call :: b) -> from x (events_for c (notes n b)) = ln)).
      { destruct (Bool.eqb_spec p (ir_persisted req)) as [->|D].
        - exists (from x (wanted i es)). cbn [map snd concat]. rewrite app_nil_r. split; [exact Pn|].
          assert (One : (forall es' last, In (c, es', last) (notes n b) -> es' = wanted i es)).
          { intros es' last X. apply Hm in X as (_ & _ & _ & cv & rq & X & _ & X2). rewrite Hi' in X. injection X as <- <-.
            eapply picked_fun; eauto. eapply wanted_picked; eauto. }
          destruct (events_for_one c _ Nd) as [[E1 E2]|(es' & last & E1 & E2)]; rewrite ?E1, ?E2.
          + split; [intros _; apply (prefix_app_l _ [])|]. intros Hg Har. cbn.
            destruct (from x (wanted i es)) as [|e r] eqn:Ef; auto.
            assert (X : In e (wanted i es)). { assert (X : In e (from x (wanted i es))) by (rewrite Ef; now left). apply filter_In in X. tauto. }
            apply (picked_In _ _ _ _ (wanted_picked _ _ _ es Hmade)) in X as [X1 X2].
            destruct (final_C36_all sv tk a n es (ir_persisted req) ack l b s c conv req e) as [es' X]; auto.
            * assert (R : returned n (a ++ call :: b)).
              { apply (Har n es). rewrite since_app, W. change (call :: b) with ([call] ++ b). rewrite !announced_app. apply in_or_app. right. apply in_or_app. left.
                unfold announced, call. cbn [flat_map fst]. rewrite Hn, eqb_reflx. now left. }
              unfold returned, vouts in R. rewrite flat_map_app in R. apply in_app_or in R as [R|R]; [|exact R].
              destruct (call_fresh _ _ _ _ _ _ _ _ _ Hx). apply (used_run _ _ _ _ Ha). now left.
            * intros X. apply (Hd n Hn). apply dropped_app'. change (call :: b) with ([call] ++ b). now apply dropped_app'.
            * destruct (E2 _ _ X).
          + rewrite (One _ _ E1). split; [intros _; apply prefix_refl|auto].
        - exists []. split; [constructor|]. assert (E : events_for c (notes n b) = []).
          { apply events_for_none. intros es' last X. apply Hm in X as (_ & _ & _ & cv & rq & X & X2 & _). rewrite Hi' in X. injection X as <- <-. auto. }
          rewrite E. split; [intros _; apply prefix_refl|reflexivity]. }
      destruct K as (ln & K1 & K2 & K3). exists (la ++ ln). split; [now apply picked_app|]. split.
      * destruct (gone c a) eqn:Hg.
        -- assert (Z : from x (events_for c (notes n b)) = []).
           { pose proof (gone_silent _ _ c _ _ _ H Hg) as Z. rewrite sent_to_app, Z, app_nil_r in G.
             apply (app_inv_head (from x (events_in (sent_to c a)))). now rewrite app_nil_r, <- G. }
           rewrite Z, app_nil_r. eapply prefix_trans; [exact P2|apply prefix_app_l].
        -- rewrite (P3 eq_refl Ar). apply prefix_app. auto.
      * intros Hg Har. pose proof Hg as Hg'. rewrite gone_app in Hg'. apply orb_false_iff in Hg' as [Hg' _]. rewrite (P3 Hg' Ar), (K3 Hg Har). reflexivity.
    + (* not accepted yet *)
      exists []. rewrite since_app, W. assert (Z : announced N (ir_persisted req) (since c (call :: b)) = []).
      { cbn [since]. unfold call at 1. cbn [snd]. rewrite (call_silent _ _ _ _ _ _ _ _ _ Hx c). cbn [existsb].
        apply not_begun. intros m Hm' X. apply begun_since in X. now apply (Hb m). }
      rewrite Z. split; [constructor|]. rewrite (unwelcomed_events _ _ _ _ Ba W), events_for_none.
      * split; [apply prefix_refl|auto].
      * intros es' last X. apply Hm in X as [X _]. congruence.
Qed.

(** ** Delivery to the callback of a client *)

Lemma got_callbacks : forall tr, got_events tr = flat_map (fun x => match x with EventsCb es => es | _ => [] end) (callbacks tr).
Proof.
  intros tr. unfold got_events, callbacks. induction (couts tr) as [|x l IH]; [reflexivity|]. cbn [flat_map filter]. destruct x; cbn [flat_map]; rewrite ?IH; auto.
Qed.

Lemma got_received : forall tr s, client_run tr s -> got_events tr = events_in (tl (received tr)).
Proof.
  intros tr s H. rewrite got_callbacks, (final_C53_callbacks _ _ H). induction (tl (received tr)) as [|m l IH]; [reflexivity|].
  cbn [flat_map]. unfold events_in in *. cbn [flat_map]. rewrite flat_map_app, IH. f_equal. destruct m; cbn; try reflexivity. apply app_nil_r.
Qed.

Lemma tl_events : forall sv tk tr s c l, server_run sv tk tr s -> prefix l (sent_to c tr) -> events_in (tl l) = events_in l.
Proof.
  intros sv tk tr s c l H [r E]. destruct l as [|m l]; [reflexivity|]. cbn [tl]. unfold events_in. cbn [flat_map].
  destruct (final_C38_messages _ _ _ _ c H) as [K|[[conv K]|(conv & st & rest & K & _)]]; rewrite K in E; try discriminate; injection E as <- _; reflexivity.
Qed.

Theorem final_C67_client : forall sv tk N X str ss ctr cs c conv req, server_run sv tk str ss -> client_run ctr cs -> prefix (received ctr) (sent_to c str) ->
    in_turn N str -> only_by N X (ir_persisted req) str -> undropped N c str -> init_of c str = Some (conv, req) ->
    exists l, picked (asked_from req X) (concat (map snd (announced N (ir_persisted req) (since c str)))) l /\
      prefix (from X (got_events ctr)) l /\
      (gone c str = false -> all_returned N (ir_persisted req) c str -> received ctr = sent_to c str -> from X (got_events ctr) = l).
Proof.
  intros sv tk N X str ss ctr cs c conv req H Hc Hp Ht Ho Hd Hi. destruct (final_C67_server _ _ _ _ _ _ _ _ _ H Ht Ho Hd Hi) as (l & P1 & P2 & P3).
  exists l. rewrite (got_received _ _ Hc), (tl_events _ _ _ _ _ _ H Hp). split; auto. split.
  - eapply prefix_trans; [|exact P2]. apply from_prefix. now apply events_prefix.
  - intros G R E. rewrite E. auto.
Qed.
