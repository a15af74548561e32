(** Eventer client: status, callbacks, acknowledgements (C37, C53); client and
    server together (C37, C40). *)
From Coq Require Import String Bool ZArith Arith Lia List.
From Verif Require Import Base Model_Types Model_Eventer Spec_Eventer Proof_Eventer Proof_Eventer2 Proof_Eventer3 Proof_Eventer6 Proof_Eventer8
  Model_Client Spec_Client Proof_Client Proof_Client2.
Import ListNotations.
Open Scope string_scope.
Open Scope list_scope.
Open Scope nat_scope.

Lemma cstatus_run : forall tr s, client_run tr s -> shut tr = false ->
    match c_loop s with LInit => received tr = [] | _ => last_told (received tr) = Some (c_status s) end.
Proof.
  intros tr s H. unfold client_run in H. remember cstart as s0 eqn:E0. induction H; subst; [reflexivity|]. specialize (IHcruns eq_refl). intros Hs.
  rewrite shut_snoc in Hs. apply orb_false_iff in Hs as [Hs1 Hs2]. specialize (IHcruns Hs1). rewrite received_snoc.
  cstepd H0; cbn in Hs2; try discriminate; cbn [c_with_loop c_with_status c_with_reqs resolve finish c_loop c_status]; rewrite ?app_nil_r; auto.
  all: try solve [match goal with E : c_loop _ = _ |- _ => rewrite E in IHcruns; exact IHcruns end].
  all: try (rewrite last_told_snoc; cbn [told]).
  all: try reflexivity.
  all: try solve [match goal with E : c_loop _ = _ |- _ => rewrite E in *; exact IHcruns end].
  all: try exact IHcruns.
Qed.

Lemma final_C37_client : forall tr s, client_run tr s -> connected tr -> shut tr = false -> last_told (received tr) = Some (c_status s).
Proof.
  intros tr s H Hc Hs. pose proof (cstatus_run _ _ H Hs) as X. destruct (c_loop s) eqn:E; auto.
  unfold connected in Hc. rewrite (cinit_run _ _ H E) in Hc. destruct Hc.
Qed.

(** Callbacks and acknowledgements. *)
Lemma callbacks_snoc : forall tr o l, callbacks (tr ++ [(o, l)]) =
    callbacks tr ++ filter (fun x => match x with StatusCb _ | EventsCb _ => true | _ => false end) l.
Proof. intros. unfold callbacks. rewrite couts_snoc. apply filter_app. Qed.
Lemma acks_snoc : forall tr o l, acks (tr ++ [(o, l)]) = acks tr ++ flat_map (fun m => match m with QAck conv => [conv] | _ => [] end) (csent_in l).
Proof. intros. unfold acks. rewrite csent_snoc. apply flat_map_app. Qed.
Lemma tl_snoc : forall (A : Type) (l : list A) x, tl (l ++ [x]) = match l with [] => [] | _ => tl l ++ [x] end.
Proof. now destruct l. Qed.

Definition ack_open (h : lphase) : list nat := match h with LEvents conv false => [conv] | _ => [] end.
Definition on_events (tr : list citem) (h : lphase) : Prop :=
  match h with
  | LStatus => exists a st b, tr = a ++ (CMsg (MStatus st), [StatusCb st]) :: b /\ existsb (fun i => of_loop (fst i)) b = false
  | LEvents conv last => exists a es b, tr = a ++ (CMsg (MEvents conv es last), [EventsCb es]) :: b /\ existsb (fun i => of_loop (fst i)) b = false
  | _ => True
  end.

Record cnotes (tr : list citem) (s : cstate) : Prop := {
  kn_init : c_loop s = LInit -> received tr = [];
  kn_got : c_loop s <> LInit -> c_loop s <> LEnd -> received tr <> [];
  kn_calls : callbacks tr = flat_map callback_of (tl (received tr));
  kn_acks : c_loop s <> LEnd -> flat_map ack_of (tl (received tr)) = acks tr ++ ack_open (c_loop s);
  kn_pre : prefix (acks tr) (flat_map ack_of (tl (received tr)));
  kn_on : on_events tr (c_loop s) }.

Lemma prefix_snoc : forall (A : Type) (l l' r : list A), prefix l l' -> prefix l (l' ++ r).
Proof. intros A l l' r [x ->]. exists (x ++ r). now rewrite app_assoc. Qed.

Lemma on_snoc : forall tr h o l, on_events tr h -> of_loop o = false -> on_events (tr ++ [(o, l)]) h.
Proof.
  intros tr h o l H Ho. destruct h; cbn in *; auto.
  - destruct H as (a & st & b & -> & Hb). exists a, st, (b ++ [(o, l)]). split; [now rewrite <- app_assoc|]. rewrite existsb_app. apply orb_false_iff.
    split; auto. cbn. now rewrite Ho.
  - destruct H as (a & es & b & -> & Hb). exists a, es, (b ++ [(o, l)]). split; [now rewrite <- app_assoc|]. rewrite existsb_app. apply orb_false_iff.
    split; auto. cbn. now rewrite Ho.
Qed.

Lemma cnotes_step : forall tr s o s' l, cnotes tr s -> cexec s o = Some (s', l) -> cnotes (tr ++ [(o, l)]) s'.
Proof.
  intros tr s o s' l K H.
  assert (Other : of_loop o = false -> c_loop s' = c_loop s -> filter (fun x => match x with StatusCb _ | EventsCb _ => true | _ => false end) l = [] ->
            flat_map (fun m => match m with QAck conv => [conv] | _ => [] end) (csent_in l) = [] -> cnotes (tr ++ [(o, l)]) s').
  { intros Ho El Hc Ha. destruct K as [K1 K2 K3 K4 K5 K6].
    constructor; rewrite ?received_snoc, ?callbacks_snoc, ?acks_snoc, ?El, ?Hc, ?Ha; destruct o; try discriminate; rewrite ?app_nil_r; auto; now apply on_snoc. }
  assert (End : forall m, o = CMsg m \/ (forall m, o <> CMsg m) -> s' = finish s ->
            filter (fun x => match x with StatusCb _ | EventsCb _ => true | _ => false end) l = [] ->
            flat_map (fun m => match m with QAck conv => [conv] | _ => [] end) (csent_in l) = [] -> (o = CMsg m -> received tr = [] \/ callback_of m = []) ->
            cnotes (tr ++ [(o, l)]) s').
  { intros m Hm -> Hc Ha Hr. destruct K as [K1 K2 K3 K4 K5 K6].
    constructor; rewrite ?received_snoc, ?callbacks_snoc, ?acks_snoc, ?Hc, ?Ha; cbn [finish c_loop]; try easy; rewrite ?app_nil_r.
    - destruct Hm as [-> |Hm]; [|destruct o; try (rewrite app_nil_r; auto); exfalso; eapply Hm; eauto].
      rewrite tl_snoc. destruct (Hr eq_refl) as [E|E]; [rewrite E in *; auto|]. destruct (received tr) eqn:Er; auto.
      rewrite flat_map_app. cbn [flat_map]. rewrite E. cbn. rewrite app_nil_r. auto.
    - destruct Hm as [-> |Hm]; [|destruct o; try (rewrite app_nil_r; auto); exfalso; eapply Hm; eauto].
      rewrite tl_snoc. destruct (received tr) eqn:Er; auto. rewrite flat_map_app. now apply prefix_snoc. }
  assert (Idle : forall m, o = CMsg m -> c_loop s = LIdle -> c_loop s' <> LInit -> c_loop s' <> LEnd ->
            filter (fun x => match x with StatusCb _ | EventsCb _ => true | _ => false end) l = callback_of m ->
            flat_map (fun m => match m with QAck conv => [conv] | _ => [] end) (csent_in l) = [] -> ack_of m = ack_open (c_loop s') ->
            on_events (tr ++ [(o, l)]) (c_loop s') -> cnotes (tr ++ [(o, l)]) s').
  { intros m -> El Hi He Hc Ha Hk Hon. destruct K as [K1 K2 K3 K4 K5 K6]. rewrite El in *.
    assert (Hne : received tr <> []) by (apply K2; discriminate).
    assert (Et : tl (received tr ++ [m]) = tl (received tr) ++ [m]) by (rewrite tl_snoc; destruct (received tr); congruence).
    constructor; rewrite ?received_snoc, ?callbacks_snoc, ?acks_snoc, ?Hc, ?Ha, ?Et, ?app_nil_r; auto; try contradiction.
    - intros _ _ X. now apply app_eq_nil in X as [X _].
    - rewrite flat_map_app, <- K3. cbn [flat_map]. now rewrite app_nil_r.
    - intros _. rewrite flat_map_app. cbn [flat_map]. rewrite app_nil_r, Hk, K4 by discriminate. cbn. now rewrite app_nil_r.
    - rewrite flat_map_app. now apply prefix_snoc. }
  assert (Loop : (forall m, o <> CMsg m) -> c_loop s <> LInit -> c_loop s <> LEnd -> c_loop s' = LIdle \/ c_loop s' = LEnd ->
            filter (fun x => match x with StatusCb _ | EventsCb _ => true | _ => false end) l = [] ->
            flat_map (fun m => match m with QAck conv => [conv] | _ => [] end) (csent_in l) = ack_open (c_loop s) -> cnotes (tr ++ [(o, l)]) s').
  { intros Hm Hi He Hl Hc Ha. destruct K as [K1 K2 K3 K4 K5 K6].
    assert (Er : received (tr ++ [(o, l)]) = received tr). { rewrite received_snoc. destruct o; rewrite ?app_nil_r; auto. exfalso. eapply Hm; eauto. }
    assert (Eo : ack_open (c_loop s') = []) by (destruct Hl as [-> | ->]; reflexivity).
    constructor; rewrite ?Er, ?callbacks_snoc, ?acks_snoc, ?Hc, ?Ha, ?Eo, ?app_nil_r; auto.
    - intros X. destruct Hl; congruence.
    - rewrite <- K4 by auto. exists []. now rewrite app_nil_r.
    - destruct Hl as [-> | ->]; exact I. }
  cstepd H.
  all: try solve [apply Other; reflexivity].
  all: try solve [apply (End (MStatus STANDBY)); [right; discriminate|reflexivity|reflexivity|reflexivity|discriminate]].
  all: try solve [match goal with |- cnotes (_ ++ [(CMsg ?m, _)]) _ => apply (End m); [left; reflexivity|reflexivity|reflexivity|reflexivity|intros _; left; apply (kn_init _ _ K); assumption] end].
  all: try solve [match goal with |- cnotes (_ ++ [(CMsg ?m, _)]) _ => apply (End m); [left; reflexivity|reflexivity|reflexivity|reflexivity|intros _; right; reflexivity] end].
  all: try solve [destruct q; apply Other; reflexivity].
  - destruct K as [K1 K2 K3 K4 K5 K6].
    assert (Er : received tr = []) by (apply K1; assumption). assert (Ea : acks tr = []). { rewrite Er in K5. destruct K5 as [x Hx]. symmetry in Hx. now apply app_eq_nil in Hx. }
    constructor; rewrite ?received_snoc, ?callbacks_snoc, ?acks_snoc, ?Er, ?Ea; cbn; try discriminate; auto.
    + now rewrite K3, Er.
    + exists []. reflexivity.
  - apply (Idle (MStatus st)); try reflexivity; try assumption; try discriminate. exists tr, st, []. auto.
  - apply (Idle (MEvents conv es last)); try reflexivity; try assumption; try discriminate. exists tr, es, []. auto.
  - assert (El : c_loop s = LIdle) by assumption.
    apply (Idle (MRegisterRes conv r)); try reflexivity; try assumption; cbn; rewrite ?El; try discriminate; try reflexivity; exact I.
  - assert (El : c_loop s = LIdle) by assumption.
    apply (Idle (MQueryRes conv r)); try reflexivity; try assumption; cbn; rewrite ?El; try discriminate; try reflexivity; exact I.
  - apply Loop; auto; discriminate.
  - apply Loop; auto; discriminate.
  - apply Loop; auto; discriminate.
  - apply Loop; auto; discriminate.
  - apply Loop; auto; discriminate.
Qed.

Lemma cnotes_run : forall tr s, client_run tr s -> cnotes tr s.
Proof.
  intros tr s H. unfold client_run in H. remember cstart as s0 eqn:E0. induction H; subst.
  - constructor; cbn; auto; try easy. now exists [].
  - eapply cnotes_step; eauto.
Qed.

(** ** Theorems *)

Lemma final_C53_callbacks : forall tr s, client_run tr s -> callbacks tr = flat_map callback_of (tl (received tr)).
Proof. intros tr s H. apply (kn_calls _ _ (cnotes_run _ _ H)). Qed.

Lemma cruns_one : forall s o l b s2, cruns s ((o, l) :: b) s2 -> exists s1, cexec s o = Some (s1, l) /\ cruns s1 b s2.
Proof.
  intros s o l b s2 H. destruct (cruns_split _ _ _ H [(o, l)] b eq_refl) as (s1 & H1 & H2). exists s1. split; auto.
  inversion H1 as [|? tr s' o' l' ? Hr Hx Ea Et]; subst. apply (app_inj_tail tr []) in Et as [-> E]. injection E as -> ->.
  inversion Hr as [|? t ? ? ? ? ? ? Eb Ec]; subst; auto. now destruct t.
Qed.

Lemma final_C53_serial : forall a m k b m' k' d s, client_run (a ++ (CMsg m, k) :: b ++ (CMsg m', k') :: d) s -> connected a -> callback_of m <> [] ->
    exists l, In (CDone, l) b.
Proof.
  intros a m k b m' k' d s H Hc Hm. apply crun_at in H as (s1 & s2 & H1 & Hx & H2).
  assert (Hl : c_loop s2 = LStatus \/ exists conv last, c_loop s2 = LEvents conv last).
  { cbn [cexec] in Hx. destruct (c_loop s1) eqn:El; try discriminate.
    - unfold connected in Hc. rewrite (cinit_run _ _ H1 El) in Hc. destruct Hc.
    - destruct m; try (now elim Hm); injection Hx as <- _; cbn; eauto. }
  destruct (cruns_split _ _ _ H2 b _ eq_refl) as (s3 & Hb & Hd). clear H2.
  assert (Hn : (exists l, In (CDone, l) b) \/ c_loop s3 = c_loop s2 \/ c_loop s3 = LEnd).
  { clear Hd. induction Hb; [auto|]. destruct (IHHb Hx Hl) as [(l' & X)|X]; auto.
    - left. exists l'. apply in_or_app. auto.
    - assert (Hl' : c_loop s2 <> LInit /\ c_loop s2 <> LNew /\ c_loop s2 <> LIdle) by (destruct Hl as [Hl|(cv & la & Hl)], X as [X|X]; rewrite X, ?Hl; repeat split; discriminate).
      cstepd H; try (exfalso; intuition congruence); try (left; eexists; apply in_or_app; right; left; reflexivity); right; cbn; auto; intuition congruence. }
  destruct Hn as [Hn|Hn]; auto. exfalso. apply cruns_one in Hd as (s4 & H3 & _).
  cbn [cexec] in H3. destruct Hn as [Hn|Hn]; rewrite Hn in H3; [|discriminate]. destruct Hl as [Hl|(cv & la & Hl)]; rewrite Hl in H3; discriminate.
Qed.

Lemma final_C53_acks : forall tr s, client_run tr s ->
    prefix (acks tr) (flat_map ack_of (tl (received tr))) /\
    (shut tr = false -> flat_map ack_of (tl (received tr)) = acks tr \/ exists x, flat_map ack_of (tl (received tr)) = acks tr ++ [x]).
Proof.
  intros tr s H. pose proof (cnotes_run _ _ H) as K. split; [apply K|]. intros Hs. pose proof (cloop_run _ _ H) as L.
  assert (Hl : c_loop s <> LEnd). { intros X. apply (kl_end _ _ L) in X. rewrite (kl_shut _ _ L), X in Hs. discriminate. }
  rewrite (kn_acks _ _ K Hl). destruct (c_loop s); cbn; rewrite ?app_nil_r; auto. destruct last; rewrite ?app_nil_r; eauto.
Qed.

Lemma final_C53_after : forall a o l b s conv, client_run (a ++ (o, l) :: b) s -> In (CSent (QAck conv)) l ->
    o = CDone /\ exists a1 es a2, a = a1 ++ (CMsg (MEvents conv es false), [EventsCb es]) :: a2 /\ existsb (fun i => of_loop (fst i)) a2 = false.
Proof.
  intros a o l b s conv H Hin. apply crun_at in H as (s1 & s2 & H1 & Hx & _). pose proof (kn_on _ _ (cnotes_run _ _ H1)) as K.
  cstepd Hx; cbn in Hin; try tauto; try (destruct Hin as [Hin|Hin]; try discriminate; try tauto).
  all: try (destruct q; discriminate).
  all: try (destruct Hin as [Hin|Hin]; try discriminate; tauto).
  injection Hin as ->. split; auto.
Qed.
