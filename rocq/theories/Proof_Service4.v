(** A server process: what connections wait for, and answers to queries. *)
From Coq Require Import String Bool ZArith Arith Lia Sorted List.
From Verif Require Import Base Kv Model_Types Model_Subscription Model_Codec Keys Spec_Order Proof_Order Model_Lmdb Model_LmdbSys
  Spec_Lmdb Spec_LmdbContent Spec_LmdbQuery Spec_LmdbTs Proof_Lmdb3 Proof_Lmdb4 Proof_Lmdb8 Proof_Lmdb9 Proof_Lmdb14 Proof_Lmdb23
  Model_Engine Spec_Engine Proof_Engine Proof_Engine2 Proof_Engine3 Proof_Engine5 Model_Eventer Spec_Eventer Proof_Eventer Proof_Eventer2 Proof_Eventer3 Proof_Eventer8
  Proof_LmdbCleanup Model_Service Spec_Service Proof_Service Proof_Service2 Proof_Service3.
Import ListNotations.
Open Scope list_scope.
Open Scope nat_scope.

Definition busy_phase (h : phase) : Prop := match h with HRegister _ _ _ | HQuery _ _ => True | _ => False end.

Lemma calls_handled : forall sv tk s o s2 l c, vexec sv tk s o = Some (s2, l) -> busy_phase (phase_of s c) -> handles o <> Some c ->
    (forall rs, ~ In (c, rs) (engine_calls l)) /\ (forall p, ~ In (c, p) (query_calls l)).
Proof.
  intros sv tk s o s2 l c H Hb Hh. destruct o; cbn [handles] in Hh; unfold vexec, accept, refuse, fail in H.
  all: repeat match type of H with context [match ?x with _ => _ end] => let E := fresh "E" in destruct x eqn:E; try discriminate end.
  all: injection H as <- <-; unfold send; repeat match goal with |- context [if ?x then _ else _] => destruct x end.
  all: cbn [engine_calls query_calls flat_map app In]; split; intros ? G; repeat (destruct G as [G|G]); try contradiction; try discriminate G.
  all: try congruence; injection G as -> _; repeat match goal with E : phase_of _ _ = _ |- _ => rewrite E in Hb end; contradiction.
Qed.

Lemma phase_kept : forall sv tk s o s2 l c, vexec sv tk s o = Some (s2, l) -> busy_phase (phase_of s c) -> handles o <> Some c -> phase_of s2 c = phase_of s c.
Proof.
  intros sv tk s o s2 l c H Hb Hh. destruct (vexec_other _ _ _ _ _ _ _ H Hh) as (_ & _ & [D|[[[i D] _]|(_ & _ & D & _)]] & _); [exact D| |].
  - rewrite D in Hb. destruct Hb.
  - unfold phase_of in Hb. rewrite D in Hb. destruct Hb.
Qed.

Lemma engine_calls_in : forall l c rs, engine_calls l = [(c, rs)] -> In (c, rs) (engine_calls l).
Proof. intros l c rs ->. now left. Qed.

Lemma settle_get : forall o x w c, nget c (settle o x w) =
    match o, x, nget c w with ODeliver q, Answer a, Some (Querying k) => if Nat.eqb k q then Some (Found a) else Some (Querying k) | _, _, z => z end.
Proof.
  intros o x w c. assert (G : forall z : option call, z = match z with Some (Registering n) => Some (Registering n) | Some (Querying k) => Some (Querying k) | Some (Found a) => Some (Found a) | None => None end)
    by (intros [[| |]|]; reflexivity).
  destruct o; try reflexivity; try (destruct x; try reflexivity). cbn [settle].
  unfold nget. induction w as [|[k y] w IH]; [reflexivity|]. cbn [map fst snd dget]. destruct (Nat.eqb c k); [|exact IH].
  destruct y; try reflexivity. destruct (Nat.eqb q0 q); reflexivity.
Qed.

(** A step that is not of the connection, which waits. *)
Lemma wait_move : forall sv tk srv tr0 tr w b y w2 b2 c s l, pmove srv tr0 tr w b y w2 b2 ->
    vruns sv tk s (server_part [y]) l -> busy_phase (phase_of s c) -> quiet c (server_part [y]) ->
    phase_of l c = phase_of s c /\
    nget c w2 = match y with SBackend (o, x) => nget c (settle o x w) | _ => nget c w end.
Proof.
  intros sv tk srv tr0 tr w b y w2 b2 c s s2 M HV Hb Hq.
  assert (P : forall o l, server_part [y] = [(o, l)] -> vexec sv tk s o = Some (s2, l) /\ handles o <> Some c).
  { intros o l E. rewrite E in HV, Hq. inversion Hq as [|? ? Q _]; subst. split; [|exact Q]. apply vruns_one in HV as (s3 & Hx & Hn).
    inversion Hn; subst; [exact Hx|destruct tr1; discriminate]. }
  assert (N : server_part [y] = [] -> s2 = s).
  { intros E. rewrite E in HV. inversion HV; subst; [reflexivity|destruct tr1; discriminate]. }
  assert (X : forall o l, server_part [y] = [(o, l)] -> phase_of s2 c = phase_of s c /\ (forall rs, ~ In (c, rs) (engine_calls l)) /\ (forall p, ~ In (c, p) (query_calls l))).
  { intros o l E. destruct (P _ _ E) as [Hx Hh]. split; [eapply phase_kept; eauto|eapply calls_handled; eauto]. }
  assert (K : forall c' (z : call), c' <> c -> nget c (nset c' z w) = nget c w).
  { intros c' z Hc. rewrite nget_nset. destruct (Nat.eqb_spec c c'); congruence. }
  inversion M; subst; try (rewrite (N eq_refl); auto).
  - destruct (X _ _ eq_refl) as (X1 & X2 & X3). split; [exact X1|reflexivity].
  - destruct (X _ _ eq_refl) as (X1 & X2 & X3). split; [exact X1|]. apply K. intros ->. apply (X2 rs). rewrite H. now left.
  - destruct (X _ _ eq_refl) as (X1 & X2 & X3). split; [exact X1|]. apply K. intros ->. apply (X3 p). rewrite H. now left.
  - destruct (X _ _ eq_refl) as (X1 & X2 & X3). split; [exact X1|]. apply K. intros ->. apply (X3 p). rewrite H. now left.
Qed.

Lemma quiet_app : forall c a b, quiet c (a ++ b) -> quiet c a /\ quiet c b.
Proof. intros c a b H. now apply Forall_app in H. Qed.

(** ** Requests *)

Lemma wait_register : forall sv tk srv tr0 vtr0 c conv last rs l j A B w b vs, process srv tr0 (A ++ SRegister (VRegister c conv last rs, l) j :: B) w b ->
    server_run sv tk (vtr0 ++ server_part (A ++ SRegister (VRegister c conv last rs, l) j :: B)) vs -> quiet c (server_part B) ->
    exists n k i, j = (ERegister (Request n (Source EVENTER (Z.of_nat c)) rs), k) /\ nget c w = Some (Registering n) /\ phase_of vs c = HRegister i conv last.
Proof.
  intros sv tk srv tr0 vtr0 c conv last rs l j A B. induction B as [|y B IH] using rev_ind; intros w b vs HP HV HQ.
  - apply process_last in HP as (w1 & b1 & HP1 & M). rewrite sp_app, app_assoc in HV. unfold server_run in HV. apply vruns_cut in HV as (s1 & HV1 & HV2).
    apply vruns_one in HV2 as (s2 & Hx & HV3). inversion HV3; subst; [|destruct tr; discriminate].
    inversion M as [| | | | |o l' c' rs' n k Hc| |]; subst. cbn [vexec] in Hx.
    destruct (phase_of s1 c) eqn:Ep; try discriminate. destruct (v_engine s1).
    + injection Hx as <- <-. cbn in Hc. injection Hc as <- <-. exists n, k, i. split; [reflexivity|]. split; [now rewrite nget_nset, Nat.eqb_refl|].
      now rewrite phase_set, Nat.eqb_refl.
    + exfalso. destruct last; [injection Hx as <- <-; discriminate Hc|]. destruct (is_up s1 c); injection Hx as <- <-; discriminate Hc.
  - rewrite sp_app in HQ. apply quiet_app in HQ as [HQ1 HQ2].
    replace (A ++ SRegister (VRegister c conv last rs, l) j :: B ++ [y]) with ((A ++ SRegister (VRegister c conv last rs, l) j :: B) ++ [y]) in * by (rewrite <- app_assoc; reflexivity).
    apply process_last in HP as (w1 & b1 & HP1 & M). rewrite sp_app, app_assoc in HV. unfold server_run in HV. apply vruns_cut in HV as (s1 & HV1 & HV2).
    destruct (IH _ _ _ HP1 HV1 HQ1) as (n & k & i & -> & Hw & Hp). exists n, k, i. split; [reflexivity|].
    destruct (wait_move _ _ _ _ _ _ _ _ _ _ c _ _ M HV2) as [W1 W2]; [now rewrite Hp|exact HQ2|]. rewrite W1, W2. split; [|exact Hp].
    destruct y as [| |[o x]| | |]; auto. rewrite settle_get, Hw. destruct o, x; reflexivity.
Qed.

Lemma answer_calls : forall sv tk s o s2 l, vexec sv tk s o = Some (s2, l) -> (exists c r, o = VRegistered c r) \/ (exists c r, o = VQueried c r) -> query_calls l = [].
Proof.
  intros sv tk s o s2 l H D. destruct D as [(c & r & ->)|(c & r & ->)]; cbn [vexec] in H; destruct (phase_of s c); try discriminate.
  - destruct last; [injection H as _ <-; reflexivity|]. destruct (is_up s c); injection H as _ <-; reflexivity.
  - destruct (is_up s c); injection H as _ <-; reflexivity.
Qed.

Lemma last_server : forall sv tk vtr0 T o l vs, server_run sv tk (vtr0 ++ server_part (T ++ [SServer (o, l)])) vs ->
    exists s, server_run sv tk (vtr0 ++ server_part T) s /\ vexec sv tk s o = Some (vs, l).
Proof.
  intros sv tk vtr0 T o l vs H. rewrite sp_app, app_assoc in H. unfold server_run in H. apply vruns_cut in H as (s1 & HV1 & HV2).
  apply vruns_one in HV2 as (s2 & Hx & HV3). inversion HV3; subst; [|destruct tr; discriminate]. eauto.
Qed.

(** An answered request. *)
Lemma answered_request : forall O cf tr0 vtr0 srv tk ms size A c conv last rs l j B r l2 C,
    let tr := A ++ SRegister (VRegister c conv last rs, l) j :: B ++ SServer (VRegistered c r, l2) :: C in
    service O cf tr0 vtr0 srv tk ms size tr -> quiet c (server_part B) ->
    exists es, r = Some es /\ map reg_of es = rs /\
      (es = [] \/ exists T1 i rest x T2, A ++ SRegister (VRegister c conv last rs, l) j :: B = T1 ++ SBatch i (ORegister (es ++ rest), x) :: T2).
Proof.
  intros O cf tr0 vtr0 srv tk ms size A c conv last rs l j B r l2 C tr HS HQ. unfold tr in HS. clear tr.
  set (T := A ++ SRegister (VRegister c conv last rs, l) j :: B).
  assert (E : A ++ SRegister (VRegister c conv last rs, l) j :: B ++ SServer (VRegistered c r, l2) :: C = (T ++ [SServer (VRegistered c r, l2)]) ++ C).
  { unfold T. rewrite <- !app_assoc. cbn [app]. rewrite <- ?app_assoc. reflexivity. }
  rewrite E in HS. apply service_cut in HS. pose proof (service_cut _ _ _ _ _ _ _ _ _ _ HS) as HT.
  destruct HS as ((w & b & HP) & _ & _ & (vs2 & HV2)). apply process_last in HP as (w1 & b1 & HP1 & M). apply last_server in HV2 as (s2 & _ & Hx).
  pose proof HT as (_ & _ & _ & (vs & HV)). destruct (wait_register _ _ _ _ _ _ _ _ _ _ _ _ _ _ _ _ HP1 HV HQ) as (n & k & i & -> & Hw & _).
  assert (F : fits (engine_part T) w1 (VRegistered c r)).
  { inversion M; subst; [assumption|]. exfalso. rewrite (answer_calls _ _ _ _ _ _ Hx) in * by eauto. discriminate. }
  cbn [fits] in F. rewrite Hw in F. destruct F as (a & Ha & D). destruct (reply_batch _ _ _ _ _ _ _ _ _ HT n) as [R1 R2].
  destruct a; [|now destruct (R1 Ha)|destruct D]. exists es. split; [exact D|].
  specialize (R2 es (Request n (Source EVENTER (Z.of_nat c)) rs) Ha). apply R2; [|reflexivity].
  unfold T. rewrite ep_app, ops_app. apply in_or_app. right. now left.
Qed.

(** ** Queries *)

Lemma fresh_move : forall srv tr0 tr w b y w2 b2 q, pmove srv tr0 tr w b y w2 b2 -> In q (queries_of (tr0 ++ backend_part tr)) -> ~ In q (queries_of (backend_part [y])).
Proof.
  intros srv tr0 tr w b y w2 b2 q M Hq Hi. inversion M; subst; cbn in Hi; try tauto.
  - destruct o; cbn in Hi; try tauto; destruct Hi as [->|[]]; cbn in H; contradiction.
  - destruct p; cbn in Hi; try tauto; destruct Hi as [->|[]]; contradiction.
Qed.

Lemma fresh_after : forall srv tr0 T D w b q, process srv tr0 (T ++ D) w b -> In q (queries_of (tr0 ++ backend_part T)) -> ~ In q (queries_of (backend_part D)).
Proof.
  intros srv tr0 T D. induction D as [|y D IH] using rev_ind; intros w b q HP Hq; [intros []|]. rewrite app_assoc in HP.
  apply process_last in HP as (w1 & b1 & HP1 & M). rewrite bp_app, qs_app. intros Hi. apply in_app_or in Hi as [Hi|Hi]; [eapply IH; eauto|].
  eapply fresh_move; eauto. rewrite bp_app, app_assoc, qs_app. apply in_or_app. now left.
Qed.

Lemma wait_query : forall sv tk srv tr0 vtr0 c conv p l o x A D w b vs, process srv tr0 (A ++ SQuery (VQuery c conv p, l) (o, x) :: D) w b ->
    server_run sv tk (vtr0 ++ server_part (A ++ SQuery (VQuery c conv p, l) (o, x) :: D)) vs -> quiet c (server_part D) ->
    exists q i, o = query_op p q /\ ~ In q (queries_of (tr0 ++ backend_part A)) /\ phase_of vs c = HQuery i conv /\
      ((exists a, x = Answer a /\ nget c w = Some (Found a)) \/
       ((forall a, x <> Answer a) /\ (nget c w = Some (Querying q) \/
          exists D1 a D2, D = D1 ++ SBackend (ODeliver q, Answer a) :: D2 /\ nget c w = Some (Found a)))).
Proof.
  intros sv tk srv tr0 vtr0 c conv p l o x A D. induction D as [|y D IH] using rev_ind; intros w b vs HP HV HQ.
  - apply process_last in HP as (w1 & b1 & HP1 & M). rewrite sp_app, app_assoc in HV. unfold server_run in HV. apply vruns_cut in HV as (s1 & HV1 & HV2).
    apply vruns_one in HV2 as (s2 & Hx & HV3). inversion HV3; subst; [|destruct tr; discriminate].
    inversion M as [| | | | | |o' l' c' p' q x' Hc Hf|]; subst. cbn [vexec] in Hx.
    destruct (phase_of s1 c) eqn:Ep; try discriminate. injection Hx as <- <-. cbn in Hc. injection Hc as <- <-. exists q, i. split; [reflexivity|].
    split; [exact Hf|]. split; [now rewrite phase_set, Nat.eqb_refl|]. rewrite nget_nset, Nat.eqb_refl. destruct x; cbn [outcome]; try (right; split; [discriminate|now left]).
    left. eauto.
  - rewrite sp_app in HQ. apply quiet_app in HQ as [HQ1 HQ2].
    replace (A ++ SQuery (VQuery c conv p, l) (o, x) :: D ++ [y]) with ((A ++ SQuery (VQuery c conv p, l) (o, x) :: D) ++ [y]) in * by (rewrite <- app_assoc; reflexivity).
    apply process_last in HP as (w1 & b1 & HP1 & M). rewrite sp_app, app_assoc in HV. unfold server_run in HV. apply vruns_cut in HV as (s1 & HV1 & HV2).
    destruct (IH _ _ _ HP1 HV1 HQ1) as (q & i & Eo & Hq & Hp & W). exists q, i. split; [exact Eo|]. split; [exact Hq|].
    destruct (wait_move _ _ _ _ _ _ _ _ _ _ c _ _ M HV2) as [W1 W2]; [now rewrite Hp|exact HQ2|]. rewrite W1. split; [exact Hp|].
    assert (Fnd : forall a, nget c w1 = Some (Found a) -> nget c w = Some (Found a)).
    { intros a Ha. rewrite W2. destruct y as [| |[o' x']| | |]; auto. rewrite settle_get, Ha. destruct o', x'; reflexivity. }
    destruct W as [(a & Ea & Ha)|(Hna & [Hw|(D1 & a & D2 & -> & Ha)])].
    + left. exists a. auto.
    + right. split; [exact Hna|]. rewrite W2. destruct y as [| |[o' x']| | |]; auto. rewrite settle_get, Hw. destruct o'; auto. destruct x'; auto.
      destruct (Nat.eqb_spec q q0) as [<-|]; [|auto]. right. exists D, r, []. split; reflexivity.
    + right. split; [exact Hna|]. right. exists D1, a, (D2 ++ [y]). split; [rewrite <- app_assoc; reflexivity|auto].
Qed.

Lemma exec_quiet : forall O s p q s' x, exec O s (query_op p q) = Some (s', x) -> (forall a, x <> Answer a) -> x = Quiet /\ forall y, p <> QPLatest y.
Proof.
  intros O s p q s' x H Hn. destruct p; cbn [query_op exec] in H.
  - injection H as _ <-. exfalso. eapply Hn; eauto.
  - injection H as H. unfold ts_query_step in H. split; [|discriminate].
    repeat match type of H with context [match ?z with _ => _ end] => destruct z; try discriminate end; injection H as _ <-; try reflexivity; exfalso; eapply Hn; eauto.
  - destruct (server_query_start _); injection H as _ <-; [split; [reflexivity|discriminate]|]. exfalso. eapply Hn; eauto.
Qed.

Lemma answered_query : forall O cf tr0 vtr0 srv tk ms size A c conv p l o x D r l4,
    service O cf tr0 vtr0 srv tk ms size (A ++ SQuery (VQuery c conv p, l) (o, x) :: D ++ [SServer (VQueried c r, l4)]) -> quiet c (server_part D) ->
    exists q, o = query_op p q /\ ~ In q (queries_of (tr0 ++ backend_part A)) /\
      (x = Answer (Some r) \/
       (x = Quiet /\ (forall y, p <> QPLatest y) /\ exists D1 D2, D = D1 ++ SBackend (ODeliver q, Answer (Some r)) :: D2 /\ ~ In q (queries_of (backend_part D1)))).
Proof.
  intros O cf tr0 vtr0 srv tk ms size A c conv p l o x D r l4 HS HQ. set (T := A ++ SQuery (VQuery c conv p, l) (o, x) :: D).
  replace (A ++ SQuery (VQuery c conv p, l) (o, x) :: D ++ [SServer (VQueried c r, l4)]) with (T ++ [SServer (VQueried c r, l4)]) in HS
    by (unfold T; rewrite <- app_assoc; reflexivity).
  pose proof (service_cut _ _ _ _ _ _ _ _ _ _ HS) as HT.
  destruct HS as ((w & b & HP) & _ & _ & (vs2 & HV2)). apply process_last in HP as (w1 & b1 & HP1 & M). apply last_server in HV2 as (s2 & _ & Hx).
  pose proof HT as (_ & _ & (sx & HX) & (vs & HV)). destruct (wait_query _ _ _ _ _ _ _ _ _ _ _ _ _ _ _ _ HP1 HV HQ) as (q & i & -> & Hq & _ & W).
  assert (F : fits (engine_part T) w1 (VQueried c r)).
  { inversion M; subst; [assumption|]. exfalso. rewrite (answer_calls _ _ _ _ _ _ Hx) in * by eauto. discriminate. }
  cbn [fits] in F. exists q. split; [reflexivity|]. split; [exact Hq|]. destruct W as [(a & -> & Ha)|(Hn & [Ha|(D1 & a & D2 & ED & Ha)])]; rewrite Ha in F.
  - left. now rewrite F.
  - destruct F.
  - subst a. right.
    assert (HE : exists s s', exec O s (query_op p q) = Some (s', x)).
    { unfold T in HX. change (SQuery (VQuery c conv p, l) (query_op p q, x) :: D) with ([SQuery (VQuery c conv p, l) (query_op p q, x)] ++ D) in HX.
      rewrite !bp_app, !app_assoc in HX. apply execution_prefix in HX as [s3 HX]. cbn [backend_part flat_map app] in HX. apply execution_snoc in HX as (s4 & _ & He & _). eauto. }
    destruct HE as (s3 & s4 & HE). destruct (exec_quiet _ _ _ _ _ _ HE Hn) as [-> Hp]. split; [reflexivity|]. split; [exact Hp|]. exists D1, D2. split; [exact ED|].
    intros Hi. unfold T in HP1. rewrite ED in HP1.
    replace (A ++ SQuery (VQuery c conv p, l) (query_op p q, Quiet) :: D1 ++ SBackend (ODeliver q, Answer (Some r)) :: D2)
      with ((A ++ [SQuery (VQuery c conv p, l) (query_op p q, Quiet)]) ++ D1 ++ SBackend (ODeliver q, Answer (Some r)) :: D2) in HP1 by (rewrite <- app_assoc; reflexivity).
    eapply fresh_after; [exact HP1| |].
    + rewrite bp_app, app_assoc, qs_app. apply in_or_app. right. destruct p; cbn; auto. exfalso. eapply Hp; eauto.
    + rewrite bp_app, qs_app. apply in_or_app. left. exact Hi.
Qed.
