(** Lemmas for C72: requests of one connection are handled in order; what
    queries find. *)
From Coq Require Import String Bool ZArith Arith Lia Sorted Permutation List.
From Verif Require Import Base Kv Model_Types Model_Subscription Model_Codec Keys Spec_Order Proof_Order Model_Lmdb Model_LmdbSys
  Spec_Lmdb Spec_LmdbContent Spec_LmdbQuery Spec_LmdbTs Proof_Lmdb3 Proof_Lmdb4 Proof_Lmdb8 Proof_Lmdb9 Proof_Lmdb10 Proof_Lmdb13 Proof_Lmdb14 Proof_Lmdb19 Proof_Lmdb20 Proof_Lmdb21 Proof_Lmdb22 Proof_Lmdb23
  Model_Engine Spec_Engine Model_Eventer Spec_Eventer Proof_Eventer Proof_Eventer2 Proof_Eventer3 Proof_Eventer8
  Proof_LmdbCleanup Model_Service Spec_Service Proof_Service Proof_Service2 Proof_Service3 Proof_Service4.
Import ListNotations.
Open Scope list_scope.
Open Scope nat_scope.

Definition over_phase (h : phase) : Prop := match h with HBye _ | HEnd => True | _ => False end.

Definition over (s : vstate) (c : nat) : Prop := nget c (v_conns s) <> None /\ over_phase (phase_of s c).

Lemma over_step : forall sv tk s o s2 l c, vexec sv tk s o = Some (s2, l) -> over s c -> over s2 c.
Proof.
  intros sv tk s o s2 l c H [Hn Ho].
  assert (D : handles o = Some c \/ handles o <> Some c) by (destruct (handles o) as [c'|]; [destruct (Nat.eq_dec c' c) as [->|]; [now left|right; congruence]|right; discriminate]).
  destruct D as [Hh|Hh].
  - exfalso. destruct o; cbn [handles] in Hh; try discriminate; injection Hh as ->; cbn [vexec] in H; destruct (phase_of s c); try destruct Ho; discriminate.
  - destruct (vexec_other _ _ _ _ _ _ _ H Hh) as (_ & _ & D & Hk). split; [auto|]. destruct D as [D|[[_ D]|(_ & _ & D & _)]].
    + now rewrite D.
    + rewrite D. exact I.
    + contradiction.
Qed.

Lemma over_leave : forall s c, over (leave s c) c.
Proof.
  intros s c. assert (P : over_phase (phase_of (leave s c) c)) by (rewrite phase_leave, Nat.eqb_refl; destruct (info_of _); exact I).
  split; [|exact P]. unfold leave. cbn [v_conns]. parts. rewrite nget_nset, Nat.eqb_refl. discriminate.
Qed.

(** A step of the handler of a connection that awaits the engine. *)
Lemma register_step : forall sv tk s o s2 l c i conv last, vexec sv tk s o = Some (s2, l) -> phase_of s c = HRegister i conv last -> handles o = Some c ->
    (exists r, o = VRegistered c r /\ engine_calls l = [] /\ query_calls l = []) \/ over s2 c.
Proof.
  intros sv tk s o s2 l c i conv last H Hp Hh.
  destruct o; cbn [handles] in Hh; try discriminate; injection Hh as ->; cbn [vexec] in H; rewrite Hp in H; try discriminate.
  - left. exists r. split; [reflexivity|]. destruct last; [injection H as _ <-; split; reflexivity|]. destruct (is_up s c); injection H as _ <-; split; reflexivity.
  - right. injection H as <- _. apply over_leave.
  - right. destruct (v_open s); [discriminate|]. injection H as <- _. apply over_leave.
Qed.

Lemma one_step : forall sv tk s y s2, vruns sv tk s [y] s2 -> vexec sv tk s (fst y) = Some (s2, snd y).
Proof.
  intros sv tk s [o l] s2 H. apply vruns_one in H as (s1 & Hx & Hn). inversion Hn; subst; [exact Hx|destruct tr; discriminate].
Qed.

Lemma no_steps : forall sv tk s s2, vruns sv tk s [] s2 -> s2 = s.
Proof. intros sv tk s s2 H. inversion H; subst; [reflexivity|destruct tr; discriminate]. Qed.

(** The connection awaits the engine, or was answered, or is at its end. *)
Lemma in_turn : forall sv tk srv tr0 vtr0 c conv last rs l j A B w b vs, process srv tr0 (A ++ SRegister (VRegister c conv last rs, l) j :: B) w b ->
    server_run sv tk (vtr0 ++ server_part (A ++ SRegister (VRegister c conv last rs, l) j :: B)) vs ->
    quiet c (server_part B) \/ (exists B1 r l2 B2, B = B1 ++ SServer (VRegistered c r, l2) :: B2 /\ quiet c (server_part B1)) \/ over vs c.
Proof.
  intros sv tk srv tr0 vtr0 c conv last rs l j A B. induction B as [|y B IH] using rev_ind; intros w b vs HP HV; [left; constructor|].
  replace (A ++ SRegister (VRegister c conv last rs, l) j :: B ++ [y]) with ((A ++ SRegister (VRegister c conv last rs, l) j :: B) ++ [y]) in * by (rewrite <- app_assoc; reflexivity).
  apply process_last in HP as (w1 & b1 & HP1 & M). rewrite sp_app, app_assoc in HV. unfold server_run in HV. apply vruns_cut in HV as (s1 & HV1 & HV2).
  destruct (IH _ _ _ HP1 HV1) as [HQ|[(B1 & r & l2 & B2 & -> & HQ)|HO]].
  - destruct (wait_register _ _ _ _ _ _ _ _ _ _ _ _ _ _ _ _ HP1 HV1 HQ) as (n & k & i & _ & _ & Hp).
    assert (D : server_part [y] = [] \/ exists o k, server_part [y] = [(o, k)]) by (destruct y as [| | |[]|[] ?|[] ?]; cbn; eauto).
    destruct D as [D|(o & k' & D)].
    + left. rewrite sp_app, D, app_nil_r. exact HQ.
    + rewrite D in HV2. apply one_step in HV2. cbn [fst snd] in HV2.
      assert (Dh : handles o = Some c \/ handles o <> Some c) by (destruct (handles o) as [c'|]; [destruct (Nat.eq_dec c' c) as [->|]; [now left|right; congruence]|right; discriminate]).
      destruct Dh as [Hh|Hh].
      * right. destruct (register_step _ _ _ _ _ _ _ _ _ _ HV2 Hp Hh) as [(r & -> & E1 & E2)|HO]; [left|right; exact HO].
        exists B, r, k', []. split; [|exact HQ]. f_equal. f_equal. inversion M; subst; cbn in D; try discriminate; injection D as -> ->; try reflexivity; congruence.
      * left. rewrite sp_app, D. apply Forall_app. split; [exact HQ|]. constructor; [exact Hh|constructor].
  - right. left. exists B1, r, l2, (B2 ++ [y]). split; [rewrite <- app_assoc; reflexivity|exact HQ].
  - right. right. destruct (server_part [y]) as [|[o k] [|]] eqn:D.
    + now rewrite (no_steps _ _ _ _ HV2).
    + apply one_step in HV2. eapply over_step; eauto.
    + destruct y; discriminate.
Qed.

(** A connection handles a query after it was answered what it requested before. *)
Lemma query_in_turn : forall O cf tr0 vtr0 srv tk ms size A c conv last rs l j B conv2 p l3 x D,
    service O cf tr0 vtr0 srv tk ms size (A ++ SRegister (VRegister c conv last rs, l) j :: B ++ SQuery (VQuery c conv2 p, l3) x :: D) ->
    exists B1 r l2 B2, B = B1 ++ SServer (VRegistered c r, l2) :: B2 /\ quiet c (server_part B1).
Proof.
  intros O cf tr0 vtr0 srv tk ms size A c conv last rs l j B conv2 p l3 x D HS. set (T := A ++ SRegister (VRegister c conv last rs, l) j :: B).
  replace (A ++ SRegister (VRegister c conv last rs, l) j :: B ++ SQuery (VQuery c conv2 p, l3) x :: D) with ((T ++ [SQuery (VQuery c conv2 p, l3) x]) ++ D) in HS
    by (unfold T; rewrite <- !app_assoc; reflexivity).
  apply service_cut in HS. pose proof HS as ((w & b & HP) & _ & _ & (vs & HV)). apply process_last in HP as (w1 & b1 & HP & _).
  rewrite sp_app, app_assoc in HV. unfold server_run in HV. apply vruns_cut in HV as (s1 & HV1 & HV2). apply one_step in HV2. cbn [fst snd vexec] in HV2.
  destruct (phase_of s1 c) eqn:Ep; try discriminate. destruct (in_turn _ _ _ _ _ _ _ _ _ _ _ _ _ _ _ _ HP HV1) as [HQ|[HQ|[_ HO]]]; [|exact HQ|].
  - exfalso. destruct (wait_register _ _ _ _ _ _ _ _ _ _ _ _ _ _ _ _ HP HV1 HQ) as (n & k & i' & _ & _ & Hp). congruence.
  - exfalso. rewrite Ep in HO. destruct HO.
Qed.

(** ** Acknowledged events are stored *)

Lemma clock_app : forall srv H A B, clock_forward srv H (readings (engine_part (A ++ B))) -> clock_forward srv H (readings (engine_part A)).
Proof. intros srv H A B HC. rewrite ep_app in HC. eapply clock_cut; eauto. Qed.

Theorem final_C72_stored : forall O cf tr0 vtr0 srv tk ms size A c conv last rs l j B r l2 C,
    let acked := A ++ SRegister (VRegister c conv last rs, l) j :: B ++ [SServer (VRegistered c r, l2)] in
    let tr := A ++ SRegister (VRegister c conv last rs, l) j :: B ++ SServer (VRegistered c r, l2) :: C in
    service O cf tr0 vtr0 srv tk ms size tr -> quiet c (server_part B) ->
    clock_forward srv (w_all (watch_run cf tr0)) (readings (engine_part acked)) ->
    exists es, r = Some es /\ map reg_of es = rs /\
      forall e, In e es -> cf_cond (conf_at cf tr0) e = true -> eid_server (ev_id e) = srv /\
        (has_place (conf_at cf tr0) e = true -> In (Entry (conf_at cf tr0) e) (w_all (watch_run cf (tr0 ++ backend_part tr)))).
Proof.
  intros O cf tr0 vtr0 srv tk ms size A c conv last rs l j B r l2 C acked tr HS HQ HC.
  destruct (answered_request _ _ _ _ _ _ _ _ _ _ _ _ _ _ _ _ _ _ _ HS HQ) as (es & -> & E & D). exists es. split; [reflexivity|]. split; [exact E|].
  intros e He Hc. destruct D as [->|(T1 & i & rest & x & T2 & D)]; [destruct He|].
  assert (Et : tr = T1 ++ SBatch i (ORegister (es ++ rest), x) :: (T2 ++ SServer (VRegistered c (Some es), l2) :: C)).
  { unfold tr. change (A ++ SRegister (VRegister c conv last rs, l) j :: B ++ SServer (VRegistered c (Some es), l2) :: C)
      with (A ++ (SRegister (VRegister c conv last rs, l) j :: B) ++ SServer (VRegistered c (Some es), l2) :: C).
    rewrite app_assoc, D, <- app_assoc. reflexivity. }
  assert (Ek : acked = (T1 ++ [SBatch i (ORegister (es ++ rest), x)]) ++ (T2 ++ [SServer (VRegistered c (Some es), l2)])).
  { unfold acked. change (A ++ SRegister (VRegister c conv last rs, l) j :: B ++ [SServer (VRegistered c (Some es), l2)])
      with (A ++ (SRegister (VRegister c conv last rs, l) j :: B) ++ [SServer (VRegistered c (Some es), l2)]).
    rewrite app_assoc, D, <- !app_assoc. reflexivity. }
  rewrite Et in HS. rewrite Ek in HC. apply clock_app in HC. rewrite Et. destruct (batch_stored _ _ _ _ _ _ _ _ _ _ _ _ _ HS HC e) as (X1 & X2 & _); auto. apply in_or_app. now left.
Qed.

Lemma shown_at : forall O cf tr0 vtr0 srv tk ms size A c conv last rs l j B r l2 C,
    let acked := A ++ SRegister (VRegister c conv last rs, l) j :: B ++ [SServer (VRegistered c r, l2)] in
    let tr := A ++ SRegister (VRegister c conv last rs, l) j :: B ++ SServer (VRegistered c r, l2) :: C in
    service O cf tr0 vtr0 srv tk ms size tr -> quiet c (server_part B) ->
    clock_forward srv (w_all (watch_run cf tr0)) (readings (engine_part acked)) ->
    exists es, r = Some es /\ map reg_of es = rs /\
      forall e, In e es -> cf_cond (conf_at cf tr0) e = true -> covers (conf_at cf tr0) (ev_type e) = true ->
        exists e', visible (conf_at cf tr0) (w_all (watch_run cf (tr0 ++ backend_part tr))) (ev_type e) = Some e' /\
          up_to_date (events_of (tr0 ++ backend_part tr)) e e'.
Proof.
  intros O cf tr0 vtr0 srv tk ms size A c conv last rs l j B r l2 C acked tr HS HQ HC.
  destruct (answered_request _ _ _ _ _ _ _ _ _ _ _ _ _ _ _ _ _ _ _ HS HQ) as (es & -> & E & D). exists es. split; [reflexivity|]. split; [exact E|].
  intros e He Hc Hk. destruct D as [->|(T1 & i & rest & x & T2 & D)]; [destruct He|].
  assert (Et : tr = T1 ++ SBatch i (ORegister (es ++ rest), x) :: (T2 ++ SServer (VRegistered c (Some es), l2) :: C)).
  { unfold tr. change (A ++ SRegister (VRegister c conv last rs, l) j :: B ++ SServer (VRegistered c (Some es), l2) :: C)
      with (A ++ (SRegister (VRegister c conv last rs, l) j :: B) ++ SServer (VRegistered c (Some es), l2) :: C).
    rewrite app_assoc, D, <- app_assoc. reflexivity. }
  assert (Ek : acked = (T1 ++ [SBatch i (ORegister (es ++ rest), x)]) ++ (T2 ++ [SServer (VRegistered c (Some es), l2)])).
  { unfold acked. change (A ++ SRegister (VRegister c conv last rs, l) j :: B ++ [SServer (VRegistered c (Some es), l2)])
      with (A ++ (SRegister (VRegister c conv last rs, l) j :: B) ++ [SServer (VRegistered c (Some es), l2)]).
    rewrite app_assoc, D, <- !app_assoc. reflexivity. }
  rewrite Et in HS. rewrite Ek in HC. apply clock_app in HC. rewrite Et. destruct (batch_stored _ _ _ _ _ _ _ _ _ _ _ _ _ HS HC e) as (_ & _ & X3); auto; [apply in_or_app; now left|].
  destruct (X3 Hk) as (a & b & Ee & e' & Hv & Hd). exists e'. split; [exact Hv|]. split; [now apply visible_type in Hv|].
  destruct Hd as [Hd|[Hd|[Hd Hi]]]; auto. right. right. split; [exact Hd|]. exists a, b. auto.
Qed.

Lemma conf_stays' : forall O cf tr0 vtr0 srv tk ms size T, service O cf tr0 vtr0 srv tk ms size T -> conf_at cf (tr0 ++ backend_part T) = conf_at cf tr0.
Proof.
  intros O cf tr0 vtr0 srv tk ms size T ((w & b & HP) & _). unfold conf_at, watch_run. rewrite fold_left_app. apply conf_kept. eapply process_no_reopen; eauto.
Qed.

Theorem final_C72_latest : forall O cf tr0 vtr0 srv tk ms size A c conv last rs l j B r l2 C c' conv' p l3 x D found more l4,
    let acked := A ++ SRegister (VRegister c conv last rs, l) j :: B ++ [SServer (VRegistered c r, l2)] in
    let before := A ++ SRegister (VRegister c conv last rs, l) j :: B ++ SServer (VRegistered c r, l2) :: C in
    service O cf tr0 vtr0 srv tk ms size (before ++ SQuery (VQuery c' conv' (QPLatest p), l3) x :: D ++ [SServer (VQueried c' (QRes found more), l4)]) ->
    quiet c (server_part B) -> quiet c' (server_part D) -> clock_forward srv (w_all (watch_run cf tr0)) (readings (engine_part acked)) -> valid_latest p ->
    NoDup (map ev_type found) /\
    exists es, r = Some es /\ map reg_of es = rs /\
      forall e, In e es -> cf_cond (conf_at cf tr0) e = true -> covers (conf_at cf tr0) (ev_type e) = true -> asked p (ev_type e) ->
        exists e', In e' found /\ up_to_date (events_of (tr0 ++ backend_part before)) e e'.
Proof.
  intros O cf tr0 vtr0 srv tk ms size A c conv last rs l j B r l2 C c' conv' p l3 [o x] D found more l4 acked before HS HQ HQ' HC Hp.
  destruct (answered_query _ _ _ _ _ _ _ _ _ _ _ _ _ _ _ _ _ _ HS HQ') as (q & -> & _ & [->|(_ & Hn & _)]); [|exfalso; eapply Hn; eauto].
  pose proof (service_cut _ _ _ _ _ _ _ _ _ _ HS) as HB. pose proof (conf_stays' _ _ _ _ _ _ _ _ _ HB) as Ec.
  destruct HS as (_ & _ & (s & HX) & _). change (SQuery ?a ?b :: ?t) with ([SQuery a b] ++ t) in HX. rewrite !bp_app, !app_assoc in HX.
  apply execution_prefix in HX as [s1 HX]. apply execution_prefix in HX as [s2 HX]. cbn [backend_part flat_map app query_op] in HX.
  destruct (final_C15 _ _ _ _ _ _ HX Hp) as (es & Ea & Hnd & He). injection Ea as -> _. split; [exact Hnd|].
  destruct (shown_at _ _ _ _ _ _ _ _ _ _ _ _ _ _ _ _ _ _ _ HB HQ HC) as (es' & -> & Er & Hs). exists es'. split; [reflexivity|]. split; [exact Er|].
  intros e Hi Hc Hk Ha. destruct (Hs e Hi Hc Hk) as (e' & Hv & Hu). exists e'. split; [|exact Hu].
  pose proof (visible_type _ _ _ _ Hv) as (Et & _). apply He. rewrite Et. split; [|exact Ha]. fold (conf_at cf (tr0 ++ backend_part before)). rewrite Ec. exact Hv.
Qed.

(** A client finds what it registered before, also without an answer. *)
Theorem final_C72_own : forall O cf tr0 vtr0 srv tk ms size A c conv last rs l j B conv' p l3 x D found more l4,
    let before := A ++ SRegister (VRegister c conv last rs, l) j :: B in
    service O cf tr0 vtr0 srv tk ms size (before ++ SQuery (VQuery c conv' (QPLatest p), l3) x :: D ++ [SServer (VQueried c (QRes found more), l4)]) ->
    quiet c (server_part D) -> clock_forward srv (w_all (watch_run cf tr0)) (readings (engine_part before)) -> valid_latest p ->
    exists es, map reg_of es = rs /\ (exists B1 l2 B2, B = B1 ++ SServer (VRegistered c (Some es), l2) :: B2 /\ quiet c (server_part B1)) /\
      forall e, In e es -> cf_cond (conf_at cf tr0) e = true -> covers (conf_at cf tr0) (ev_type e) = true -> asked p (ev_type e) ->
        exists e', In e' found /\ up_to_date (events_of (tr0 ++ backend_part before)) e e'.
Proof.
  intros O cf tr0 vtr0 srv tk ms size A c conv last rs l j B conv' p l3 x D found more l4 before HS HQ HC Hp.
  assert (G : exists B1 r l2 B2, B = B1 ++ SServer (VRegistered c r, l2) :: B2 /\ quiet c (server_part B1)).
  { unfold before in HS. rewrite <- app_assoc in HS. eapply query_in_turn. exact HS. }
  destruct G as (B1 & r & l2 & B2 & -> & HQ1).
  assert (HC' : clock_forward srv (w_all (watch_run cf tr0)) (readings (engine_part (A ++ SRegister (VRegister c conv last rs, l) j :: B1 ++ [SServer (VRegistered c r, l2)])))).
  { apply (clock_app _ _ _ B2). unfold before in HC. rewrite <- app_assoc. cbn [app]. rewrite <- app_assoc. exact HC. }
  destruct (final_C72_latest _ _ _ _ _ _ _ _ _ _ _ _ _ _ _ _ _ _ _ _ _ _ _ _ _ _ _ _ HS HQ1 HQ HC' Hp) as (_ & es & -> & Er & He).
  exists es. split; [exact Er|]. split; [exists B1, l2, B2; auto|exact He].
Qed.
