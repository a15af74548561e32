(** Engine: order of ids, requests, batches, life cycle (C31 - C34). *)
From Coq Require Import String Bool ZArith Arith Lia Sorted List.
From Verif Require Import Base Model_Types Model_Subscription Spec_Order Model_Engine Spec_Engine Proof_Engine.
Import ListNotations.
Open Scope list_scope.
Open Scope nat_scope.

(** ** Order of ids *)

Lemma SSa : forall (A : Type) (R : A -> A -> Prop) l1 l2, StronglySorted R l1 -> StronglySorted R l2 ->
    (forall a b, In a l1 -> In b l2 -> R a b) -> StronglySorted R (l1 ++ l2).
Proof.
  induction l1 as [|x l1 IH]; intros l2 H1 H2 H; cbn [app]; auto.
  inversion H1 as [|? ? Ha Hb]; subst. constructor.
  - apply IH; auto. intros a b Hia Hib. apply H; auto. now right.
  - apply Forall_app. split; auto. apply Forall_forall. intros b Hib. apply H; auto. now left.
Qed.

Lemma ids_from_sorted : forall srv ss n k, StronglySorted eid_lt (ids_from srv ss k n).
Proof.
  intros srv ss n. induction n as [|n IH]; intros k; unfold ids_from; cbn [seq map]; constructor; [apply IH|].
  apply Forall_forall. intros i Hi. apply in_map_iff in Hi as (j & <- & Hj). apply in_seq in Hj. unfold eid_lt. cbn. lia.
Qed.

(** In a session whose batch is not handed over yet. *)
Definition in_session (l : eloop) : bool :=
  match l with PStart _ _ _ | PRun _ _ _ _ _ | PCall _ _ _ _ _ _ | PStop _ _ _ => true | _ => false end.

Definition known (last : event_id) (i : event_id) (b : Z) : Prop :=
  eid_server i = eid_server last /\ (eid_session i <= b)%Z.

Definition order_inv (last : event_id) (tr : list eitem) (s : estate) : Prop :=
  let ids := last :: map ev_id (concat (handed tr)) in
  StronglySorted eid_lt ids /\
  (ended (e_loop s) = false ->
   Forall (fun i => known last i (cur_session last tr - (if in_session (e_loop s) then 1 else 0))) ids).

Lemma order_quiet : forall last tr s o l s2, order_inv last tr s -> begun_in l = [] -> is_shut o = false -> handed_in l = [] ->
    (ended (e_loop s2) = false -> ended (e_loop s) = false /\ in_session (e_loop s2) = in_session (e_loop s)) ->
    order_inv last (tr ++ [(o, l)]) s2.
Proof.
  intros last tr s o l s2 [A B] H1 H2 H3 H4. unfold order_inv. rewrite handed_snoc, H3, app_nil_r. split; [exact A|].
  intros He. destruct (H4 He) as [E1 E2]. rewrite cur_same by auto. rewrite E2. auto.
Qed.

Lemma order_hand : forall last tr b es ss, StronglySorted eid_lt (last :: map ev_id (concat (handed tr))) ->
    Forall (fun i => known last i b) (last :: map ev_id (concat (handed tr))) ->
    map ev_id es = ids_from (eid_server last) ss 1 (List.length es) -> (b < ss)%Z ->
    StronglySorted eid_lt (last :: map ev_id (concat (handed tr ++ [es]))) /\
    Forall (fun i => known last i ss) (last :: map ev_id (concat (handed tr ++ [es]))).
Proof.
  intros last tr b es ss A B C D. rewrite concat_app, map_app, app_comm_cons. cbn [concat]. rewrite app_nil_r, C. split.
  - apply SSa; [exact A|apply ids_from_sorted|]. intros x y Hx Hy. apply (proj1 (Forall_forall _ _) B) in Hx as [X1 X2].
    apply in_map_iff in Hy as (k & <- & _). unfold eid_lt. cbn. lia.
  - apply Forall_app. split.
    + eapply Forall_impl; [|exact B]. intros x [X1 X2]. split; [auto|lia].
    + apply Forall_forall. intros y Hy. apply in_map_iff in Hy as (k & <- & _). split; cbn; [auto|lia].
Qed.

Lemma handed_in_shut : forall s now s2 l, shut s now = (s2, l) ->
    exists e, handed_in l = [[e]] /\ begun_in l = [] /\ ev_id e = Eid (eid_server (e_last s)) (eid_session (e_last s) + 1) 1 /\
              ev_ts e = now /\ reg_of e = status_reg_event (eid_server (e_last s)) "STOPPED".
Proof.
  intros s now s2 l H. unfold shut, create_event, create_session in H. cbn [eid_server eid_session eid_instance] in H. injection H as <- <-.
  eexists. split; [|split; [|split; [|split]]].
  - rewrite handed_in_app, handed_in_replies. reflexivity.
  - rewrite begun_in_app, begun_in_replies. reflexivity.
  - reflexivity.
  - reflexivity.
  - reflexivity.
Qed.

Lemma shut_step : forall ms size s o s2 l, eexec ms size s o = Some (s2, l) -> is_shut o = true ->
    exists now, (o = ERaise now \/ o = ECancel now) /\ shut s now = (s2, l) /\ ended (e_loop s) = false /\ e_loop s <> PInit /\
                e_loop s2 = PLast.
Proof.
  intros ms size s o s2 l H Hs. destruct o; try discriminate; cbn [eexec] in H; exists now.
  - destruct (e_loop s) eqn:El; try discriminate; injection H as <- <-; repeat split; auto; discriminate.
  - destruct (e_open s); [discriminate|]. destruct (e_loop s) eqn:El; try discriminate; injection H as <- <-; repeat split; auto; discriminate.
Qed.

Lemma order_step : forall ms size last tr s o l s2, (ended (e_loop s) = false -> shut_in tr = false) -> sess_inv ms last tr s ->
    order_inv last tr s -> eexec ms size s o = Some (s2, l) -> order_inv last (tr ++ [(o, l)]) s2.
Proof.
  intros ms size last tr s o l s2 Hsh SI I Hx. destruct (is_shut o) eqn:Es.
  { destruct (shut_step _ _ _ _ _ _ Hx Es) as (now & Ho & Hs & He & _ & E2). destruct (handed_in_shut _ _ _ _ Hs) as (e & H1 & H2 & H3 & _).
    destruct (sess_ids _ _ _ _ SI) as [ID1 ID2]. specialize (ID2 He). destruct I as [A B]. specialize (B He).
    unfold order_inv. rewrite E2. split; [|discriminate]. rewrite handed_snoc, H1.
    eapply order_hand with (b := cur_session last tr) (ss := (cur_session last tr + 1)%Z); [exact A| |cbn; rewrite H3, ID1, ID2; reflexivity|lia].
    eapply Forall_impl; [|exact B]. intros i [K1 K2]. split; [exact K1|]. destruct (in_session (e_loop s)); lia. }
  destruct o; try discriminate.
  - einvs Hx. eapply order_quiet; [exact I| | | |]; auto. cbn. rewrite Heqe. auto.
  - einvs Hx. eapply order_quiet; [exact I| | | |]; auto. discriminate.
  - einvs Hx; (eapply order_quiet; [exact I| | | |]; auto).
  - einvs Hx; (eapply order_quiet; [exact I| | | |]; auto).
  - einvs Hx; (eapply order_quiet; [exact I| | | |]; auto).
  - einvs Hx; (eapply order_quiet; [exact I| | | |]; auto).
  - einvs Hx. destruct I as [A B]. rewrite Heqe in B. specialize (B eq_refl). unfold order_inv. rewrite handed_snoc. cbn [handed_in flat_map e_loop ended in_session].
    rewrite app_nil_r. split; [exact A|]. intros _. eapply Forall_impl; [|exact B]. cbn beta iota. intros i [K1 K2]. split; [exact K1|].
    cbn [in_session] in K2. unfold cur_session in *. rewrite begun_snoc, app_length, shut_snoc. cbn [begun_in flat_map List.length is_shut app]. rewrite orb_false_r. lia.
  - cbn [eexec] in Hx. unfold sess_inv in SI.
    destruct (e_loop s) as [| |r now [|m0 l0]|r now all outs todo| |r all [|m0 l0]| | |] eqn:El; try discriminate.
    + destruct (create_events _ _ _) as [i es]. injection Hx as <- <-. eapply order_quiet; [exact I| | | |]; auto. rewrite El. auto.
    + injection Hx as <- <-. eapply order_quiet; [exact I| | | |]; auto. rewrite El. auto.
    + destruct outs as [|x outs], todo as [|[m0 [src e]] todo];
        try (destruct (match nth_error ms m0 with Some n => node_matches n (ev_type e) | None => false end));
        injection Hx as <- <-; (eapply order_quiet; [exact I| | | |]; auto); rewrite El; auto.
    + injection Hx as <- <-. destruct I as [A B]. rewrite El in B. specialize (B eq_refl). cbn [in_session] in B.
      destruct SI as (now & _ & [M1 M2 M3] & _). unfold order_inv. rewrite handed_snoc, cur_same by auto. cbn [handed_in flat_map app].
      destruct (order_hand last tr _ all (cur_session last tr) A B M1) as [G1 G2]; [lia|]. split; [exact G1|]. intros _.
      cbn [set_eloop e_loop in_session]. rewrite Z.sub_0_r. exact G2.
    + injection Hx as <- <-. eapply order_quiet; [exact I| | | |]; auto. rewrite El. auto.
  - einvs Hx. eapply order_quiet; [exact I| | | |]; auto. rewrite Heqe. auto.
  - einvs Hx; (eapply order_quiet; [exact I| | | |]; auto using begun_reply, handed_reply); rewrite Heqe; auto.
  - einvs Hx. eapply order_quiet; [exact I| | | |]; auto. discriminate.
Qed.

Lemma run_ind : forall ms size last (P : list eitem -> estate -> Prop), P [] (estart last) ->
    (forall tr s o l s2, engine_run ms size last tr s -> P tr s -> eexec ms size s o = Some (s2, l) -> P (tr ++ [(o, l)]) s2) ->
    forall tr s, engine_run ms size last tr s -> P tr s.
Proof.
  intros ms size last P H0 HS tr s H. unfold engine_run in H. remember (estart last) as s0 eqn:E0.
  induction H as [s|s tr s1 o l s2 H IH Hx]; subst; auto. eapply HS; eauto.
Qed.

Lemma not_shut : forall ms size last tr s, engine_run ms size last tr s -> ended (e_loop s) = false -> shut_in tr = false.
Proof. intros ms size last tr s H He. destruct (shut_in tr) eqn:E; auto. rewrite (shut_ended _ _ _ _ _ H E) in He. discriminate. Qed.

Lemma order_run : forall ms size last tr s, engine_run ms size last tr s -> order_inv last tr s.
Proof.
  intros ms size last. apply run_ind.
  - split; [repeat constructor|]. intros _. constructor; [|constructor]. split; [auto|]. unfold cur_session. cbn. lia.
  - intros tr s o l s2 H I Hx. eapply order_step; [|eapply sess_run; exact H|exact I|exact Hx]. apply (not_shut _ _ _ _ _ H).
Qed.

Lemma final_C31_increasing : forall ms size last tr s, engine_run ms size last tr s ->
    StronglySorted eid_lt (last :: map ev_id (concat (handed tr))) /\
    Forall (fun e => eid_server (ev_id e) = eid_server last) (concat (handed tr)).
Proof.
  intros ms size last tr s H. split; [exact (proj1 (order_run _ _ _ _ _ H))|]. revert tr s H.
  apply run_ind; [constructor|]. intros tr s o l s2 H I Hx. rewrite handed_snoc, concat_app. apply Forall_app. split; [exact I|].
  destruct (sess_ids _ _ _ _ (sess_run _ _ _ _ _ H)) as [ID1 ID2]. destruct (is_shut o) eqn:Es.
  - destruct (shut_step _ _ _ _ _ _ Hx Es) as (now & _ & Hs & _). destruct (handed_in_shut _ _ _ _ Hs) as (e & -> & _ & E & _).
    cbn. constructor; [rewrite E; exact ID1|constructor].
  - assert (SI := sess_run _ _ _ _ _ H). unfold sess_inv in SI. destruct o; try discriminate; einvs Hx; rewrite ?handed_reply; try constructor.
    all: cbn [handed_in flat_map app concat]; try constructor. destruct SI as (now & _ & [M1 _ _] & _). rewrite app_nil_r. apply Forall_forall. intros e He.
    assert (Hi : In (ev_id e) (map ev_id all)) by (apply in_map; auto). rewrite M1 in Hi. apply in_map_iff in Hi as (k & <- & _). reflexivity.
Qed.

(** ** Requests *)

Definition reqs (s : estate) : list request := e_put s ++ e_queue s ++ busy (e_loop s).

Definition req_inv (last : event_id) (tr : list eitem) (s : estate) : Prop :=
  forall r, In r (reqs s) \/ In r (begun tr) -> (r = first_request last \/ In (ERegister r) (ops_of tr)) /\ rq_events r <> [].

Lemma in_del_put : forall n l r, In r (del_put n l) -> In r l.
Proof. intros n l r H. apply filter_In in H. tauto. Qed.
Lemma find_put_in : forall n l r, find_put n l = Some r -> In r l /\ rq_fut r = n.
Proof. intros n l r H. apply find_some in H as [A B]. apply Nat.eqb_eq in B. auto. Qed.

Lemma req_step : forall ms size last tr s o l s2, req_inv last tr s -> eexec ms size s o = Some (s2, l) -> req_inv last (tr ++ [(o, l)]) s2.
Proof.
  intros ms size last tr s o l s2 I Hx r Hr. rewrite begun_snoc in Hr.
  assert (G : (In r (reqs s) \/ In r (begun tr)) \/ (o = ERegister r /\ rq_events r <> [])).
  { destruct (is_shut o) eqn:Es.
    { destruct (shut_step _ _ _ _ _ _ Hx Es) as (now & _ & Hs & _). destruct (handed_in_shut _ _ _ _ Hs) as (e & _ & H2 & _).
      rewrite H2, app_nil_r in Hr. left. destruct Hr as [Hr|Hr]; [left|right; exact Hr]. unfold shut in Hs. cbv zeta in Hs.
      destruct (create_event _ _ _). injection Hs as <- _. unfold reqs in *. cbn [e_put e_queue e_loop busy] in Hr. rewrite !app_nil_r in Hr.
      apply in_or_app. now left. }
    unfold reqs in *. destruct o; try discriminate; einvs Hx; cbn [set_eloop set_last e_put e_queue e_loop busy begun_in flat_map app] in Hr;
      rewrite ?begun_reply in Hr; rewrite ?app_nil_r in Hr; rewrite ?in_app_iff in *; cbn [In busy] in *; try tauto;
      repeat match goal with H : In _ (del_put _ _) |- _ => apply in_del_put in H | H : _ \/ _ |- _ => destruct H as [H|H] end;
      try match goal with H : find_put _ _ = Some _ |- _ => apply find_put_in in H as [? ?] end; subst; try tauto;
      try (right; split; [reflexivity|congruence]). }
  rewrite ops_snoc, in_app_iff. destruct G as [G|[-> G]].
  - destruct (I r G) as [[A|A] B]; auto.
  - cbn [In]. auto.
Qed.

Lemma req_run : forall ms size last tr s, engine_run ms size last tr s -> req_inv last tr s.
Proof.
  intros ms size last. apply run_ind.
  - intros r [H|H]; [|destruct H]. cbn in H. destruct H as [<-|[]]. split; [left; reflexivity|discriminate].
  - intros tr s o l s2 H I Hx. eapply req_step; eauto.
Qed.

(** ** Batches of requests *)

Definition batch_inv (last : event_id) (tr : list eitem) (s : estate) : Prop :=
  if shut_in tr then
    exists bs hs e, handed tr = hs ++ [[e]] /\ is_status (eid_server last) "STOPPED" e /\ eprefix bs (begun tr) /\ Forall2 batch_for bs hs
  else
    match e_loop s with
    | PReg r all => exists bs hs, begun tr = bs ++ [r] /\ handed tr = hs ++ [all] /\ batch_for r all /\ Forall2 batch_for bs hs
    | l => exists bs, begun tr = bs ++ busy l /\ Forall2 batch_for bs (handed tr)
    end.

Lemma batch_same : forall last tr s o l s2, batch_inv last tr s -> begun_in l = [] -> handed_in l = [] -> is_shut o = false ->
    (shut_in tr = false -> e_loop s2 = e_loop s) -> batch_inv last (tr ++ [(o, l)]) s2.
Proof.
  intros last tr s o l s2 I H1 H2 H3 H4. unfold batch_inv in *. rewrite shut_snoc, H3, orb_false_r, begun_snoc, handed_snoc, H1, H2, !app_nil_r.
  destruct (shut_in tr); auto. rewrite H4 by auto. exact I.
Qed.

Lemma batch_move : forall last tr s o l s2, batch_inv last tr s -> shut_in tr = false -> begun_in l = [] -> handed_in l = [] -> is_shut o = false ->
    (forall r all, e_loop s <> PReg r all) -> (forall r all, e_loop s2 <> PReg r all) -> busy (e_loop s2) = busy (e_loop s) ->
    batch_inv last (tr ++ [(o, l)]) s2.
Proof.
  intros last tr s o l s2 I H0 H1 H2 H3 H4 H5 H6. unfold batch_inv in *. rewrite shut_snoc, H3, orb_false_r, begun_snoc, handed_snoc, H1, H2, !app_nil_r, H0 in *.
  assert (G : exists bs, begun tr = bs ++ busy (e_loop s2) /\ Forall2 batch_for bs (handed tr)).
  { rewrite H6. destruct (e_loop s) eqn:El; auto. exfalso. eapply H4; reflexivity. }
  destruct (e_loop s2) eqn:El; auto. exfalso. eapply H5; reflexivity.
Qed.

Lemma batch_step : forall ms size last tr s o l s2, engine_run ms size last tr s ->
    batch_inv last tr s -> eexec ms size s o = Some (s2, l) -> batch_inv last (tr ++ [(o, l)]) s2.
Proof.
  intros ms size last tr s o l s2 HR I Hx. assert (Hsh := not_shut _ _ _ _ _ HR). assert (SI := sess_run _ _ _ _ _ HR).
  destruct (is_shut o) eqn:Es.
  { destruct (shut_step _ _ _ _ _ _ Hx Es) as (now & _ & Hs & He & _ & E2). destruct (handed_in_shut _ _ _ _ Hs) as (e & H1 & H2 & _ & _ & H3).
    destruct (sess_ids _ _ _ _ SI) as [ID1 _]. specialize (Hsh He). unfold batch_inv in *. rewrite shut_snoc, Es, orb_true_r, begun_snoc, handed_snoc, H1, H2, app_nil_r.
    rewrite Hsh in I. rewrite ID1 in H3.
    assert (G : exists bs, eprefix bs (begun tr) /\ Forall2 batch_for bs (handed tr)).
    { destruct (e_loop s); try (destruct I as (bs & -> & B); exists bs; split; [eexists; reflexivity|exact B]).
      destruct I as (bs & hs & -> & -> & B1 & B2). exists (bs ++ [r]). split; [exists []; now rewrite app_nil_r|]. apply Forall2_app; auto. }
    destruct G as (bs & G1 & G2). exists bs, (handed tr), e. auto. }
  destruct o; try discriminate.
  - einvs Hx. apply batch_move with (s := s); auto; rewrite ?Heqe; auto; discriminate.
  - einvs Hx. apply batch_move with (s := s); auto; rewrite ?Heqe; auto; discriminate.
  - einvs Hx; (apply batch_same with (s := s); auto).
  - einvs Hx; (apply batch_same with (s := s); auto).
  - einvs Hx; (apply batch_same with (s := s); auto).
  - einvs Hx; (apply batch_same with (s := s); auto).
  - einvs Hx. unfold batch_inv in *. rewrite shut_snoc. cbn [is_shut]. rewrite orb_false_r, begun_snoc, handed_snoc in *. rewrite Hsh in * by reflexivity.
    rewrite Heqe in I. cbn [begun_in handed_in flat_map app e_loop busy]. destruct I as (bs & A & B). cbn [busy] in A. rewrite ?app_nil_r in *. exists bs.
    rewrite A. split; auto.
  - cbn [eexec] in Hx. destruct (e_loop s) as [| |r now [|m0 l0]|r now all outs todo| |r all [|m0 l0]| | |] eqn:El; try discriminate.
    + destruct (create_events _ _ _) as [i es]. injection Hx as <- <-. apply batch_move with (s := s); auto; rewrite ?El; auto; discriminate.
    + injection Hx as <- <-. apply batch_move with (s := s); auto; rewrite ?El; auto; discriminate.
    + destruct outs as [|x outs], todo as [|[m0 [src e]] todo];
        try (destruct (match nth_error ms m0 with Some n => node_matches n (ev_type e) | None => false end));
        injection Hx as <- <-; (apply batch_move with (s := s); auto; rewrite ?El; auto; discriminate).
    + injection Hx as <- <-. unfold batch_inv in *. rewrite shut_snoc. cbn [is_shut]. rewrite orb_false_r, begun_snoc, handed_snoc in *. rewrite Hsh in * by reflexivity.
      rewrite El in I. cbn [begun_in handed_in flat_map app set_eloop e_loop]. rewrite app_nil_r. destruct I as (bs & A & B). exists bs, (handed tr).
      repeat split; auto. unfold sess_inv in SI. rewrite El in SI. destruct SI as (now & _ & _ & T & procs & l1 & A1 & A2 & _).
      exists (map snd (produced (seg tr))).
      assert (E : map snd (map (fun x => (fst x, reg_of (snd x))) T) = map reg_of all) by (rewrite <- A1, !map_map; reflexivity).
      rewrite <- E, A2, map_app. f_equal. rewrite map_map. apply map_id.
    + injection Hx as <- <-. apply batch_move with (s := s); auto; rewrite ?El; auto; discriminate.
  - einvs Hx. apply batch_move with (s := s); auto; rewrite ?Heqe; auto; discriminate.
  - assert (Hl : begun_in l = [] /\ handed_in l = [] /\ e_loop s2 = PWait /\ exists r all, e_loop s = PReg r all)
      by (einvs Hx; repeat split; eauto using begun_reply, handed_reply).
    destruct Hl as (L1 & L2 & L3 & r & all & El). rewrite El in Hsh. unfold batch_inv in *. rewrite shut_snoc. cbn [is_shut]. rewrite orb_false_r, begun_snoc, handed_snoc, L1, L2, L3, !app_nil_r.
    rewrite Hsh in * by reflexivity. rewrite El in I. destruct I as (bs & hs & A & B & C & D). exists (bs ++ [r]). cbn [busy]. rewrite A, B, app_nil_r.
    split; [reflexivity|]. apply Forall2_app; auto.
  - einvs Hx. unfold batch_inv in *. rewrite shut_snoc. cbn [is_shut]. rewrite orb_false_r, begun_snoc, handed_snoc. cbn [begun_in handed_in flat_map set_eloop e_loop busy].
    rewrite ?app_nil_r. rewrite Heqe in I. exact I.
Qed.

Lemma batch_run : forall ms size last tr s, engine_run ms size last tr s -> batch_inv last tr s.
Proof.
  intros ms size last. apply run_ind.
  - unfold batch_inv. cbn. exists []. split; [reflexivity|constructor].
  - intros tr s o l s2 H I Hx. eapply batch_step; eauto.
Qed.
