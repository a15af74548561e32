(** Engine: answers and life cycle (C32, C34). *)
From Coq Require Import String Bool ZArith Arith Lia Sorted List.
From Verif Require Import Base Model_Types Model_Subscription Spec_Order Model_Engine Spec_Engine Proof_Engine Proof_Engine2 Proof_Engine3.
Import ListNotations.
Open Scope list_scope.
Open Scope nat_scope.

(** ** Bookkeeping *)

Record book (tr : list eitem) (s : estate) : Prop := {
  bk_used : forall r, In (ERegister r) (ops_of tr) -> In (rq_fut r) (e_used s);
  bk_gone : forall n, In n (e_gone s) <-> In (EGiveUp n) (ops_of tr);
  bk_shut : shut_in tr = true -> e_qopen s = false /\ e_queue s = [];
  bk_open : shut_in tr = false -> e_qopen s = true;
  bk_close : In EClose (ops_of tr) -> e_open s = false;
  bk_begin : In EBegin (ops_of tr) -> e_loop s <> PInit /\ (ended (e_loop s) = true -> shut_in tr = true);
  bk_last : In ELast (ops_of tr) -> e_loop s = PDone /\ shut_in tr = true;
  bk_done : shut_in tr = true -> e_loop s = PLast \/ In ELast (ops_of tr);
  bk_fifo : if shut_in tr then eprefix (map rq_fut (begun tr)) (queued tr)
            else queued tr = map rq_fut (begun tr ++ e_queue s);
  bk_settled : forall n, In n (e_used s) -> In n (replied tr) \/ In n (e_gone s) \/ In n (map rq_fut (reqs s)) }.

Lemma queued_snoc : forall tr i, queued (tr ++ [i]) = queued tr ++ match i with (EPut n, []) => [n] | _ => [] end.
Proof. intros. unfold queued. rewrite flat_map_app. cbn [flat_map app]. now rewrite app_nil_r. Qed.

Lemma in_reqs : forall n s, In n (map rq_fut (reqs s)) <->
    In n (map rq_fut (e_put s)) \/ In n (map rq_fut (e_queue s)) \/ In n (map rq_fut (busy (e_loop s))).
Proof. intros. unfold reqs. rewrite !map_app, !in_app_iff. reflexivity. Qed.

Lemma in_del : forall n k l, In n (map rq_fut l) -> n = k \/ In n (map rq_fut (del_put k l)).
Proof.
  intros n k l H. destruct (Nat.eq_dec n k) as [E|E]; [auto|right]. apply in_map_iff in H as (r & <- & H). apply in_map.
  apply filter_In. split; [auto|]. destruct (Nat.eqb_spec k (rq_fut r)); [congruence|reflexivity].
Qed.

Lemma replied_in_replies : forall s l n, In n (map rq_fut l) ->
    In n (e_gone s) \/ In n (replied_in (flat_map (fun r => reply_to s Failed (rq_fut r)) l)).
Proof.
  intros s l n H. apply in_map_iff in H as (r & <- & H). destruct (memb (rq_fut r) (e_gone s)) eqn:E; [left; now apply memb_in|right].
  unfold replied_in. apply in_flat_map. exists (Reply (rq_fut r) Failed). split; [|now left]. apply in_flat_map. exists r. split; [auto|].
  unfold reply_to. rewrite E. now left.
Qed.

Lemma book_shut : forall tr s o l s2 now, book tr s -> is_shut o = true -> shut s now = (s2, l) -> shut_in tr = false -> e_loop s <> PInit ->
    book (tr ++ [(o, l)]) s2.
Proof.
  intros tr s o l s2 now B Ho Hs N NI. assert (Hh := handed_in_shut _ _ _ _ Hs). destruct Hh as (e0 & _ & Hb & _).
  unfold shut in Hs. cbv zeta in Hs. destruct (create_event _ _ _) as [i e]. injection Hs as <- El.
  assert (Hr : replied_in l = replied_in (flat_map (fun r => reply_to s Failed (rq_fut r)) (busy (e_loop s) ++ e_queue s))) by (rewrite <- El; apply replied_hand).
  clear El. assert (Q : match (o, l) with (EPut n, []) => [n] | _ => [] end = ([] : list nat)) by (destruct o; try discriminate; reflexivity).
  destruct B as [B1 B2 B3 B4 B5 B6 B7 B8 B9 B10].
  constructor; cbn [e_used e_gone e_qopen e_queue e_open e_loop ended]; rewrite ?ops_snoc, ?shut_snoc, ?Ho, ?orb_true_r.
  - intros r H. apply in_app_or in H as [H|[H|[]]]; [auto|subst o; discriminate].
  - intros n. rewrite in_app_iff, B2. cbn [In]. split; [auto|]. intros [H|[H|[]]]; [auto|subst o; discriminate].
  - auto.
  - discriminate.
  - auto.
  - intros _. split; [discriminate|auto].
  - intros H. exfalso. apply in_app_or in H as [H|[H|[]]]; [|subst o; discriminate]. apply B7 in H as [_ H]. congruence.
  - auto.
  - rewrite begun_snoc, Hb, app_nil_r, queued_snoc, Q, app_nil_r. rewrite N in B9. rewrite B9, map_app. eexists. reflexivity.
  - intros n Hn. rewrite replied_snoc, in_app_iff, Hr, in_reqs. cbn [e_put e_queue e_loop busy map In].
    destruct (B10 n Hn) as [H|[H|H]]; auto. apply in_reqs in H. destruct H as [H|H]; [auto|].
    destruct (replied_in_replies s (busy (e_loop s) ++ e_queue s) n) as [G|G]; auto. rewrite map_app, in_app_iff. tauto.
Qed.

(** Steps that move no request. *)
Lemma book_same : forall tr s o l s2, book tr s -> is_shut o = false ->
    (forall r, o <> ERegister r) -> (forall n, o <> EGiveUp n) -> (forall n, o <> EPut n) -> o <> ELast ->
    e_used s2 = e_used s -> e_gone s2 = e_gone s -> e_qopen s2 = e_qopen s -> e_queue s2 = e_queue s -> e_put s2 = e_put s ->
    begun_in l = [] -> (e_open s = false -> e_open s2 = false) -> (o = EClose -> e_open s2 = false) ->
    (e_loop s2 = e_loop s /\ o <> EBegin \/
     ended (e_loop s) = false /\ shut_in tr = false /\ e_loop s2 <> PInit /\ (ended (e_loop s2) = true -> e_loop s = PInit /\ o <> EBegin)) ->
    (forall n, In n (map rq_fut (busy (e_loop s))) -> In n (replied_in l) \/ In n (e_gone s) \/ In n (map rq_fut (busy (e_loop s2)))) ->
    book (tr ++ [(o, l)]) s2.
Proof.
  intros tr s o l s2 [B1 B2 B3 B4 B5 B6 B7 B8 B9 B10] Ho N1 N2 N3 N4 E1 E2 E3 E4 E5 Hb E6 E7 E8 E9.
  assert (Q : match (o, l) with (EPut n, []) => [n] | _ => [] end = ([] : list nat)) by (destruct o; try reflexivity; exfalso; eapply N3; reflexivity).
  constructor; rewrite ?ops_snoc, ?shut_snoc, ?Ho, ?orb_false_r, ?E1, ?E2, ?E3, ?E4.
  - intros r H. apply in_app_or in H as [H|[H|[]]]; [auto|exfalso; eapply N1; eauto].
  - intros n. rewrite in_app_iff, B2. cbn [In]. split; [auto|]. intros [H|[H|[]]]; [auto|exfalso; eapply N2; eauto].
  - auto.
  - auto.
  - intros H. apply in_app_or in H as [H|[H|[]]]; auto.
  - intros H. destruct E8 as [[E8 E8']|(E8 & F1 & F2 & F3)].
    + rewrite E8. apply in_app_or in H as [H|[H|[]]]; [auto|congruence].
    + split; [exact F2|]. intros X. destruct (F3 X) as [Y1 Y2]. apply in_app_or in H as [H|[H|[]]]; [|congruence]. exfalso. apply B6 in H. tauto.
  - intros H. apply in_app_or in H as [H|[H|[]]]; [|congruence]. destruct (B7 H) as [X Y]. split; [|exact Y].
    destruct E8 as [[E8 _]|(E8 & F1 & _)]; congruence.
  - intros H. destruct E8 as [[E8 _]|(E8 & F1 & _)]; [|congruence]. rewrite E8, in_app_iff. destruct (B8 H); auto.
  - rewrite begun_snoc, Hb, app_nil_r, queued_snoc, Q, app_nil_r. exact B9.
  - intros n Hn. rewrite replied_snoc, in_app_iff, in_reqs, E4, E5. destruct (B10 n Hn) as [H|[H|H]]; auto. apply in_reqs in H.
    destruct H as [H|[H|H]]; auto. destruct (E9 n H) as [G|[G|G]]; auto.
Qed.

Lemma reply_in : forall s a k n, n = k -> In n (replied_in (reply_to s a k)) \/ In n (e_gone s).
Proof.
  intros s a k n ->. unfold reply_to. destruct (memb k (e_gone s)) eqn:E; [right; now apply memb_in|left]. now left.
Qed.

Lemma book_run : forall ms size last tr s, engine_run ms size last tr s -> book tr s.
Proof.
  intros ms size last. apply run_ind.
  { constructor; cbn; try tauto; try discriminate; auto. }
  intros tr s o l s2 H B Hx. assert (Hsh := not_shut _ _ _ _ _ H). destruct (is_shut o) eqn:Es.
  { destruct (shut_step _ _ _ _ _ _ Hx Es) as (now & _ & Hs & He & NI & _). eapply book_shut; eauto. }
  destruct o; try discriminate.
  - (* begin *) einvs Hx. apply book_same with (s := s); auto; try discriminate.
    + right. rewrite Heqe. cbn. repeat split; auto; try discriminate.
    + rewrite Heqe. cbn. auto.
  - (* failed *) einvs Hx. apply book_same with (s := s); auto; try discriminate.
    + right. rewrite Heqe. cbn. repeat split; auto; try discriminate.
    + rewrite Heqe. cbn. auto.
  - (* register *) cbn [eexec] in Hx. destruct (memb (rq_fut r) (e_used s)) eqn:Em; [discriminate|].
    destruct B as [B1 B2 B3 B4 B5 B6 B7 B8 B9 B10].
    assert (X : e_used s2 = e_used s ++ [rq_fut r] /\ e_gone s2 = e_gone s /\ e_qopen s2 = e_qopen s /\ e_queue s2 = e_queue s /\ e_loop s2 = e_loop s /\ e_open s2 = e_open s /\
              begun_in l = [] /\ (replied_in l = [rq_fut r] /\ e_put s2 = e_put s \/ e_put s2 = e_put s ++ [r]))
      by (destruct (rq_events r); injection Hx as <- <-; repeat split; auto).
    destruct X as (X1 & X2 & X3 & X4 & X5 & X6 & X7 & X8).
    constructor; rewrite ?ops_snoc, ?shut_snoc, ?X1, ?X2, ?X3, ?X4, ?X5, ?X6; cbn [is_shut]; rewrite ?orb_false_r; auto.
    + intros r0 G. rewrite in_app_iff in *. destruct G as [G|[G|[]]]; [auto|]. injection G as ->. right. now left.
    + intros n. rewrite in_app_iff, B2. cbn [In]. split; [auto|]. intros [G|[G|[]]]; [auto|discriminate].
    + intros G. apply in_app_or in G as [G|[G|[]]]; [auto|discriminate].
    + intros G. apply in_app_or in G as [G|[G|[]]]; [auto|discriminate].
    + intros G. apply in_app_or in G as [G|[G|[]]]; [auto|discriminate].
    + intros G. rewrite in_app_iff. destruct (B8 G); auto.
    + rewrite begun_snoc, X7, app_nil_r, queued_snoc, app_nil_r. exact B9.
    + intros n G. rewrite replied_snoc, in_app_iff, in_reqs, X4, X5. apply in_app_or in G as [G|[<-|[]]].
      * destruct (B10 n G) as [Y|[Y|Y]]; auto. apply in_reqs in Y. destruct X8 as [[_ X8]|X8]; rewrite X8, ?map_app, ?in_app_iff; tauto.
      * destruct X8 as [[X8 _]|X8]; rewrite X8; [left; right; now left|]. right. right. left. rewrite map_app, in_app_iff. right. now left.
  - (* put *) cbn [eexec] in Hx. destruct (find_put n (e_put s)) as [r|] eqn:Ef; [|discriminate]. apply find_put_in in Ef as [F1 F2].
    destruct B as [B1 B2 B3 B4 B5 B6 B7 B8 B9 B10].
    destruct (e_qopen s) eqn:Eq.
    + destruct (Nat.ltb _ _); [|discriminate]. injection Hx as <- <-.
      assert (N : shut_in tr = false) by (destruct (shut_in tr) eqn:E; auto; destruct (B3 eq_refl); congruence).
      constructor; rewrite ?ops_snoc, ?shut_snoc; cbn [is_shut e_used e_gone e_qopen e_queue e_open e_loop]; rewrite ?orb_false_r; auto.
      * intros r0 G. apply in_app_or in G as [G|[G|[]]]; [auto|discriminate].
      * intros k. rewrite in_app_iff, B2. cbn [In]. split; [auto|]. intros [G|[G|[]]]; [auto|discriminate].
      * rewrite N. discriminate.
      * intros G. apply in_app_or in G as [G|[G|[]]]; [auto|discriminate].
      * intros G. apply in_app_or in G as [G|[G|[]]]; [auto|discriminate].
      * intros G. apply in_app_or in G as [G|[G|[]]]; [auto|discriminate].
      * rewrite N. discriminate.
      * rewrite N in *. rewrite begun_snoc, queued_snoc, B9. cbn [begun_in flat_map]. rewrite app_nil_r, app_assoc, (map_app _ _ [r]). cbn [map]. now rewrite F2.
      * intros k G. rewrite replied_snoc, in_app_iff, in_reqs. cbn [e_put e_queue e_loop]. destruct (B10 k G) as [Y|[Y|Y]]; auto. apply in_reqs in Y.
        rewrite map_app, in_app_iff. cbn [map In]. destruct Y as [Y|[Y|Y]]; [|tauto|tauto]. apply (in_del _ n) in Y as [->|Y]; tauto.
    + injection Hx as <- <-.
      assert (N : shut_in tr = true) by (destruct (shut_in tr) eqn:E; auto; specialize (B4 eq_refl); congruence).
      constructor; rewrite ?ops_snoc, ?shut_snoc; cbn [is_shut e_used e_gone e_qopen e_queue e_open e_loop]; rewrite ?orb_false_r; auto.
      * intros r0 G. apply in_app_or in G as [G|[G|[]]]; [auto|discriminate].
      * intros k. rewrite in_app_iff, B2. cbn [In]. split; [auto|]. intros [G|[G|[]]]; [auto|discriminate].
      * intros G. apply in_app_or in G as [G|[G|[]]]; [auto|discriminate].
      * intros G. apply in_app_or in G as [G|[G|[]]]; [auto|discriminate].
      * intros G. apply in_app_or in G as [G|[G|[]]]; [auto|discriminate].
      * intros G. rewrite in_app_iff. destruct (B8 G); auto.
      * rewrite N in *. rewrite begun_snoc, queued_snoc. cbn [begun_in flat_map]. rewrite !app_nil_r. exact B9.
      * intros k G. rewrite replied_snoc, in_app_iff, in_reqs. cbn [e_put e_queue e_loop replied_in flat_map app In]. destruct (B10 k G) as [Y|[Y|Y]]; auto. apply in_reqs in Y.
        destruct Y as [Y|[Y|Y]]; auto. apply (in_del _ n) in Y as [->|Y]; auto.
  - (* give up *) cbn [eexec] in Hx. destruct (memb n (e_used s)); [|discriminate]. injection Hx as <- <-. destruct B as [B1 B2 B3 B4 B5 B6 B7 B8 B9 B10].
    constructor; rewrite ?ops_snoc, ?shut_snoc; cbn [is_shut e_used e_gone e_qopen e_queue e_open e_loop]; rewrite ?orb_false_r; auto.
    + intros r0 G. apply in_app_or in G as [G|[G|[]]]; [auto|discriminate].
    + intros k. rewrite !in_app_iff, B2. cbn [In]. split; (intros [G|[G|[]]]; [auto|]); [subst; auto|]. injection G as ->. auto.
    + intros G. apply in_app_or in G as [G|[G|[]]]; [auto|discriminate].
    + intros G. apply in_app_or in G as [G|[G|[]]]; [auto|discriminate].
    + intros G. apply in_app_or in G as [G|[G|[]]]; [auto|discriminate].
    + intros G. rewrite in_app_iff. destruct (B8 G); auto.
    + rewrite begun_snoc, queued_snoc. cbn [begun_in flat_map]. rewrite !app_nil_r. exact B9.
    + intros k G. rewrite replied_snoc, in_app_iff, in_reqs. cbn [e_put e_queue e_loop]. rewrite in_app_iff. destruct (B10 k G) as [Y|[Y|Y]]; auto. apply in_reqs in Y.
      destruct Y as [Y|[Y|Y]]; auto. apply (in_del _ n) in Y as [->|Y]; auto. right. left. right. now left.
  - (* close *) einvs Hx. apply book_same with (s := s); auto; try discriminate. left. split; [reflexivity|discriminate].
  - (* get *) cbn [eexec] in Hx. destruct (e_loop s) eqn:El; try discriminate. destruct (e_queue s) as [|r q] eqn:Eq; [discriminate|]. injection Hx as <- <-.
    assert (N := Hsh eq_refl). destruct B as [B1 B2 B3 B4 B5 B6 B7 B8 B9 B10].
    constructor; rewrite ?ops_snoc, ?shut_snoc; cbn [is_shut e_used e_gone e_qopen e_queue e_open e_loop ended]; rewrite ?orb_false_r; auto; try (rewrite N; discriminate).
    + intros r0 G. apply in_app_or in G as [G|[G|[]]]; [auto|discriminate].
    + intros k. rewrite in_app_iff, B2. cbn [In]. split; [auto|]. intros [G|[G|[]]]; [auto|discriminate].
    + intros G. apply in_app_or in G as [G|[G|[]]]; [auto|discriminate].
    + intros _. split; discriminate.
    + intros G. apply in_app_or in G as [G|[G|[]]]; [|discriminate]. apply B7 in G as [G _]. congruence.
    + rewrite N in *. rewrite begun_snoc, queued_snoc, B9, Eq. cbn [begun_in flat_map app]. rewrite !app_nil_r, <- app_assoc. reflexivity.
    + intros k G. rewrite replied_snoc, in_app_iff, in_reqs. cbn [e_put e_queue e_loop busy map In]. destruct (B10 k G) as [Y|[Y|Y]]; auto. apply in_reqs in Y.
      rewrite Eq, El in Y. cbn [map In busy] in Y. tauto.
  - (* step *) assert (G : e_put s2 = e_put s /\ e_queue s2 = e_queue s /\ busy (e_loop s2) = busy (e_loop s) /\ e_used s2 = e_used s /\ begun_in l = [] /\
               e_gone s2 = e_gone s /\ e_qopen s2 = e_qopen s /\ e_open s2 = e_open s /\ ended (e_loop s) = false /\ ended (e_loop s2) = false /\ e_loop s2 <> PInit).
    { einvs Hx; repeat split; auto; cbn [set_eloop set_last e_loop]; rewrite ?Heqe; auto; discriminate. }
    destruct G as (G1 & G2 & G3 & G4 & G5 & G6 & G7 & G8 & G9 & G10 & G11). apply book_same with (s := s); auto; try discriminate; try congruence.
    + right. split; [exact G9|]. split; [auto|]. split; [exact G11|]. intros X. congruence.
    + rewrite G3. auto.
  - (* processed *) assert (G : e_put s2 = e_put s /\ e_queue s2 = e_queue s /\ busy (e_loop s2) = busy (e_loop s) /\ e_used s2 = e_used s /\ begun_in l = [] /\
               e_gone s2 = e_gone s /\ e_qopen s2 = e_qopen s /\ e_open s2 = e_open s /\ ended (e_loop s) = false /\ ended (e_loop s2) = false /\ e_loop s2 <> PInit).
    { einvs Hx; repeat split; auto; cbn [set_eloop set_last e_loop]; rewrite ?Heqe; auto; discriminate. }
    destruct G as (G1 & G2 & G3 & G4 & G5 & G6 & G7 & G8 & G9 & G10 & G11). apply book_same with (s := s); auto; try discriminate; try congruence.
    + right. split; [exact G9|]. split; [auto|]. split; [exact G11|]. intros X. congruence.
    + rewrite G3. auto.
  - (* registered *) cbn [eexec] in Hx. destruct (e_loop s) as [| | | | | |r all| |] eqn:El; try discriminate. injection Hx as <- <-.
    apply book_same with (s := s); auto; try discriminate.
    + apply begun_reply.
    + right. rewrite El. cbn. repeat split; auto; discriminate.
    + intros k Hk. rewrite El in Hk. cbn [busy map In] in Hk. destruct Hk as [<-|[]].
      destruct (reply_in s (if some then Events (firstn (List.length (rq_events r)) all) else NoEvents) (rq_fut r) (rq_fut r) eq_refl); auto.
  - (* last *) cbn [eexec] in Hx. destruct (e_loop s) eqn:El; try discriminate. injection Hx as <- <-. destruct B as [B1 B2 B3 B4 B5 B6 B7 B8 B9 B10].
    assert (N : shut_in tr = true).
    { clear - H El. revert H. unfold engine_run. intros H.
      assert (G : e_loop s = PLast -> shut_in tr = true); [|auto]. clear El. revert tr s H.
      apply (run_ind ms size last (fun tr s => e_loop s = PLast -> shut_in tr = true)); [discriminate|].
      intros tr s o l s2 _ IH Hx E2. rewrite shut_snoc. destruct (is_shut o) eqn:Es; [apply orb_true_r|]. rewrite orb_false_r.
      destruct o; try discriminate; einvs Hx; cbn [set_eloop set_last e_loop] in *; try discriminate; auto. }
    constructor; rewrite ?ops_snoc, ?shut_snoc; cbn [is_shut set_eloop e_used e_gone e_qopen e_queue e_open e_loop ended]; rewrite ?orb_false_r; auto.
    + intros r0 G. apply in_app_or in G as [G|[G|[]]]; [auto|discriminate].
    + intros k. rewrite in_app_iff, B2. cbn [In]. split; [auto|]. intros [G|[G|[]]]; [auto|discriminate].
    + intros G. apply in_app_or in G as [G|[G|[]]]; [auto|discriminate].
    + intros _. split; [discriminate|auto].
    + intros _. right. apply in_or_app. right. now left.
    + rewrite begun_snoc, queued_snoc. cbn [begun_in flat_map]. rewrite !app_nil_r. exact B9.
    + intros k G. rewrite replied_snoc, in_app_iff, in_reqs. cbn [set_eloop e_put e_queue e_loop busy map In]. destruct (B10 k G) as [Y|[Y|Y]]; auto. apply in_reqs in Y.
      rewrite El in Y. cbn [busy map In] in Y. tauto.
Qed.
