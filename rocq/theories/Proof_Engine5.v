(** Engine: answers, life cycle, identity across restarts (C32, C34, C35). *)
From Coq Require Import String Bool ZArith Arith Lia Sorted List.
From Verif Require Import Base Model_Types Model_Subscription Spec_Order Proof_Order Model_Lmdb Model_LmdbSys Spec_Lmdb Spec_LmdbContent Proof_Lmdb9
  Model_Engine Spec_Engine Proof_Engine Proof_Engine2 Proof_Engine3 Proof_Engine4.
Import ListNotations.
Open Scope list_scope.
Open Scope nat_scope.

Lemma F2_len : forall A B (R : A -> B -> Prop) a b, Forall2 R a b -> List.length a = List.length b.
Proof. intros A B R a b H. induction H; cbn [List.length]; auto. Qed.

Lemma reg_state : forall ms size last A r all s, engine_run ms size last A s -> e_loop s = PReg r all ->
    exists bs hs rest, begun A = bs ++ [r] /\ handed A = hs ++ [all] /\ List.length bs = List.length hs /\
      all = firstn (List.length (rq_events r)) all ++ rest /\ map reg_of (firstn (List.length (rq_events r)) all) = rq_events r.
Proof.
  intros ms size last A r all s H El. assert (B := batch_run _ _ _ _ _ H). unfold batch_inv in B.
  rewrite (not_shut _ _ _ _ _ H), El in B by (now rewrite El). destruct B as (bs & hs & B1 & B2 & (rest & B3) & B4).
  exists bs, hs, (skipn (List.length (rq_events r)) all). repeat split; auto.
  - eapply F2_len; eauto.
  - symmetry. apply firstn_skipn.
  - rewrite <- firstn_map, B3, firstn_app, Nat.sub_diag, firstn_all. cbn [firstn]. apply app_nil_r.
Qed.

Lemma final_C32_answer : forall ms size last A o l n a s, engine_run ms size last (A ++ [(o, l)]) s -> In (Reply n a) l ->
    right_answer A o n a.
Proof.
  intros ms size last A o l n a s H Hi. apply eruns_inv in H as (s1 & o1 & l1 & E & H & Hx). injection E as <- <-.
  destruct (is_shut o) eqn:Es.
  - destruct (shut_step _ _ _ _ _ _ Hx Es) as (now & _ & Hs & _). unfold shut in Hs. cbv zeta in Hs. destruct (create_event _ _ _). injection Hs as _ <-.
    apply in_app_or in Hi as [Hi|[Hi|[]]]; [|discriminate]. apply in_replies in Hi as ->. left. exact Es.
  - destruct o; try discriminate; cbn [eexec] in Hx.
    + einvs Hx. destruct Hi.
    + einvs Hx. destruct Hi.
    + destruct (memb _ _); [discriminate|]. destruct (rq_events r) eqn:Er; injection Hx as <- <-; [|destruct Hi]. destruct Hi as [Hi|[]]. injection Hi as <- <-.
      left. exists r. auto.
    + destruct (find_put n0 (e_put s1)) as [r|]; [|discriminate]. destruct (e_qopen s1) eqn:Eq; [destruct (Nat.ltb _ _); [|discriminate]|]; injection Hx as <- <-; [destruct Hi|].
      destruct Hi as [Hi|[]]. injection Hi as <- <-. right. split; [reflexivity|]. destruct (book_run _ _ _ _ _ H) as [_ _ _ B _ _ _ _ _ _].
      destruct (shut_in A); auto. rewrite B in Eq by reflexivity. discriminate.
    + einvs Hx. destruct Hi.
    + einvs Hx. destruct Hi.
    + einvs Hx. destruct Hi as [Hi|[]]. discriminate.
    + einvs Hx; cbn [In] in Hi; try tauto; destruct Hi as [Hi|[]]; discriminate.
    + einvs Hx. destruct Hi.
    + destruct (e_loop s1) as [| | | | | |r all| |] eqn:El; try discriminate. injection Hx as <- <-. unfold reply_to in Hi. destruct (memb _ _); [destruct Hi|].
      destruct Hi as [Hi|[]]. injection Hi as <- <-. destruct (reg_state _ _ _ _ _ _ _ H El) as (bs & hs & rest & C1 & C2 & C3 & C4 & C5).
      destruct some; cbn [right_answer].
      * right. split; [reflexivity|]. exists bs, r, hs, rest. rewrite <- C4. auto.
      * split; [reflexivity|]. eauto.
    + einvs Hx. destruct Hi.
Qed.

Lemma final_C32_served : forall ms size last A ok l s, engine_run ms size last (A ++ [(ERegistered ok, l)]) s ->
    exists bs r, begun A = bs ++ [r] /\
      (~ In (EGiveUp (rq_fut r)) (ops_of A) -> exists a, l = [Reply (rq_fut r) a] /\ a <> Failed /\ (ok = true -> a <> NoEvents)).
Proof.
  intros ms size last A ok l s H. apply eruns_inv in H as (s1 & o1 & l1 & E & H & Hx). injection E as <- <-. cbn [eexec] in Hx.
  destruct (e_loop s1) as [| | | | | |r all| |] eqn:El; try discriminate. injection Hx as <- <-.
  destruct (reg_state _ _ _ _ _ _ _ H El) as (bs & hs & rest & C1 & _). exists bs, r. split; [exact C1|]. intros G.
  assert (M : memb (rq_fut r) (e_gone s1) = false).
  { destruct (memb _ _) eqn:M; auto. apply memb_in in M. apply (bk_gone _ _ (book_run _ _ _ _ _ H)) in M. contradiction. }
  unfold reply_to. rewrite M. eexists. split; [reflexivity|]. destruct ok; split; try discriminate; intros; discriminate.
Qed.

Lemma final_C32_empty : forall ms size last tr s, engine_run ms size last tr s ->
    Forall (fun r => rq_events r <> []) (begun tr) /\
    (forall A r l B, tr = A ++ (ERegister r, l) :: B -> rq_events r = [] -> l = [Reply (rq_fut r) (Events [])]).
Proof.
  intros ms size last tr s H. split.
  - apply Forall_forall. intros r Hr. destruct (req_run _ _ _ _ _ H r) as [_ G]; auto.
  - intros A r l B -> Hr. change (A ++ (ERegister r, l) :: B) with (A ++ [(ERegister r, l)] ++ B) in H. rewrite app_assoc in H.
    apply eruns_split in H as (s1 & H). apply eruns_inv in H as (s0 & o1 & l1 & E & H & Hx). injection E as <- <-. cbn [eexec] in Hx.
    destruct (memb _ _); [discriminate|]. rewrite Hr in Hx. now injection Hx as _ <-.
Qed.

(** ** C34 *)

Lemma queue_head : forall ms size last tr s, engine_run ms size last tr s ->
    (shut_in tr = false -> exists t, begun tr ++ e_queue s = first_request last :: t) /\
    (begun tr = [] \/ exists t, begun tr = first_request last :: t).
Proof.
  intros ms size last. apply run_ind.
  - split; [|auto]. intros _. eexists. reflexivity.
  - intros tr s o l s2 H [I1 I2] Hx. rewrite shut_snoc, begun_snoc. destruct (is_shut o) eqn:Es.
    { rewrite orb_true_r. split; [discriminate|]. destruct (shut_step _ _ _ _ _ _ Hx Es) as (now & _ & Hs & _). destruct (handed_in_shut _ _ _ _ Hs) as (e & _ & E & _).
      rewrite E, app_nil_r. exact I2. }
    rewrite orb_false_r.
    assert (G : (begun_in l = [] /\ exists q, e_queue s2 = e_queue s ++ q) \/ (exists r, begun_in l = [r] /\ e_queue s = r :: e_queue s2 /\ e_loop s = PWait)).
    { destruct o; try discriminate; einvs Hx; cbn [set_eloop set_last e_queue]; rewrite ?begun_reply;
        try (left; split; [reflexivity|]; first [exists []; rewrite app_nil_r; reflexivity|eexists; reflexivity]).
      right. eexists. repeat split. }
    destruct G as [[G1 (q & G2)]|(r & G1 & G2 & G3)].
    + rewrite G1, G2, app_nil_r. split; [|exact I2]. intros N. destruct (I1 N) as (t & I). rewrite app_assoc, I. eexists. reflexivity.
    + rewrite G1, <- app_assoc. cbn [app]. rewrite <- G2. split; [exact I1|]. right.
      assert (N : shut_in tr = false) by (apply (not_shut _ _ _ _ _ H); now rewrite G3).
      destruct (I1 N) as (t & I). rewrite G2 in I. destruct I2 as [I2|(t2 & I2)]; rewrite I2 in *; cbn [app] in *; [injection I as -> _; eexists; reflexivity|eexists; reflexivity].
Qed.

Lemma final_C34_first : forall ms size last tr s h hs, engine_run ms size last tr s -> handed tr = h :: hs ->
    exists e t, h = e :: t /\ (is_status (eid_server last) "STARTED" e \/ is_status (eid_server last) "STOPPED" e /\ t = [] /\ hs = [] /\ shut_in tr = true).
Proof.
  intros ms size last tr s h hs H E. assert (B := batch_run _ _ _ _ _ H). destruct (queue_head _ _ _ _ _ H) as [_ Q].
  assert (G : forall r t es, begun tr = r :: t -> batch_for r es -> exists e t, es = e :: t /\ is_status (eid_server last) "STARTED" e).
  { intros r t es Hr (rest & Hes). destruct Q as [Q|(t2 & Q)]; [congruence|]. rewrite Hr in Q. injection Q as -> _. cbn [first_request rq_events app] in Hes.
    destruct es as [|e es]; [discriminate|]. exists e, es. split; [reflexivity|]. cbn [map] in Hes. apply (f_equal (hd_error (A := _))) in Hes. cbn [hd_error] in Hes.
    assert (X : forall A (x y : A), Some x = Some y -> x = y) by (intros; congruence). exact (X _ _ _ Hes). }
  assert (G2 : forall bs hs rest r, begun tr = bs ++ rest -> Forall2 batch_for bs (r :: hs) -> exists e t, r = e :: t /\ is_status (eid_server last) "STARTED" e).
  { intros bs hs0 rest r Hb F. inversion F as [|r0 ? bs0 ? F1 F2 Ea Eb]; subst. cbn [app] in Hb. eapply G; eauto. }
  unfold batch_inv in B. destruct (shut_in tr) eqn:Es.
  - destruct B as (bs & hs0 & e & B1 & B2 & (rest & B3) & B4). rewrite E in B1. destruct hs0 as [|h0 hs0]; cbn [app] in B1; injection B1 as -> B1.
    + exists e, []. split; [reflexivity|]. right. auto.
    + destruct (G2 _ _ _ _ B3 B4) as (e1 & t & Y & Z). exists e1, t. auto.
  - assert (X : exists e t, h = e :: t /\ is_status (eid_server last) "STARTED" e).
    { destruct (e_loop s); try (destruct B as (bs & B1 & B2); rewrite E in B2; solve [eapply G2; [exact B1|exact B2]]).
      destruct B as (bs & hs0 & B1 & B2 & B3 & B4). assert (F : Forall2 batch_for (bs ++ [r]) (h :: hs)) by (rewrite <- E, B2; apply Forall2_app; auto).
      eapply (G2 _ _ []); [|exact F]. now rewrite app_nil_r. }
    destruct X as (e & t & X1 & X2). exists e, t. auto.
Qed.

Lemma shut_app : forall A B, shut_in (A ++ B) = (shut_in A || shut_in B)%bool.
Proof. intros. unfold shut_in, ops_of. now rewrite map_app, existsb_app. Qed.

Lemma final_C34_last : forall ms size last A B s, engine_run ms size last (A ++ B) s -> shut_in A = true ->
    handed (A ++ B) = handed A /\ exists hs e, handed A = hs ++ [[e]] /\ is_status (eid_server last) "STOPPED" e.
Proof.
  intros ms size last A B s H Hs. split.
  - revert s H. induction B as [|i B IH] using rev_ind; intros s H; [now rewrite app_nil_r|]. rewrite app_assoc in *. apply eruns_inv in H as (s1 & o & l & -> & H & Hx).
    rewrite handed_snoc, (IH _ H). assert (He : ended (e_loop s1) = true).
    { apply (shut_ended _ _ _ _ _ H). rewrite shut_app, Hs. reflexivity. }
    assert (G : handed_in l = []); [|rewrite G; apply app_nil_r].
    destruct (is_shut o) eqn:Es; [destruct (shut_step _ _ _ _ _ _ Hx Es) as (now & _ & _ & X & _); congruence|].
    destruct o; try discriminate; einvs Hx; rewrite ?handed_reply; try reflexivity; discriminate.
  - apply eruns_split in H as (s1 & H). assert (I := batch_run _ _ _ _ _ H). unfold batch_inv in I. rewrite Hs in I. destruct I as (bs & hs & e & I1 & I2 & _).
    exists hs, e. auto.
Qed.

Lemma final_C34_fifo : forall ms size last tr s, engine_run ms size last tr s -> eprefix (map rq_fut (begun tr)) (queued tr).
Proof.
  intros ms size last tr s H. assert (B := bk_fifo _ _ (book_run _ _ _ _ _ H)). destruct (shut_in tr); auto. rewrite B, map_app. eexists. reflexivity.
Qed.

Lemma final_C34_ended : forall ms size last tr s r, engine_run ms size last tr s -> In ELast (ops_of tr) -> In (ERegister r) (ops_of tr) ->
    let n := rq_fut r in
    In n (replied tr) \/ In (EGiveUp n) (ops_of tr) \/ exists s2, eexec ms size s (EPut n) = Some (s2, [Reply n Failed]).
Proof.
  intros ms size last tr s r H HL HR n. destruct (book_run _ _ _ _ _ H) as [B1 B2 B3 B4 B5 B6 B7 B8 B9 B10].
  destruct (B7 HL) as [El Es]. destruct (B3 Es) as [Q1 Q2]. destruct (B10 n (B1 r HR)) as [G|[G|G]]; auto.
  - right. left. now apply B2.
  - right. right. apply in_reqs in G. rewrite Q2, El in G. cbn [map In busy] in G. destruct G as [G|[[]|[]]]. apply in_map_iff in G as (r0 & E & G).
    cbn [eexec]. destruct (find_put n (e_put s)) as [r1|] eqn:Ef.
    + rewrite Q1. eexists. reflexivity.
    + exfalso. unfold find_put in Ef. eapply find_none in Ef; [|exact G]. cbn beta in Ef. rewrite E, Nat.eqb_refl in Ef. discriminate.
Qed.

Lemma final_C34_later : forall ms size last A n l B s, engine_run ms size last (A ++ (EPut n, l) :: B) s -> shut_in A = true -> l = [Reply n Failed].
Proof.
  intros ms size last A n l B s H Hs. change (A ++ (EPut n, l) :: B) with (A ++ [(EPut n, l)] ++ B) in H. rewrite app_assoc in H.
  apply eruns_split in H as (s1 & H). apply eruns_inv in H as (s0 & o1 & l1 & E & H & Hx). injection E as <- <-. cbn [eexec] in Hx.
  destruct (bk_shut _ _ (book_run _ _ _ _ _ H) Hs) as [Q _]. destruct (find_put n (e_put s0)); [|discriminate]. rewrite Q in Hx. now injection Hx as _ <-.
Qed.

Lemma eruns_app : forall ms size b s1 s2, eruns ms size s1 b s2 -> forall a s0, eruns ms size s0 a s1 -> eruns ms size s0 (a ++ b) s2.
Proof.
  intros ms size b s1 s2 H. induction H as [s|s tr s1 o l s2 H IH Hx]; intros a s0 H0; [now rewrite app_nil_r|]. rewrite app_assoc. econstructor; eauto.
Qed.

Definition at_await (l : eloop) : bool := match l with PWait | PStart _ _ _ | PCall _ _ _ _ _ _ | PStop _ _ _ | PReg _ _ => true | _ => false end.

Lemma run_round : forall ms size todo s r now all outs, e_loop s = PRun r now all outs todo ->
    exists tr s2, eruns ms size s tr s2 /\ Forall (fun o => closing_step o = true) (ops_of tr) /\ e_open s2 = e_open s /\
      (at_await (e_loop s2) = true \/ exists todo2, outs <> [] /\ e_loop s2 = PRun r now all [] todo2).
Proof.
  intros ms size todo. induction todo as [|[m [src e]] todo IH]; intros s r now all outs El.
  - destruct outs as [|x outs].
    + exists [(EStep, [])], (set_eloop s (PStop r all (seq 0 (List.length ms)))). split; [|split; [repeat constructor|split; [reflexivity|left; reflexivity]]].
      apply (eruns_snoc ms size s [] s); [constructor|]. cbn [eexec]. now rewrite El.
    + exists [(EStep, [])], (set_eloop s (PRun r now all [] (pairs (List.length ms) (x :: outs)))).
      split; [|split; [repeat constructor|split; [reflexivity|right; eexists; split; [discriminate|reflexivity]]]].
      apply (eruns_snoc ms size s [] s); [constructor|]. cbn [eexec]. now rewrite El.
  - destruct (match nth_error ms m with Some n => node_matches n (ev_type e) | None => false end) eqn:Em.
    + exists [(EStep, [Process m src e])], (set_eloop s (PCall r now all outs m todo)). split; [|split; [repeat constructor|split; [reflexivity|left; reflexivity]]].
      apply (eruns_snoc ms size s [] s); [constructor|]. cbn [eexec]. rewrite El. destruct outs; now rewrite Em.
    + destruct (IH (set_eloop s (PRun r now all outs todo)) r now all outs eq_refl) as (tr & s2 & R & F & O & G).
      exists ((EStep, []) :: tr), s2. split; [|split; [constructor; auto|auto]].
      apply (eruns_app ms size tr _ _ R [(EStep, [])]). apply (eruns_snoc ms size s [] s); [constructor|]. cbn [eexec]. rewrite El. destruct outs; now rewrite Em.
Qed.

Lemma to_await : forall ms size s, ended (e_loop s) = false -> e_loop s <> PInit ->
    exists tr s2, eruns ms size s tr s2 /\ Forall (fun o => closing_step o = true) (ops_of tr) /\ e_open s2 = e_open s /\ at_await (e_loop s2) = true.
Proof.
  intros ms size s He Hi. destruct (e_loop s) as [| |r now l|r now all outs todo| |r all l| | |] eqn:El; try discriminate; try congruence;
    try (exists [], s; repeat split; try constructor; now rewrite El).
  destruct (run_round ms size todo s _ _ _ _ El) as (tr & s2 & R & F & O & [G|(todo2 & N & G)]); [eauto 10|].
  destruct (run_round ms size todo2 s2 _ _ _ _ G) as (tr2 & s3 & R2 & F2 & O2 & [G2|(todo3 & N2 & _)]); [|congruence].
  exists (tr ++ tr2), s3. split; [eapply eruns_app; eauto|]. split; [unfold ops_of; rewrite map_app; apply Forall_app; auto|]. split; [congruence|auto].
Qed.

Lemma final_C34_closes : forall ms size last tr s, engine_run ms size last tr s -> In EBegin (ops_of tr) -> In EClose (ops_of tr) ->
    exists tr2 s2, engine_run ms size last (tr ++ tr2) s2 /\ Forall (fun o => closing_step o = true) (ops_of tr2) /\ In ELast (ops_of (tr ++ tr2)).
Proof.
  intros ms size last tr s H HB HC. set (now := Ts 0 0). destruct (book_run _ _ _ _ _ H) as [B1 B2 B3 B4 B5 B6 B7 B8 B9 B10]. destruct (B6 HB) as [NI Hd]. assert (Ho := B5 HC).
  assert (L : forall tr1 s1, engine_run ms size last tr1 s1 -> e_loop s1 = PLast -> exists s2, engine_run ms size last (tr1 ++ [(ELast, [])]) s2).
  { intros tr1 s1 H1 E1. eexists. eapply eruns_snoc; [exact H1|]. cbn [eexec]. now rewrite E1. }
  destruct (ended (e_loop s)) eqn:He.
  - destruct (B8 (Hd eq_refl)) as [El|HL].
    + destruct (L _ _ H El) as (s2 & R). exists [(ELast, [])], s2. split; [exact R|]. split; [repeat constructor|]. rewrite ops_snoc, in_app_iff. right. now left.
    + exists [], s. rewrite app_nil_r. repeat split; auto. constructor.
  - destruct (to_await ms size s He NI) as (tr1 & s1 & R1 & F1 & O1 & A1). assert (R := eruns_app _ _ _ _ _ R1 _ _ H).
    assert (X : exists s2 l, eexec ms size s1 (ECancel now) = Some (s2, l) /\ e_loop s2 = PLast).
    { assert (X : eexec ms size s1 (ECancel now) = Some (shut s1 now)) by (cbn [eexec]; rewrite O1, Ho; destruct (e_loop s1); try discriminate; reflexivity).
      destruct (shut s1 now) as [s2 l] eqn:Es. exists s2, l. split; [exact X|]. unfold shut in Es. cbv zeta in Es. destruct (create_event _ _ _). now injection Es as <- _. }
    destruct X as (s2 & l & X1 & X2). assert (R2 := eruns_snoc _ _ _ _ _ _ _ _ R X1). destruct (L _ _ R2 X2) as (s3 & R3).
    exists (tr1 ++ [(ECancel now, l); (ELast, [])]), s3.
    replace (tr ++ tr1 ++ [(ECancel now, l); (ELast, [])]) with (((tr ++ tr1) ++ [(ECancel now, l)]) ++ [(ELast, [])]) by (now rewrite <- !app_assoc).
    split; [exact R3|]. split.
    + unfold ops_of. rewrite map_app. apply Forall_app. split; [exact F1|repeat constructor].
    + rewrite ops_snoc, in_app_iff. right. now left.
Qed.

(** ** C35 *)

Lemma below_last : forall O cf tr s srv en, execution O cf tr s -> In en (w_all (watch_run cf tr)) -> eid_server (ev_id (en_ev en)) = srv ->
    eid_le (ev_id (en_ev en)) (get_last_event_id (m_sys (s_mem s)) srv).
Proof.
  intros O cf tr s srv en H Hi Hs. destruct (final_C14 _ _ _ _ H) as (HO & _ & HL). specialize (HL srv). destruct HL as [(H1 & x & H2 & E & E1 & E2 & E3)|[N _]].
  - rewrite <- E1. rewrite E in Hi. apply in_app_or in Hi as [Hi|[Hi|Hi]].
    + apply in_split in Hi as (a & b & ->). left. apply eid_ltb_spec. eapply (HO a en b x H2); [rewrite E, <- app_assoc; reflexivity|].
      rewrite E1, E2. exact Hs.
    + subst x. right. reflexivity.
    + exfalso. apply (E3 _ Hi Hs).
  - exfalso. apply (N _ Hi Hs).
Qed.

Lemma le_lt : forall a b c, eid_le a b -> eid_lt b c -> eid_lt a c.
Proof. intros a b c [H| ->] H2; [eapply eid_lt_trans; eauto|auto]. Qed.

Lemma final_C35_stored : forall O cf tr s srv ms size etr es, execution O cf tr s ->
    engine_run ms size (get_last_event_id (m_sys (s_mem s)) srv) etr es ->
    forall en e, In en (w_all (watch_run cf tr)) -> eid_server (ev_id (en_ev en)) = srv -> In e (concat (handed etr)) ->
    eid_lt (ev_id (en_ev en)) (ev_id e).
Proof.
  intros O cf tr s srv ms size etr es H HE en e Hi Hs He. eapply le_lt; [eapply below_last; eauto|].
  destruct (final_C31_increasing _ _ _ _ _ HE) as [S _]. inversion S as [|? ? _ F]; subst. rewrite Forall_forall in F. apply F. now apply in_map.
Qed.

Lemma sorted_last : forall A (R : A -> A -> Prop) l x y, StronglySorted R (l ++ [x]) -> In y (l ++ [x]) -> R y x \/ y = x.
Proof.
  intros A R l x y H Hy. apply in_app_or in Hy as [Hy|[Hy|[]]]; [left|right; auto]. induction l as [|z l IH]; [destruct Hy|].
  cbn [app] in H. inversion H as [|? ? Ha Hb]; subst. destruct Hy as [->|Hy]; [|auto]. rewrite Forall_forall in Hb. apply Hb. apply in_or_app. right. now left.
Qed.

Lemma final_C35_restart : forall O cf tr s ms1 size1 last1 etr1 es1 given e en ms2 size2 etr2 es2,
    engine_run ms1 size1 last1 etr1 es1 -> concat (handed etr1) = given ++ [e] ->
    execution O cf tr s -> In en (w_all (watch_run cf tr)) -> en_ev en = e ->
    engine_run ms2 size2 (get_last_event_id (m_sys (s_mem s)) (eid_server last1)) etr2 es2 ->
    forall a b, In a (concat (handed etr1)) -> In b (concat (handed etr2)) -> eid_lt (ev_id a) (ev_id b).
Proof.
  intros O cf tr s ms1 size1 last1 etr1 es1 given e en ms2 size2 etr2 es2 H1 Hg H Hi He H2 a b Ha Hb.
  destruct (final_C31_increasing _ _ _ _ _ H1) as [S F]. rewrite Hg in *. rewrite map_app in S. cbn [map] in S. inversion S as [|? ? S' _]; subst.
  assert (Hs : eid_server (ev_id (en_ev en)) = eid_server last1).
  { rewrite Forall_forall in F. apply F. apply in_or_app. right. now left. }
  assert (G := final_C35_stored _ _ _ _ _ _ _ _ _ H H2 en b Hi Hs Hb).
  destruct (sorted_last _ _ (map ev_id given) (ev_id (en_ev en)) (ev_id a) S') as [X|X].
  - apply (in_map ev_id) in Ha. now rewrite map_app in Ha.
  - eapply eid_lt_trans; eauto.
  - rewrite X. exact G.
Qed.

(** ** Creation that fails *)

Lemma init_failed_stuck : forall ms size s tr2 s2, eruns ms size s tr2 s2 -> forall last tr r, engine_run ms size last tr s ->
    e_loop s = PDone -> shut_in tr = false -> In r (e_queue s) ->
    e_loop s2 = PDone /\ shut_in (tr ++ tr2) = false /\ In r (e_queue s2) /\ ~ In (rq_fut r) (replied (tr ++ tr2)).
Proof.
  intros ms size s tr2 s2 H. induction H as [s|s tr1 s1 o l s2 H IH Hx]; intros last tr r HR El Es Hr.
  - rewrite app_nil_r. repeat split; auto. intros G. destruct (uid_run _ _ _ _ _ HR (rq_fut r)) as [U _]. unfold cnt in U.
    apply count_in in G. apply (in_map rq_fut) in Hr. apply count_in in Hr. lia.
  - destruct (IH last tr r HR El Es Hr) as (I1 & I2 & I3 & I4). assert (HR2 := eruns_app _ _ _ _ _ H _ _ HR).
    assert (Q := bk_open _ _ (book_run _ _ _ _ _ HR2) I2).
    assert (Ns : is_shut o = false).
    { destruct (is_shut o) eqn:E; auto. destruct (shut_step _ _ _ _ _ _ Hx E) as (now & _ & _ & X & _). rewrite I1 in X. discriminate. }
    assert (HR3 : engine_run ms size last (tr ++ tr1 ++ [(o, l)]) s2) by (rewrite app_assoc; eapply eruns_snoc; eauto).
    assert (G : e_loop s2 = PDone /\ In r (e_queue s2)).
    { destruct o; try discriminate; einvs Hx; cbn [set_eloop set_last e_loop e_queue]; try congruence; auto. split; [auto|]. apply in_or_app. now left. }
    destruct G as [G1 G2]. split; [exact G1|]. split; [rewrite app_assoc, shut_snoc, I2, Ns; reflexivity|]. split; [exact G2|].
    intros G. destruct (uid_run _ _ _ _ _ HR3 (rq_fut r)) as [U _]. unfold cnt in U.
    apply count_in in G. apply (in_map rq_fut) in G2. apply count_in in G2. lia.
Qed.

Lemma init_failed_never : forall ms size last tr s r, engine_run ms size last tr s -> e_loop s = PDone -> shut_in tr = false -> In r (e_queue s) ->
    forall tr2 s2, engine_run ms size last (tr ++ tr2) s2 -> ~ In (rq_fut r) (replied (tr ++ tr2)).
Proof.
  intros ms size last tr s r H El Es Hr tr2 s2 H2.
  assert (D : forall b a s0 s3, eruns ms size s0 (a ++ b) s3 -> exists s4, eruns ms size s0 a s4 /\ eruns ms size s4 b s3).
  { induction b as [|i b IH] using rev_ind; intros a s0 s3 R.
    - rewrite app_nil_r in R. exists s3. split; [auto|constructor].
    - rewrite app_assoc in R. apply eruns_inv in R as (s4 & o & l & -> & R & Hx). destruct (IH _ _ _ R) as (s5 & R1 & R2). exists s5. split; [auto|]. econstructor; eauto. }
  assert (U : forall a s0 s3 s4, eruns ms size s0 a s3 -> eruns ms size s0 a s4 -> s3 = s4).
  { induction a as [|i a IH] using rev_ind; intros s0 s3 s4 R1 R2.
    - apply eruns_nil_inv in R1, R2. congruence.
    - apply eruns_inv in R1 as (s5 & o & l & -> & R1 & X1). apply eruns_inv in R2 as (s6 & o2 & l2 & E & R2 & X2). injection E as <- <-.
      rewrite (IH _ _ _ R1 R2) in X1. congruence. }
  destruct (D _ _ _ _ H2) as (s4 & R1 & R2). rewrite (U _ _ _ _ R1 H) in R2.
  exact (proj2 (proj2 (proj2 (init_failed_stuck _ _ _ _ _ R2 last tr r H El Es Hr)))).
Qed.
