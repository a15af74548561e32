(** Engine: what follows from the invariants (C31 - C34). *)
From Coq Require Import String Bool ZArith Arith Lia Sorted List.
From Verif Require Import Base Model_Types Model_Subscription Spec_Order Model_Engine Spec_Engine Proof_Engine Proof_Engine2.
Import ListNotations.
Open Scope list_scope.
Open Scope nat_scope.

(** ** Which steps show what *)

Lemma in_replies : forall s l n a, In (Reply n a) (flat_map (fun r => reply_to s Failed (rq_fut r)) l) -> a = Failed.
Proof.
  intros s l n a H. apply in_flat_map in H as (r & _ & H). unfold reply_to in H. destruct (memb _ _); [destruct H|].
  destruct H as [H|[]]. now injection H as _ <-.
Qed.

Lemma hand_step : forall ms size s o s2 l es, eexec ms size s o = Some (s2, l) -> In (Hand es) l ->
    (is_shut o = true /\ handed_in l = [es]) \/ (o = EStep /\ l = [Hand es] /\ exists r, e_loop s = PStop r es []).
Proof.
  intros ms size s o s2 l es Hx Hi. destruct (is_shut o) eqn:Es.
  - left. split; [reflexivity|]. destruct (shut_step _ _ _ _ _ _ Hx Es) as (now & _ & Hs & _). destruct (handed_in_shut _ _ _ _ Hs) as (e & H1 & _).
    assert (G : In es (handed_in l)) by (unfold handed_in; apply in_flat_map; exists (Hand es); split; [auto|left; auto]).
    rewrite H1 in *. destruct G as [->|[]]. reflexivity.
  - right. destruct o; try discriminate; einvs Hx; cbn [In] in Hi; try (unfold reply_to in Hi; destruct (memb _ _)); cbn [In] in Hi;
      repeat match goal with H : _ \/ _ |- _ => destruct H as [H|H] end; try discriminate; try tauto.
    injection Hi as <-. repeat split; eauto.
Qed.

Lemma final_C31_session : forall ms size last A o l es s, engine_run ms size last (A ++ [(o, l)]) s -> In (Hand es) l ->
    es <> [] /\ exists now ss, map ev_id es = ids_from (eid_server last) ss 1 (List.length es) /\ Forall (fun e => ev_ts e = now) es /\
    ((o = EStep /\ ss = (eid_session last + Z.of_nat (List.length (begun A)))%Z /\ last_get (ops_of A) = Some now) \/
     ((o = ERaise now \/ o = ECancel now) /\ ss = (eid_session last + Z.of_nat (List.length (begun A)) + 1)%Z)).
Proof.
  intros ms size last A o l es s H Hi. apply eruns_inv in H as (s1 & o1 & l1 & E & H & Hx). injection E as <- <-.
  assert (SI := sess_run _ _ _ _ _ H). destruct (sess_ids _ _ _ _ SI) as [ID1 ID2].
  destruct (hand_step _ _ _ _ _ _ _ Hx Hi) as [[Hs Hh]|(-> & -> & r & El)].
  - destruct (shut_step _ _ _ _ _ _ Hx Hs) as (now & Ho & Hsh & He & _). destruct (handed_in_shut _ _ _ _ Hsh) as (e & H1 & _ & H3 & H4 & _).
    rewrite Hh in H1. injection H1 as ->. split; [discriminate|]. exists now, (eid_session last + Z.of_nat (List.length (begun A)) + 1)%Z.
    specialize (ID2 He). assert (N := not_shut _ _ _ _ _ H He). unfold cur_session in ID2. rewrite N, Z.add_0_r in ID2. split; [|split; [|right; auto]].
    + cbn. rewrite H3, ID1, ID2. reflexivity.
    + constructor; [exact H4|constructor].
  - assert (N : shut_in A = false) by (apply (not_shut _ _ _ _ _ H); now rewrite El).
    assert (R := req_run _ _ _ _ _ H r). unfold reqs in R. rewrite El in R. destruct R as [_ R]; [left; rewrite !in_app_iff; cbn; auto|].
    unfold sess_inv in SI. rewrite El in SI. destruct SI as (now & I1 & [M1 M2 M3] & T & procs & l0 & A1 & A2 & _).
    split.
    { intros ->. apply map_eq_nil in A1. subst T. destruct (rq_events r); [now apply R|discriminate]. }
    exists now, (cur_session last A). split; [exact M1|]. split; [exact M2|]. left. repeat split; auto. unfold cur_session. rewrite N. lia.
Qed.

(** ** C33 *)

Lemma no_get_shut : forall A now l B, no_get B -> begun (A ++ (EGet now, l) :: B) = begun (A ++ [(EGet now, l)]) ++ begun B.
Proof.
  intros. change (A ++ (EGet now, l) :: B) with (A ++ [(EGet now, l)] ++ B). rewrite app_assoc. unfold begun, begun_in, outs_of.
  now rewrite flat_map_app, flat_map_app.
Qed.

Lemma no_get_begun : forall ms size B s A s2, eruns ms size s (A ++ B) s2 -> no_get B -> begun B = [].
Proof.
  intros ms size B. induction B as [|i B IH] using rev_ind; intros s A s2 H N; [reflexivity|].
  rewrite app_assoc in H. apply eruns_inv in H as (s1 & o & l & -> & H & Hx). unfold no_get, ops_of in N. rewrite map_app in N. apply Forall_app in N as [N1 N2].
  rewrite begun_snoc, (IH _ _ _ H N1). inversion N2 as [|? ? N3 _]; subst. cbn [fst] in N3. cbn [app].
  destruct (is_shut o) eqn:Es.
  - destruct (shut_step _ _ _ _ _ _ Hx Es) as (now & _ & Hs & _). destruct (handed_in_shut _ _ _ _ Hs) as (e & _ & E & _). exact E.
  - destruct o; try discriminate; einvs Hx; rewrite ?begun_reply; reflexivity.
Qed.

Lemma final_C33_session : forall ms size last A now l B es s,
    engine_run ms size last (A ++ (EGet now, l) :: B ++ [(EStep, [Hand es])]) s -> no_get B ->
    let ss := (eid_session last + Z.of_nat (List.length (begun A)) + 1)%Z in
    exists r T procs, l = [Begin r] /\ map snd T = es /\
      map (fun x => (fst x, reg_of (snd x))) T = map (fun y => (rq_src r, y)) (rq_events r) ++ produced B /\
      (forall m, calls m B = filter (wants ms m) T) /\
      work B = map (fun m => Started m ss) (seq 0 (List.length ms)) ++ procs ++ map (fun m => Stopped m ss) (seq 0 (List.length ms)) /\
      Forall (fun x => is_process x = true) procs.
Proof.
  intros ms size last A now l B es s H N ss. change (A ++ (EGet now, l) :: B ++ [(EStep, [Hand es])]) with (A ++ ((EGet now, l) :: B) ++ [(EStep, [Hand es])]) in H.
  rewrite app_assoc in H. apply eruns_inv in H as (s1 & o1 & l1 & E & H & Hx). injection E as <- <-.
  destruct (hand_step _ _ _ _ _ _ es Hx) as [[Hs _]|(_ & _ & r & El)]; [left; reflexivity|discriminate|].
  assert (NS : shut_in (A ++ (EGet now, l) :: B) = false) by (apply (not_shut _ _ _ _ _ H); now rewrite El).
  assert (SI := sess_run _ _ _ _ _ H). assert (BI := batch_run _ _ _ _ _ H). unfold sess_inv in SI. unfold batch_inv in BI. rewrite NS, El in BI. rewrite El in SI.
  rewrite (seg_of A now l B N) in SI. destruct SI as (now1 & _ & _ & T & procs & l0 & A1 & A2 & A3 & A4 & A5 & A6). rewrite app_nil_r in A6.
  destruct BI as (bs & B1 & _). cbn [busy] in B1. rewrite no_get_shut in B1 by auto.
  assert (HB : begun B = []). { change ((EGet now, l) :: B) with ([(EGet now, l)] ++ B) in H. rewrite app_assoc in H. eapply no_get_begun; eauto. }
  rewrite HB, app_nil_r in B1.
  assert (HA : exists r0, l = [Begin r0]).
  { change ((EGet now, l) :: B) with ([(EGet now, l)] ++ B) in H. rewrite app_assoc in H. apply eruns_split in H as (s3 & H). apply eruns_inv in H as (s4 & o4 & l4 & E4 & _ & Hx4).
    injection E4 as <- <-. einvs Hx4. eauto. }
  destruct HA as (r0 & ->). rewrite begun_snoc in B1. cbn [begun_in flat_map app] in B1. apply app_inj_tail in B1 as [_ <-].
  exists r0, T, procs. repeat split; auto. rewrite A4, <- A6. unfold ss, cur_session. rewrite NS, no_get_shut, HB, app_nil_r, begun_snoc, app_length by auto.
  cbn [begun_in flat_map app List.length].
  replace (eid_session last + Z.of_nat (List.length (begun A) + 1) + 0)%Z with (eid_session last + Z.of_nat (List.length (begun A)) + 1)%Z by lia. reflexivity.
Qed.

(** ** Sessions do not overlap *)

Definition got (tr : list eitem) : bool := existsb is_get (ops_of tr).
Definition handed_over (B : list eitem) (es : list event) : Prop :=
  exists B1 B2, B = B1 ++ (EStep, [Hand es]) :: B2 /\ handed B1 = [] /\ work B2 = [].

Definition serial_inv (tr : list eitem) (s : estate) : Prop :=
  match e_loop s with
  | PInit => got tr = false
  | PWait => got tr = true -> exists es B1 B2 ok, seg tr = B1 ++ (EStep, [Hand es]) :: B2 /\ handed B1 = [] /\ work B2 = [] /\ In (ERegistered ok) (ops_of B2)
  | PStart _ _ _ | PRun _ _ _ _ _ | PCall _ _ _ _ _ _ | PStop _ _ _ => got tr = true /\ handed (seg tr) = []
  | PReg r all => exists B1 B2, seg tr = B1 ++ (EStep, [Hand all]) :: B2 /\ handed B1 = [] /\ work B2 = []
  | PLast | PDone => True
  end.

Lemma got_snoc : forall tr o l, got (tr ++ [(o, l)]) = (got tr || is_get o)%bool.
Proof. intros. unfold got. rewrite ops_snoc, existsb_app. cbn. now rewrite orb_false_r. Qed.

Lemma serial_quiet : forall tr s o l s2, serial_inv tr s -> is_get o = false -> filter is_work l = [] -> handed_in l = [] ->
    e_loop s2 = e_loop s -> serial_inv (tr ++ [(o, l)]) s2.
Proof.
  intros tr s o l s2 I Q1 Q2 Q3 El. unfold serial_inv in *. rewrite El. rewrite got_snoc, seg_snoc, Q1, orb_false_r. cbn [fst]. rewrite Q1.
  destruct (e_loop s); auto; rewrite ?handed_snoc, ?Q3, ?app_nil_r; auto.
  - intros G. destruct (I G) as (es & B1 & B2 & ok & C1 & C2 & C3 & C4). exists es, B1, (B2 ++ [(o, l)]), ok. rewrite C1, <- app_assoc.
    repeat split; auto; [rewrite work_snoc, C3, Q2; reflexivity|]. rewrite ops_snoc, in_app_iff. now left.
  - destruct I as (B1 & B2 & C1 & C2 & C3). exists B1, (B2 ++ [(o, l)]). rewrite C1, <- app_assoc. repeat split; auto. rewrite work_snoc, C3, Q2. reflexivity.
Qed.

Lemma serial_run : forall ms size last tr s, engine_run ms size last tr s -> serial_inv tr s.
Proof.
  intros ms size last. apply run_ind; [reflexivity|]. intros tr s o l s2 H I Hx. destruct (is_shut o) eqn:Es.
  { destruct (shut_step _ _ _ _ _ _ Hx Es) as (now & _ & _ & _ & _ & E2). unfold serial_inv. now rewrite E2. }
  destruct o; try discriminate.
  - einvs Hx. unfold serial_inv in *. rewrite Heqe in I. cbn [set_eloop e_loop]. rewrite got_snoc, I. discriminate.
  - einvs Hx. exact Logic.I.
  - einvs Hx; (apply serial_quiet with (s := s); auto).
  - einvs Hx; (apply serial_quiet with (s := s); auto).
  - einvs Hx; (apply serial_quiet with (s := s); auto).
  - einvs Hx; (apply serial_quiet with (s := s); auto).
  - einvs Hx. unfold serial_inv. cbn [e_loop]. rewrite got_snoc, seg_snoc. cbn [is_get fst]. rewrite orb_true_r. split; reflexivity.
  - cbn [eexec] in Hx. unfold serial_inv in *.
    destruct (e_loop s) as [| |r now [|m0 l0]|r now all outs todo| |r all [|m0 l0]| | |] eqn:El; try discriminate.
    + destruct (create_events _ _ _) as [i es]. injection Hx as <- <-. cbn [set_last e_loop]. rewrite got_snoc, seg_snoc. cbn [is_get fst]. rewrite orb_false_r, handed_snoc.
      destruct I as [I1 I2]. rewrite I2. auto.
    + injection Hx as <- <-. cbn [set_eloop e_loop]. rewrite got_snoc, seg_snoc. cbn [is_get fst]. rewrite orb_false_r, handed_snoc.
      destruct I as [I1 I2]. rewrite I2. auto.
    + destruct outs as [|x outs], todo as [|[m0 [src e]] todo];
        try (destruct (match nth_error ms m0 with Some n => node_matches n (ev_type e) | None => false end));
        injection Hx as <- <-; cbn [set_eloop e_loop]; rewrite got_snoc, seg_snoc; cbn [is_get fst]; rewrite orb_false_r, handed_snoc;
        destruct I as [I1 I2]; rewrite I2; auto.
    + injection Hx as <- <-. cbn [set_eloop e_loop]. rewrite seg_snoc. cbn [is_get fst]. destruct I as [I1 I2]. exists (seg tr), []. auto.
    + injection Hx as <- <-. cbn [set_eloop e_loop]. rewrite got_snoc, seg_snoc. cbn [is_get fst]. rewrite orb_false_r, handed_snoc.
      destruct I as [I1 I2]. rewrite I2. auto.
  - cbn [eexec] in Hx. unfold serial_inv in *. destruct (e_loop s) eqn:El; try discriminate.
    destruct (create_events _ _ _) as [i es]. injection Hx as <- <-. cbn [set_last e_loop]. rewrite got_snoc, seg_snoc. cbn [is_get fst]. rewrite orb_false_r, handed_snoc.
    destruct I as [I1 I2]. rewrite I2. auto.
  - assert (Hl : filter is_work l = [] /\ e_loop s2 = PWait /\ exists r all, e_loop s = PReg r all)
      by (einvs Hx; cbn; repeat split; eauto; unfold reply_to; destruct (memb _ _); reflexivity).
    destruct Hl as (L1 & L2 & r & all & El). unfold serial_inv in *. rewrite El in I. rewrite L2, seg_snoc. cbn [is_get fst]. intros _.
    destruct I as (B1 & B2 & C1 & C2 & C3). exists all, B1, (B2 ++ [(ERegistered some, l)]), some. rewrite C1, <- app_assoc. repeat split; auto.
    + rewrite work_snoc, C3, L1. reflexivity.
    + rewrite ops_snoc, in_app_iff. right. now left.
  - einvs Hx. exact Logic.I.
Qed.

Lemma final_C33_serial : forall ms size last A n1 l1 B n2 l2 s,
    engine_run ms size last (A ++ (EGet n1, l1) :: B ++ [(EGet n2, l2)]) s -> no_get B ->
    exists B1 es B2 ok, B = B1 ++ (EStep, [Hand es]) :: B2 /\ handed B1 = [] /\ work B2 = [] /\ In (ERegistered ok) (ops_of B2).
Proof.
  intros ms size last A n1 l1 B n2 l2 s H N. change (A ++ (EGet n1, l1) :: B ++ [(EGet n2, l2)]) with (A ++ ((EGet n1, l1) :: B) ++ [(EGet n2, l2)]) in H.
  rewrite app_assoc in H. apply eruns_inv in H as (s1 & o & l & E & H & Hx). injection E as <- <-. einvs Hx.
  assert (I := serial_run _ _ _ _ _ H). unfold serial_inv in I. rewrite Heqe, (seg_of _ _ _ _ N) in I. destruct I as (es & B1 & B2 & ok & C).
  - unfold got, ops_of. rewrite map_app, existsb_app. cbn. apply orb_true_r.
  - exists B1, es, B2, ok. exact C.
Qed.

(** ** Answers *)

Definition count (n : nat) (l : list nat) : nat := count_occ Nat.eq_dec l n.
Lemma count_app : forall n a b, count n (a ++ b) = count n a + count n b.
Proof. intros. apply count_occ_app. Qed.
Lemma count_in : forall n l, 0 < count n l <-> In n l.
Proof. intros. symmetry. apply count_occ_In. Qed.
Lemma count_one : forall n k, count n [k] = if Nat.eq_dec k n then 1 else 0.
Proof. intros. unfold count. cbn. destruct (Nat.eq_dec k n); reflexivity. Qed.
Lemma memb_in : forall n l, memb n l = true <-> In n l.
Proof.
  intros. unfold memb. rewrite existsb_exists. split; [intros (x & H & E); apply Nat.eqb_eq in E; now subst|].
  intros H. exists n. split; [auto|apply Nat.eqb_refl].
Qed.

Lemma replied_replies : forall s l n, count n (replied_in (flat_map (fun r => reply_to s Failed (rq_fut r)) l)) <= count n (map rq_fut l).
Proof.
  intros s l n. unfold replied_in. induction l as [|r l IH]; cbn [flat_map map]; auto. rewrite flat_map_app, count_app.
  change (rq_fut r :: map rq_fut l) with ([rq_fut r] ++ map rq_fut l). rewrite count_app.
  assert (G : count n (flat_map (fun x => match x with Reply k _ => [k] | _ => [] end) (reply_to s Failed (rq_fut r))) <= count n [rq_fut r]).
  { unfold reply_to. destruct (memb _ _); cbn [flat_map app]; [cbn; lia|auto]. }
  lia.
Qed.

Lemma count_del : forall n k l, count n (map rq_fut (del_put k l)) = if Nat.eq_dec k n then 0 else count n (map rq_fut l).
Proof.
  intros n k l. unfold del_put. induction l as [|r l IH]; cbn [filter map].
  - unfold count. cbn. destruct (Nat.eq_dec k n); reflexivity.
  - destruct (Nat.eqb_spec k (rq_fut r)) as [->|N]; cbn [negb map].
    + rewrite IH. change (rq_fut r :: map rq_fut l) with ([rq_fut r] ++ map rq_fut l). rewrite count_app, count_one.
      destruct (Nat.eq_dec (rq_fut r) n); auto.
    + change (rq_fut r :: map rq_fut (filter (fun r0 => negb (Nat.eqb k (rq_fut r0))) l)) with ([rq_fut r] ++ map rq_fut (filter (fun r0 => negb (Nat.eqb k (rq_fut r0))) l)).
      change (rq_fut r :: map rq_fut l) with ([rq_fut r] ++ map rq_fut l). rewrite !count_app, IH, count_one.
      destruct (Nat.eq_dec k n), (Nat.eq_dec (rq_fut r) n); subst; try congruence; lia.
Qed.

Definition cnt (n : nat) (tr : list eitem) (s : estate) : nat :=
  count n (replied tr) + (count n (map rq_fut (e_put s)) + (count n (map rq_fut (e_queue s)) + count n (map rq_fut (busy (e_loop s))))).

Definition uid_inv (tr : list eitem) (s : estate) : Prop :=
  forall n, cnt n tr s <= 1 /\ (0 < cnt n tr s -> In n (e_used s)).

Lemma uid_le : forall tr s tr2 s2, uid_inv tr s -> (forall n, cnt n tr2 s2 <= cnt n tr s) -> e_used s2 = e_used s -> uid_inv tr2 s2.
Proof. intros tr s tr2 s2 I H E n. destruct (I n) as [A B]. specialize (H n). rewrite E. split; [lia|]. intros G. apply B. lia. Qed.

Lemma replied_hand : forall l es, replied_in (l ++ [Hand es]) = replied_in l.
Proof. intros. unfold replied_in. rewrite flat_map_app. cbn [flat_map]. now rewrite app_nil_r. Qed.
Lemma reply_count : forall n s a k, count n (replied_in (reply_to s a k)) <= count n [k].
Proof. intros. unfold reply_to. destruct (memb _ _); cbn; lia. Qed.

Lemma uid_same : forall tr s o l s2, uid_inv tr s ->
    e_put s2 = e_put s /\ e_queue s2 = e_queue s /\ busy (e_loop s2) = busy (e_loop s) /\ e_used s2 = e_used s /\ replied_in l = [] ->
    uid_inv (tr ++ [(o, l)]) s2.
Proof.
  intros tr s o l s2 I (G1 & G2 & G3 & G4 & G5). apply uid_le with (tr := tr) (s := s); auto. intros k.
  unfold cnt. rewrite replied_snoc, G1, G2, G3, G5, app_nil_r. lia.
Qed.

Lemma uid_run : forall ms size last tr s, engine_run ms size last tr s -> uid_inv tr s.
Proof.
  intros ms size last. apply run_ind.
  - intros n. unfold cnt. cbn [estart replied e_put e_queue e_used e_loop busy map rq_fut]. rewrite count_one. cbn. destruct n; cbn; split; try lia; auto; try lia.
  - intros tr s o l s2 H I Hx. destruct (is_shut o) eqn:Es.
    { destruct (shut_step _ _ _ _ _ _ Hx Es) as (now & _ & Hs & _). unfold shut in Hs. cbv zeta in Hs. destruct (create_event _ _ _). injection Hs as <- <-.
      apply uid_le with (s := s) (tr := tr); auto. intros n. unfold cnt. cbn [e_put e_queue e_loop busy map]. rewrite replied_snoc.
      rewrite replied_hand, count_app.
      assert (G := replied_replies s (busy (e_loop s) ++ e_queue s) n). rewrite map_app, count_app in G. unfold count in *. cbn [count_occ]. lia. }
    destruct o; try discriminate.
    + apply uid_same with (s := s); auto. einvs Hx; repeat split; auto; cbn [set_eloop set_last e_loop]; rewrite ?Heqe; auto.
    + apply uid_same with (s := s); auto. einvs Hx; repeat split; auto; cbn [set_eloop set_last e_loop]; rewrite ?Heqe; auto.
    + cbn [eexec] in Hx. destruct (memb (rq_fut r) (e_used s)) eqn:Em; [discriminate|]. assert (Nu : ~ In (rq_fut r) (e_used s)) by (rewrite <- memb_in, Em; discriminate).
      assert (G : uid_inv (tr ++ [(ERegister r, l)]) s2 <-> forall n, count n [rq_fut r] + cnt n tr s <= 1 /\ (0 < count n [rq_fut r] + cnt n tr s -> In n (e_used s ++ [rq_fut r]))).
      { unfold uid_inv. assert (X : forall n, cnt n (tr ++ [(ERegister r, l)]) s2 = count n [rq_fut r] + cnt n tr s /\ e_used s2 = e_used s ++ [rq_fut r]).
        { intros n. unfold cnt. rewrite replied_snoc, count_app. destruct (rq_events r); injection Hx as <- <-; cbn [e_used e_put e_queue e_loop replied_in flat_map app].
          - split; [lia|auto].
          - rewrite map_app, count_app. cbn [map]. split; [unfold count at 2; cbn [count_occ]; lia|auto]. }
        split; intros HH n; destruct (X n) as [X1 X2]; specialize (HH n); [rewrite <- X1, <- X2|rewrite X1, X2]; auto. }
      apply G. intros n. destruct (I n) as [A B]. rewrite count_one, in_app_iff. destruct (Nat.eq_dec (rq_fut r) n) as [E|E].
      * subst n. destruct (Nat.eq_dec (cnt (rq_fut r) tr s) 0) as [Z|Z]; [|exfalso; apply Nu, B; lia]. split; [lia|]. intros _. right. now left.
      * cbn [Nat.add]. split; auto.
    + cbn [eexec] in Hx. destruct (find_put n (e_put s)) as [r|] eqn:Ef; [|discriminate]. apply find_put_in in Ef as [F1 F2].
      assert (C : forall k, count k (map rq_fut (del_put n (e_put s))) + count k [n] <= count k (map rq_fut (e_put s))).
      { intros k. rewrite count_del, count_one. destruct (Nat.eq_dec n k) as [->|]; [|lia]. apply (proj2 (count_in k (map rq_fut (e_put s)))).
        rewrite <- F2. now apply in_map. }
      destruct (e_qopen s).
      * destruct (Nat.ltb _ _); [|discriminate]. injection Hx as <- <-. apply uid_le with (tr := tr) (s := s); auto. intros k. specialize (C k). unfold cnt.
        rewrite replied_snoc. cbn [replied_in flat_map e_put e_queue e_loop]. rewrite app_nil_r, map_app, count_app. cbn [map]. rewrite F2. lia.
      * injection Hx as <- <-. apply uid_le with (tr := tr) (s := s); auto. intros k. specialize (C k). unfold cnt.
        rewrite replied_snoc. cbn [replied_in flat_map e_put e_queue e_loop app]. rewrite count_app. lia.
    + einvs Hx. apply uid_le with (tr := tr) (s := s); auto. intros k. unfold cnt. rewrite replied_snoc. cbn [replied_in flat_map e_put e_queue e_loop]. rewrite app_nil_r, count_del.
      destruct (Nat.eq_dec n k); lia.
    + apply uid_same with (s := s); auto. einvs Hx; repeat split; auto; cbn [set_eloop set_last e_loop]; rewrite ?Heqe; auto.
    + cbn [eexec] in Hx. destruct (e_loop s) eqn:El; try discriminate. destruct (e_queue s) as [|r q] eqn:Eq; [discriminate|]. injection Hx as <- <-.
      apply uid_le with (tr := tr) (s := s); auto. intros k. unfold cnt. rewrite replied_snoc, El, Eq. cbn [replied_in flat_map e_put e_queue e_loop busy map]. rewrite app_nil_r.
      change (rq_fut r :: map rq_fut q) with ([rq_fut r] ++ map rq_fut q). rewrite count_app. assert (Z : count k [] = 0) by reflexivity. lia.
    + apply uid_same with (s := s); auto. einvs Hx; repeat split; auto; cbn [set_eloop set_last e_loop]; rewrite ?Heqe; auto.
    + apply uid_same with (s := s); auto. einvs Hx; repeat split; auto; cbn [set_eloop set_last e_loop]; rewrite ?Heqe; auto.
    + cbn [eexec] in Hx. destruct (e_loop s) as [| | | | | |r all| |] eqn:El; try discriminate. injection Hx as <- <-. apply uid_le with (tr := tr) (s := s); auto.
      intros k. unfold cnt. rewrite replied_snoc, count_app. cbn [set_eloop e_put e_queue e_loop busy map]. rewrite El. cbn [busy map].
      assert (G := reply_count k s (if some then Events (firstn (List.length (rq_events r)) all) else NoEvents) (rq_fut r)).
      assert (Z : count k [] = 0) by reflexivity. lia.
    + apply uid_same with (s := s); auto. einvs Hx; repeat split; auto; cbn [set_eloop set_last e_loop]; rewrite ?Heqe; auto.
Qed.

Lemma final_C32_once : forall ms size last tr s, engine_run ms size last tr s -> NoDup (replied tr).
Proof.
  intros ms size last tr s H. apply (NoDup_count_occ Nat.eq_dec). intros n. destruct (uid_run _ _ _ _ _ H n) as [A _]. unfold cnt, count in A. lia.
Qed.
