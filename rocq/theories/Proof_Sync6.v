(** Synchronization: final lemmas (C41, C42, C54). *)
From Coq Require Import String Bool ZArith Arith Lia Sorted List.
From Verif Require Import Base Model_Types Proof_Order Proof_Lmdb3 Model_Sync Spec_Sync Proof_Sync Proof_Sync2 Proof_Sync3 Proof_Sync4 Proof_Sync5.
Import ListNotations.
Open Scope string_scope.
Open Scope list_scope.
Open Scope nat_scope.

Lemma yopen : forall sv last0 (P : list yitem -> Prop),
    (forall tr s, sync_run sv last0 tr s -> y_phase s <> PEnd -> P tr) -> (forall tr tr', tr' = tr ++ [(YClose, [])] -> P tr -> P tr') ->
    forall tr s, sync_run sv last0 tr s -> P tr.
Proof.
  intros sv last0 P H1 H2 tr s H.
  assert (E : y_phase s = PEnd \/ y_phase s <> PEnd) by (destruct (y_phase s); auto; right; discriminate).
  destruct E as [E|E]; [|eauto]. destruct (yend _ _ _ _ H E) as (tr' & s' & E1 & H' & E'). eauto.
Qed.

Lemma yprefix : forall sv last0 a b s, sync_run sv last0 (a ++ b) s -> exists s', sync_run sv last0 a s'.
Proof.
  intros sv last0 a b. induction b as [|x b IH] using rev_ind; intros s H; [rewrite app_nil_r in H; eauto|]. rewrite app_assoc in H.
  unfold sync_run in *. inversion H as [x0 Ex Ey|x0 tr s1 o l s2 H' H2 Ex Ey]; [now destruct (app_cons_not_nil (a ++ b) [] x)|]. apply app_inj_tail in Ey as [-> _]. eauto.
Qed.
Lemma yprefix_step : forall sv last0 a o l b s, sync_run sv last0 (a ++ (o, l) :: b) s -> exists s1 s2, sync_run sv last0 a s1 /\ yexec sv last0 s1 o = Some (s2, l) /\ sync_run sv last0 (a ++ [(o, l)]) s2.
Proof.
  intros sv last0 a o l b s H. change ((o, l) :: b) with ([(o, l)] ++ b) in H. rewrite app_assoc in H. apply yprefix in H as [s' H].
  pose proof H as H1. unfold sync_run in H1. inversion H1 as [x0 Ex Ey|x0 tr s1 o' l' s2 H' H2 Ex Ey]; [now destruct (app_cons_not_nil a [] (o, l))|]. apply app_inj_tail in Ey as [-> E]. injection E as -> ->.
  exists s1, s'. auto.
Qed.

Lemma yparts : forall sv last0 tr s, sync_run sv last0 tr s -> y_phase s <> PEnd ->
    exists D q, recvd tr = D ++ q ++ gives FromNotify tr /\ concat (gives FromQueue tr) = filter (newer (last_id last0 (pcat tr))) (concat D) /\
      (y_phase s = PDone -> q = []).
Proof.
  intros sv last0 tr s H Hp. pose proof (n_queue _ _ _ (ynote_run _ _ _ _ H)) as N. pose proof (g_last _ _ _ (ypage_run _ _ _ _ H)) as G.
  destruct (y_phase s) eqn:P; try (now destruct Hp); try (destruct N as (_ & N1 & N2); exists [], (recvd tr); rewrite N1, N2, app_nil_r; repeat split; auto; discriminate).
  - destruct N as (N1 & D & q & N2 & N3 & N4). exists D, q. rewrite N1, app_nil_r, <- G. repeat split; auto. discriminate.
  - destruct N as (N1 & D & N2 & N3). exists D, []. rewrite <- G. auto.
Qed.

(** All batches in the order of their commits. *)
Lemma ybatches : forall sv last0 tr s, sync_run sv last0 tr s -> y_phase s <> PEnd ->
    exists D q r, map batch (commits tr) = unsent tr ++ D ++ q ++ gives FromNotify tr ++ r /\ recvd tr = D ++ q ++ gives FromNotify tr /\
      concat (gives FromQueue tr) = filter (newer (last_id last0 (pcat tr))) (concat D) /\ (y_phase s = PDone -> q = []).
Proof.
  intros sv last0 tr s H Hp. destruct (yparts _ _ _ _ H Hp) as (D & q & E1 & E2 & E3). pose proof (ynote_run _ _ _ _ H) as N.
  exists D, q, (notes_of (r_chan s) ++ r_lag s). repeat split; auto. rewrite (n_all _ _ _ N), (n_sent _ _ _ N), E1, <- !app_assoc. reflexivity.
Qed.
Lemma yinc : forall sv last0 tr s, sync_run sv last0 tr s -> increasing (concat (map batch (commits tr))).
Proof. intros sv last0 tr s H. exact (n_inc _ _ _ (ynote_run _ _ _ _ H)). Qed.

Lemma finished_done : forall sv last0 tr s, sync_run sv last0 tr s -> y_phase s <> PEnd -> (finished tr <-> y_phase s = PDone).
Proof.
  intros sv last0 tr s H Hp. pose proof (dcount_run _ _ _ _ H) as [C _]. unfold finished. split.
  - intros [n Hn]. destruct (y_phase s); auto; exfalso; try (now destruct Hp); rewrite C in Hn; cbn in Hn;
      repeat (destruct Hn as [Hn|Hn]; [discriminate|]); auto; destruct (Nat.eqb _ _); cbn in Hn; repeat (destruct Hn as [Hn|Hn]; [discriminate|]); auto.
  - intros E. rewrite E in C. rewrite C. eexists. right. apply in_or_app. right. now left.
Qed.
Lemma done_fin : forall sv last0 tr s, sync_run sv last0 tr s -> y_phase s = PDone -> exists n, fin tr = Some n.
Proof.
  intros sv last0 tr s H E. pose proof (yflow_run _ _ _ _ H) as F. unfold yflow in F. rewrite E in F. destruct F as (_ & _ & [[F1 F2]|[_ F]] & F3 & _); [congruence|].
  destruct (fin tr); [eauto|now destruct F].
Qed.
Lemma done_pages : forall sv last0 tr s, sync_run sv last0 tr s -> y_phase s = PDone -> pcat tr = concat (gives FromQuery tr).
Proof.
  intros sv last0 tr s H E. pose proof (yflow_run _ _ _ _ H) as F. unfold yflow in F. rewrite E in F. destruct F as (_ & W & _ & _ & Ev).
  rewrite (g_split _ _ _ (ypage_run _ _ _ _ H)) by congruence. unfold coming. rewrite E, W, Ev. cbn. now rewrite app_nil_r.
Qed.

(** ** C42 *)
Lemma final_C42_one : forall sv last0 tr s, sync_run sv last0 tr s -> Forall (fun es => es <> [] /\ one_session es) (gives FromQuery tr).
Proof.
  intros sv last0 tr s H. pose proof (ysess_run _ _ _ _ H) as S. pose proof (e_one _ _ S) as S1. pose proof (e_some _ _ S) as S2. rewrite Forall_forall in *. auto.
Qed.
Lemma final_C42_apart : forall sv last0 tr s, sync_run sv last0 tr s -> apart (gives FromQuery tr).
Proof. intros sv last0 tr s H. exact (e_apart _ _ (ysess_run _ _ _ _ H)). Qed.
Lemma final_C42_pages : forall sv last0 tr s, sync_run sv last0 tr s -> exists r, concat (map qr_events (pages tr)) = concat (gives FromQuery tr) ++ r.
Proof. intros sv last0 tr s H. exact (g_pre _ _ _ (ypage_run _ _ _ _ H)). Qed.
Lemma close_same : forall tr tr', tr' = tr ++ [(YClose, [])] -> commits tr' = commits tr /\ given tr' = given tr /\ pages tr' = pages tr /\
    told tr' = told tr /\ recvd tr' = recvd tr /\ unsent tr' = unsent tr /\ forall w, gives w tr' = gives w tr.
Proof. intros tr tr' ->. repeat split; intros; snocs; cbn; now rewrite app_nil_r. Qed.
Ltac closed tr C C0 C1 C2 C3 C4 C5 := destruct (close_same _ _ tr) as (C & C0 & C1 & C2 & C3 & C4 & C5).
Lemma final_C42_finished : forall sv last0 tr s, sync_run sv last0 tr s -> finished tr -> concat (gives FromQuery tr) = concat (map qr_events (pages tr)).
Proof.
  intros sv last0. apply (yopen sv last0 (fun tr => finished tr -> concat (gives FromQuery tr) = concat (map qr_events (pages tr)))).
  - intros tr s H Hp Hf. symmetry. eapply done_pages; eauto. eapply finished_done; eauto.
  - intros tr tr' Et H. closed Et C C0 C1 C2 C3 C4 C5. unfold finished. now rewrite C1, C2, C5.
Qed.

(** ** C41 *)
Lemma final_C41_order : forall sv last0 tr s, sync_run sv last0 tr s ->
    given tr = concat (gives FromQuery tr) ++ concat (gives FromQueue tr) ++ concat (gives FromNotify tr) /\
    increasing (concat (gives FromQuery tr) ++ concat (gives FromQueue tr)) /\ above last0 (concat (gives FromQuery tr) ++ concat (gives FromQueue tr)) /\
    increasing (concat (gives FromQueue tr) ++ concat (gives FromNotify tr)).
Proof.
  intros sv last0. apply (yopen sv last0 (fun tr =>
    given tr = concat (gives FromQuery tr) ++ concat (gives FromQueue tr) ++ concat (gives FromNotify tr) /\
    increasing (concat (gives FromQuery tr) ++ concat (gives FromQueue tr)) /\ above last0 (concat (gives FromQuery tr) ++ concat (gives FromQueue tr)) /\
    increasing (concat (gives FromQueue tr) ++ concat (gives FromNotify tr)))).
  - intros tr s H Hp. split; [exact (n_given _ _ _ (ynote_run _ _ _ _ H))|].
    destruct (ybatches _ _ _ _ H Hp) as (D & q & r & B1 & B2 & B3 & B4). pose proof (yinc _ _ _ _ H) as I. rewrite B1 in I. rewrite !concat_app in I.
    apply increasing_inv in I as (_ & I & _). pose proof I as I'. apply increasing_inv in I as (ID & I & ID').
    pose proof (ydone_run _ _ _ _ H) as Dn. pose proof (d_inc _ _ Dn) as Pi. pose proof (d_above _ _ Dn) as Pa.
    destruct (g_pre _ _ _ (ypage_run _ _ _ _ H)) as [x Px]. rewrite Px in Pi, Pa. apply increasing_inv in Pi as (Pi & _ & _). apply Forall_app in Pa as [Pa _].
    rewrite B3. split; [|split].
    + apply increasing_app; auto; [now apply increasing_filter|]. intros a b Ha Hb. apply filter_In in Hb as [_ Hb]. unfold id_lt. eapply leb_ltb_trans; [|exact Hb].
      apply last_id_max; [exact (d_inc _ _ Dn)|]. rewrite Px. apply in_or_app. auto.
    + apply Forall_app. split; auto. apply Forall_forall. intros b Hb. apply filter_In in Hb as [_ Hb]. eapply leb_ltb_trans; [|exact Hb]. apply last_id_above. exact (d_above _ _ Dn).
    + apply increasing_app; [now apply increasing_filter| |].
      * apply increasing_inv in I as (_ & I & _). now apply increasing_inv in I as (I & _ & _).
      * intros a b Ha Hb. apply filter_In in Ha as [Ha _]. apply ID'; auto. apply in_or_app. right. apply in_or_app. auto.
  - intros tr tr' Et H. closed Et C C0 C1 C2 C3 C4 C5. now rewrite C0, !C5.
Qed.

Lemma final_C41_only : forall sv last0 tr s, sync_run sv last0 tr s -> forall e, In e (given tr) -> exists b, In b (commits tr) /\ In e (batch b).
Proof.
  intros sv last0. apply (yopen sv last0 (fun tr => forall e, In e (given tr) -> exists b, In b (commits tr) /\ In e (batch b))).
  - intros tr s H Hp e He. enough (Hc : In e (concat (map batch (commits tr)))).
    { apply in_concat in Hc as (x & Hx & Hc). apply in_map_iff in Hx as (b & <- & Hb). eauto. }
    destruct (ybatches _ _ _ _ H Hp) as (D & q & r & B1 & B2 & B3 & B4). rewrite (n_given _ _ _ (ynote_run _ _ _ _ H)) in He.
    apply in_app_or in He as [He|He]; [|apply in_app_or in He as [He|He]].
    + apply (d_sub _ _ (ydone_run _ _ _ _ H)). destruct (g_pre _ _ _ (ypage_run _ _ _ _ H)) as [x ->]. apply in_or_app. auto.
    + rewrite B3 in He. apply filter_In in He as [He _]. rewrite B1, !concat_app. rewrite !in_app_iff. auto.
    + rewrite B1, !concat_app. rewrite !in_app_iff. auto.
  - intros tr tr' Et H. closed Et C C0 C1 C2 C3 C4 C5. now rewrite C, C0.
Qed.

Lemma fin_exists : forall tr n, fin tr = Some n -> exists a o l b, tr = a ++ (o, l) :: b /\ existsb is_last l = true /\ n = length (commits a).
Proof.
  induction tr as [|[o l] tr IH] using rev_ind; intros n H; [discriminate|]. rewrite fin_snoc in H. destruct (existsb is_last l) eqn:L.
  - injection H as <-. exists tr, o, l, []. auto.
  - destruct (IH _ H) as (a & o' & l' & b & -> & H1 & H2). exists a, o', l', (b ++ [(o, l)]). rewrite <- app_assoc. auto.
Qed.
Lemma last_answer : forall sv last0 s o s' l, yexec sv last0 s o = Some (s', l) -> existsb is_last l = true -> exists k es, o = RQuery k /\ l = [Answered (QRes es false)].
Proof.
  intros sv last0 s o s' l H L. assert (Hq : (exists k, o = RQuery k) \/ forall k, o <> RQuery k) by (destruct o; try (right; intros; discriminate); left; eauto).
  destruct Hq as [[k ->]|Hq]; [|destruct (page_out _ _ _ _ _ _ H Hq); congruence]. ycases H. cbn [existsb is_last orb] in L. destruct (Nat.ltb _ _) eqn:K; [discriminate|]. eauto.
Qed.
Lemma removed_app : forall a b e, removed a e -> removed (a ++ b) e.
Proof. intros a b e [l H]. exists l. apply in_or_app. auto. Qed.
Lemma pages_app : forall a b, pages (a ++ b) = pages a ++ pages b.
Proof. intros. unfold pages, youts. now rewrite !flat_map_app. Qed.

Lemma final_C41_synced : forall sv last0 tr s, sync_run sv last0 tr s -> finished tr ->
    exists a k es b, tr = a ++ (RQuery k, [Answered (QRes es false)]) :: b /\
      forall e, persisted a e -> ~ removed a e -> fresh last0 e -> In e (concat (gives FromQuery tr)).
Proof.
  intros sv last0. apply (yopen sv last0 (fun tr => finished tr -> exists a k es b, tr = a ++ (RQuery k, [Answered (QRes es false)]) :: b /\
      forall e, persisted a e -> ~ removed a e -> fresh last0 e -> In e (concat (gives FromQuery tr)))).
  - intros tr s H Hp Hf. apply (finished_done _ _ _ _ H Hp) in Hf. destruct (done_fin _ _ _ _ H Hf) as [n Hn]. destruct (fin_exists _ _ Hn) as (a & o & l & b & E & L & En).
    pose proof H as H0. rewrite E in H0. destruct (yprefix_step _ _ _ _ _ _ _ H0) as (s1 & s2 & R1 & X & R2). destruct (last_answer _ _ _ _ _ _ X L) as (k & es & -> & ->).
    exists a, k, es, b. split; auto. intros e He Hr Hl. rewrite <- (done_pages _ _ _ _ H Hf).
    pose proof (d_fin _ _ (ydone_run _ _ _ _ R2) n) as Df. rewrite fin_snoc, L, En in Df. destruct (Df eq_refl) as (_ & _ & D3).
    unfold pcat. rewrite E. change ((RQuery k, [Answered (QRes es false)]) :: b) with ([(RQuery k, [Answered (QRes es false)])] ++ b). rewrite app_assoc, pages_app, map_app, concat_app.
    apply in_or_app. left. destruct He as (c & Hc & He). apply (D3 c); auto.
    + rewrite commits_snoc. cbn [app]. rewrite app_nil_r, firstn_all. auto.
    + intros [l' Hx]. apply Hr. apply in_app_or in Hx as [Hx|[Hx|[]]]; [now exists l'|discriminate].
  - intros tr tr' Et H Hf. closed Et C C0 C1 C2 C3 C4 C5. unfold finished in Hf. rewrite C2 in Hf. destruct (H Hf) as (a & k & es & b & Ea & Ha). exists a, k, es, (b ++ [(YClose, [])]). split; [now rewrite Et, Ea, <- app_assoc|].
    intros e H1 H2 H3. rewrite C5. auto.
Qed.

(** An event of a batch that has been received, or that passed before the
    client was connected. *)
Lemma ygiven : forall sv last0 tr s, sync_run sv last0 tr s -> y_phase s = PDone -> forall b e, In b (commits tr) -> In (e, true) b -> ~ removed tr e -> fresh last0 e ->
    In (batch b) (unsent tr ++ recvd tr) ->
    In e (concat (gives FromQuery tr)) \/ (eid_ltb (last_id last0 (pcat tr)) (ev_id e) = true /\ (In e (concat (gives FromQueue tr)) \/ In e (concat (gives FromNotify tr)))).
Proof.
  intros sv last0 tr s H P b e Hb He Hr Hl Hi. assert (Hp : y_phase s <> PEnd) by congruence.
  destruct (ybatches _ _ _ _ H Hp) as (D & q & r & B1 & B2 & B3 & B4). rewrite (B4 P) in *. cbn [app] in *.
  destruct (done_fin _ _ _ _ H P) as [n Hn]. pose proof (ydone_run _ _ _ _ H) as Dn. pose proof (yunsent _ _ _ _ H _ Hn) as Un. destruct (d_fin _ _ Dn n Hn) as (D1 & D2 & D3).
  rewrite <- (done_pages _ _ _ _ H P).
  destruct (leb_or_ltb (ev_id e) (last_id last0 (pcat tr))) as [Hle|Hlt].
  { left. apply (d_upto _ _ Dn); auto. split; auto. exists b. auto. }
  assert (Heb : In e (batch b)) by (unfold batch; apply in_map_iff; exists (e, true); auto).
  apply in_app_or in Hi as [Hi|Hi].
  - left. (* committed before the last page *)
    pose proof Hb as Hb'. rewrite <- (firstn_skipn n (commits tr)) in Hb'. apply in_app_or in Hb' as [Hb'|Hb']; [eapply D3; eauto|]. exfalso.
    pose proof (yinc _ _ _ _ H) as I. rewrite <- (firstn_skipn n (commits tr)), map_app, concat_app in I. apply increasing_inv in I as (_ & _ & I).
    assert (Hf : In (batch b) (map batch (firstn n (commits tr)))).
    { rewrite <- firstn_map, B1, firstn_app. apply in_or_app. left. rewrite firstn_all2; auto. }
    assert (X : id_lt e e); [apply I; apply in_concat; exists (batch b); split; auto; now apply in_map|]. unfold id_lt in X. now rewrite eid_ltb_irrefl in X.
  - right. split; auto. rewrite B2 in Hi. apply in_app_or in Hi as [Hi|Hi].
    + left. rewrite B3. apply filter_In. split; auto. apply in_concat. eauto.
    + right. apply in_concat. eauto.
Qed.

Lemma final_C41_all : forall sv last0 tr s, sync_run sv last0 tr s -> finished tr -> forall b e, In b (commits tr) -> persisted_in b e -> ~ removed tr e -> fresh last0 e ->
    In (batch b) (unsent tr ++ recvd tr) -> In e (given tr).
Proof.
  intros sv last0. apply (yopen sv last0 (fun tr => finished tr -> forall b e, In b (commits tr) -> persisted_in b e -> ~ removed tr e -> fresh last0 e ->
    In (batch b) (unsent tr ++ recvd tr) -> In e (given tr))).
  - intros tr s H Hp Hf b e H1 H2 H3 H4 H5. apply (finished_done _ _ _ _ H Hp) in Hf. rewrite (n_given _ _ _ (ynote_run _ _ _ _ H)), !in_app_iff.
    destruct (ygiven _ _ _ _ H Hf b e H1 H2 H3 H4 H5) as [|[_ [|]]]; auto.
  - intros tr tr' Et H. closed Et C C0 C1 C2 C3 C4 C5. unfold finished. rewrite C, C0, C2, C3, C4. intros Hf b e H1 H2 H3 H4 H5. apply (H Hf b); auto. intros Hx. apply H3. rewrite Et. now apply removed_app.
Qed.

Lemma firstn_le_app : forall (A : Type) n (a b : list A), n <= length a -> firstn n (a ++ b) = firstn n a.
Proof. intros A n a b H. rewrite firstn_app. replace (n - length a) with 0 by lia. cbn. apply app_nil_r. Qed.

Lemma final_C41_once : forall sv last0 tr s, sync_run sv last0 tr s -> in_step tr -> increasing (given tr).
Proof.
  intros sv last0. apply (yopen sv last0 (fun tr => in_step tr -> increasing (given tr))).
  - intros tr s H Hp Hs. destruct (final_C41_order _ _ _ _ H) as (E & O1 & _ & O3). rewrite E.
    destruct (gives FromNotify tr) as [|g gs] eqn:Eg; [cbn [concat]; rewrite app_nil_r; exact O1|]. rewrite <- Eg in *.
    assert (P : y_phase s = PDone).
    { pose proof (n_queue _ _ _ (ynote_run _ _ _ _ H)) as N. rewrite Eg in N. destruct (y_phase s); auto; try (now destruct Hp); try (now destruct N as (_ & _ & N)); now destruct N. }
    apply increasing_app; auto; [now apply increasing_inv in O1|]. intros x y Hx Hy. apply in_app_or in Hy as [Hy|Hy]; [apply increasing_inv in O1 as (_ & _ & O1); auto|].
    destruct (done_fin _ _ _ _ H P) as [n Hn]. pose proof (ydone_run _ _ _ _ H) as Dn. destruct (d_fin _ _ Dn n Hn) as (D1 & D2 & D3).
    destruct (ybatches _ _ _ _ H Hp) as (D & q & r & B1 & B2 & B3 & B4). rewrite (B4 P) in *. cbn [app] in *.
    pose proof (yover_run _ _ _ _ H Hs n Hn) as V. rewrite P, B2, app_length in V.
    rewrite <- (done_pages _ _ _ _ H P) in Hx. apply D2 in Hx. rewrite <- firstn_map, B1, app_assoc, firstn_le_app in Hx by (rewrite app_length; lia).
    pose proof (yinc _ _ _ _ H) as I. rewrite B1, app_assoc, concat_app in I. apply increasing_inv in I as (_ & _ & I). apply I.
    + apply in_concat in Hx as (z & Hz & Hx). apply in_concat. exists z. split; auto. eapply in_firstn; eauto.
    + rewrite concat_app. apply in_or_app. auto.
  - intros tr tr' Et H Hs. closed Et C C0 C1 C2 C3 C4 C5. rewrite C0. apply H. rewrite Et in Hs. eapply in_step_snoc; eauto.
Qed.

(** ** What a backend accepts *)
Lemma accepted_ext : forall ok l last a e b, l = a ++ e :: b -> eid_ltb last (ev_id e) = true -> Forall (fun x => id_lt x e) a -> ok e = true -> In e (accepted ok last l).
Proof.
  intros ok l last a. revert l last. induction a as [|x a IH]; intros l last e b -> Hl Ha Ho; cbn [app accepted].
  - rewrite Hl, Ho. now left.
  - inversion_clear Ha as [|? ? H1 H2]. destruct (eid_ltb last (ev_id x) && ok x); [right|]; eapply IH; eauto.
Qed.
Lemma accepted_above : forall ok l last, above last (accepted ok last l).
Proof.
  intros ok. induction l as [|x l IH]; intros last; cbn; [constructor|]. destruct (eid_ltb last (ev_id x)) eqn:E; cbn; [|apply IH].
  destruct (ok x); [|apply IH]. constructor; auto. eapply Forall_impl; [|apply (IH (ev_id x))]. intros y Hy. eapply eid_ltb_trans; eauto.
Qed.
Lemma final_C41_increasing : forall ok last l, increasing (accepted ok last l).
Proof.
  intros ok last l. revert last. induction l as [|x l IH]; intros last; cbn; [constructor|]. destruct (eid_ltb last (ev_id x) && ok x); auto.
  constructor; [apply IH|]. apply (accepted_above ok l (ev_id x)).
Qed.
Lemma increasing_split : forall l e, increasing l -> In e l -> exists a b, l = a ++ e :: b /\ Forall (fun x => id_lt x e) a.
Proof.
  intros l e H He. apply in_split in He as (a & b & ->). exists a, b. split; auto. apply increasing_inv in H as (_ & _ & H). apply Forall_forall. intros x Hx. apply H; auto. now left.
Qed.

Lemma final_C41_accepted : forall sv last0 ok tr s, sync_run sv last0 tr s -> finished tr -> forall b e, In b (commits tr) -> persisted_in b e -> ~ removed tr e -> fresh last0 e ->
    In (batch b) (unsent tr ++ recvd tr) -> ok e = true -> In e (accepted ok last0 (given tr)).
Proof.
  intros sv last0 ok. apply (yopen sv last0 (fun tr => finished tr -> forall b e, In b (commits tr) -> persisted_in b e -> ~ removed tr e -> fresh last0 e ->
    In (batch b) (unsent tr ++ recvd tr) -> ok e = true -> In e (accepted ok last0 (given tr)))).
  - intros tr s H Hp Hf b e H1 H2 H3 H4 H5 H6. apply (finished_done _ _ _ _ H Hp) in Hf.
    destruct (final_C41_order _ _ _ _ H) as (E & O1 & _ & O3). rewrite E.
    destruct (ygiven _ _ _ _ H Hf b e H1 H2 H3 H4 H5) as [Hg|[Hlt Hg]].
    + apply increasing_inv in O1 as (O1 & _). destruct (increasing_split _ _ O1 Hg) as (x & y & -> & Hx). eapply (accepted_ext ok _ last0 x); eauto. rewrite <- app_assoc. reflexivity.
    + assert (Hg' : In e (concat (gives FromQueue tr) ++ concat (gives FromNotify tr))) by (apply in_or_app; auto).
      destruct (increasing_split _ _ O3 Hg') as (x & y & Ex & Hx). rewrite Ex. eapply (accepted_ext ok _ last0 (concat (gives FromQuery tr) ++ x)); eauto; [rewrite <- app_assoc; reflexivity|].
      apply Forall_app. split; auto. apply Forall_forall. intros z Hz. unfold id_lt. eapply leb_ltb_trans; [|exact Hlt]. apply last_id_max; [exact (d_inc _ _ (ydone_run _ _ _ _ H))|].
      now rewrite (done_pages _ _ _ _ H Hf).
  - intros tr tr' Et H. closed Et C C0 C1 C2 C3 C4 C5. unfold finished. rewrite C, C0, C2, C3, C4. intros Hf b e H1 H2 H3 H4 H5 H6. apply (H Hf b); auto. intros Hx. apply H3. rewrite Et. now apply removed_app.
Qed.

Lemma final_C41_pass : forall sv last0 a o l b s, sync_run sv last0 (a ++ (o, l) :: b) s -> finished a ->
    (forall es, In (Recvd es) l -> l = [Recvd es; Give FromNotify es]) /\ (forall w es, In (Give w es) l -> l = [Recvd es; Give FromNotify es] /\ w = FromNotify).
Proof.
  intros sv last0 a o l b s H Hf. destruct (yprefix_step _ _ _ _ _ _ _ H) as (s1 & s2 & R1 & X & R2).
  assert (Hp : y_phase s1 <> PEnd) by (apply yexec_case in X as [X _]; auto). apply (finished_done _ _ _ _ R1 Hp) in Hf.
  pose proof (n_queue _ _ _ (ynote_run _ _ _ _ R1)) as N. rewrite Hf in N. destruct N as [N _].
  ycases X; try congruence; try (split; [intros es Hx|intros w es Hx]; cbn in Hx; repeat (destruct Hx as [Hx|Hx]; [discriminate|]); now destruct Hx).
  - destruct H0; congruence.
  - split; [intros es [Hx|[Hx|[]]]|intros w es [Hx|[Hx|[]]]]; try discriminate; injection Hx as <-; auto. subst. auto.
Qed.

(** ** C54 *)
Lemma final_C54_told : forall sv last0 tr s, sync_run sv last0 tr s -> exists r, told tr ++ r = synced_seq (length (concat (map qr_events (pages tr)))).
Proof.
  intros sv last0. apply (yopen sv last0 (fun tr => exists r, told tr ++ r = synced_seq (length (concat (map qr_events (pages tr)))))).
  - intros tr s H Hp. pose proof (dcount_run _ _ _ _ H) as [C C']. fold (pcat tr). unfold synced_seq.
    destruct (y_phase s); try (now destruct Hp); rewrite C; try (eexists; reflexivity); try (exists []; now rewrite app_nil_r).
    1-2: destruct (Nat.eqb_spec (y_count s) 0) as [Z|Z]; [eexists; reflexivity|]; destruct (Nat.eqb_spec (length (pcat tr)) 0) as [Z'|Z']; [lia|]; eexists; reflexivity.
    all: rewrite C'; exists [(SYNCED, Some (length (pcat tr)))]; reflexivity.
  - intros tr tr' Et H. closed Et C C0 C1 C2 C3 C4 C5. now rewrite C1, C2.
Qed.
Lemma final_C54_finished : forall sv last0 tr s, sync_run sv last0 tr s -> finished tr -> told tr = synced_seq (length (concat (gives FromQuery tr))).
Proof.
  intros sv last0. apply (yopen sv last0 (fun tr => finished tr -> told tr = synced_seq (length (concat (gives FromQuery tr))))).
  - intros tr s H Hp Hf. apply (finished_done _ _ _ _ H Hp) in Hf. pose proof (dcount_run _ _ _ _ H) as [C _]. rewrite Hf in C. now rewrite <- (done_pages _ _ _ _ H Hf).
  - intros tr tr' Et H. closed Et C C0 C1 C2 C3 C4 C5. unfold finished. now rewrite C2, C5.
Qed.
Lemma final_C54_when : forall sv last0 a o l b s, sync_run sv last0 (a ++ (o, l) :: b) s -> forall w es, In (Give w es) l ->
    match w with FromNotify => finished a | FromQueue => In (CONNECTED, None) (told a) /\ ~ finished a | FromQuery => In (SYNCING, None) (told a) /\ ~ finished a end.
Proof.
  intros sv last0 a o l b s H w es Hg. destruct (yprefix_step _ _ _ _ _ _ _ H) as (s1 & s2 & R1 & X & R2).
  assert (Hp : y_phase s1 <> PEnd) by (apply yexec_case in X as [X _]; auto). pose proof (finished_done _ _ _ _ R1 Hp) as Hf.
  pose proof (dcount_run _ _ _ _ R1) as [C C']. pose proof (g_split _ _ _ (ypage_run _ _ _ _ R1) Hp) as G. pose proof (yflow_run _ _ _ _ R1) as F.
  unfold yflow in F. unfold coming in G. pose proof (n_queue _ _ _ (ynote_run _ _ _ _ R1)) as N.
  clear R2. assert (K : forall x, y_count s1 = S x -> y_phase s1 = PSync \/ y_phase s1 = PLoop \/ (exists q, y_phase s1 = PResp q) -> In (SYNCING, None) (told a) /\ ~ finished a).
  { intros x Hx Hy. split.
    - destruct Hy as [Hy|[Hy|[q Hy]]]; rewrite Hy, Hx in C; rewrite C; cbn; auto.
    - intros Hz. apply Hf in Hz. destruct Hy as [Hy|[Hy|[q Hy]]]; congruence. }
  assert (K' : y_phase s1 = PSync \/ y_phase s1 = PLoop -> forall e r, y_ev s1 = e :: r -> exists x, y_count s1 = S x).
  { intros Hy e r He. assert (Hc : y_count s1 = length (pcat a)) by (destruct Hy as [Hy|Hy]; now rewrite Hy in C'). rewrite G, He, !app_length in Hc. cbn [length] in Hc. rewrite Hc.
    exists (length (concat (gives FromQuery a)) + length r + length (match y_phase s1 with PResp q => qr_events q | _ => [] end ++ concat (map qr_events (wired s1)))). rewrite app_length. lia. }
  assert (K2 : forall q, y_phase s1 = PResp q -> qr_events q = [] \/ y_count s1 <> 0 -> forall e r, y_ev s1 ++ qr_events q = e :: r -> exists x, y_count s1 = S x).
  { intros q Hy [Hq|Hq] e r He; [|destruct (y_count s1); [now destruct Hq|eauto]]. rewrite Hy in C', F, G. destruct F as (_ & _ & W & _). rewrite W, Hq in *. cbn [app map concat length] in *. rewrite app_nil_r in *.
    rewrite G, He, app_length in C'. cbn [length] in C'. exists (length (concat (gives FromQuery a)) + length r). lia. }
  assert (Kc : y_phase s1 <> PNew -> y_phase s1 <> PDone -> In (CONNECTED, None) (told a) /\ ~ finished a).
  { intros Hn Hd. split; [|intros Hz; now apply Hf in Hz]. destruct (y_phase s1); try congruence; rewrite C; now left. }
  ycases X; cbn [In] in Hg.
  all: try (repeat (destruct Hg as [Hg|Hg]; [discriminate|]); now destruct Hg).
  - inversion H1; subst; cbn [In] in Hg.
    + destruct Hg as [Hg|[]]. injection Hg as <- <-. destruct (K' (or_introl H0) _ _ H2) as [x Hx]. eauto.
    + now destruct Hg as [Hg|[]].
    + destruct Hg as [Hg|[]]. injection Hg as <- <-. destruct (K' (or_introl H0) _ _ H3) as [x Hx]. eauto.
    + destruct (drain_turn (updated s1)); destruct Hg as [Hg|[]]; try discriminate. injection Hg as <- <-. apply Kc; congruence.
  - inversion H1; subst; cbn [In] in Hg.
    + destruct Hg as [Hg|[]]. injection Hg as <- <-. destruct (K' (or_intror H0) _ _ H2) as [x Hx]. eauto.
    + now destruct Hg as [Hg|[]].
    + destruct Hg as [Hg|[]]. injection Hg as <- <-. destruct (K' (or_intror H0) _ _ H3) as [x Hx]. eauto.
    + destruct (drain_turn s1); destruct Hg as [Hg|[]]; try discriminate. injection Hg as <- <-. apply Kc; congruence.
  - inversion H1; subst; destruct Hg as [Hg|[]]; try discriminate. injection Hg as <- <-. apply Kc; destruct H0; congruence.
  - inversion H2; subst; cbn [In] in Hg.
    + destruct Hg as [Hg|[]]. injection Hg as <- <-. destruct (K2 _ H0 H1 _ _ H3) as [x Hx]. eauto 6.
    + now destruct Hg as [Hg|[]].
    + destruct Hg as [Hg|[]]. injection Hg as <- <-. destruct (K2 _ H0 H1 _ _ H4) as [x Hx]. eauto 6.
    + destruct (drain_turn (updated (woken s1 q))); destruct Hg as [Hg|[]]; try discriminate. injection Hg as <- <-. apply Kc; congruence.
  - destruct Hg as [Hg|[Hg|[]]]; [discriminate|]. injection Hg as <- <-. apply Hf. destruct (y_phase s1); auto; try (now destruct Hp); try (destruct N as [N _]; congruence). destruct N as (_ & D & q & N & _). congruence.
Qed.
