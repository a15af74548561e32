(** Synchronization: notifications on their way, the query on its way. *)
From Coq Require Import String Bool ZArith Arith Lia Sorted List.
From Verif Require Import Base Model_Types Proof_Order Proof_Lmdb3 Model_Sync Spec_Sync Proof_Sync.
Import ListNotations.
Open Scope string_scope.
Open Scope list_scope.
Open Scope nat_scope.

Definition notes_of (c : list ymsg) : list (list event) := flat_map (fun m => match m with YNote b => [b] | _ => [] end) c.
Definition results_of (c : list ymsg) : list query_result := flat_map (fun m => match m with YResult q => [q] | _ => [] end) c.
Lemma notes_app : forall a b, notes_of (a ++ b) = notes_of a ++ notes_of b.
Proof. intros. apply flat_map_app. Qed.
Lemma results_app : forall a b, results_of (a ++ b) = results_of a ++ results_of b.
Proof. intros. apply flat_map_app. Qed.

(** ** Order of ids *)
Lemma id_lt_trans : forall a b c, id_lt a b -> id_lt b c -> id_lt a c.
Proof. intros a b c. unfold id_lt. apply eid_ltb_trans. Qed.
Lemma growing_spec : forall sv es i, growing sv i es = true ->
    increasing es /\ Forall (fun e => eid_server (ev_id e) = sv /\ eid_ltb i (ev_id e) = true /\ eid_leb (ev_id e) (last_id i es) = true) es.
Proof.
  intros sv es. induction es as [|e es IH]; intros i H; [split; constructor|]. cbn [growing] in H.
  apply andb_true_iff in H as [H H3]. apply andb_true_iff in H as [H1 H2]. apply Z.eqb_eq in H1. destruct (IH _ H3) as [I1 I2].
  assert (L : last_id i (e :: es) = last_id (ev_id e) es).
  { unfold last_id. cbn [rev]. destruct (rev es); reflexivity. }
  split.
  - constructor; auto. eapply Forall_impl; [|exact I2]. now intros x (_ & Hx & _).
  - constructor.
    + split; auto. split; auto. rewrite L. clear - I2 I2. unfold last_id. destruct (rev es) as [|x r] eqn:E; [apply eid_leb_spec; now right|].
      assert (In x es) by (apply in_rev; rewrite E; now left). rewrite Forall_forall in I2. apply I2 in H as (_ & H & _). rewrite eid_leb_ltb. now rewrite (eid_ltb_asym _ _ H).
    + rewrite L. eapply Forall_impl; [|exact I2]. intros x (Hx & Hy & Hz). split; auto. split; auto. eapply eid_ltb_trans; eauto.
Qed.
Lemma increasing_app : forall l l', increasing l -> increasing l' -> (forall a b, In a l -> In b l' -> id_lt a b) -> increasing (l ++ l').
Proof.
  unfold increasing. induction l as [|x l IH]; cbn; intros l' H H' H2; auto. inversion_clear H as [|? ? H3 H4]. constructor.
  - apply IH; auto.
  - apply Forall_app. split; auto. apply Forall_forall. auto.
Qed.
Lemma increasing_inv : forall l l', increasing (l ++ l') -> increasing l /\ increasing l' /\ forall a b, In a l -> In b l' -> id_lt a b.
Proof.
  unfold increasing. induction l as [|x l IH]; cbn; intros l' H; [repeat split; auto; try constructor; intros ? ? []|].
  inversion_clear H as [|? ? H3 H4]. destruct (IH _ H3) as (I1 & I2 & I3). apply Forall_app in H4 as [H4 H5]. repeat split; auto.
  - constructor; auto.
  - intros a b [->|Ha] Hb; auto. rewrite Forall_forall in H5. auto.
Qed.

(** ** Notifications *)
Record ynote (sv : Z) (tr : list yitem) (s : ystate) : Prop := {
  n_all : map batch (commits tr) = unsent tr ++ sent tr ++ r_lag s;
  n_sent : sent tr = recvd tr ++ notes_of (r_chan s);
  n_up : r_up s = false -> sent tr = [] /\ (y_phase s = PNew \/ y_phase s = PEnd);
  n_inc : increasing (concat (map batch (commits tr)));
  n_top : Forall (fun e => eid_server (ev_id e) = sv /\ eid_leb (ev_id e) (r_top s) = true) (concat (map batch (commits tr)));
  n_queue : match y_phase s with
            | PEnd => True
            | PDone => y_queue s = None /\ exists D, recvd tr = D ++ gives FromNotify tr /\ concat (gives FromQueue tr) = filter (newer (y_last s)) (concat D)
            | PDrain => gives FromNotify tr = [] /\
                exists D q, y_queue s = Some q /\ recvd tr = D ++ q /\ concat (gives FromQueue tr) = filter (newer (y_last s)) (concat D)
            | _ => y_queue s = Some (recvd tr) /\ gives FromQueue tr = [] /\ gives FromNotify tr = []
            end;
  n_given : given tr = concat (gives FromQuery tr) ++ concat (gives FromQueue tr) ++ concat (gives FromNotify tr) }.

Lemma next_queued_none : forall i q, next_queued i q = None -> filter (newer i) (concat q) = [].
Proof.
  induction q as [|b q IH]; cbn; intros H; auto. rewrite filter_app. destruct (filter (newer i) b); [auto|discriminate].
Qed.
Lemma next_queued_some : forall i q es q', next_queued i q = Some (es, q') -> exists d, q = d ++ q' /\ filter (newer i) (concat d) = es.
Proof.
  induction q as [|b q IH]; cbn; intros es q' H; [discriminate|]. destruct (filter (newer i) b) as [|x l] eqn:E.
  - destruct (IH _ _ H) as (d & -> & Hd). exists (b :: d). split; auto. cbn. now rewrite filter_app, E.
  - injection H as <- <-. exists [b]. split; auto. cbn. now rewrite app_nil_r.
Qed.

Ltac ycases H :=
  let Hp := fresh "Hp" in
  apply yexec_case in H as [Hp H]; inversion H; subst; clear H.
Ltac proj := cbn [y_remote y_set woken updated ask fst snd r_stored r_top r_lag r_up r_req r_resp r_chan y_phase y_ev y_last y_more y_count y_queue y_busy] in *.

Lemma concat_snoc : forall (A : Type) (l : list (list A)) x, concat (l ++ [x]) = concat l ++ x.
Proof. intros. rewrite concat_app. cbn. now rewrite app_nil_r. Qed.

Ltac turns s :=
  try match goal with T : turn _ _ _ |- _ => inversion T; subst; clear T end;
  try match goal with |- context [fst (drain ?x)] => destruct (drain_turn x) end;
  try match goal with T : dturn _ _ _ |- _ => inversion T; subst; clear T end;
  try match goal with E : y_phase s = PFinal \/ y_phase s = PDrain |- _ => destruct E as [E|E] end;
  proj.

Lemma last_id_le : forall sv i es, growing sv i es = true -> eid_leb i (last_id i es) = true.
Proof.
  intros sv i es H. apply growing_spec in H as [_ H]. unfold last_id. destruct (rev es) as [|x r] eqn:E; [apply eid_leb_spec; now right|].
  assert (In x es) by (apply in_rev; rewrite E; now left). rewrite Forall_forall in H. apply H in H0 as (_ & H0 & _). rewrite eid_leb_ltb. now rewrite (eid_ltb_asym _ _ H0).
Qed.
Lemma eid_leb_trans' : forall a b c, eid_leb a b = true -> eid_leb b c = true -> eid_leb a c = true.
Proof.
  intros a b c. rewrite !eid_leb_spec. intros [H| ->] [H'| ->]; try (now left); try (now right); try tauto. left. eapply eid_lt_trans; eauto.
Qed.
Lemma leb_ltb_trans : forall a b c, eid_leb a b = true -> eid_ltb b c = true -> eid_ltb a c = true.
Proof.
  intros a b c. rewrite eid_leb_spec, !eid_ltb_spec. intros [H| ->] H'; auto. eapply eid_lt_trans; eauto.
Qed.

Lemma ynote_step : forall sv last0 tr s o s' l, ynote sv tr s -> yexec sv last0 s o = Some (s', l) -> ynote sv (tr ++ [(o, l)]) s'.
Proof.
  intros sv last0 tr s o s' l [N1 N2 N3 N4 N5 N6 N7] H. ycases H; turns s.
  all: try match goal with E : y_phase _ = _ |- _ => rewrite E in N6, N3 end.
  all: constructor; proj; snocs; shrink; rewrite ?map_app, ?concat_app; cbn [map concat]; rewrite ?app_nil_r; auto.
  all: try (intros E; destruct (N3 E) as [? [?|?]]; discriminate).
  all: try (now destruct N6 as (Q1 & Q2 & Q3); repeat split; auto).
  all: try (destruct N6 as (Q1 & Q2 & Q3); rewrite Q2, Q3 in *; cbn [concat app] in *; rewrite ?app_nil_r in *; now rewrite N7).
  (* drained *)
  all: try match goal with E : next_queued _ _ = Some _ |- _ => apply next_queued_some in E as (d & Ed & Hd) end.
  all: try match goal with E : next_queued _ _ = None |- _ => apply next_queued_none in E end.
  all: try (destruct N6 as (Q1 & Q2 & Q3); rewrite Q1 in *; split; auto; exists d; eexists; rewrite Q2; cbn; rewrite ?app_nil_r; eauto; fail).
  all: try (destruct N6 as (Q1 & Q2 & Q3); rewrite Q1 in *; split; auto; exists (recvd tr); rewrite Q2, Q3, app_nil_r; auto; fail).
  all: try (destruct N6 as (Q1 & D & w & Q2 & Q3 & Q4); rewrite Q2 in *; split; auto; exists (D ++ d), q'; subst; rewrite Q3, Q4, !concat_app, filter_app, app_assoc; auto; fail).
  all: try (destruct N6 as (Q1 & D & w & Q2 & Q3 & Q4); rewrite Q2 in *; split; auto; exists (D ++ w); rewrite Q1, Q3, Q4, app_nil_r, !concat_app, filter_app; rewrite H; now rewrite app_nil_r).
  all: try (destruct N6 as (Q1 & Q2); rewrite Q1 in *; cbn [concat] in *; rewrite ?app_nil_r in *; rewrite N7, <- app_assoc; reflexivity).
  (* received *)
  all: try (rewrite N2, H1; cbn; rewrite <- ?app_assoc; reflexivity).
  (* commit *)
  - rewrite N1, <- !app_assoc. reflexivity.
  - apply growing_spec in H0 as [G1 G2]. apply increasing_app; auto. intros a c Ha Hc. unfold batch in Hc. rewrite Forall_forall in G2, N5.
    apply N5 in Ha as [_ Ha]. apply G2 in Hc as (_ & Hc & _). unfold id_lt. eapply leb_ltb_trans; eauto.
  - apply Forall_app. split.
    + eapply Forall_impl; [|exact N5]. intros e (Hs & Hl). split; auto. eapply eid_leb_trans'; [exact Hl|]. eapply last_id_le; eauto.
    + apply growing_spec in H0 as [_ G2]. eapply Forall_impl; [|exact G2]. intros e (? & ? & ?). auto.
  (* notify *)
  - rewrite N1, H0, <- !app_assoc. reflexivity.
  - rewrite N2, notes_app, <- app_assoc. reflexivity.
  - intros. congruence.
  - destruct (N3 H1) as [E _]. rewrite N1, E, H0, <- !app_assoc. reflexivity.
  (* respond *)
  - rewrite N2, notes_app. cbn. now rewrite app_nil_r.
  - intros. congruence.
  - destruct N6 as (Q1 & Q2 & Q3); rewrite Q1 in Ed; split; [exact Q3|]; exists d, q'; rewrite Q2; cbn [concat app]; split; [reflexivity|]; split; [exact Ed|symmetry; exact Hd].
  - destruct N6 as (Q1 & Q2 & Q3); rewrite Q1 in Ed; split; [exact Q3|]; exists d, q'; rewrite Q2; cbn [concat app]; split; [reflexivity|]; split; [exact Ed|symmetry; exact Hd].
  - destruct N6 as (Q1 & Q2 & Q3); rewrite Q1 in Ed; split; [exact Q3|]; exists d, q'; rewrite Q2; cbn [concat app]; split; [reflexivity|]; split; [exact Ed|symmetry; exact Hd].
  - destruct N6 as (Q1 & Q2 & Q3); rewrite Q1 in Ed; split; [exact Q3|]; exists d, q'; rewrite Q2; cbn [concat app]; split; [reflexivity|]; split; [exact Ed|symmetry; exact Hd].
  - rewrite H2 in N6. destruct (y_phase s) eqn:E; try (destruct N6 as (Q1 & Q2 & Q3); injection Q1 as ->; auto); auto.
    + destruct N6 as (Q1 & D & w & Q2 & Q3 & Q4). split; auto. injection Q2 as <-. exists D, (q ++ [b]). rewrite Q3, <- app_assoc. auto.
    + destruct N6; discriminate.
  - rewrite H2 in N6. destruct (y_phase s) eqn:E; try (destruct N6 as (Q1 & Q2 & Q3); discriminate); auto.
    + destruct N6 as (Q1 & D & w & Q2 & _). discriminate.
    + destruct N6 as (Q1 & D & Q2 & Q3). split; auto. exists D. rewrite Q2, <- app_assoc. auto.
  - now rewrite N7, <- !app_assoc.
  - intros E. destruct (N3 E). auto.
Qed.

Lemma ynote_run : forall sv last0 tr s, sync_run sv last0 tr s -> ynote sv tr s.
Proof.
  intros sv last0 tr s H. unfold sync_run in H. remember (ystart sv) as s0 eqn:E. induction H; subst.
  - constructor; cbn; auto. constructor.
  - eapply ynote_step; eauto.
Qed.

(** ** The query on its way *)
Definition wired (s : ystate) : list query_result := results_of (r_chan s) ++ match r_resp s with Some q => [q] | None => [] end.
Definition fin_ok (tr : list yitem) (m : bool) : Prop := m = true /\ fin tr = None \/ m = false /\ fin tr <> None.
Definition yflow (tr : list yitem) (s : ystate) : Prop :=
  match y_phase s with
  | PNew | PConn => r_req s = None /\ wired s = [] /\ pages tr = [] /\ y_more s = true /\ fin tr = None /\ y_count s = 0 /\ y_ev s = []
  | PAsk => y_more s = true /\ (r_req s = Some (y_last s) /\ wired s = [] /\ fin tr = None \/
                               r_req s = None /\ exists q, wired s = [q] /\ fin_ok tr (qr_more q))
  | PResp q => y_more s = true /\ r_req s = None /\ wired s = [] /\ fin_ok tr (qr_more q)
  | PSync | PLoop => r_req s = None /\ wired s = [] /\ fin_ok tr (y_more s)
  | PFinal | PDrain | PDone => r_req s = None /\ wired s = [] /\ fin_ok tr (y_more s) /\ y_more s = false /\ y_ev s = []
  | PEnd => True
  end.

Lemma fin_ok_same : forall tr o l m, existsb is_last l = false -> fin_ok tr m -> fin_ok (tr ++ [(o, l)]) m.
Proof. intros tr o l m E H. unfold fin_ok. now rewrite fin_snoc, E. Qed.

Lemma yflow_step : forall sv last0 tr s o s' l, yflow tr s -> yexec sv last0 s o = Some (s', l) -> yflow (tr ++ [(o, l)]) s'.
Proof.
  intros sv last0 tr s o s' l F H. ycases H; turns s.
  all: unfold yflow, wired in *; proj; rewrite ?results_app; cbn [results_of flat_map app].
  all: try match goal with E : y_phase _ = _ |- _ => rewrite E in F end.
  all: unfold fin_ok in *; rewrite ?fin_snoc; snocs; shrink; cbn [existsb is_last orb]; auto.
  2-26: try solve [intuition congruence].
  - destruct (y_phase s) eqn:P; try exact I; try (exfalso; destruct F as (F1 & F); try destruct F as (F2 & _); congruence).
    destruct F as (M & [(R & W & Fn)|(R & _)]); [|congruence]. split; auto. right. split; auto. apply app_eq_nil in W as [-> _].
    eexists. split; [reflexivity|]. cbn [qr_more]. destruct (Nat.ltb _ _); cbn [orb]; [left|right]; split; auto. discriminate.
  - rewrite H0 in F. exact F.
  - rewrite H1 in F. exact F.
  - rewrite H1 in F. exact F.
  - rewrite H1 in F. cbn [results_of flat_map app] in F. fold (results_of chan) in F. destruct F as (M & [(R & W & _)|(R & q' & W & Fn)]); [discriminate|].
    injection W as <- W. auto.
  - exfalso. rewrite H1 in F. cbn [results_of flat_map app] in F.
    destruct (y_phase s); try congruence; destruct F as (F1 & F); try destruct F as (F2 & F); try destruct F as (F3 & F); discriminate.
Qed.

Lemma yflow_run : forall sv last0 tr s, sync_run sv last0 tr s -> yflow tr s.
Proof.
  intros sv last0 tr s H. unfold sync_run in H. remember (ystart sv) as s0 eqn:E. induction H; subst.
  - unfold yflow; cbn. auto 10.
  - eapply yflow_step; eauto.
Qed.
