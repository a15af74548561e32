(** Synchronization: theorems (C41, C42, C54). *)
From Coq Require Import String Bool ZArith Arith Lia Sorted List.
From Verif Require Import Base Model_Types Proof_Order Proof_Lmdb3 Model_Sync Spec_Sync Proof_Sync Proof_Sync2 Proof_Sync3 Proof_Sync4.
Import ListNotations.
Open Scope string_scope.
Open Scope list_scope.
Open Scope nat_scope.

Lemma yend : forall sv last0 tr s, sync_run sv last0 tr s -> y_phase s = PEnd ->
    exists tr' s', tr = tr' ++ [(YClose, [])] /\ sync_run sv last0 tr' s' /\ y_phase s' <> PEnd.
Proof.
  intros sv last0 tr s H He. unfold sync_run in H. remember (ystart sv) as s0 eqn:E0. destruct H; subst; [discriminate|]. exists tr, s1.
  revert He. ycases H0; turns s1; try congruence; auto.
Qed.

(** ** Batches notified after the last page *)
Lemma in_step_snoc : forall tr i, in_step (tr ++ [i]) -> in_step tr.
Proof. intros tr i H a k es l b E. apply (H a k es l (b ++ [i])). rewrite E, <- app_assoc. reflexivity. Qed.

Lemma yunsent : forall sv last0 tr s, sync_run sv last0 tr s -> forall n, fin tr = Some n -> length (unsent tr) <= n.
Proof.
  intros sv last0 tr s H. unfold sync_run in H. remember (ystart sv) as s0 eqn:E. induction H; subst; intros n Hn; [discriminate|].
  specialize (IHyruns eq_refl). rewrite fin_snoc in Hn. rewrite unsent_snoc, app_length.
  pose proof (ynote_run _ _ _ _ H) as N. pose proof (yflow_run _ _ _ _ H) as F.
  assert (C : length (commits tr) = length (unsent tr) + length (sent tr) + length (r_lag s1)).
  { rewrite <- (map_length batch), (n_all _ _ _ N), !app_length. lia. }
  destruct (existsb is_last l) eqn:L.
  - injection Hn as <-. assert (Hq : (exists k, o = RQuery k) \/ forall k, o <> RQuery k) by (destruct o; try (right; intros; discriminate); left; eauto).
    destruct Hq as [[k ->]|Hq]; [|destruct (page_out _ _ _ _ _ _ H0 Hq); congruence]. ycases H0. cbn. lia.
  - specialize (IHyruns _ Hn). enough (unsent_in l = []) as -> by (cbn; lia). ycases H0; turns s1; auto; try (match goal with |- context [drain ?x] => destruct (drain_turn x) end; auto).
    exfalso. destruct (n_up _ _ _ N) as [_ P]; auto. unfold yflow in F. destruct P as [P|P]; [|congruence]. rewrite P in F. destruct F as (_ & _ & _ & _ & F & _). congruence.
Qed.

Definition yover (tr : list yitem) (s : ystate) : Prop :=
  forall n, fin tr = Some n ->
  match y_phase s with
  | PAsk => (exists q, r_resp s = Some q /\ n <= length (unsent tr) + length (sent tr)) \/
            (exists c1 q c2, r_chan s = c1 ++ YResult q :: c2 /\ n <= length (unsent tr) + length (recvd tr) + length (notes_of c1))
  | PEnd => True
  | _ => n + length (gives FromNotify tr) <= length (unsent tr) + length (recvd tr)
  end.

Lemma yover_step : forall sv last0 tr s o s' l, ynote sv tr s -> yflow tr s -> (in_step tr -> yover tr s) -> yexec sv last0 s o = Some (s', l) ->
    in_step (tr ++ [(o, l)]) -> yover (tr ++ [(o, l)]) s'.
Proof.
  intros sv last0 tr s o s' l N F V H Hi. specialize (V (in_step_snoc _ _ Hi)). intros n Hn. rewrite fin_snoc in Hn.
  pose proof (n_sent _ _ _ N) as Ns. pose proof (n_queue _ _ _ N) as Nq.
  destruct (existsb is_last l) eqn:L.
  - injection Hn as <-. assert (Hq : (exists k, o = RQuery k) \/ forall k, o <> RQuery k) by (destruct o; try (right; intros; discriminate); left; eauto).
    destruct Hq as [[k ->]|Hq]; [|destruct (page_out _ _ _ _ _ _ H Hq); congruence]. ycases H.
    unfold yflow in F. proj. destruct (y_phase s) eqn:P; try (now destruct Hp); try (exfalso; destruct F as (F1 & F); try destruct F as (F2 & _); congruence).
    left. eexists. split; [reflexivity|]. snocs. shrink. cbn [existsb is_last orb] in L. destruct (Nat.ltb _ _) eqn:K; [discriminate|].
    specialize (Hi tr k _ [] [] eq_refl). lia.
  - specialize (V _ Hn). unfold yflow in F. ycases H; turns s; snocs; shrink; rewrite ?app_length; cbn [length].
    all: try match goal with E : y_phase _ = _ |- _ => rewrite E in V, F, Nq end.
    all: try (exfalso; destruct F as (_ & _ & _ & _ & F & _); congruence).
    all: try (destruct Nq as (_ & _ & Nq); rewrite Nq in *; cbn [length] in *; lia).
    all: try lia.
    + exact V.
    + exact V.
    + destruct (y_phase s); auto; try lia. destruct V as [(q & V1 & V2)|(c1 & q & c2 & V1 & V2)]; [left; exists q; split; auto; lia|].
      right. exists c1, q, (c2 ++ [YNote b]). rewrite V1, <- app_assoc. auto.
    + destruct (y_phase s); auto; try lia. destruct V as [(q & V1 & V2)|(c1 & q & c2 & V1 & V2)]; [left; exists q; split; auto; lia|].
      right. exists c1, q, c2. split; auto. lia.
    + exact V.
    + exfalso. destruct (y_phase s) eqn:P; try (now destruct Hp); try (destruct F as (F1 & F); try destruct F as (F2 & _); congruence).
      destruct F as (M & [(R & W & Fn)|(R & _)]); congruence.
    + destruct (y_phase s); auto; try lia. right. destruct V as [(q' & V1 & V2)|(c1 & q' & c2 & V1 & V2)].
      * exists (r_chan s), q, []. split; auto. rewrite Ns, app_length in V2. lia.
      * exists c1, q', (c2 ++ [YResult q]). rewrite V1, <- app_assoc. auto.
    + exfalso. destruct F as (_ & _ & [[_ F]|[F _]]); congruence.
    + exfalso. destruct F as (_ & _ & [[_ F]|[F _]]); congruence.
    + exfalso. destruct F as (_ & _ & _ & [[_ F]|[F _]]); congruence.
    + destruct (y_phase s); auto; try lia. destruct V as [(q' & V1 & V2)|(c1 & q' & c2 & V1 & V2)]; [left; exists q'; split; auto; lia|].
      right. rewrite H1 in V1. destruct c1 as [|m c1]; [discriminate|]. injection V1 as <- V1. exists c1, q', c2. split; auto. cbn in V2. fold (notes_of c1) in V2. lia.
    + destruct (y_phase s); auto; try lia. destruct V as [(q' & V1 & V2)|(c1 & q' & c2 & V1 & V2)]; [left; exists q'; split; auto; lia|].
      right. rewrite H1 in V1. destruct c1 as [|m c1]; [discriminate|]. injection V1 as <- V1. exists c1, q', c2. split; auto. cbn in V2. fold (notes_of c1) in V2. lia.
    + destruct Nq as (_ & _ & Nq). rewrite Nq. cbn [length]. unfold wired in F. rewrite H1 in F. cbn [results_of flat_map app] in F. fold (results_of chan) in F.
      destruct F as (M & [(R & W & _)|(R & q' & W & Fn)]); [discriminate|]. injection W as <- W. apply app_eq_nil in W as [W1 W2].
      destruct V as [(q' & V1 & V2)|(c1 & q' & c2 & V1 & V2)]; [rewrite V1 in W2; discriminate|]. rewrite H1 in V1. destruct c1 as [|m c1]; [cbn in V2; lia|].
      injection V1 as <- V1. rewrite V1, results_app in W1. apply app_eq_nil in W1 as [_ W1]. discriminate.
    + destruct (y_phase s); auto; try lia. congruence.
    + exact V.
Qed.
Lemma yover_run : forall sv last0 tr s, sync_run sv last0 tr s -> in_step tr -> yover tr s.
Proof.
  intros sv last0 tr s H. unfold sync_run in H. remember (ystart sv) as s0 eqn:E. induction H; subst; intros Hi; [intros n Hn; discriminate|].
  eapply yover_step; eauto; [eapply ynote_run|eapply yflow_run]; eauto.
Qed.

(** ** Synced states *)
Definition dcount (tr : list yitem) (s : ystate) : Prop :=
  match y_phase s with
  | PNew => told tr = []
  | PConn => told tr = [(CONNECTED, None)]
  | PDone => told tr = (CONNECTED, None) :: (if Nat.eqb (length (pcat tr)) 0 then [] else [(SYNCING, None)]) ++ [(SYNCED, Some (length (pcat tr)))]
  | PEnd => True
  | _ => told tr = (CONNECTED, None) :: (if Nat.eqb (y_count s) 0 then [] else [(SYNCING, None)])
  end /\
  match y_phase s with
  | PNew | PConn => y_count s = 0 /\ pcat tr = []
  | PAsk => y_count s + length (concat (map qr_events (wired s))) = length (pcat tr)
  | PResp q => y_count s + length (qr_events q) = length (pcat tr)
  | PEnd => True
  | _ => y_count s = length (pcat tr)
  end.
Lemma counted : forall (A : Type) (l : list A) c (x y : list (synced * option nat)), l = [] \/ c <> 0 -> (if Nat.eqb (c + length l) 0 then x else y) = (if Nat.eqb c 0 then x else y).
Proof. intros A l c x y [->|H]; [cbn; now rewrite Nat.add_0_r|]. destruct c; [now destruct H|]. reflexivity. Qed.
Lemma dcount_step : forall sv last0 tr s o s' l, yflow tr s -> dcount tr s -> yexec sv last0 s o = Some (s', l) -> dcount (tr ++ [(o, l)]) s'.
Proof.
  intros sv last0 tr s o s' l F C H. unfold yflow in F. unfold dcount in *. ycases H; turns s; rewrite ?pcat_snoc; snocs; shrink; cbn [map concat]; rewrite ?app_nil_r.
  all: try match goal with E : y_phase _ = _ |- _ => rewrite E in C, F; try rewrite E end.
  all: try exact C.
  all: try (split; auto; fail).
  all: try (destruct C as [C1 C2]; rewrite C1, C2; split; reflexivity).
  - destruct C as [C1 C2]. split; [exact C1|]. unfold wired in *. proj. rewrite results_app. cbn [results_of flat_map]. rewrite app_nil_r. exact C2.
  - destruct C as [C1 C2]. destruct (y_phase s) eqn:P; try (now destruct Hp); try (exfalso; destruct F as (F1 & F); try destruct F as (F2 & _); congruence).
    destruct F as (M & [(R & W & Fn)|(R & _)]); [|congruence]. split; auto. rewrite W in C2. unfold wired in *. proj. apply app_eq_nil in W as [-> W]. cbn [app map concat qr_events] in *. rewrite !app_length. cbn [length] in *. lia.
  - destruct C as [C1 C2]. split; [exact C1|]. unfold wired in *. proj. rewrite H0, results_app in *. cbn [results_of flat_map app] in *. rewrite app_nil_r. exact C2.
  - destruct C as [C1 C2]. rewrite C1. split; auto.
  - destruct C as [C1 [C2 C3]]. destruct F as (_ & W & _). unfold wired in *. proj. rewrite W, C1, C2, C3. auto.
  - destruct C as [C1 C2]. destruct F as (_ & W & _). unfold wired in *. proj. rewrite W. cbn. split; auto. lia.
  - destruct C as [C1 C2]. destruct F as (_ & W & _). unfold wired in *. proj. rewrite W. cbn. split; auto. lia.
  - destruct C as [C1 C2]. rewrite C1, <- C2. destruct (qr_events q) as [|x r]; [now destruct H1|]. rewrite H2 in *. cbn. auto.
  - destruct C as [C1 C2]. split; [|exact C2]. rewrite C1. now rewrite counted.
  - destruct C as [C1 C2]. destruct F as (_ & _ & W & _). unfold wired in *. proj. rewrite W. cbn [map concat length]. rewrite Nat.add_0_r. split; [|exact C2]. rewrite C1. now rewrite counted.
  - destruct C as [C1 C2]. split; [|exact C2]. rewrite C1. now rewrite counted.
  - destruct C as [C1 C2]. split; [|exact C2]. rewrite C1. now rewrite counted.
  - destruct C as [C1 C2]. split; [|exact C2]. rewrite C1, <- C2. now rewrite counted.
  - destruct C as [C1 C2]. split; [exact C1|]. unfold wired in *. proj. rewrite H1 in C2. exact C2.
  - destruct C as [C1 C2]. split; [exact C1|]. unfold wired in *. proj. rewrite H1 in C2. exact C2.
  - destruct C as [C1 C2]. split; [exact C1|]. unfold wired in *. rewrite H1 in *. cbn [results_of flat_map app map concat] in *. fold (results_of chan) in *.
    destruct F as (M & [(R & W & _)|(R & q' & W & Fn)]); [discriminate|]. injection W as <- W. rewrite W in C2. cbn in C2. rewrite app_nil_r in C2. exact C2.
  - destruct C as [C1 C2]. split; [exact C1|]. destruct (y_phase s); auto. congruence.
Qed.
Lemma dcount_run : forall sv last0 tr s, sync_run sv last0 tr s -> dcount tr s.
Proof.
  intros sv last0 tr s H. unfold sync_run in H. remember (ystart sv) as s0 eqn:E. induction H; subst; [unfold dcount; cbn; auto|].
  eapply dcount_step; eauto. eapply yflow_run; eauto.
Qed.
