(** Invariant of the component. *)
From Coq Require Import String Bool ZArith Lia List.
From Verif Require Import Base Model_Types Model_Conditions Model_Monitor Model_Component Spec_Conditions Spec_Monitor Spec_Component Proof_Monitor.
Import ListNotations.
Open Scope string_scope.
Open Scope list_scope.

Lemma cdata_eqb_spec : forall a b, cdata_eqb a b = true <-> a = b.
Proof.
  intros [a h p t] [a' h' p' t']. unfold cdata_eqb; cbn. rewrite !andb_true_iff, !Z.eqb_eq, String.eqb_eq, (opt_eqb_spec _ _ String.eqb_eq).
  split; [intros [[[-> ->] ->] ->]; auto|intros [= -> -> -> ->]; auto].
Qed.
Lemma cdata_eqb_refl : forall d, cdata_eqb d d = true.
Proof. intros d. now apply cdata_eqb_spec. Qed.

(** ** The choice *)

Lemma active_filter_spec : forall cf i, active_filter cf i = true <-> blessed cf i.
Proof.
  intros cf i. unfold active_filter, blessed. rewrite !andb_true_iff, (opt_eqb_spec _ _ String.eqb_eq), (opt_eqb_spec _ _ Z.eqb_eq). split.
  - intros [[G R] E]. split; auto. destruct (mi_req i); [|discriminate]. eauto.
  - intros [G (t & R & E)]. rewrite R, E. auto.
Qed.

Lemma data_of_spec : forall cf i d, jwf (mi_data i) -> (data_of cf i = Some d <->
  (exists v, member "server_id" (mi_data i) v /\ int_value v (cd_id d)) /\ address (mi_data i) (cd_host d) (cd_port d) /\
  token_value "server_token" (mi_data i) (cd_token d) /\ (cf_token cf = None \/ cf_token cf = cd_token d)).
Proof.
  intros cf i d W. rewrite <- as_int_field, <- address_spec, <- as_token_field by auto. unfold data_of. split.
  - destruct (as_int (jfield "server_id" (mi_data i))) as [n|]; [|discriminate].
    destruct (as_str (jfield "host" (jfield "eventer_server" (mi_data i)))) as [h|]; [|discriminate].
    destruct (as_int (jfield "port" (jfield "eventer_server" (mi_data i)))) as [p|]; [|discriminate].
    destruct (as_token (jfield "server_token" (mi_data i))) as [t|]; [|discriminate].
    destruct (cf_token cf) as [ct|] eqn:Ec.
    + destruct (opt_eqb String.eqb (Some ct) t) eqn:E; [|discriminate]. apply (opt_eqb_spec _ _ String.eqb_eq) in E. intros [= <-]. cbn. auto 10.
    + intros [= <-]. cbn. auto 10.
  - intros (-> & [-> ->] & -> & [->| ->]); destruct d as [n h p [t|]]; cbn; rewrite ?String.eqb_refl; reflexivity.
Qed.

Lemma find_split : forall A (f : A -> bool) l, match find f l with
  | Some x => exists a b, l = a ++ x :: b /\ f x = true /\ forall y, In y a -> f y = false
  | None => forall y, In y l -> f y = false end.
Proof.
  intros A f l. induction l as [|x l IH]; cbn; [easy|]. destruct (f x) eqn:E.
  - exists [], l. repeat split; auto. easy.
  - destruct (find f l).
    + destruct IH as (u & v & -> & H & N). exists (x :: u), v. repeat split; auto. intros y [<-|Hy]; auto.
    + intros y [<-|Hy]; auto.
Qed.

Lemma active_of_spec : forall cf st d, monitor_ok st -> (active_of cf st = Some d <-> chosen cf st d).
Proof.
  intros cf st d [W _]. unfold active_of, chosen. pose proof (find_split _ (active_filter cf) (ms_components st)) as F. split.
  - destruct (find (active_filter cf) (ms_components st)) as [i|]; [|discriminate]. destruct F as (a & b & E & Fi & Fa). intros H.
    assert (Wi : jwf (mi_data i)) by (apply W; rewrite E, in_app_iff; cbn; auto). apply data_of_spec in H; auto. destruct H as (H1 & H2 & H3 & H4).
    exists a, i, b. split; auto. split; [now apply active_filter_spec|]. split; auto.
    intros j Hj B. apply active_filter_spec in B. rewrite Fa in B; [discriminate|auto].
  - intros (a & i & b & E & Bi & Ba & H). assert (Wi : jwf (mi_data i)) by (apply W; rewrite E, in_app_iff; cbn; auto).
    apply active_filter_spec in Bi. assert (Fi : find (active_filter cf) (ms_components st) = Some i).
    { rewrite E. clear - Bi Ba. induction a as [|x a IH]; cbn; [now rewrite Bi|].
      destruct (active_filter cf x) eqn:X; [exfalso; apply (Ba x); [cbn; auto|now apply active_filter_spec]|]. apply IH. intros j Hj. apply Ba. cbn. auto. }
    rewrite Fi. now apply data_of_spec.
Qed.

Lemma active_of_None : forall cf st, monitor_ok st -> (active_of cf st = None <-> forall d, ~ chosen cf st d).
Proof.
  intros cf st W. split.
  - intros E d H. apply active_of_spec in H; auto. congruence.
  - intros H. destruct (active_of cf st) as [d|] eqn:E; auto. apply active_of_spec in E; auto. destruct (H _ E).
Qed.

(** ** Traces *)

Lemma latest_snoc : forall tr o l, latest (tr ++ [(o, l)]) = match o with CState st => st | _ => latest tr end.
Proof. intros. unfold latest. rewrite fold_left_app. reflexivity. Qed.
Lemma alive_snoc : forall tr o l, alive (tr ++ [(o, l)]) = match o with CRunner => true | CDrop => false | _ => alive tr end.
Proof. intros. unfold alive. rewrite fold_left_app. reflexivity. Qed.
Lemma link_snoc : forall tr o l, link (tr ++ [(o, l)]) = fold_left lk_out l (lk_op (link tr) o).
Proof. intros. unfold link. rewrite fold_left_app. reflexivity. Qed.
Lemma pending_snoc : forall tr o l, pending (tr ++ [(o, l)]) = match o with KReturn => true | KResume | KClientClosed => false | _ => pending tr end.
Proof. intros. unfold pending. rewrite fold_left_app. reflexivity. Qed.
Lemma gave_up_snoc : forall tr o l, gave_up (tr ++ [(o, l)]) = match o with KAbort => true | LTake | LNext | CRunner => false | _ => gave_up tr end.
Proof. intros. unfold gave_up. rewrite fold_left_app. reflexivity. Qed.
Lemma since_call_snoc : forall tr o l, since_call (tr ++ [(o, l)]) = match o with KMade => [] | _ => since_call tr ++ [o] end.
Proof. intros. unfold since_call. rewrite fold_left_app. destruct o; reflexivity. Qed.
Lemma closed_itself_snoc : forall tr o l, closed_itself (tr ++ [(o, l)]) <-> closed_itself tr \/ In CloseSelf l.
Proof.
  intros tr o l. unfold closed_itself. split.
  - intros (o1 & l1 & H & C). apply in_app_iff in H. cbn in H. destruct H as [H|[[= <- <-]|[]]]; [left; eauto|auto].
  - intros [(o1 & l1 & H & C)|C]; [exists o1, l1|exists o, l]; rewrite in_app_iff; cbn; auto.
Qed.

Lemma latest_ok : forall tr, states_ok tr -> monitor_ok (latest tr).
Proof.
  induction tr as [|[o l] tr IH] using rev_ind; intros H.
  - split; cbn; easy.
  - rewrite latest_snoc. assert (T : states_ok tr) by (intros st l1 I; apply (H st l1); rewrite in_app_iff; auto).
    destruct o; auto. apply (H st l). rewrite in_app_iff. cbn. auto.
Qed.

(** The choice of the model is the specified one. *)
Lemma choice_spec : forall cf tr o, states_ok tr -> (active_of cf (latest tr) = o <-> choice cf tr o).
Proof.
  intros cf tr [d|] H; apply latest_ok in H; cbn; [now apply active_of_spec|now apply active_of_None].
Qed.

(** ** The invariant *)

Definition target (l : cloop) : option cdata := match l with LRun d => Some d | LClosing t => t | _ => None end.

Definition k_link (s : cstate) (pend : bool) (k : lk) : Prop :=
  match c_k s with
  | KNew | KSleep | KEnded => k = Off
  | KConnect => exists d, c_loop s = LRun d /\ k = Dialing d
  | KCall _ => exists d, c_loop s = LRun d /\ k = Calling d
  | KGot _ => pend = true /\ exists d, c_loop s = LRun d /\ k = Running d
  | KUp _ _ => pend = false /\ exists d, c_loop s = LRun d /\ k = Running d
  | KDownR _ => pend = false /\ exists d, k = Running d /\ forall d', c_loop s = LRun d' -> d' = d
  | KDownC _ => exists d, (forall d', c_loop s = LRun d' -> d' = d) /\ (k = Closing d /\ pend = false \/ k = Calling d /\ pend = false \/ k = Running d /\ pend = true)
  end.

Definition over (k : kphase) : Prop := k = KDownR KOver \/ k = KDownC KOver \/ k = KEnded.

Record cinv (cf : cconf) (tr : list citem) (s : cstate) : Prop := {
  ci_state : c_state s = latest tr;
  ci_alive : alive tr = match c_loop s with LOff => false | _ => true end;
  ci_follow : c_loop s <> LOff -> c_q s = QOpen /\ c_data s = active_of cf (c_state s) /\ last (c_queue s) (target (c_loop s)) = c_data s;
  ci_k : match c_loop s with LNew | LWait => c_k s = KEnded | LOff | LClosing _ => over (c_k s) | LRun _ => True end;
  ci_link : exists k, link tr = Some k /\ k_link s (pending tr) k;
  ci_pend : match c_k s with KNew | KSleep | KEnded | KConnect | KCall _ => pending tr = false | _ => True end;
  ci_source : forall d, c_loop s = LRun d -> exists a b, tr = a ++ b /\ active_of cf (latest a) = Some d;
  ci_gave : forall d, c_loop s = LRun d -> over (c_k s) -> gave_up tr = true \/ closed_itself tr;
  ci_lost : match c_k s with KCall b | KGot b | KUp b _ => (b = true <-> In KLost (since_call tr)) | _ => True end;
  ci_ends : match c_k s with KUp _ true => In KEnds (since_call tr) | KUp _ false => ~ In KEnds (since_call tr) | KCall _ | KGot _ => ~ In KEnds (since_call tr) | _ => True end;
  ci_failed : c_k s = KDownC KFailed -> In KRaise (since_call tr) /\ exists d, c_loop s = LRun d;
  ci_down : c_k s <> KDownR KFailed
}.

Lemma last_app_one : forall A (q : list A) x d, last (q ++ [x]) d = x.
Proof. intros A q x d. induction q as [|y q IH]; auto. cbn [app last]. destruct (q ++ [x]) eqn:E; [destruct q; discriminate|exact IH]. Qed.
Lemma last_cons_indep : forall A (q : list A) x d d', last (x :: q) d = last (x :: q) d'.
Proof. intros A q. induction q as [|y q IH]; intros; auto. cbn [last] in *. apply IH. Qed.

Lemma over_cancel : forall k, over (cancel_k k).
Proof. intros []; cbn; unfold over; auto. Qed.

Lemma in_snoc : forall (o x : cop) t, In o (t ++ [x]) <-> In o t \/ x = o.
Proof. intros. rewrite in_app_iff. cbn. tauto. Qed.

Ltac csolve :=
  repeat match goal with
  | |- context [latest (_ ++ [_])] => rewrite latest_snoc
  | |- context [alive (_ ++ [_])] => rewrite alive_snoc
  | |- context [link (_ ++ [_])] => rewrite link_snoc
  | |- context [pending (_ ++ [_])] => rewrite pending_snoc
  | |- context [gave_up (_ ++ [_])] => rewrite gave_up_snoc
  | |- context [since_call (_ ++ [_])] => rewrite since_call_snoc
  | |- context [closed_itself (_ ++ [_])] => rewrite closed_itself_snoc
  end.

Lemma source_snoc : forall cf tr x d, (exists a b, tr = a ++ b /\ active_of cf (latest a) = Some d) -> exists a b, tr ++ [x] = a ++ b /\ active_of cf (latest a) = Some d.
Proof. intros cf tr x d (a & b & -> & E). exists a, (b ++ [x]). now rewrite <- app_assoc. Qed.

(** Steps that concern only the client loop. *)
Lemma k_step : forall cf tr s o l op k, cinv cf tr s ->
  match o with CState _ | CRunner | CDrop | CClose | LStart | LTake | LNext => False | _ => True end ->
  (exists k0, fold_left lk_out l (lk_op (link tr) o) = Some k0 /\ k_link (with_k s k) (pending (tr ++ [(o, l)])) k0) ->
  (exists d, c_loop s = LRun d) \/ (over k /\ over (c_k s) /\ c_loop s <> LNew /\ c_loop s <> LWait) ->
  match k with KNew | KSleep | KEnded | KConnect | KCall _ => pending (tr ++ [(o, l)]) = false | _ => True end ->
  (forall d, c_loop s = LRun d -> over k -> gave_up tr = true \/ closed_itself tr \/ o = KAbort \/ In CloseSelf l) ->
  match k with KCall b | KGot b | KUp b _ => (b = true <-> In KLost (since_call (tr ++ [(o, l)]))) | _ => True end ->
  match k with KUp _ true => In KEnds (since_call (tr ++ [(o, l)])) | KUp _ false => ~ In KEnds (since_call (tr ++ [(o, l)])) | KCall _ | KGot _ => ~ In KEnds (since_call (tr ++ [(o, l)])) | _ => True end ->
  (k = KDownC KFailed -> In KRaise (since_call (tr ++ [(o, l)]))) ->
  k <> KDownR KFailed ->
  cinv cf (tr ++ [(o, l)]) (Cstate op (c_state s) (c_data s) (c_queue s) (c_q s) (c_loop s) k).
Proof.
  intros cf tr s o l op k H Ho Hl Hk Hp Hg Hlo He Hf Hd.
  assert (N : latest (tr ++ [(o, l)]) = latest tr) by (rewrite latest_snoc; destruct o; easy).
  assert (A : alive (tr ++ [(o, l)]) = alive tr) by (rewrite alive_snoc; destruct o; easy).
  constructor; cbn [c_state c_loop c_q c_data c_queue c_k].
  - rewrite N. apply (ci_state _ _ _ H).
  - rewrite A. apply (ci_alive _ _ _ H).
  - apply (ci_follow _ _ _ H).
  - destruct (c_loop s) eqn:E; auto; destruct Hk as [[d X]|(X & Y & P & Q)]; try discriminate; congruence || auto.
  - rewrite link_snoc. exact Hl.
  - exact Hp.
  - intros d E. apply source_snoc. now apply (ci_source _ _ _ H).
  - intros d E Ov. rewrite closed_itself_snoc. specialize (Hg d E Ov). rewrite gave_up_snoc. destruct Hg as [G|[G|[->|G]]]; auto. destruct o; auto; contradiction.
  - exact Hlo.
  - exact He.
  - intros E. split; auto. destruct Hk as [X|(X & _)]; auto. subst k. exfalso. unfold over in X. intuition discriminate.
  - exact Hd.
Qed.

Lemma cinv_start : forall cf, cinv cf [] cstart.
Proof.
  intros cf. constructor; cbn; auto; try easy.
  - unfold over; auto.
  - exists Off. split; reflexivity.
Qed.

Lemma k_loop : forall cf tr s, cinv cf tr s -> (exists d, c_loop s = LRun d) \/ (over (c_k s) /\ c_loop s <> LNew /\ c_loop s <> LWait) \/ c_k s = KEnded.
Proof.
  intros cf tr s H. pose proof (ci_k _ _ _ H) as Ik. destruct (c_loop s) as [| | |d|t]; eauto; right; left; repeat split; auto; discriminate.
Qed.

Ltac linked Il Kl :=
  rewrite Il;
  first
    [ solve [subst; eexists; split; [reflexivity|cbn; eauto]]
    | let P := fresh in let d := fresh "d" in let X := fresh in destruct Kl as (P & d & X & ->); try rewrite P in *; try rewrite X; solve [eexists; split; [reflexivity|cbn; eauto 6]]
    | let d := fresh "d" in let X := fresh in destruct Kl as (d & X & ->); try match goal with Y : c_loop _ = LRun _ |- _ => rewrite Y in X; injection X as <- end;
      solve [eexists; split; [cbn; rewrite ?cdata_eqb_refl; reflexivity|cbn; eauto 6]]
    | idtac ].

Lemma k_loop_not : forall cf tr s, cinv cf tr s -> ~ over (c_k s) -> exists d, c_loop s = LRun d.
Proof. intros cf tr s H N. destruct (k_loop _ _ _ H) as [X|[[X _]|X]]; auto; [contradiction|]. exfalso. apply N. unfold over. auto. Qed.

Ltac not_over := let X := fresh in unfold over; intros [X|[X|X]]; discriminate X.
Ltac kgo Kl Il K L :=
  unfold k_link in Kl; rewrite K in Kl;
  apply k_step; [assumption|exact I|rewrite ?pending_snoc; unfold k_link; cbn [c_k c_loop with_k]; linked Il Kl
    |first [left; eapply k_loop_not; [eassumption|rewrite K; not_over]|idtac]| | | | | |];
  rewrite ?since_call_snoc, ?pending_snoc, ?in_snoc; unfold with_k, over in *; cbn [c_k c_loop] in *; rewrite ?K in *;
  try discriminate; try exact I; auto;
  try match goal with
  | |- forall d, _ -> (_ \/ _) -> _ => let X := fresh in intros ? ? [X|[X|X]]; discriminate X
  | H : cinv _ _ _, J : forall d, _ -> _ -> _, J' : forall d, _ -> exists _, _ |- (_ <-> _) => clear H J J'; intuition discriminate
  | H : cinv _ _ _, J : forall d, _ -> _ -> _, J' : forall d, _ -> exists _, _ |- (~ _) => clear H J J'; intuition discriminate
  end.

Lemma cinv_step : forall cf tr s o s' l, cinv cf tr s -> cexec cf s o = Some (s', l) -> cinv cf (tr ++ [(o, l)]) s'.
Proof.
  intros cf tr s o s' l H E.
  pose proof (ci_k _ _ _ H) as Ik. pose proof (ci_link _ _ _ H) as (k0 & Il & Kl). pose proof (ci_pend _ _ _ H) as Ip.
  pose proof (ci_gave _ _ _ H) as Ig. pose proof (ci_lost _ _ _ H) as Ilo. pose proof (ci_ends _ _ _ H) as Ie. pose proof (ci_failed _ _ _ H) as If. pose proof (ci_down _ _ _ H) as Id.
  pose proof (ci_source _ _ _ H) as Is.
  destruct o; cbn [cexec] in E.
  - (* CState *) injection E as <- <-.
    assert (F : c_loop (on_state cf s st) = c_loop s /\ c_k (on_state cf s st) = c_k s /\ c_q (on_state cf s st) = c_q s /\ c_state (on_state cf s st) = st).
    { unfold on_state. destruct (c_q s) eqn:Q; cbn; auto; destruct (opt_eqb cdata_eqb (active_of cf st) (c_data s)); cbn; auto. }
    destruct F as (Fl & Fk & Fq & Fs). constructor; rewrite ?Fl, ?Fk, ?Fq, ?Fs.
    + now rewrite latest_snoc.
    + rewrite alive_snoc. apply (ci_alive _ _ _ H).
    + intros N. destruct (ci_follow _ _ _ H N) as (Q & D & L). split; auto. unfold on_state. rewrite Q.
      destruct (opt_eqb cdata_eqb (active_of cf st) (c_data s)) eqn:X; cbn.
      * apply (opt_eqb_spec _ _ cdata_eqb_spec) in X. split; [congruence|]. congruence.
      * split; auto. apply last_app_one.
    + exact Ik.
    + exists k0. rewrite link_snoc, pending_snoc. cbn [fold_left]. rewrite Il. split; [destruct k0; reflexivity|].
      unfold k_link in *. rewrite ?Fk, ?Fl. exact Kl.
    + rewrite pending_snoc. exact Ip.
    + intros d X. apply source_snoc. auto.
    + intros d X Ov. rewrite gave_up_snoc, closed_itself_snoc. destruct (Ig d X Ov); auto.
    + rewrite since_call_snoc. destruct (c_k s); auto; rewrite in_snoc; rewrite Ilo; intuition discriminate.
    + rewrite since_call_snoc. destruct (c_k s) as [| | | | |? []| | |]; auto; rewrite in_snoc; intuition discriminate.
    + rewrite since_call_snoc. rewrite in_snoc. intros X. destruct (If X). auto.
    + exact Id.
  - (* CRunner *) destruct (c_loop s) eqn:L; try discriminate. destruct (c_k s) eqn:K; try discriminate. destruct (c_open s) eqn:O; try discriminate.
    injection E as <- <-. constructor; cbn [c_loop c_k c_q c_state c_data c_queue create_runner].
    + rewrite latest_snoc. apply (ci_state _ _ _ H).
    + now rewrite alive_snoc.
    + intros _. cbn. split; auto. split; auto. destruct (active_of cf (c_state s)); reflexivity.
    + exact K.
    + exists k0. rewrite link_snoc, pending_snoc. cbn [fold_left]. rewrite Il. split; [destruct k0; reflexivity|].
      unfold k_link in *. cbn [create_runner c_k c_loop]. rewrite K in *. exact Kl.
    + rewrite K. now rewrite pending_snoc.
    + intros d X. discriminate.
    + intros d X. discriminate.
    + now rewrite K.
    + now rewrite K.
    + rewrite K. discriminate.
    + rewrite K. discriminate.
  - (* CDrop *)
    assert (G : l = [] /\ c_loop s' = LOff /\ c_state s' = c_state s /\ c_k s' = cancel_k (c_k s)).
    { destruct (c_loop s) eqn:L; try discriminate; injection E as <- <-; cbn; auto. rewrite Ik. auto. }
    destruct G as (-> & Gl & Gs & Gk). clear E. constructor; rewrite ?Gl, ?Gs, ?Gk.
    + rewrite latest_snoc. apply (ci_state _ _ _ H).
    + now rewrite alive_snoc.
    + congruence.
    + apply over_cancel.
    + rewrite link_snoc, pending_snoc, Il. cbn [fold_left]. unfold k_link in *. rewrite Gk, Gl.
      destruct (c_k s); cbn [cancel_k].
      * subst k0. exists Off. auto.
      * destruct Kl as (d & _ & ->). exists Off. auto.
      * subst k0. exists Off. auto.
      * destruct Kl as (d & _ & ->). exists (Calling d). split; auto. exists d. split; [discriminate|]. right; left. auto.
      * destruct Kl as (P & d & _ & ->). exists (Running d). split; auto. exists d. split; [discriminate|]. right; right. auto.
      * destruct Kl as (P & d & _ & ->). exists (Running d). split; auto. split; auto. exists d. split; auto. discriminate.
      * destruct Kl as (P & d & -> & _). exists (Running d). split; auto. split; auto. exists d. split; auto. discriminate.
      * destruct Kl as (d & _ & Kl). exists k0. split; [destruct Kl as [[-> _]|[[-> _]|[-> _]]]; reflexivity|]. exists d. split; [discriminate|auto].
      * subst k0. exists Off. auto.
    + rewrite pending_snoc. destruct (c_k s); cbn; auto.
    + discriminate.
    + discriminate.
    + destruct (c_k s); cbn; auto.
    + destruct (c_k s); cbn; auto.
    + destruct (c_k s); cbn; discriminate.
    + destruct (c_k s); cbn; discriminate.
  - (* CClose *) injection E as <- <-. constructor; cbn [c_loop c_k c_q c_state c_data c_queue close_self].
    + rewrite latest_snoc. apply (ci_state _ _ _ H).
    + rewrite alive_snoc. apply (ci_alive _ _ _ H).
    + apply (ci_follow _ _ _ H).
    + exact Ik.
    + exists k0. rewrite link_snoc, pending_snoc. cbn [fold_left]. rewrite Il. split; [destruct k0; reflexivity|exact Kl].
    + rewrite pending_snoc. exact Ip.
    + intros d X. apply source_snoc. auto.
    + intros d X Ov. rewrite gave_up_snoc, closed_itself_snoc. destruct (Ig d X Ov); auto.
    + rewrite since_call_snoc. destruct (c_k s); auto; rewrite in_snoc; rewrite Ilo; intuition discriminate.
    + rewrite since_call_snoc. destruct (c_k s) as [| | | | |? []| | |]; auto; rewrite in_snoc; intuition discriminate.
    + rewrite since_call_snoc. rewrite in_snoc. intros X. destruct (If X). auto.
    + exact Id.
  - (* LStart *) destruct (c_loop s) eqn:L; try discriminate. injection E as <- <-. constructor; cbn [c_loop c_k c_q c_state c_data c_queue with_loop].
    + rewrite latest_snoc. apply (ci_state _ _ _ H).
    + rewrite alive_snoc. rewrite (ci_alive _ _ _ H), L. reflexivity.
    + intros _. destruct (ci_follow _ _ _ H) as (A & B & C); [congruence|]. rewrite L in C. auto.
    + exact Ik.
    + exists k0. rewrite link_snoc, pending_snoc. cbn [fold_left]. rewrite Il. split; [destruct k0; reflexivity|].
      unfold k_link in *. cbn [with_loop c_k c_loop]. rewrite Ik in *. exact Kl.
    + rewrite pending_snoc. exact Ip.
    + discriminate.
    + discriminate.
    + now rewrite Ik.
    + now rewrite Ik.
    + rewrite Ik. discriminate.
    + rewrite Ik. discriminate.
  - (* LTake *) destruct (c_queue s) as [|q0 q] eqn:Q; try discriminate.
    destruct (c_loop s) as [| | |d|t] eqn:L; try discriminate.
    + (* LWait *) destruct (ci_follow _ _ _ H) as (A & B & C); [congruence|]. rewrite L, Q in C. cbn [target] in C. unfold newest_of in E. rewrite C in E.
      unfold k_link in Kl. rewrite Ik in Kl, Ip. subst k0.
      unfold serve in E. destruct (c_data s) as [d|] eqn:D; injection E as <- <-; (constructor; cbn [c_loop c_k c_q c_state c_data c_queue with_loop]).
      all: try (rewrite latest_snoc; apply (ci_state _ _ _ H)).
      all: try (rewrite alive_snoc; rewrite (ci_alive _ _ _ H), L; reflexivity).
      all: try (intros _; cbn; rewrite D; auto; fail).
      all: try (rewrite ?Ik; exact I).
      all: try (rewrite ?Ik; rewrite pending_snoc; exact Ip).
      all: try discriminate.
      all: try (rewrite Ik; discriminate).
      * exists Off. rewrite link_snoc, Il. cbn. auto.
      * intros d' [= <-]. apply source_snoc. exists tr, []. rewrite app_nil_r. split; auto. rewrite <- (ci_state _ _ _ H). congruence.
      * intros d' [= <-] Ov. unfold over in Ov. intuition discriminate.
      * exact Ik.
      * exists Off. rewrite link_snoc, Il. unfold k_link. cbn [with_loop c_k c_loop]. rewrite Ik. cbn. auto.
    + (* LRun *) destruct (ci_follow _ _ _ H) as (A & B & C); [congruence|]. rewrite L, Q in C. cbn [target] in C. unfold newest_of in E.
      rewrite (last_cons_indep _ q q0 None (Some d)), C in E. injection E as <- <-. constructor; cbn [c_loop c_k c_q c_state c_data c_queue with_loop].
      * rewrite latest_snoc. apply (ci_state _ _ _ H).
      * rewrite alive_snoc. rewrite (ci_alive _ _ _ H), L. reflexivity.
      * intros _. cbn. auto.
      * apply over_cancel.
      * rewrite link_snoc, pending_snoc, Il. cbn [fold_left]. unfold k_link in *. cbn [with_loop c_k c_loop]. 
        destruct (c_k s); cbn [cancel_k].
        -- subst k0. exists Off. auto.
        -- destruct Kl as (d' & _ & ->). exists Off. auto.
        -- subst k0. exists Off. auto.
        -- destruct Kl as (d' & _ & ->). exists (Calling d'). split; auto. exists d'. split; [discriminate|]. right; left. auto.
        -- destruct Kl as (P & d' & _ & ->). exists (Running d'). split; auto. exists d'. split; [discriminate|]. right; right. auto.
        -- destruct Kl as (P & d' & _ & ->). exists (Running d'). split; auto. split; auto. exists d'. split; auto. discriminate.
        -- destruct Kl as (P & d' & -> & _). exists (Running d'). split; auto. split; auto. exists d'. split; auto. discriminate.
        -- destruct Kl as (d' & _ & Kl). exists k0. split; [destruct Kl as [[-> _]|[[-> _]|[-> _]]]; reflexivity|]. exists d'. split; [discriminate|auto].
        -- subst k0. exists Off. auto.
      * rewrite pending_snoc. destruct (c_k s); cbn; auto.
      * discriminate.
      * discriminate.
      * destruct (c_k s); cbn; auto.
      * destruct (c_k s); cbn; auto.
      * destruct (c_k s); cbn; discriminate.
      * destruct (c_k s); cbn; discriminate.
  - (* LNext *) destruct (c_loop s) as [| | |d|t] eqn:L; try discriminate. destruct (c_k s) eqn:K; try discriminate.
    destruct (ci_follow _ _ _ H) as (A & B & C); [congruence|]. rewrite L in C. cbn [target] in C. unfold newest_of in E. rewrite C in E.
    unfold k_link in Kl. rewrite K in Kl. subst k0.
    unfold serve in E. destruct (c_data s) as [d|] eqn:D; injection E as <- <-; (constructor; cbn [c_loop c_k c_q c_state c_data c_queue with_loop]).
    all: try (rewrite latest_snoc; apply (ci_state _ _ _ H)).
    all: try (rewrite alive_snoc; rewrite (ci_alive _ _ _ H), L; reflexivity).
    all: try (intros _; cbn; rewrite D; auto; fail).
    all: try (rewrite ?K; exact I).
    all: try (rewrite ?K; rewrite pending_snoc; exact Ip).
    all: try discriminate.
    all: try (rewrite K; discriminate).
    + exists Off. rewrite link_snoc, Il. cbn. auto.
    + intros d' [= <-]. apply source_snoc. exists tr, []. rewrite app_nil_r. split; auto. rewrite <- (ci_state _ _ _ H). congruence.
    + intros d' [= <-] Ov. unfold over in Ov. intuition discriminate.
    + exact K.
    + exists Off. rewrite link_snoc, Il. unfold k_link. cbn [with_loop c_k c_loop]. rewrite K. cbn. auto.
  - (* KStart *) destruct (c_loop s) as [| | |d|t] eqn:L; try discriminate. destruct (c_k s) eqn:K; try discriminate. injection E as <- <-.
    kgo Kl Il K L.
  - (* KMade *) destruct (c_loop s) as [| | |d|t] eqn:L; try discriminate. destruct (c_k s) eqn:K; try discriminate. injection E as <- <-.
    kgo Kl Il K L. split; [discriminate|contradiction].
  - (* KFail *) destruct (c_k s) eqn:K; try discriminate. injection E as <- <-. kgo Kl Il K L.
  - (* KWake *) destruct (c_loop s) as [| | |d|t] eqn:L; try discriminate. destruct (c_k s) eqn:K; try discriminate. injection E as <- <-.
    kgo Kl Il K L.
  - (* KReturn *) destruct (c_k s) eqn:K; try discriminate. injection E as <- <-. kgo Kl Il K L.
  - (* KRaise *) destruct (c_k s) eqn:K; try discriminate. injection E as <- <-. kgo Kl Il K L.
    destruct Kl as (d & X & ->). exists (Calling d). split; auto. exists d. split; [congruence|auto].
  - (* KAbort *) destruct (c_k s) as [| | |[]| | | | |] eqn:K; try discriminate. injection E as <- <-. kgo Kl Il K L.
    destruct Kl as (d & X & ->). exists (Calling d). split; auto. exists d. split; [congruence|auto].
  - (* KResume *) destruct (c_k s) eqn:K; try discriminate. injection E as <- <-. kgo Kl Il K L.
  - (* KLost *) destruct (c_k s) as [| | | | |b e| | |] eqn:K; try discriminate; injection E as <- <-; kgo Kl Il K L.
    destruct e; rewrite in_snoc; [auto|intuition discriminate].
  - (* KEnds *) destruct (c_k s) eqn:K; try discriminate; injection E as <- <-; kgo Kl Il K L.
  - (* KNotice *) destruct (c_k s) as [| | | | |b e| | |] eqn:K; try discriminate. destruct ((cl || rn) && implb cl b && implb rn e); try discriminate.
    destruct (rn && negb cl); injection E as <- <-.
    + unfold close_self. cbn [with_k c_state c_data c_queue c_q c_loop c_k]. kgo Kl Il K L.
      * destruct Kl as (P & d & X & ->). exists (Running d). split; auto. split; auto. exists d. split; [auto|congruence].
      * intros d _ _. cbn. auto 10.
    + kgo Kl Il K L. destruct Kl as (P & d & X & ->). exists (Running d). split; auto. split; auto. exists d. split; [auto|congruence].
  - (* KRunnerClosed *) destruct (c_k s) as [| | | | | |e| |] eqn:K; try discriminate. injection E as <- <-. kgo Kl Il K L.
    + destruct Kl as (P & d & -> & X). exists (Closing d). split; auto. exists d. auto.
    + destruct (k_loop _ _ _ H) as [Z|[Z|Z]]; [auto| |congruence]. rewrite K in Z. unfold over in Z. right. destruct Z as [[Z|[Z|Z]] Z']; try discriminate. injection Z as ->. auto 10.
    + intros d X Y. assert (e = KOver) as -> by (destruct Y as [Y|[Y|Y]]; congruence). destruct (Ig d X); auto.
    + intros [= ->]. congruence.
  - (* KClientClosed *) destruct (c_k s) as [| | | | | | |[]|] eqn:K; try discriminate; injection E as <- <-.
    + kgo Kl Il K L. destruct Kl as (d & _ & [[-> _]|[[-> _]|[-> _]]]); exists Off; auto.
    + kgo Kl Il K L.
      * destruct Kl as (d & _ & [[-> _]|[[-> _]|[-> _]]]); exists Off; auto.
      * destruct (k_loop _ _ _ H) as [Z|[[_ Z]|Z]]; [auto|auto 10|congruence].
      * intros d X _. destruct (Ig d X); auto.
    + unfold close_self. cbn [with_k c_state c_data c_queue c_q c_loop c_k]. kgo Kl Il K L.
      * destruct Kl as (d & _ & [[-> _]|[[-> _]|[-> _]]]); exists Off; auto.
      * intros d _ _. cbn. auto 10.
Qed.

Theorem cinv_runs : forall cf tr s, cruns cf tr s -> cinv cf tr s.
Proof. intros cf tr s H. induction H; [apply cinv_start|eapply cinv_step; eauto]. Qed.
