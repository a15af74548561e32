(** Two servers, one of which follows the other one: the remote's side. *)
From Coq Require Import String Bool ZArith Arith Lia Sorted List.
From Verif Require Import Base Kv Model_Types Model_Codec Keys Model_Lmdb Model_LmdbSys Spec_Lmdb Spec_LmdbContent Spec_LmdbQuery
  Proof_Lmdb3 Proof_Lmdb8 Proof_Lmdb9 Proof_Lmdb10 Proof_Lmdb13 Proof_Lmdb14 Proof_Lmdb15 Model_LmdbFlush Spec_LmdbFlush Proof_LmdbFlush Proof_LmdbFlush4
  Model_Sync Spec_Sync Model_Replica Spec_Replica Model_Pair Spec_Pair.
Import ListNotations.
Open Scope list_scope.
Open Scope nat_scope.

(** ** Parts *)

Lemma remote_snoc : forall tr x, remote_part (tr ++ [x]) = remote_part tr ++ remote_part [x].
Proof. intros. apply flat_map_app. Qed.
Lemma near_snoc : forall tr x, near_part (tr ++ [x]) = near_part tr ++ near_part [x].
Proof. intros. apply flat_map_app. Qed.
Lemma client_snoc : forall tr x, client_part (tr ++ [x]) = client_part tr ++ client_part [x].
Proof. intros. apply flat_map_app. Qed.

Lemma since_snoc : forall tr x, since (tr ++ [x]) = if lost x then [] else since tr ++ [x].
Proof.
  induction tr as [|y tr IH]; intros x; cbn [app since existsb].
  - destruct (lost x); reflexivity.
  - rewrite existsb_app. cbn [existsb]. rewrite IH. destruct (lost x); cbn [orb].
    + rewrite !orb_true_r. reflexivity.
    + rewrite !orb_false_r. destruct (lost y || existsb lost tr); reflexivity.
Qed.

Lemma current_snoc : forall tr x, current (tr ++ [x]) = if again x then [] else current tr ++ [x].
Proof.
  induction tr as [|y tr IH]; intros x; cbn [app current existsb].
  - destruct (again x); reflexivity.
  - rewrite existsb_app. cbn [existsb]. rewrite IH. destruct (again x); cbn [orb].
    + rewrite !orb_true_r. reflexivity.
    + rewrite !orb_false_r. destruct (again y || existsb again tr); reflexivity.
Qed.

(** ** Subsequences *)

Lemma own_app : forall sv a b, own sv (a ++ b) = own sv a ++ own sv b.
Proof. intros. apply filter_app. Qed.
Lemma own_In : forall sv l e, In e (own sv l) <-> In e l /\ eid_server (ev_id e) = sv.
Proof. intros. unfold own. rewrite filter_In, Z.eqb_eq. reflexivity. Qed.

Lemma subseq_filter : forall (A : Type) (p : A -> bool) (a b : list A), subseq a b -> subseq (filter p a) (filter p b).
Proof. intros A p a b H. induction H; cbn [filter]; try destruct (p _); try constructor; auto. Qed.

Lemma subseq_In : forall (A : Type) (a b : list A), subseq a b -> forall x, In x a -> In x b.
Proof. intros A a b H. induction H; intros z Hz; cbn in *; intuition. Qed.

Lemma subseq_left : forall (A : Type) (a b c : list A), subseq (a ++ b) c -> subseq a c.
Proof. intros A a b c H. rewrite <- (app_nil_r a). rewrite <- (app_nil_r b) in H. exact (subseq_cut _ _ _ _ _ H). Qed.

Lemma sorted_subseq : forall (A : Type) (R : A -> A -> Prop) (a b : list A), subseq a b -> StronglySorted R b -> StronglySorted R a.
Proof.
  intros A R a b H. induction H as [|x l1 l2 H IH|x l1 l2 H IH]; intros S; try constructor; inversion S as [|? ? S1 S2]; subst; auto.
  rewrite Forall_forall in *. intros y Hy. apply S2. eapply subseq_In; eauto.
Qed.

Lemma take_subseq : forall cf es H, subseq (map en_ev (take_events cf H es)) es.
Proof.
  intros cf. induction es as [|e es IH]; intros H; cbn [take_events]; [constructor|]. destruct (accepts H cf e); cbn [map en_ev]; constructor; auto.
Qed.

(** ** Steps of the remote *)

Definition w_ended (A : list (op * out)) : list event := fst (fst (write_run A)).
Definition w_going (A : list (op * out)) : list (list event) := snd (fst (write_run A)).
Definition w_waits (A : list (op * out)) : list event := snd (write_run A).

Lemma write_snoc : forall A x, write_run (A ++ [x]) = write_step (write_run A) x.
Proof. intros. unfold write_run. rewrite fold_left_app. reflexivity. Qed.

Definition note_list (F : fstate) (A : list (op * out)) : list (list event) :=
  match f_loop F with
  | LWrite _ bs _ => match w_going A with [] => bs | _ => [] end
  | LNotify _ bs _ => bs
  | _ => []
  end.

Record far (O : oracle) (cf : conf) (A : list (op * out)) (F : fstate) : Prop := {
  fa_exec : execution O cf A (f_sys F);
  fa_reg : w_waits A = concat (f_reg F);
  fa_cur : subseq (map en_ev (w_cur (watch_run cf A))) (w_waits A);
  fa_go : (w_going A = [] /\ w_queue (watch_run cf A) = []) \/
          exists futs bs fin h, f_loop F = LWrite futs bs fin /\ w_going A = [concat bs] /\ w_queue (watch_run cf A) = [h] /\ subseq (map en_ev h) (concat bs);
  fa_sub : subseq (w_ended A ++ concat (w_going A) ++ w_waits A) (events_of A) }.

(** Steps without a step of the database. *)
Definition still (F : fstate) : Prop := match f_loop F with LWait | LGo _ _ | LNotify _ [] _ | LDone => True | _ => False end.

Lemma fexec_still : forall O F o F' l, fexec O F o = Some (F', [], l) -> o <> FFailed -> o <> FNotify false ->
    f_sys F' = f_sys F /\ f_reg F' = f_reg F /\
    ((exists futs b bs fin, o = FNotify true /\ l = [Flushed b] /\ f_loop F = LNotify futs (b :: bs) fin /\ f_loop F' = LNotify futs bs fin) \/
     ((forall b, l <> [Flushed b]) /\
      (f_loop F' = f_loop F \/
       (exists futs bs fin, f_loop F = LWrite futs bs fin /\ f_loop F' = LNotify futs bs fin /\ flush_done (f_sys F) = true) \/
       (still F /\ still F')))).
Proof.
  assert (NA : forall gone ok futs b, answers gone ok futs <> [Flushed b]).
  { intros gone ok futs b. unfold answers. induction futs as [|[n|] futs IH]; cbn [flat_map]; try discriminate; auto.
    destruct (memn n gone); cbn [app]; [exact IH|discriminate]. }
  intros O F o F' l H H1 H2. unfold still. destruct o; try congruence; finv H; cbn [f_sys f_reg f_loop set_loop set_sys];
    try congruence; (split; [reflexivity|]); (split; [reflexivity|]);
    try (right; (split; [first [discriminate|apply NA|intros b; apply NA]|]); auto; right; auto; fail).
  - right. split; [discriminate|]. right. left. do 3 eexists. repeat split.
  - left. do 4 eexists. repeat split.
Qed.

Lemma reopen_quiet : forall O s cf x r, exec O s (OReopen cf) = Some (x, r) -> r = Quiet.
Proof. intros O s cf x r H. cbn [exec] in H. destruct (open_db cf (s_disk s)) as [[db m]|]; [|discriminate]. now injection H as <- <-. Qed.

Ltac wr := unfold w_ended, w_going, w_waits in *; rewrite ?write_snoc in *.

Lemma far_other : forall O cf A F p x r, far O cf A F -> exec O (f_sys F) p = Some (x, r) -> other p = true ->
    far O cf (A ++ [(p, r)]) (set_sys F x).
Proof.
  intros O cf A F p x r [HE HR HC HG HS] Hp Ho.
  assert (HE' : execution O cf (A ++ [(p, r)]) x).
  { apply execution_snoc. exists (f_sys F). split; [exact HE|]. split; [exact Hp|]. destruct p; try discriminate Ho; split; constructor. }
  assert (EV : events_of (A ++ [(p, r)]) = events_of A) by (rewrite events_of_app; destruct p; try discriminate Ho; apply app_nil_r).
  destruct (match p, r with OWork, Wrote => true | _, _ => false end) eqn:EW.
  - destruct p; try discriminate EW. destruct r; try discriminate EW.
    assert (Q := wrote_queue _ _ _ _ _ (execution_inv _ _ _ _ HE) Hp).
    destruct HG as [[_ Q2]|(futs & bs & fin & h & L & G & Q2 & S)]; [congruence|].
    constructor; rewrite ?EV, ?watch_run_snoc; cbn [f_sys set_sys f_reg f_loop]; try assumption;
      wr; destruct (write_run A) as [[en go] wa]; cbn [fst snd] in *; subst go; cbn [write_step watch_step fst snd hd tl concat] in *;
      cbn [w_queue w_cur] in *; try assumption.
    + left. split; [reflexivity|]. rewrite Q2. reflexivity.
    + rewrite app_nil_r in HS. rewrite <- app_assoc. exact HS.
  - assert (E1 : write_run (A ++ [(p, r)]) = write_run A).
    { rewrite write_snoc. destruct (write_run A) as [[en go] wa]. destruct p; try discriminate Ho; try reflexivity. destruct r; try discriminate EW; reflexivity. }
    assert (E2 : w_queue (watch_run cf (A ++ [(p, r)])) = w_queue (watch_run cf A) /\ w_cur (watch_run cf (A ++ [(p, r)])) = w_cur (watch_run cf A)).
    { rewrite watch_run_snoc. destruct p; try discriminate Ho; try (split; reflexivity). destruct r; try discriminate EW; split; reflexivity. }
    destruct E2 as [E2 E3]. constructor; rewrite ?EV, ?E2, ?E3; unfold w_ended, w_going, w_waits in *; rewrite ?E1; cbn [f_sys set_sys f_reg f_loop]; assumption.
Qed.

Lemma other_set : forall O F p F' xs l, fexec O F (FOther p) = Some (F', xs, l) ->
    other p = true /\ exists x r, exec O (f_sys F) p = Some (x, r) /\ F' = set_sys F x /\ xs = [(p, r)] /\ l = [].
Proof.
  intros O F p F' xs l H. cbn [fexec] in H. destruct (other p) eqn:E; [|discriminate]. split; [reflexivity|].
  destruct (exec O (f_sys F) p) as [[x r]|] eqn:E2; [|discriminate]. injection H as <- <- <-. eauto 6.
Qed.

Lemma far_step : forall O cf A F o F' xs l, far O cf A F -> fexec O F o = Some (F', xs, l) -> o <> FFailed -> o <> FNotify false ->
    Forall event_ok (events_of xs) -> far O cf (A ++ xs) F'.
Proof.
  intros O cf A F o F' xs l HF He H1 H2 Hev.
  destruct (fexec_inner _ _ _ _ _ _ He H1) as [[-> ES]|(p & r & -> & Hx & [(es & -> & ->)|[[-> ->]|[-> Ho]]])].
  - rewrite app_nil_r. destruct HF as [HE HR HC HG HS]. destruct (fexec_still _ _ _ _ _ He H1 H2) as (E1 & E2 & Hl).
    constructor; rewrite ?E1, ?E2; try assumption.
    destruct HG as [HG|(futs & bs & fin & h & L & G & Q & S)]; [now left|]. right. exists futs, bs, fin, h. split; [|auto].
    destruct Hl as [(? & ? & ? & ? & _ & _ & L2 & _)|[_ [->|[(? & ? & ? & _ & _ & Hd)|[Hs _]]]]]; [congruence|exact L| |].
    + apply flush_done_flushes in Hd. pose proof (queue_of_flushes _ _ (execution_inv _ _ _ _ HE)) as Hq. rewrite Hd, Q in Hq. discriminate.
    + unfold still in Hs. rewrite L in Hs. destruct Hs.
  - destruct HF as [HE HR HC HG HS]. pose proof He as He2. cbn [fexec] in He2. destruct (f_open F); [|discriminate].
    destruct (exec O (f_sys F) (ORegister es)) as [[x r']|] eqn:Ex; [|discriminate]. injection He2 as <- <- <-. cbn [f_sys] in Hx.
    constructor; rewrite ?watch_run_snoc, ?events_of_app; cbn [f_sys f_reg f_loop] in *.
    + apply execution_snoc. exists (f_sys F). split; [exact HE|]. split; [exact Ex|]. split; [constructor|exact Hev].
    + wr. destruct (write_run A) as [[en go] wa]. cbn [write_step fst snd] in *. rewrite concat_app, HR. cbn [concat]. now rewrite app_nil_r.
    + wr. destruct (write_run A) as [[en go] wa]. cbn [write_step watch_step fst snd w_cur] in *. rewrite map_app. apply subseq_app; [exact HC|apply take_subseq].
    + wr. destruct (write_run A) as [[en go] wa]. cbn [write_step watch_step fst snd w_queue] in *. exact HG.
    + wr. destruct (write_run A) as [[en go] wa]. cbn [write_step fst snd] in *. unfold events_of at 2. cbn [flat_map fst]. rewrite app_nil_r.
      rewrite !app_assoc. apply subseq_app; [rewrite <- app_assoc; exact HS|apply subseq_refl].
  - destruct HF as [HE HR HC HG HS]. cbn [fexec exec] in He. destruct (f_loop F) as [|futs fin| | |] eqn:L; try discriminate. injection He as <- <- <-.
    cbn [exec] in Hx.
    assert (HG' : w_going A = [] /\ w_queue (watch_run cf A) = []) by (destruct HG as [HG|(? & ? & ? & ? & C & _)]; [exact HG|discriminate]).
    destruct HG' as [G Q].
    constructor; rewrite ?watch_run_snoc, ?events_of_app; cbn [f_sys f_reg f_loop] in *.
    + apply execution_snoc. exists (f_sys F). split; [exact HE|]. split; [reflexivity|]. split; constructor.
    + wr. destruct (write_run A) as [[en go] wa]. reflexivity.
    + wr. destruct (write_run A) as [[en go] wa]. cbn [write_step watch_step fst snd w_cur map]. constructor.
    + right. exists futs, (f_reg F), fin, (w_cur (watch_run cf A)). split; [reflexivity|].
      wr. destruct (write_run A) as [[en go] wa]. cbn [write_step watch_step fst snd w_queue] in *. rewrite Q, G, <- HR. cbn [app]. auto.
    + wr. destruct (write_run A) as [[en go] wa]. cbn [write_step fst snd] in *. rewrite concat_app. cbn [concat]. rewrite !app_nil_r. exact HS.
  - destruct (other_set _ _ _ _ _ _ He) as (_ & x & r2 & Ex & -> & [= <-] & ->). eapply far_other; eauto.
Qed.

Lemma far_reopen : forall O cf A F c x, far O cf A F -> exec O (f_sys F) (OReopen c) = Some (x, Quiet) -> conf_ok c ->
    far O cf (A ++ [(OReopen c, Quiet)]) (fstart x).
Proof.
  intros O cf A F c x [HE HR HC HG HS] Hx Hc. constructor; rewrite ?watch_run_snoc, ?events_of_app; cbn [f_sys f_reg f_loop fstart].
  - apply execution_snoc. exists (f_sys F). split; [exact HE|]. split; [exact Hx|]. split; [repeat constructor; apply Hc|constructor].
  - wr. destruct (write_run A) as [[en go] wa]. reflexivity.
  - cbn [watch_step w_cur map]. apply subseq_none.
  - left. wr. destruct (write_run A) as [[en go] wa]. split; reflexivity.
  - wr. destruct (write_run A) as [[en go] wa]. cbn [write_step fst snd concat] in *. rewrite !app_nil_r. eapply subseq_left; eauto.
Qed.

Lemma usual_fine : forall sv top us o, usual sv top us o -> o <> FFailed /\ o <> FNotify false.
Proof. intros sv top us o H. split; intros ->; exact H. Qed.

Lemma pair_far : forall OA OB cfA cfB sv tr st, pair OA OB cfA cfB sv tr st ->
    Forall conf_ok (cfA :: confs_of (remote_part tr)) -> Forall event_ok (events_of (remote_part tr)) -> far OA cfA (remote_part tr) (d_remote st).
Proof.
  intros OA OB cfA cfB sv tr st H. induction H as [a b Ha Hb|tr F top q us c s o xs l F' c' q' H IH He Hu Hr|tr F top us c s last q x H IH Hq Hn He
    |tr F top q us c s o l c' xs s' H IH Ho Hy Hr Hm|tr F top q us c s o x s' H IH He Hb Hr|tr F top q us c s H IH|tr F top q us c s cf x r H IH He]; intros HC HE; cbn [d_remote] in *.
  - constructor; cbn [fstart f_sys f_reg f_loop].
    + exists a. split; [exact Ha|]. split; [constructor|auto].
    + reflexivity.
    + constructor.
    + left. split; reflexivity.
    + constructor.
  - rewrite remote_snoc in *. cbn [remote_part flat_map] in *. rewrite app_nil_r in *. rewrite confs_of_app, app_comm_cons in HC. rewrite events_of_app in HE.
    apply Forall_app in HC as [HC1 HC2]. apply Forall_app in HE as [HE1 HE2]. destruct (usual_fine _ _ _ _ Hu) as [U1 U2]. eapply far_step; eauto.
  - rewrite remote_snoc in *. cbn [remote_part flat_map app] in *. rewrite confs_of_app, app_comm_cons in HC. rewrite events_of_app in HE.
    apply Forall_app in HC as [HC1 HC2]. apply Forall_app in HE as [HE1 HE2]. apply far_other; auto.
  - rewrite remote_snoc in *. cbn [remote_part flat_map] in *. rewrite app_nil_r in *. auto.
  - rewrite remote_snoc in *. cbn [remote_part flat_map] in *. rewrite app_nil_r in *. auto.
  - rewrite remote_snoc in *. cbn [remote_part flat_map] in *. rewrite app_nil_r in *. auto.
  - rewrite remote_snoc in *. cbn [remote_part flat_map app] in *. rewrite confs_of_app, app_comm_cons in HC. rewrite events_of_app in HE.
    apply Forall_app in HC as [HC1 HC2]. apply Forall_app in HE as [HE1 HE2]. assert (r = Quiet) as -> by (eapply reopen_quiet; eauto).
    eapply far_reopen; eauto. now inversion HC2.
Qed.
