(** A concrete local server that follows a remote one, used by examples. *)
From Coq Require Import String Bool ZArith Arith Lia Sorted List.
From Verif Require Import Base Model_Types Model_Subscription Model_Codec Model_Lmdb Model_LmdbSys Spec_Lmdb Proof_Lmdb8 Ex_Lmdb
  Model_Sync Spec_Sync Model_Replica Spec_Replica Proof_Replica2.
Import ListNotations.
Open Scope string_scope.
Open Scope list_scope.
Open Scope nat_scope.

(** Steps: of the remote or the client, of the local backend (a restart with
    the same configuration, a step else), the connection is lost, the remote is
    restarted. *)
Inductive xop := XS (o : yop) | XL (o : op) | XR | XA | XB.

Fixpoint registers (O : oracle) (s : sys) (bs : list (list event)) : option (list (op * out) * sys) :=
  match bs with
  | [] => Some ([], s)
  | b :: bs' =>
      match exec O s (ORegister b) with
      | None => None
      | Some (s1, x) => match registers O s1 bs' with None => None | Some (xs, s2) => Some ((ORegister b, x) :: xs, s2) end
      end
  end.
Lemma registers_ok : forall O bs s xs s', registers O s bs = Some (xs, s') -> runs O s xs s' /\ map fst xs = map ORegister bs /\ events_of xs = concat bs /\ confs_of xs = [].
Proof.
  intros O. induction bs as [|b bs IH]; intros s xs s' H; cbn [registers] in H.
  - injection H as <- <-. split; [constructor|auto].
  - destruct (exec O s (ORegister b)) as [[s1 x]|] eqn:E; [|discriminate]. destruct (registers O s1 bs) as [[xs1 s2]|] eqn:E2; [|discriminate]. injection H as <- <-.
    destruct (IH _ _ _ E2) as (I1 & I2 & I3 & I4). split; [econstructor; eauto|]. split; [cbn; now rewrite I2|]. split; [cbn; now rewrite <- I3|exact I4].
Qed.

Definition offline (y : ystate) : bool := match y_phase y with PNew => negb (r_up y) | _ => false end.
Definition plain (sv : Z) (o : op) : bool :=
  match o with ORegister es => forallb (fun e => negb (eid_server (ev_id e) =? sv)%Z && event_okb e) es | OReopen _ => false | _ => true end.

Definition xstep (O : oracle) (cf : conf) (sv : Z) (g : list rstep * ystate * sys) (x : xop) : option (list rstep * ystate * sys) :=
  match g with (tr, y, s) =>
  match x with
  | XS o =>
      match yexec sv (get_last_event_id (m_sys (s_mem s)) sv) y o with
      | None => None
      | Some (y', l) =>
          if forallb event_okb (concat (batches_in l)) then
            match registers O s (batches_in l) with None => None | Some (xs, s') => Some (tr ++ [RSync (o, l) xs], y', s') end
          else None
      end
  | XL o => if plain sv o then match exec O s o with None => None | Some (s', a) => Some (tr ++ [RLocal (o, a)], y, s') end else None
  | XR => if offline y then match exec O s (OReopen cf) with None => None | Some (s', a) => Some (tr ++ [RLocal (OReopen cf, a)], y, s') end else None
  | XA => Some (tr ++ [RAgain], renew sv y, s)
  | XB => Some (tr ++ [RRestart], restarted sv (stored_top sv tr) y, s)
  end
  end.
Fixpoint xplay (O : oracle) (cf : conf) (sv : Z) (g : list rstep * ystate * sys) (ops : list xop) : option (list rstep * ystate * sys) :=
  match ops with
  | [] => Some g
  | x :: ops' => match xstep O cf sv g x with None => None | Some g' => xplay O cf sv g' ops' end
  end.

Lemma xstep_ok : forall O cf sv tr y s x tr' y' s', conf_ok cf -> xstep O cf sv (tr, y, s) x = Some (tr', y', s') -> replicated O cf sv tr y s -> replicated O cf sv tr' y' s'.
Proof.
  intros O cf sv tr y s x tr' y' s' Hcf H (HR & HC & HE).
  assert (HC' : Forall conf_ok (confs_of (local_part tr))) by (inversion HC; auto).
  destruct x as [o|o| | |]; cbn [xstep] in H.
  - destruct (yexec _ _ y o) as [[y1 l]|] eqn:E1; [|discriminate]. destruct (forallb event_okb (concat (batches_in l))) eqn:Eb; [|discriminate].
    destruct (registers O s (batches_in l)) as [[xs s1]|] eqn:E2; [|discriminate]. injection H as <- <- <-. destruct (registers_ok _ _ _ _ _ E2) as (I1 & I2 & I3 & I4).
    split; [econstructor; eauto|]. rewrite local_part_snoc, confs_of_app, events_of_app, I3, I4, app_nil_r. split; [exact HC|]. apply Forall_app. split; [exact HE|].
    rewrite forallb_forall in Eb. apply Forall_forall. intros e He. apply event_okb_ok. auto.
  - destruct (plain sv o) eqn:Ep; [|discriminate]. destruct (exec O s o) as [[s1 a]|] eqn:E; [|discriminate]. injection H as <- <- <-.
    split; [eapply replica_local; eauto|].
    + destruct o; cbn [plain besides] in *; auto. rewrite forallb_forall in Ep. apply Forall_forall. intros e He. specialize (Ep _ He). apply andb_prop in Ep as [Ep _]. apply negb_true_iff, Z.eqb_neq in Ep. exact Ep.
    + intros c ->. discriminate.
    + rewrite local_part_snoc, confs_of_app, events_of_app. split; [constructor; [exact Hcf|]; apply Forall_app; split; [exact HC'|]|apply Forall_app; split; [exact HE|]].
      * destruct o; try (constructor; fail). discriminate Ep.
      * destruct o; try (constructor; fail). cbn. rewrite app_nil_r. cbn in Ep. rewrite forallb_forall in Ep. apply Forall_forall. intros e He. apply event_okb_ok. specialize (Ep _ He). apply andb_prop in Ep. tauto.
  - destruct (offline y) eqn:Eo; [|discriminate]. destruct (exec O s (OReopen cf)) as [[s1 a]|] eqn:E; [|discriminate]. injection H as <- <- <-.
    split; [eapply replica_local; eauto|].
    + exact I.
    + intros c _. unfold offline in Eo. destruct (y_phase y); try discriminate. split; [reflexivity|]. now apply negb_true_iff.
    + rewrite local_part_snoc, confs_of_app, events_of_app. split; [constructor; [exact Hcf|]; apply Forall_app; split; [exact HC'|]; repeat constructor; apply Hcf|apply Forall_app; split; [exact HE|constructor]].
  - injection H as <- <- <-. split; [constructor; exact HR|]. rewrite local_part_snoc, app_nil_r. auto.
  - injection H as <- <- <-. split; [constructor; exact HR|]. rewrite local_part_snoc, app_nil_r. auto.
Qed.

Lemma xplay_ok : forall O cf sv ops tr y s tr' y' s', conf_ok cf -> xplay O cf sv (tr, y, s) ops = Some (tr', y', s') -> replicated O cf sv tr y s -> replicated O cf sv tr' y' s'.
Proof.
  intros O cf sv. induction ops as [|x ops IH]; intros tr y s tr' y' s' Hcf H HR; cbn [xplay] in H; [injection H as <- <- <-; exact HR|].
  destruct (xstep O cf sv (tr, y, s) x) as [[[tr1 y1] s1]|] eqn:E; [|discriminate]. eapply IH; eauto. eapply xstep_ok; eauto.
Qed.

Definition xrun (cf : conf) (ops : list xop) : option (list rstep * ystate * sys) :=
  match start cf with None => None | Some s => xplay ex_oracle cf 7 ([], ystart 7, s) ops end.
Definition xtrace (cf : conf) (ops : list xop) : list rstep := match xrun cf ops with Some (tr, _, _) => tr | None => [] end.
Definition xyend (cf : conf) (ops : list xop) : ystate := match xrun cf ops with Some (_, y, _) => y | None => ystart 7 end.
Definition xsend (cf : conf) (ops : list xop) : sys := match xrun cf ops with Some (_, _, s) => s | None => end_of cf None end.
Lemma xran : forall cf ops, conf_ok cf -> (if xrun cf ops then true else false) = true -> replicated ex_oracle cf 7 (xtrace cf ops) (xyend cf ops) (xsend cf ops).
Proof.
  intros cf ops Hcf H. unfold xtrace, xyend, xsend. destruct (xrun cf ops) as [[[tr y] s]|] eqn:E; [|discriminate]. unfold xrun in E. destruct (start cf) as [s0|] eqn:E0; [|discriminate].
  eapply xplay_ok; [exact Hcf|exact E|]. split; [now constructor|]. split; [constructor; [exact Hcf|constructor]|constructor].
Qed.

Definition takenb (cf : conf) (tr : list rstep) (e : event) : bool := forallb (fun c => cf_cond c e && has_place c e) (cf :: confs_of (local_part tr)).
Lemma takenb_ok : forall cf tr e, takenb cf tr e = true -> taken cf tr e.
Proof. intros cf tr e H. unfold takenb in H. rewrite forallb_forall in H. apply Forall_forall. intros c Hc. specialize (H _ Hc). now apply andb_prop in H. Qed.

Fixpoint timelyb (es : list event) : bool := match es with [] => true | e :: es' => forallb (fun f => ts_leb (ev_ts e) (ev_ts f)) es' && timelyb es' end.
Lemma timelyb_ok : forall es, timelyb es = true -> timely es.
Proof.
  induction es as [|e es IH]; intros H; [constructor|]. cbn in H. apply andb_prop in H as [H1 H2]. constructor; [now apply IH|]. apply Forall_forall. now apply forallb_forall.
Qed.

Fixpoint safeb (done todo : list rstep) : bool :=
  match todo with
  | [] => true
  | x :: todo' =>
      match x with RRestart => match rev (concat (commits (sync_part done))) with (_, false) :: _ => false | _ => true end | _ => true end &&
      safeb (done ++ [x]) todo'
  end.
Lemma safeb_ok' : forall todo done, safeb done todo = true -> forall a b, todo = a ++ RRestart :: b -> ends_stored (done ++ a).
Proof.
  induction todo as [|x todo IH]; intros done H a b E; [destruct a; discriminate|]. cbn [safeb] in H. apply andb_prop in H as [H1 H2]. destruct a as [|y a].
  - injection E as -> ->. rewrite app_nil_r. intros l e ok El. rewrite El, rev_app_distr in H1. cbn in H1. destruct ok; auto.
  - injection E as <- E. specialize (IH _ H2 _ _ E). now rewrite <- app_assoc in IH.
Qed.
Lemma safeb_ok : forall tr, safeb [] tr = true -> restarts_safe tr.
Proof. intros tr H a b E. exact (safeb_ok' _ _ H _ _ E). Qed.

(** Events with type [skip] are not taken by the local server. *)
Definition x_conf : conf := mk_conf "0.9" (Some "id") (fun e => match ev_type e with ["skip"] => false | _ => true end) [["*"]] [(TIMESTAMP, [["*"]], None)] 10.
Lemma x_conf_ok : conf_ok x_conf.
Proof. apply conf_ok_of; reflexivity. Qed.

Definition x1 := ev 7 1 1 ["a"] 1 None.
Definition x2 := ev 7 1 2 ["a"] 1 None.
Definition x3 := ev 7 2 1 ["b"] 2 None.
Definition x4 := ev 7 3 1 ["a"] 3 None.
Definition x5 := ev 7 4 1 ["skip"] 4 None.
Definition x6 := ev 7 4 2 ["a"] 4 None.
Definition x7 := ev 7 5 1 ["b"] 5 None.
Definition x8 := ev 7 6 1 ["a"] 6 None.
Definition x_own := ev 1 1 1 ["c"] 9 None.

(** The first batch comes by query and is written.  The next ones, the second
    of which the remote does not store, come by notification. *)
Definition x_first : list xop :=
  map XS [RCommit [(x1, true); (x2, true)]; RNotify; RConnect; YBegin; YGo; RQuery 5; RRespond; YRecv; YWake; YGo; YGo] ++
  [XL (ORegister [x_own]); XL OFlush; XL OWork] ++
  map XS [RCommit [(x3, false)]; RNotify; YRecv; YDone; RCommit [(x4, true)]; RNotify; YRecv; YDone].
(** Crash of the local server; another batch is committed meanwhile, and before
    it is notified the remote crashes too. *)
Definition x_crash : list xop := [XA; XR; XS (RCommit [(x5, true); (x6, true)]); XB].
(** The new client; a batch is notified while it synchronizes. *)
Definition x_second : list xop :=
  map XS [RConnect; YBegin; YGo; RQuery 5; RCommit [(x7, true)]; RNotify; RRespond; YRecv; YRecv; YWake; YGo; YGo; YGo; YGo; RCommit [(x8, true)]].
Definition x_ops : list xop := x_first ++ x_crash ++ x_second.

(** A clock that goes back: the remote has not stored the first of these. *)
Definition xb1 := ev 7 1 1 ["b"] 9 None.
Definition xb2 := ev 7 2 1 ["a"] 5 None.
Definition x_back : list xop :=
  map XS [RConnect; YBegin; YGo; RQuery 5; RRespond; YRecv; YWake; RCommit [(xb1, false)]; RNotify; YRecv; YDone; RCommit [(xb2, true)]; RNotify; YRecv; YDone].

(** A remote that does not store its last event before it is restarted, and
    then uses its id again. *)
Definition xc1 := ev 7 1 1 ["b"] 1 None.
Definition xc2 := ev 7 1 1 ["a"] 2 None.
Definition x_reuse : list xop :=
  map XS [RConnect; YBegin; YGo; RQuery 5; RRespond; YRecv; YWake; RCommit [(xc1, false)]; RNotify; YRecv; YDone] ++ [XB] ++
  map XS [RCommit [(xc2, true)]; RNotify; RConnect; YBegin; YGo; RQuery 5; RRespond; YRecv; YWake].

Lemma persisted_of : forall tr l b e, commits tr = l -> In b l -> In (e, true) b -> persisted tr e.
Proof. intros tr l b e <- Hb He. exists b. auto. Qed.
Definition x_commits : list (list (event * bool)) :=
  [[(x1, true); (x2, true)]; [(x3, false)]; [(x4, true)]; [(x5, true); (x6, true)]; [(x7, true)]; [(x8, true)]].
