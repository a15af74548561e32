(** Two concrete servers that are left alone, used by examples. *)
From Coq Require Import String Bool ZArith Arith Lia Sorted List.
From Verif Require Import Base Model_Types Model_Subscription Model_Codec Model_Lmdb Model_LmdbSys Spec_Lmdb Spec_LmdbContent Spec_LmdbQuery Proof_Lmdb8 Ex_Lmdb Model_LmdbFlush
  Model_Sync Spec_Sync Model_Replica Spec_Replica Ex_Replica Model_Pair Spec_Pair Proof_Pair Ex_Pair Spec_Converge Proof_Converge3 Proof_Converge5 Proof_Converge6.
Import ListNotations.
Open Scope string_scope.
Open Scope list_scope.
Open Scope nat_scope.

(** [of_itself] for the steps of Ex_Pair. *)
Definition selfb (st : pstate) (x : dop) : bool :=
  match x with
  | ER FWake => match f_reg (d_remote st), f_queue (d_remote st) with [], [] => false | _, _ => true end
  | ER FStart | ER FWrote | ER (FNotify _) | ER FAnswer | ER FCancel | ER FEnd | ER (FOther (ODeliver _)) | EQ _ | EC _ => true
  | ER (FOther OWork) => match s_jobs (f_sys (d_remote st)) with [] => false | _ => true end
  | _ => false
  end.
Fixpoint selfs (O : oracle) (cfA cfB : conf) (sv : Z) (g : list dstep * pstate) (ops : list dop) : bool :=
  match ops with
  | [] => true
  | x :: ops' => selfb (snd g) x && match estep O cfA cfB sv g x with None => false | Some g' => selfs O cfA cfB sv g' ops' end
  end.

Lemma estep_adds : forall O cfA cfB sv tr st x tr' st', estep O cfA cfB sv (tr, st) x = Some (tr', st') -> exists y, tr' = tr ++ [y] /\ (selfb st x = true -> of_itself st y).
Proof.
  intros O cfA cfB sv tr [F top q us c s] x tr' st' H. destruct x as [o|n|o|o| | |]; cbn [estep] in H.
  - destruct (usualb sv top us o); [|discriminate]. destruct (fexec O F o) as [[[F' xs] l]|]; [|discriminate]. destruct (edone xs); [|discriminate].
    destruct (returned q o xs (notice sv c l)) as [c' q']. injection H as <- <-. eexists. split; [reflexivity|]. cbn [of_itself selfb d_remote].
    destruct o as [| | | | | |p| | | | | | | |]; try discriminate; try (intros _; exact I).
    + destruct p; try discriminate; try (intros _; exact I). destruct (s_jobs (f_sys F)); discriminate.
    + destruct (f_reg F); [|left; discriminate]. destruct (f_queue F); [discriminate|right; discriminate].
  - destruct q; [discriminate|]. destruct (r_req c); [|discriminate]. destruct (memn n us); [discriminate|].
    destruct (exec O (f_sys F) _) as [[x [| | |]]|]; try discriminate. injection H as <- <-. eexists. split; [reflexivity|]. intros _. exact I.
  - destruct (client_op o); [|discriminate]. destruct (yexec sv _ c o) as [[c' l]|]; [|discriminate]. destruct (registers O s _) as [[xs s']|]; [|discriminate]. destruct (edone xs); [|discriminate].
    injection H as <- <-. eexists. split; [reflexivity|]. intros _. exact I.
  - destruct (plain sv o); [|discriminate]. destruct (exec O s o) as [[s' a]|]; [|discriminate]. injection H as <- <-. eexists. split; [reflexivity|discriminate].
  - destruct (offline c); [|discriminate]. destruct (exec O s _) as [[s' a]|]; [|discriminate]. injection H as <- <-. eexists. split; [reflexivity|discriminate].
  - injection H as <- <-. eexists. split; [reflexivity|discriminate].
  - destruct (exec O (f_sys F) _) as [[s' a]|]; [|discriminate]. injection H as <- <-. eexists. split; [reflexivity|discriminate].
Qed.

Lemma eplay_self : forall O cfA cfB sv ops tr st tr' st', eplay O cfA cfB sv (tr, st) ops = Some (tr', st') -> selfs O cfA cfB sv (tr, st) ops = true -> fit O cfA cfB sv tr st ->
    exists D, tr' = tr ++ D /\ undisturbed O O cfA cfB sv tr D.
Proof.
  intros O cfA cfB sv. induction ops as [|x ops IH]; intros tr st tr' st' H HS HF; cbn [eplay selfs] in *.
  - injection H as <- <-. exists []. split; [now rewrite app_nil_r|]. intros a y b s E. destruct a; discriminate.
  - apply andb_prop in HS as [S1 S2]. destruct (estep O cfA cfB sv (tr, st) x) as [[tr1 st1]|] eqn:E; [|discriminate]. pose proof (estep_ok _ _ _ _ _ _ _ _ _ E HF) as HF1.
    destruct (estep_adds _ _ _ _ _ _ _ _ _ E) as (y & -> & Hy). destruct (IH _ _ _ _ H S2 HF1) as (D & -> & U). exists (y :: D). split; [now rewrite <- app_assoc|].
    intros a z b s Ez Hs. destruct a as [|z0 a].
    + injection Ez as -> _. rewrite app_nil_r in Hs. rewrite (pair_fun _ _ _ _ _ _ _ Hs _ (fi_pair _ _ _ _ _ _ HF)). auto.
    + injection Ez as <- Ez. apply (U a z b s Ez). rewrite <- app_assoc. exact Hs.
Qed.

Definition quietb (st : pstate) : bool :=
  match s_jobs (f_sys (d_remote st)), s_ready (f_sys (d_remote st)) with [], [] => true | _, _ => false end &&
  match f_loop (d_remote st), f_reg (d_remote st), f_queue (d_remote st) with LWait, [], [] => f_open (d_remote st) | LDone, [], _ => true | _, _, _ => false end &&
  match y_phase (d_client st), r_chan (d_client st), r_req (d_client st), r_resp (d_client st) with PDone, [], None, None => negb (y_busy (d_client st)) && r_up (d_client st) | _, _, _, _ => false end.
Lemma quietb_rest : forall st, quietb st = true -> restful st.
Proof.
  intros st H. unfold quietb in H. apply andb_prop in H as [H H3]. apply andb_prop in H as [H1 H2]. unfold restful.
  destruct (s_jobs (f_sys (d_remote st))); [|discriminate]. destruct (s_ready (f_sys (d_remote st))); [|discriminate].
  destruct (y_phase (d_client st)); try discriminate. destruct (r_chan (d_client st)); [|discriminate]. destruct (r_req (d_client st)); [discriminate|]. destruct (r_resp (d_client st)); [discriminate|].
  apply andb_prop in H3 as [H3 H4]. apply negb_true_iff in H3. rewrite H3, H4.
  destruct (f_loop (d_remote st)); try discriminate; destruct (f_reg (d_remote st)); try discriminate; [destruct (f_queue (d_remote st)); [|discriminate]; rewrite H2|]; auto 12.
Qed.

Lemma left_alone : forall cfA cfB ops more, conf_ok cfA -> conf_ok cfB -> (if erun cfA cfB ops then true else false) = true -> (if erun cfA cfB (ops ++ more) then true else false) = true ->
    selfs ex_oracle cfA cfB 7 (etrace cfA cfB ops, eend cfA cfB ops) more = true -> quietb (eend cfA cfB (ops ++ more)) = true ->
    exists D, etrace cfA cfB (ops ++ more) = etrace cfA cfB ops ++ D /\ undisturbed ex_oracle ex_oracle cfA cfB 7 (etrace cfA cfB ops) D /\
      paired ex_oracle ex_oracle cfA cfB 7 (etrace cfA cfB ops ++ D) (eend cfA cfB (ops ++ more)) /\
      at_rest ex_oracle ex_oracle cfA cfB 7 (etrace cfA cfB ops ++ D) (eend cfA cfB (ops ++ more)).
Proof.
  intros cfA cfB ops more HA HB H1 H2 HS HQ. pose proof (eran _ _ _ HA HB H2) as P2.
  assert (X : exists D, etrace cfA cfB (ops ++ more) = etrace cfA cfB ops ++ D /\ undisturbed ex_oracle ex_oracle cfA cfB 7 (etrace cfA cfB ops) D).
  { unfold etrace, eend in *. unfold erun in *. destruct (start cfA) as [a|] eqn:Ea; [|discriminate]. destruct (start cfB) as [b|] eqn:Eb; [|discriminate].
    set (g0 := ([], PState (fstart a) (Eid 7 0 0) None [] (ystart 7) b)) in *.
    assert (EP : forall l1 l2 g, eplay ex_oracle cfA cfB 7 g (l1 ++ l2) = match eplay ex_oracle cfA cfB 7 g l1 with Some g' => eplay ex_oracle cfA cfB 7 g' l2 | None => None end).
    { induction l1 as [|x l1 IH]; intros l2 g; cbn [app eplay]; [reflexivity|]. destruct (estep _ _ _ _ g x); [apply IH|reflexivity]. }
    rewrite EP in H2 |- *. destruct (eplay ex_oracle cfA cfB 7 g0 ops) as [[tr st]|] eqn:E; [|discriminate].
    assert (F0 : fit ex_oracle cfA cfB 7 tr st) by (eapply eplay_ok; [exact E|]; constructor; try constructor; auto).
    destruct (eplay ex_oracle cfA cfB 7 (tr, st) more) as [[tr' st']|] eqn:E2; [|discriminate]. destruct (eplay_self _ _ _ _ _ _ _ _ _ E2 HS F0) as (D & D1 & D2). exists D. auto. }
  destruct X as (D & D1 & D2). exists D. rewrite D1 in P2. split; [exact D1|]. split; [exact D2|]. split; [exact P2|]. apply restful_rest; [exact P2|]. now apply quietb_rest.
Qed.

(** The remote has crashed with two events written and not notified, the local
    server has crashed with two events not written; another event is registered
    at the remote. *)
Definition v_ops : list dop := e_first ++ e_crash ++ [ER (FRegister [x7; x8])].
Definition v_more : list dop :=
  map EC [RConnect; YBegin; YGo] ++ [EQ 1] ++ map ER [FOther OWork; FWake; FStart; FOther (ODeliver 1); FOther OWork; FWrote; FNotify true; FAnswer] ++
  map EC [RRespond; YRecv; YRecv; YWake; YGo; YGo; YGo; YGo].
Lemma v_alone : exists D, etrace e_conf x_conf (v_ops ++ v_more) = etrace e_conf x_conf v_ops ++ D /\ undisturbed ex_oracle ex_oracle e_conf x_conf 7 (etrace e_conf x_conf v_ops) D /\
  paired ex_oracle ex_oracle e_conf x_conf 7 (etrace e_conf x_conf v_ops ++ D) (eend e_conf x_conf (v_ops ++ v_more)) /\
  at_rest ex_oracle ex_oracle e_conf x_conf 7 (etrace e_conf x_conf v_ops ++ D) (eend e_conf x_conf (v_ops ++ v_more)).
Proof. apply left_alone; [exact e_conf_ok|exact x_conf_ok|vm_compute; reflexivity|vm_compute; reflexivity|vm_compute; reflexivity|vm_compute; reflexivity]. Qed.
Lemma keeps : forall cf tr D es, map en_ev (w_all (watch_run cf (remote_part tr))) = es -> forallb (fun en => has_place (en_conf en) (en_ev en)) (w_all (watch_run cf (remote_part tr))) = true ->
    w_gone (watch_run cf (remote_part (tr ++ D))) = [] -> forall e, In e es -> to_keep cf tr D e.
Proof.
  intros cf tr D es <- P G e He. right. apply in_map_iff in He as (en & <- & He). exists en. rewrite forallb_forall in P. rewrite G. split; [exact He|]. split; [reflexivity|]. split; [exact (P en He)|].
  intros n t X. exact X.
Qed.
