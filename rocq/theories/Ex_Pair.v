(** Two concrete servers, one of which follows the other one, used by
    examples. *)
From Coq Require Import String Bool ZArith Arith Lia Sorted List.
From Verif Require Import Base Model_Types Model_Subscription Model_Codec Model_Lmdb Model_LmdbSys Spec_Lmdb Spec_LmdbContent Spec_LmdbQuery Proof_Lmdb8 Ex_Lmdb Model_LmdbFlush
  Model_Sync Spec_Sync Model_Replica Spec_Replica Ex_Replica Model_Pair Spec_Pair Proof_Pair.
Import ListNotations.
Open Scope string_scope.
Open Scope list_scope.
Open Scope nat_scope.

(** Steps: of the remote, the query comes to it, of the client, of the local
    backend, restart of the local server, loss of the connection, restart of the
    remote. *)
Inductive dop := ER (o : fop) | EQ (n : nat) | EC (o : yop) | EL (o : op) | EX | EA | EB.

Definition usualb (sv : Z) (top : event_id) (used : list nat) (o : fop) : bool :=
  match o with
  | FRegister es => growing sv top (own sv es)
  | FFailed | FNotify false => false
  | FOther (OServer q _) | FOther (OTs q _) => negb (memn q used)
  | _ => true
  end.
Lemma memn_In : forall q l, negb (memn q l) = true -> ~ In q l.
Proof. intros q l H Hi. apply negb_true_iff in H. unfold memn in H. assert (X : existsb (Nat.eqb q) l = true) by (apply existsb_exists; exists q; split; [exact Hi|apply Nat.eqb_refl]). congruence. Qed.
Lemma usualb_ok : forall sv top us o, usualb sv top us o = true -> usual sv top us o.
Proof. intros sv top us [es| |n|n|n| |o| | | | |ok| | |] H; cbn in *; auto; try discriminate; [destruct o; auto; now apply memn_In|destruct ok; [auto|discriminate]]. Qed.

Definition edone (xs : list (op * out)) : bool := forallb event_okb (events_of xs) && match confs_of xs with [] => true | _ => false end.

Definition estep (O : oracle) (cfA cfB : conf) (sv : Z) (g : list dstep * pstate) (x : dop) : option (list dstep * pstate) :=
  match g with (tr, PState F top q us c s) =>
  match x with
  | ER o =>
      if usualb sv top us o then
        match fexec O F o with
        | None => None
        | Some (F', xs, l) =>
            if edone xs then
              let '(c', q') := returned q o xs (notice sv c l) in
              Some (tr ++ [DRemote (o, xs, l)], PState F' (top_after sv top o) q' (used_after us o) c' s)
            else None
        end
      else None
  | EQ n =>
      match q, r_req c with
      | None, Some last =>
          if memn n us then None
          else match exec O (f_sys F) (OServer n (client_query sv last)) with
               | Some (x, Quiet) =>
                   Some (tr ++ [DAsk n (client_query sv last)],
                         PState (set_sys F x) top (Some n) (n :: us) (y_remote c (r_stored c) (r_top c) (r_lag c) (r_up c) None (r_resp c) (r_chan c)) s)
               | _ => None
               end
      | _, _ => None
      end
  | EC o =>
      if client_op o then
        match yexec sv (get_last_event_id (m_sys (s_mem s)) sv) c o with
        | None => None
        | Some (c', l) =>
            match registers O s (batches_in l) with
            | None => None
            | Some (xs, s') => if edone xs then Some (tr ++ [DClient (o, l) xs], PState F top q us c' s') else None
            end
        end
      else None
  | EL o =>
      if plain sv o then
        match exec O s o with
        | None => None
        | Some (s', a) => Some (tr ++ [DLocal (o, a)], PState F top q us c s')
        end
      else None
  | EX =>
      if offline c then
        match exec O s (OReopen cfB) with None => None | Some (s', a) => Some (tr ++ [DLocal (OReopen cfB, a)], PState F top q us c s') end
      else None
  | EA => Some (tr ++ [DAgain], PState F top None us (renew sv c) s)
  | EB =>
      match exec O (f_sys F) (OReopen cfA) with
      | None => None
      | Some (x, r) => Some (tr ++ [DRestart cfA], PState (fstart x) (get_last_event_id (m_sys (s_mem x)) sv) None us (renew sv c) s)
      end
  end
  end.
Fixpoint eplay (O : oracle) (cfA cfB : conf) (sv : Z) (g : list dstep * pstate) (ops : list dop) : option (list dstep * pstate) :=
  match ops with
  | [] => Some g
  | x :: ops' => match estep O cfA cfB sv g x with None => None | Some g' => eplay O cfA cfB sv g' ops' end
  end.

Record fit (O : oracle) (cfA cfB : conf) (sv : Z) (tr : list dstep) (st : pstate) : Prop := {
  fi_pair : pair O O cfA cfB sv tr st;
  fi_ca : Forall (eq cfA) (confs_of (remote_part tr));
  fi_ea : Forall event_ok (events_of (remote_part tr));
  fi_cb : Forall (eq cfB) (confs_of (near_part tr));
  fi_eb : Forall event_ok (events_of (near_part tr)) }.

Lemma edone_ok : forall xs, edone xs = true -> Forall event_ok (events_of xs) /\ confs_of xs = [].
Proof.
  intros xs H. apply andb_prop in H as [H1 H2]. rewrite forallb_forall in H1. split; [apply Forall_forall; intros e He; apply event_okb_ok; auto|].
  destruct (confs_of xs); [reflexivity|discriminate].
Qed.

Lemma estep_ok : forall O cfA cfB sv tr st x tr' st', estep O cfA cfB sv (tr, st) x = Some (tr', st') -> fit O cfA cfB sv tr st -> fit O cfA cfB sv tr' st'.
Proof.
  intros O cfA cfB sv tr [F top q us c s] x tr' st' H [HP CA EA CB EB]. destruct x as [o|n|o|o| | |]; cbn [estep] in H.
  - destruct (usualb sv top us o) eqn:U; [|discriminate]. destruct (fexec O F o) as [[[F' xs] l]|] eqn:E; [|discriminate]. destruct (edone xs) eqn:D; [|discriminate].
    destruct (returned q o xs (notice sv c l)) as [c' q'] eqn:R. injection H as <- <-. destruct (edone_ok _ D) as [D1 D2].
    constructor; rewrite ?remote_snoc, ?near_snoc; cbn [remote_part near_part flat_map]; rewrite ?app_nil_r, ?confs_of_app, ?events_of_app, ?D2, ?app_nil_r; auto.
    + econstructor; eauto. now apply usualb_ok.
    + apply Forall_app; auto.
  - destruct q; [discriminate|]. destruct (r_req c) as [last|] eqn:Q; [|discriminate]. destruct (memn n us) eqn:M; [discriminate|].
    destruct (exec O (f_sys F) (OServer n (client_query sv last))) as [[x [|a| |k]]|] eqn:E; try discriminate. injection H as <- <-.
    constructor; rewrite ?remote_snoc, ?near_snoc; cbn [remote_part near_part flat_map app]; rewrite ?app_nil_r, ?confs_of_app, ?events_of_app; cbn; rewrite ?app_nil_r; auto.
    econstructor; eauto. apply memn_In. now rewrite M.
  - destruct (client_op o) eqn:Co; [|discriminate]. destruct (yexec sv _ c o) as [[c' l]|] eqn:E; [|discriminate].
    destruct (registers O s (batches_in l)) as [[xs s']|] eqn:R; [|discriminate]. destruct (edone xs) eqn:D; [|discriminate]. injection H as <- <-. destruct (edone_ok _ D) as [D1 D2].
    destruct (registers_ok _ _ _ _ _ R) as (I1 & I2 & _ & _).
    constructor; rewrite ?remote_snoc, ?near_snoc; cbn [remote_part near_part flat_map]; rewrite ?app_nil_r, ?confs_of_app, ?events_of_app, ?D2, ?app_nil_r; auto.
    + econstructor; eauto.
    + apply Forall_app; auto.
  - destruct (plain sv o) eqn:P; [|discriminate]. destruct (exec O s o) as [[s' a]|] eqn:E; [|discriminate]. injection H as <- <-.
    assert (X : Forall event_ok (events_of [(o, a)]) /\ confs_of [(o, a)] = [] /\ besides sv o /\ forall cf, o <> OReopen cf).
    { destruct o; cbn in *; try (split; [constructor|]; split; [reflexivity|]; split; [exact I|discriminate]); [|discriminate].
      rewrite forallb_forall in P. rewrite app_nil_r. split; [|split; [reflexivity|split; [|discriminate]]]; apply Forall_forall; intros e He; specialize (P _ He); apply andb_prop in P as [P1 P2].
      - now apply event_okb_ok.
      - apply negb_true_iff, Z.eqb_neq in P1. exact P1. }
    destruct X as (X1 & X2 & X3 & X4).
    constructor; rewrite ?remote_snoc, ?near_snoc; cbn [remote_part near_part flat_map]; rewrite ?app_nil_r, ?confs_of_app, ?events_of_app; auto.
    + eapply pair_local; eauto. intros cf ->. now destruct (X4 cf).
    + rewrite X2, app_nil_r. exact CB.
    + apply Forall_app; auto.
  - destruct (offline c) eqn:Of; [|discriminate]. destruct (exec O s (OReopen cfB)) as [[s' a]|] eqn:E; [|discriminate]. injection H as <- <-.
    constructor; rewrite ?remote_snoc, ?near_snoc; cbn [remote_part near_part flat_map]; rewrite ?app_nil_r, ?confs_of_app, ?events_of_app; cbn; rewrite ?app_nil_r; auto.
    + eapply pair_local; eauto; [exact I|]. intros cf _. unfold offline in Of. destruct (y_phase c); try discriminate. split; [reflexivity|]. now apply negb_true_iff.
    + apply Forall_app. split; [exact CB|]. repeat constructor.
  - injection H as <- <-. constructor; rewrite ?remote_snoc, ?near_snoc; cbn [remote_part near_part flat_map]; rewrite ?app_nil_r; auto. econstructor; eauto.
  - destruct (exec O (f_sys F) (OReopen cfA)) as [[x r]|] eqn:E; [|discriminate]. injection H as <- <-.
    constructor; rewrite ?remote_snoc, ?near_snoc; cbn [remote_part near_part flat_map]; rewrite ?app_nil_r, ?confs_of_app, ?events_of_app; cbn; rewrite ?app_nil_r; auto.
    + econstructor; eauto.
    + apply Forall_app. split; [exact CA|]. repeat constructor.
Qed.

Lemma eplay_ok : forall O cfA cfB sv ops tr st tr' st', eplay O cfA cfB sv (tr, st) ops = Some (tr', st') -> fit O cfA cfB sv tr st -> fit O cfA cfB sv tr' st'.
Proof.
  intros O cfA cfB sv. induction ops as [|x ops IH]; intros tr st tr' st' H HR; cbn [eplay] in H; [injection H as <- <-; exact HR|].
  destruct (estep O cfA cfB sv (tr, st) x) as [[tr1 st1]|] eqn:E; [|discriminate]. eapply IH; eauto. eapply estep_ok; eauto.
Qed.

Lemma all_same : forall cf l, conf_ok cf -> Forall (eq cf) l -> Forall conf_ok (cf :: l) /\ conditions_kept (cf :: l).
Proof.
  intros cf l Hc H. split; [constructor; [exact Hc|]; eapply Forall_impl; [|exact H]; intros a <-; exact Hc|].
  assert (X : forall l, Forall (eq cf) l -> conditions_kept l).
  { unfold conditions_kept. clear. intros l H. induction l as [|x l IH]; [constructor|]. inversion H as [|x' l0 E H']; subst. constructor; [|auto].
    eapply Forall_impl; [|exact H']. intros a <- e He. exact He. }
  apply X. constructor; auto.
Qed.

Definition erun (cfA cfB : conf) (ops : list dop) : option (list dstep * pstate) :=
  match start cfA, start cfB with
  | Some a, Some b => eplay ex_oracle cfA cfB 7 ([], PState (fstart a) (Eid 7 0 0) None [] (ystart 7) b) ops
  | _, _ => None
  end.
Definition etrace (cfA cfB : conf) (ops : list dop) : list dstep := match erun cfA cfB ops with Some (tr, _) => tr | None => [] end.
Definition eend (cfA cfB : conf) (ops : list dop) : pstate :=
  match erun cfA cfB ops with Some (_, st) => st | None => PState (fstart (end_of cfA None)) (Eid 7 0 0) None [] (ystart 7) (end_of cfB None) end.

Lemma ex_pick : pick_ok ex_oracle.
Proof. intros l H. destruct l as [|x l]; [contradiction|]. exists x. split; [reflexivity|now left]. Qed.

Lemma eran : forall cfA cfB ops, conf_ok cfA -> conf_ok cfB -> (if erun cfA cfB ops then true else false) = true ->
    paired ex_oracle ex_oracle cfA cfB 7 (etrace cfA cfB ops) (eend cfA cfB ops).
Proof.
  intros cfA cfB ops HA HB H. unfold etrace, eend. destruct (erun cfA cfB ops) as [[tr st]|] eqn:E; [|discriminate]. unfold erun in E.
  destruct (start cfA) as [a|] eqn:Ea; [|discriminate]. destruct (start cfB) as [b|] eqn:Eb; [|discriminate].
  assert (X : fit ex_oracle cfA cfB 7 tr st) by (eapply eplay_ok; [exact E|]; constructor; try constructor; auto).
  destruct X as [X1 X2 X3 X4 X5]. destruct (all_same _ _ HA X2) as [A1 A2]. destruct (all_same _ _ HB X4) as [B1 _].
  split; [exact X1|]. split; [exact ex_pick|]. auto.
Qed.

(** [restarts_ok], computed: what has to be stored, and what is. *)
Fixpoint at_restarts (cf : conf) (sv : Z) (done todo : list dstep) : list (list event * list event) :=
  match todo with
  | [] => []
  | x :: todo' =>
      match x with DRestart _ => [(own sv (flushed_events (remote_part done)), map en_ev (w_disk (watch_run cf (remote_part done))))] | _ => [] end ++
      at_restarts cf sv (done ++ [x]) todo'
  end.
Lemma at_restarts_In : forall cf sv todo done a c b, todo = a ++ DRestart c :: b ->
    In (own sv (flushed_events (remote_part (done ++ a))), map en_ev (w_disk (watch_run cf (remote_part (done ++ a))))) (at_restarts cf sv done todo).
Proof.
  intros cf sv. induction todo as [|x todo IH]; intros done a c b E; [destruct a; discriminate|]. cbn [at_restarts]. apply in_or_app. destruct a as [|y a].
  - injection E as -> ->. rewrite app_nil_r. left. now left.
  - injection E as <- E. specialize (IH (done ++ [x]) _ _ _ E). rewrite <- app_assoc in IH. right. exact IH.
Qed.
Lemma calm : forall cf sv tr, Forall (fun p => forall l e, fst p = l ++ [e] -> In e (snd p)) (at_restarts cf sv [] tr) -> restarts_ok cf sv tr.
Proof. intros cf sv tr H a c b E. rewrite Forall_forall in H. exact (H _ (at_restarts_In cf sv _ [] _ _ _ E)). Qed.
Lemma calm_one : forall cf sv tr es st l0 e0, at_restarts cf sv [] tr = [(es, st)] -> es = l0 ++ [e0] -> In e0 st -> restarts_ok cf sv tr.
Proof. intros cf sv tr es st l0 e0 H -> Hi. apply calm. rewrite H. constructor; [|constructor]. cbn [fst snd]. intros l e E. apply app_inj_tail in E as [_ <-]. exact Hi. Qed.

Definition takesb (cf : conf) (tr : list dstep) (e : event) : bool := forallb (fun c => cf_cond c e && has_place c e) (cf :: confs_of (near_part tr)).
Lemma takesb_ok : forall cf tr e, takesb cf tr e = true -> takes cf tr e.
Proof. intros cf tr e H. unfold takesb in H. rewrite forallb_forall in H. apply Forall_forall. intros c Hc. specialize (H _ Hc). now apply andb_prop in H. Qed.

(** The remote does not store events with type [b]; the local
    server does not take those with type [skip]. *)
Definition e_conf : conf := mk_conf "0.9" (Some "id") (fun e => match ev_type e with ["b"] => false | _ => true end) [["*"]] [(TIMESTAMP, [["*"]], None)] 10.
Lemma e_conf_ok : conf_ok e_conf.
Proof. apply conf_ok_of; reflexivity. Qed.

(** Registration with flush; without the notification. *)
Definition e_write (es : list event) : list dop := map ER [FRegister es; FWake; FStart; FOther OWork].
Definition e_put (es : list event) : list dop := e_write es ++ map ER [FWrote; FNotify true; FAnswer].

(** As in Ex_Replica, with a real remote. *)
Definition e_first : list dop :=
  e_put [x1; x2] ++ map EC [RConnect; YBegin; YGo] ++ [EQ 0; ER (FOther OWork); ER (FOther (ODeliver 0))] ++ map EC [RRespond; YRecv; YWake; YGo; YGo] ++
  [EL (ORegister [x_own]); EL OFlush; EL OWork] ++
  e_put [x3] ++ map EC [YRecv; YDone] ++ e_put [x4] ++ map EC [YRecv; YDone].
Definition e_crash : list dop := [EA; EX] ++ e_write [x5; x6] ++ [EB].
Definition e_second : list dop :=
  map EC [RConnect; YBegin; YGo] ++ [EQ 1] ++ map ER [FRegister [x7]; FOther OWork; FWake; FStart; FOther (ODeliver 1); FOther OWork; FWrote; FNotify true; FAnswer] ++
  map EC [RRespond; YRecv; YRecv; YWake; YGo; YGo; YGo; YGo] ++ e_write [x8].
Definition e_ops : list dop := e_first ++ e_crash ++ e_second.

(** A clock that goes back, and ids used again, see Ex_Replica. *)
Definition e_sync (n : nat) : list dop := map EC [RConnect; YBegin; YGo] ++ [EQ n; ER (FOther OWork); ER (FOther (ODeliver n))] ++ map EC [RRespond; YRecv; YWake].
Definition e_back : list dop := e_sync 0 ++ e_put [xb1] ++ map EC [YRecv; YDone] ++ e_put [xb2] ++ map EC [YRecv; YDone].
Definition e_reuse : list dop := e_sync 0 ++ e_put [xc1] ++ map EC [YRecv; YDone] ++ [EB] ++ e_put [xc2] ++ e_sync 1.
