(** Concrete executions of the flush loop, used by examples. *)
From Coq Require Import String Bool ZArith Arith Lia List.
From Verif Require Import Base Model_Types Model_Lmdb Model_LmdbSys Spec_Lmdb Spec_LmdbContent Spec_LmdbQuery Proof_Lmdb8 Ex_Lmdb
  Model_LmdbFlush Spec_LmdbFlush Proof_LmdbFlush.
Import ListNotations.
Open Scope string_scope.
Open Scope list_scope.
Open Scope nat_scope.

(** Performs steps of the flush loop and notes what is seen. *)
Fixpoint fplay (O : oracle) (s : fstate) (ops : list fop) : option (list fitem * fstate) :=
  match ops with
  | [] => Some ([], s)
  | o :: ops' =>
      match fexec O s o with
      | None => None
      | Some (s1, xs, l) =>
          match fplay O s1 ops' with
          | None => None
          | Some (tr, s2) => Some ((o, xs, l) :: tr, s2)
          end
      end
  end.
Definition fplays (O : oracle) (cf : conf) (ops : list fop) : option (list fitem * fstate) :=
  match start cf with None => None | Some s => fplay O (fstart s) ops end.

Lemma fplay_runs : forall O ops s tr s', fplay O s ops = Some (tr, s') -> fruns O s tr s' /\ done_of tr = ops.
Proof.
  intros O. induction ops as [|o ops IH]; intros s tr s' H; cbn [fplay] in H.
  - injection H as <- <-. split; [constructor|reflexivity].
  - destruct (fexec O s o) as [[[s1 xs] l]|] eqn:E; [|discriminate].
    destruct (fplay O s1 ops) as [[tr1 s2]|] eqn:E2; [|discriminate]. injection H as <- <-.
    destruct (IH _ _ _ E2) as [A B]. split.
    + apply (fruns_app O s [(o, xs, l)] s1); auto. apply (fruns_snoc O s [] s); [constructor|auto].
    + cbn [done_of map fst]. unfold done_of in B. now rewrite B.
Qed.

Definition fop_events (ops : list fop) : list (list event) := flat_map (fun o => match o with FRegister es => [es] | _ => [] end) ops.

Definition ftrace_of (r : option (list fitem * fstate)) : list fitem := match r with Some (tr, _) => tr | None => [] end.
Definition fend_of (cf : conf) (r : option (list fitem * fstate)) : fstate :=
  match r with Some (_, s) => s | None => fstart (end_of cf None) end.

Lemma fplayed : forall O cf ops, (if fplays O cf ops then true else false) = true -> conf_ok cf ->
    forallb (forallb event_okb) (fop_events ops) = true ->
    lifetime O cf [] (ftrace_of (fplays O cf ops)) (fend_of cf (fplays O cf ops)).
Proof.
  unfold fplays. intros O cf ops H Hc He. destruct (start cf) as [s0|] eqn:E; [|discriminate].
  destruct (fplay O (fstart s0) ops) as [[tr s]|] eqn:Ep; [|discriminate]. cbn [ftrace_of fend_of].
  apply fplay_runs in Ep as [A B]. exists s0. split; [|split; [|split]].
  - exists s0. split; [auto|]. split; [constructor|]. split; [apply Forall_cons; [auto|apply Forall_nil]|apply Forall_nil].
  - now left.
  - exact A.
  - unfold registered. rewrite B. fold (fop_events ops). apply Forall_forall. intros es Hin. apply Forall_forall. intros e He'.
    rewrite forallb_forall in He. specialize (He _ Hin). rewrite forallb_forall in He. apply event_okb_ok. auto.
Qed.

(** Two flushes that succeed, the second during the first; a third one ends
    when the backend is closed. *)
Definition fx_ops1 : list fop := [FRegister [ex_e1]; FCall 1; FPut 1; FWake; FStart].
Definition fx_ops2 : list fop :=
  [FRegister [ex_e2]; FCall 2; FPut 2; FOther OWork; FWrote; FNotify true; FAnswer; FWake; FStart; FOther OWork; FWrote; FNotify true; FAnswer].
Definition fx_ops3 : list fop :=
  [FRegister [ex_e4]; FCall 3; FClose; FPut 3; FCancel; FStart; FOther OWork; FWrote; FNotify true; FEnd].
Definition fx_ops := fx_ops1 ++ fx_ops2 ++ fx_ops3.
Definition fx_tr := ftrace_of (fplays ex_oracle ex_conf fx_ops).
Definition fx_s := fend_of ex_conf (fplays ex_oracle ex_conf fx_ops).
Lemma fx_run : lifetime ex_oracle ex_conf [] fx_tr fx_s.
Proof. apply fplayed; [vm_compute; reflexivity|apply ex_conf_ok|vm_compute; reflexivity]. Qed.

(** Up to the second answer. *)
Definition fx_tr2 := ftrace_of (fplays ex_oracle ex_conf (fx_ops1 ++ fx_ops2)).
Definition fx_s2 := fend_of ex_conf (fplays ex_oracle ex_conf (fx_ops1 ++ fx_ops2)).
Lemma fx_run2 : lifetime ex_oracle ex_conf [] fx_tr2 fx_s2.
Proof. apply fplayed; [vm_compute; reflexivity|apply ex_conf_ok|vm_compute; reflexivity]. Qed.

(** A callback raises. *)
Definition fx_ops_cb : list fop :=
  [FRegister [ex_e1]; FRegister [ex_e2]; FWake; FStart; FOther OWork; FWrote; FNotify false; FStart; FOther OWork; FWrote; FEnd].
Definition fx_tr_cb := ftrace_of (fplays ex_oracle ex_conf fx_ops_cb).
Definition fx_s_cb := fend_of ex_conf (fplays ex_oracle ex_conf fx_ops_cb).
Lemma fx_run_cb : lifetime ex_oracle ex_conf [] fx_tr_cb fx_s_cb.
Proof. apply fplayed; [vm_compute; reflexivity|apply ex_conf_ok|vm_compute; reflexivity]. Qed.

(** A write transaction raises. *)
Definition fx_ops_fail : list fop :=
  [FRegister [ex_e1]; FWake; FStart; FRegister [ex_e2]; FFailed; FStart; FOther OWork; FWrote; FNotify true; FEnd].
Definition fx_tr_fail := ftrace_of (fplays ex_oracle ex_conf fx_ops_fail).
Definition fx_s_fail := fend_of ex_conf (fplays ex_oracle ex_conf fx_ops_fail).
Lemma fx_run_fail : lifetime ex_oracle ex_conf [] fx_tr_fail fx_s_fail.
Proof. apply fplayed; [vm_compute; reflexivity|apply ex_conf_ok|vm_compute; reflexivity]. Qed.
