(** A converted database, a server, a copy of its database and another server,
    used by examples. *)
From Coq Require Import String Bool ZArith Lia List.
From Verif Require Import Base Kv Model_Types Model_Subscription Model_Codec Keys Model_Lmdb Model_LmdbSys Spec_Order Spec_Lmdb Spec_LmdbContent Model_Copy Spec_Copy
  Model_Convert Spec_Convert Ex_Lmdb Ex_Convert Proof_Lmdb9 Spec_Resume Ex_Resume Spec_Lineage.
Import ListNotations.
Open Scope string_scope.
Open Scope list_scope.
Open Scope Z_scope.

(** Runs on a database. *)
Definition opened (cf : conf) (c : ldb) : sys := match open_db cf c with Some (d, m) => Sys cf d m [] no_changes [] [] | None => end_of cf None end.
Definition run_tr (cf : conf) (c : ldb) (ops : list op) := trace_of (play ex_oracle (opened cf c) ops).
Definition run_end (cf : conf) (c : ldb) (ops : list op) := end_of cf (play ex_oracle (opened cf c) ops).

Lemma run_resumed : forall cf c ops, conf_ok cf -> op_confs ops = [] -> forallb event_okb (op_events ops) = true ->
  (if open_db cf c then true else false) = true -> (if play ex_oracle (opened cf c) ops then true else false) = true ->
  resumed ex_oracle cf c (run_tr cf c ops) (run_end cf c ops) /\ confs_of (run_tr cf c ops) = [].
Proof.
  intros cf c ops Ok Hc He Ho Hp. unfold run_tr, run_end.
  destruct (play ex_oracle (opened cf c) ops) as [[tr s]|] eqn:P; [|discriminate Hp]. cbn [trace_of end_of]. apply play_runs in P as (A & B & C).
  unfold opened in A. destruct (open_db cf c) as [[d m]|] eqn:O; [|discriminate Ho]. split; [|now rewrite B]. exists d, m. split; auto. split; auto. rewrite B, C, Hc. split.
  - constructor; [exact Ok|constructor].
  - apply Forall_forall. intros e H. apply event_okb_ok. rewrite forallb_forall in He. now apply He.
Qed.

(** The copy is made without timeseries. *)
Definition ln_copy : ldb := match snd (copy false true (s_disk rs_end) None) with Some c => c | None => empty_db end.

(** The event with the id of a former event that is in none of the databases is
    refused. *)
Definition ln_old : event := ev 3 1 4 ["d"] 20 None.
Definition ln_new : event := ev 1 2 2 ["b"] 20 None.
Definition ln_ops : list op := [ORegister [ln_old; ln_new]; OFlush; OWork; OLatest (QLatest None)].
Definition ln_tr := run_tr rs_conf ln_copy ln_ops.
Definition ln_end := run_end rs_conf ln_copy ln_ops.
Definition ln_deeds : list deed := [Served rs_tr; Copied false true; Served ln_tr].

Lemma rs_confs : confs_of rs_tr = [].
Proof. vm_compute. reflexivity. Qed.

Lemma ln_descends : descends rs_db ln_deeds (s_disk ln_end).
Proof.
  assert (RC : resumed ex_oracle rs_conf ln_copy ln_tr ln_end /\ confs_of ln_tr = []).
  { apply (run_resumed rs_conf ln_copy ln_ops rs_conf_ok); vm_compute; reflexivity. }
  destruct RC as [R C].
  apply (server_done rs_db [Served rs_tr; Copied false true] ex_oracle rs_conf ln_tr ln_copy ln_end).
  - apply (copy_done rs_db [Served rs_tr] false true (s_disk rs_end)); [|unfold ln_copy; reflexivity].
    apply (server_done rs_db [] ex_oracle rs_conf rs_tr rs_db rs_end); [constructor|exact rs_run|].
    split; [rewrite rs_confs; constructor; constructor|reflexivity].
  - exact R.
  - split; [rewrite C; constructor; constructor|reflexivity].
Qed.

(** A server whose conditions reject the latest event of a type, and an older event
    of that type. *)
Definition ln_strict : conf := mk_conf "0.9" (Some "id") (fun e => negb (eid_server (ev_id e) =? 2)) [["*"]] [(TIMESTAMP, [["*"]], None)] 10.
Lemma ln_strict_ok : conf_ok ln_strict.
Proof. apply conf_ok_of; reflexivity. Qed.
Definition ln_older : event := ev 1 2 1 ["b"] 3 None.
Definition ln_ops2 : list op := [ORegister [ln_older]; OFlush; OWork].
