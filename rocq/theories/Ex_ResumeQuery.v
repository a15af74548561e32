(** Examples for C81: queries of a server that goes on from a converted database. *)
From Coq Require Import String Bool ZArith Lia List.
From Verif Require Import Base Kv Model_Types Model_Subscription Model_Codec Keys Model_Lmdb Model_LmdbSys Spec_Order Spec_Lmdb Spec_LmdbContent Spec_Copy
  Model_Convert Spec_Convert Spec_Resume Proof_Resume4 Ex_Lmdb Ex_LmdbTs Ex_Convert Ex_Resume Spec_LmdbQuery Spec_LmdbTs Spec_ResumeQuery.
Import ListNotations.
Open Scope string_scope.
Open Scope list_scope.
Open Scope Z_scope.

Lemma rs_consistent : consistent rs_db.
Proof. apply (final_C81_v07 rs7); [exact rs7_sound|vm_compute; reflexivity]. Qed.

Lemma rs_made : made rs_conf.
Proof. now apply made_of. Qed.

Definition rs_trace (os : list op) := trace_of (play ex_oracle rs_start os).
Definition rs_final (os : list op) := end_of rs_conf (play ex_oracle rs_start os).

Lemma rs_played : forall os, (if play ex_oracle rs_start os then true else false) = true -> op_confs os = [] -> forallb event_okb (op_events os) = true ->
    resumed ex_oracle rs_conf rs_db (rs_trace os) (rs_final os).
Proof.
  intros os E Hc He. unfold rs_trace, rs_final.
  destruct (play ex_oracle rs_start os) as [[tr s]|] eqn:P; [|discriminate E]. cbn [trace_of end_of]. apply play_runs in P as (A & B & C).
  assert (F : (if open_db rs_conf rs_db then true else false) = true) by (vm_compute; reflexivity). unfold rs_start in A.
  destruct (open_db rs_conf rs_db) as [[d m]|] eqn:O; [|discriminate F]. exists d, m. split; auto. split; auto. rewrite B, C, Hc. split.
  - constructor; [exact rs_conf_ok|constructor].
  - apply Forall_forall. intros e H. apply event_okb_ok. rewrite forallb_forall in He. auto.
Qed.

(** The converted events. *)
Definition rs_x1 : event := Ev (Eid 1 1 1) ["a"] (Ts 1 0) None (Some (PJson (JInt 5))).
Definition rs_x2 : event := Ev (Eid 2 1 1) ["b"] (Ts 5 0) None None.
Definition rs_x3 : event := Ev (Eid 1 1 2) ["a"] (Ts 2 0) None (Some (PBinary "M.T" [1; 2])).

Definition rs_before : list op := [ORegister [rs_new]; OFlush; OWork].
Definition rs_later : event := ev 1 2 2 ["b"] 9 None.

(** A timeseries query; another event is registered before it is answered. *)
Definition rs_ops_ts : list op := rs_before ++ [OTs 0 ex_asc; OWork; ORegister [rs_later]; ODeliver 0].
(** The same as the first thing the server does. *)
Definition rs_ops_first : list op := [OTs 0 ex_asc; OWork; ODeliver 0].
(** A server query. *)
Definition rs_ops_sv : list op := rs_before ++ [OServer 0 (QServer 1 false None (Some (Eid 1 1 1))); OWork; ORegister [rs_later]; ODeliver 0].
