(** Concrete executions of the LMDB backend with timeseries queries, used by
    examples. *)
From Coq Require Import String Bool ZArith Lia List.
From Verif Require Import Base Kv Model_Types Model_Subscription Model_Codec Keys Spec_Subscription Model_Lmdb Model_LmdbSys Spec_Lmdb Spec_LmdbContent
  Spec_LmdbQuery Spec_LmdbTs Proof_Subscription2 Proof_Lmdb8 Ex_Lmdb.
Import ListNotations.
Open Scope string_scope.
Open Scope list_scope.
Open Scope Z_scope.

Lemma ex_disj_ok : disj_ok ex_oracle.
Proof. intros qs1 qs2 a b. apply final_C05. Qed.

Lemma made_of : forall v i c l ps m, forallb (fun p => if py_create (snd (fst p)) then true else false) ps = true ->
    made (mk_conf v i c l ps m).
Proof.
  intros v i c l ps m H pt Hi. apply in_map_iff in Hi as ([[ob qs] lim] & <- & Hi). rewrite forallb_forall in H. specialize (H _ Hi).
  cbn [fst snd pt_sub] in *. exists qs. unfold sub_of. destruct (py_create qs); [auto|discriminate].
Qed.
Lemma ex_made : made ex_conf.
Proof. now apply made_of. Qed.

(** Of the stored events one is before the range; another one is registered
    during the query. *)
Definition ex_ts : query_timeseries :=
  QTimeseries (Some [["a"; "*"]]) (Some (Ts 2 0)) None None None ASCENDING TIMESTAMP (Some 2) None.
Definition ex_ops_ts := ex_ops ++ [OTs 0 ex_ts; ORegister [ex_e7]; OWork; ODeliver 0].
Definition ex_during_ts : list (op * out) := [(ORegister [ex_e7], Quiet); (OWork, Quiet)].
Definition ex_tr_ts := trace_of (plays ex_oracle ex_conf ex_ops_ts).
Definition ex_s_ts := end_of ex_conf (plays ex_oracle ex_conf ex_ops_ts).
Lemma ex_run_ts : execution ex_oracle ex_conf ex_tr_ts ex_s_ts.
Proof.
  apply played'; [vm_compute; reflexivity| |vm_compute; reflexivity].
  apply Forall_cons; [apply ex_conf_ok|apply Forall_nil].
Qed.

(** Negative number of events. *)
Definition ex_neg : query_timeseries := QTimeseries None None None None None ASCENDING TIMESTAMP (Some (-1)) None.
Definition ex_ops_neg := ex_ops ++ [OTs 0 ex_neg; OWork; ODeliver 0].
Definition ex_tr_neg := trace_of (plays ex_oracle ex_conf ex_ops_neg).
Definition ex_s_neg := end_of ex_conf (plays ex_oracle ex_conf ex_ops_neg).
Lemma ex_run_neg : execution ex_oracle ex_conf ex_tr_neg ex_s_neg.
Proof.
  apply played'; [vm_compute; reflexivity| |vm_compute; reflexivity].
  apply Forall_cons; [apply ex_conf_ok|apply Forall_nil].
Qed.

(** Pages in descending order: the first one is answered at once. *)
Definition ex_desc : query_timeseries := QTimeseries None None None None None DESCENDING TIMESTAMP None None.
Definition ex_ops_pend := ex_ops ++ [ORegister [ex_e7]].
Definition ex_ops_once := ex_ops_pend ++ [OTs 0 (ask_page ex_desc None (Some 1))].
Definition ex_ops_rest := ex_ops_once ++ [OTs 1 (ask_page ex_desc (Some (ev_id ex_e7)) (Some 5)); OWork; ODeliver 1].
Definition ex_tr_pend := trace_of (plays ex_oracle ex_conf ex_ops_pend).
Definition ex_tr_once := trace_of (plays ex_oracle ex_conf ex_ops_once).
Definition ex_tr_rest := trace_of (plays ex_oracle ex_conf ex_ops_rest).
Definition ex_s_pend := end_of ex_conf (plays ex_oracle ex_conf ex_ops_pend).
Definition ex_s_once := end_of ex_conf (plays ex_oracle ex_conf ex_ops_once).
Definition ex_s_rest := end_of ex_conf (plays ex_oracle ex_conf ex_ops_rest).
Lemma ex_run_pend : execution ex_oracle ex_conf ex_tr_pend ex_s_pend.
Proof.
  apply played'; [vm_compute; reflexivity| |vm_compute; reflexivity].
  apply Forall_cons; [apply ex_conf_ok|apply Forall_nil].
Qed.
Lemma ex_run_once : execution ex_oracle ex_conf ex_tr_once ex_s_once.
Proof.
  apply played'; [vm_compute; reflexivity| |vm_compute; reflexivity].
  apply Forall_cons; [apply ex_conf_ok|apply Forall_nil].
Qed.
Lemma ex_run_rest : execution ex_oracle ex_conf ex_tr_rest ex_s_rest.
Proof.
  apply played'; [vm_compute; reflexivity| |vm_compute; reflexivity].
  apply Forall_cons; [apply ex_conf_ok|apply Forall_nil].
Qed.

(** Events of two servers, registered in another order than that of their
    timestamps. *)
Definition ex_conf_ts : conf := mk_conf "0.9" None (fun _ => true) [] [(TIMESTAMP, [["*"]], None)] 10.
Lemma ex_conf_ts_ok : conf_ok ex_conf_ts.
Proof. apply conf_ok_of; reflexivity. Qed.
Lemma ex_made_ts : made ex_conf_ts.
Proof. now apply made_of. Qed.
Definition ex_f1 := ev 1 1 1 ["a"] 5 None.
Definition ex_f2 := ev 2 1 1 ["a"] 3 None.
Definition ex_f3 := ev 1 1 2 ["b"] 6 None.
Definition ex_f4 := ev 1 2 1 ["a"] 6 None.
Definition ex_asc : query_timeseries := QTimeseries None None None None None ASCENDING TIMESTAMP None None.
Definition ex_upto : query_timeseries := QTimeseries None None (Some (Ts 4 0)) None None ASCENDING TIMESTAMP None None.

Definition ex_ops_two := [ORegister [ex_f1]; ORegister [ex_f2]].
Definition ex_tr_two := trace_of (plays ex_oracle ex_conf_ts ex_ops_two).
Definition ex_s_two := end_of ex_conf_ts (plays ex_oracle ex_conf_ts ex_ops_two).
Lemma ex_run_two : execution ex_oracle ex_conf_ts ex_tr_two ex_s_two.
Proof.
  apply played'; [vm_compute; reflexivity| |vm_compute; reflexivity].
  apply Forall_cons; [apply ex_conf_ts_ok|apply Forall_nil].
Qed.
Definition ex_ops_two_asc := ex_ops_two ++ [OTs 0 ex_asc; OWork; ODeliver 0].
Definition ex_tr_two_asc := trace_of (plays ex_oracle ex_conf_ts ex_ops_two_asc).
Definition ex_s_two_asc := end_of ex_conf_ts (plays ex_oracle ex_conf_ts ex_ops_two_asc).
Lemma ex_run_two_asc : execution ex_oracle ex_conf_ts ex_tr_two_asc ex_s_two_asc.
Proof.
  apply played'; [vm_compute; reflexivity| |vm_compute; reflexivity].
  apply Forall_cons; [apply ex_conf_ts_ok|apply Forall_nil].
Qed.
Definition ex_ops_two_upto := ex_ops_two ++ [OTs 0 ex_upto; OWork; ODeliver 0].
Definition ex_tr_two_upto := trace_of (plays ex_oracle ex_conf_ts ex_ops_two_upto).
Definition ex_s_two_upto := end_of ex_conf_ts (plays ex_oracle ex_conf_ts ex_ops_two_upto).
Lemma ex_run_two_upto : execution ex_oracle ex_conf_ts ex_tr_two_upto ex_s_two_upto.
Proof.
  apply played'; [vm_compute; reflexivity| |vm_compute; reflexivity].
  apply Forall_cons; [apply ex_conf_ts_ok|apply Forall_nil].
Qed.

(** The same after a flush. *)
Definition ex_ops_two_flushed := ex_ops_two ++ [OFlush; OWork].
Definition ex_tr_two_flushed := trace_of (plays ex_oracle ex_conf_ts ex_ops_two_flushed).
Definition ex_s_two_flushed := end_of ex_conf_ts (plays ex_oracle ex_conf_ts ex_ops_two_flushed).
Lemma ex_run_two_flushed : execution ex_oracle ex_conf_ts ex_tr_two_flushed ex_s_two_flushed.
Proof.
  apply played'; [vm_compute; reflexivity| |vm_compute; reflexivity].
  apply Forall_cons; [apply ex_conf_ts_ok|apply Forall_nil].
Qed.
Definition ex_ops_two_sorted := ex_ops_two_flushed ++ [OTs 0 ex_asc; OWork; ODeliver 0].
Definition ex_tr_two_sorted := trace_of (plays ex_oracle ex_conf_ts ex_ops_two_sorted).
Definition ex_s_two_sorted := end_of ex_conf_ts (plays ex_oracle ex_conf_ts ex_ops_two_sorted).
Lemma ex_run_two_sorted : execution ex_oracle ex_conf_ts ex_tr_two_sorted ex_s_two_sorted.
Proof.
  apply played'; [vm_compute; reflexivity| |vm_compute; reflexivity].
  apply Forall_cons; [apply ex_conf_ts_ok|apply Forall_nil].
Qed.

(** Events of one server, in all stages. *)
Definition ex_ops_one := [ORegister [ex_f1]; OFlush; OWork; ORegister [ex_f3]].
Definition ex_tr_one := trace_of (plays ex_oracle ex_conf_ts ex_ops_one).
Definition ex_s_one := end_of ex_conf_ts (plays ex_oracle ex_conf_ts ex_ops_one).
Lemma ex_run_one : execution ex_oracle ex_conf_ts ex_tr_one ex_s_one.
Proof.
  apply played'; [vm_compute; reflexivity| |vm_compute; reflexivity].
  apply Forall_cons; [apply ex_conf_ts_ok|apply Forall_nil].
Qed.
Definition ex_during_one : list (op * out) := [(OWork, Quiet); (ORegister [ex_f4], Quiet); (OFlush, Quiet); (OWork, Wrote)].
Definition ex_ops_one_q := ex_ops_one ++ [OTs 0 ex_asc; OWork; ORegister [ex_f4]; OFlush; OWork; ODeliver 0].
Definition ex_tr_one_q := trace_of (plays ex_oracle ex_conf_ts ex_ops_one_q).
Definition ex_s_one_q := end_of ex_conf_ts (plays ex_oracle ex_conf_ts ex_ops_one_q).
Lemma ex_run_one_q : execution ex_oracle ex_conf_ts ex_tr_one_q ex_s_one_q.
Proof.
  apply played'; [vm_compute; reflexivity| |vm_compute; reflexivity].
  apply Forall_cons; [apply ex_conf_ts_ok|apply Forall_nil].
Qed.
