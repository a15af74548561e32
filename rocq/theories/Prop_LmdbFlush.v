(** C24, C25, C50, C51: flush calls, notifications of flushed events and
    closing of the LMDB backend.

    [lifetime O cf tr0 tr s]: the backend was started (after [tr0]), then [tr]
    happened in any interleaving of registrations, flush calls, their
    cancellation, queries, cleanups, closing, and steps of the flush loop and
    of the worker thread.  [watched cf tr0 tr] is what follows from watching:
    [w_all] the accepted events, [w_disk] those written. *)
From Coq Require Import String Bool ZArith Arith Lia List.
From Verif Require Import Base Model_Types Model_Lmdb Model_LmdbSys Spec_Lmdb Spec_LmdbContent Spec_LmdbQuery Ex_Lmdb
  Model_LmdbFlush Spec_LmdbFlush Proof_LmdbFlush2 Proof_LmdbFlush3 Proof_LmdbFlush4 Ex_LmdbFlush.
Import ListNotations.
Open Scope string_scope.
Open Scope list_scope.
Open Scope nat_scope.

(** C24.  When a flush call returns normally, everything accepted before the
    call is written, and the database holds what was written. *)
Theorem C24_flush : forall O cf tr0 tr1 n xs l tr2 o ys k s,
    let tr := tr1 ++ (FCall n, xs, l) :: tr2 ++ [(o, ys, k)] in
    lifetime O cf tr0 tr s -> In (Answered n true) k ->
    let w := watched cf tr0 tr in
    prefix (w_all (watched cf tr0 tr1)) (w_disk w) /\ content (s_disk (f_sys s)) (w_disk w) (w_gone w).
Proof. exact final_C24_flush. Qed.
Print Assumptions C24_flush.

(** C24.  Only calls are answered, and only once. *)
Theorem C24_once : forall O cf tr0 tr s, lifetime O cf tr0 tr s ->
    NoDup (answered tr) /\ forall n, In n (answered tr) -> In (FCall n) (done_of tr).
Proof. exact final_C24_once. Qed.
Print Assumptions C24_once.

(** C24.  Once a call is in the queue, it is answered (unless its caller gave
    up) when the flush loop came round twice, whatever else happens. *)
Theorem C24_rounds : forall O cf tr0 tr1 n xs l tr2 s,
    lifetime O cf tr0 (tr1 ++ (FPut n, xs, l) :: tr2) s -> 2 <= turns tr2 ->
    let tr := tr1 ++ (FPut n, xs, l) :: tr2 in
    In n (answered tr) \/ In (FGiveUp n) (done_of tr).
Proof. exact final_C24_rounds. Qed.
Print Assumptions C24_rounds.

(** C24.  When the backend is closed no call is left waiting in the queue. *)
Theorem C24_ended : forall O cf tr0 tr s n, lifetime O cf tr0 tr s -> In FEnd (done_of tr) -> In (FPut n) (done_of tr) ->
    In n (answered tr) \/ In (FGiveUp n) (done_of tr).
Proof. exact final_C24_ended. Qed.
Print Assumptions C24_ended.

(** C24.  From every state, each call that was not given up is answered by the
    steps of the flush loop, the worker thread and waiting [put]s alone:
    nothing blocks them. *)
Theorem C24_answer : forall O cf tr0 tr s n, pick_ok O -> lifetime O cf tr0 tr s ->
    In (FCall n) (done_of tr) -> ~ In (FGiveUp n) (done_of tr) ->
    exists tr2 s2, lifetime O cf tr0 (tr ++ tr2) s2 /\ Forall (fun o => loop_step o = true) (done_of tr2) /\ In n (answered (tr ++ tr2)).
Proof. exact final_C24_answer. Qed.
Print Assumptions C24_answer.

(** The second call is made during the first flush, and a batch is registered
    before it; the third call ends with an error. *)
Example C24_example :
  lifetime ex_oracle ex_conf [] fx_tr2 fx_s2 /\
  (exists xs l tr2 o ys k, fx_tr2 = firstn 6 fx_tr2 ++ (FCall 2, xs, l) :: tr2 ++ [(o, ys, k)] /\ In (Answered 2 true) k /\ 2 <= turns tr2 + 1) /\
  map en_ev (w_all (watched ex_conf [] (firstn 6 fx_tr2))) = [ex_e1; ex_e2] /\
  map en_ev (w_disk (watched ex_conf [] fx_tr2)) = [ex_e1; ex_e2] /\
  lifetime ex_oracle ex_conf [] fx_tr fx_s /\ In FEnd (done_of fx_tr) /\ answered fx_tr = [1; 2; 3] /\
  In (Answered 3 false) (seen_of fx_tr) /\ pick_ok ex_oracle.
Proof.
  split; [exact fx_run2|]. split.
  { eexists _, _, (firstn 10 (skipn 7 fx_tr2)), _, _, _. split; [vm_compute; reflexivity|]. split; [vm_compute; now left|].
    apply Nat.leb_le. vm_compute. reflexivity. }
  split; [vm_compute; reflexivity|]. split; [vm_compute; reflexivity|]. split; [exact fx_run|].
  split; [vm_compute; tauto|]. split; [vm_compute; reflexivity|]. split; [vm_compute; tauto|].
  intros l Hl. destruct l as [|r l]; [congruence|]. exists r. split; [reflexivity|now left].
Qed.
Example C24_rounds_example :
  exists xs l tr2, fx_tr = firstn 2 fx_tr ++ (FPut 1, xs, l) :: tr2 /\ 2 <= turns tr2.
Proof. eexists _, _, (skipn 3 fx_tr). split; [vm_compute; reflexivity|]. apply Nat.leb_le. vm_compute. reflexivity. Qed.

(** C25.  No batch is notified twice or out of order. *)
Theorem C25_once : forall O cf tr0 tr s, lifetime O cf tr0 tr s -> subseq (flushed tr) (registered tr).
Proof. exact final_C25_once. Qed.
Print Assumptions C25_once.

(** C25.  As long as no write and no callback raises, batches are notified
    without gaps, and all of them when the backend was closed. *)
Theorem C25_all_partial : forall O cf tr0 tr s, lifetime O cf tr0 tr s -> writes_ok tr -> callbacks_ok tr ->
    prefix (flushed tr) (registered tr) /\ (In FEnd (done_of tr) -> flushed tr = registered tr).
Proof. exact final_C25_all. Qed.
Print Assumptions C25_all_partial.

(** C25.  A batch was notified, together with those before it, when the flush
    loop came round twice after its registration. *)
Theorem C25_rounds : forall O cf tr0 tr1 es xs l tr2 s,
    let tr := tr1 ++ (FRegister es, xs, l) :: tr2 in
    lifetime O cf tr0 tr s -> 2 <= rounds tr2 ->
    exists r, flushed tr = registered tr1 ++ es :: r.
Proof. exact final_C25_rounds. Qed.
Print Assumptions C25_rounds.

(** C25.  When a batch is notified, everything accepted up to its registration
    is written ([regs]: batches with the history after their registration). *)
Theorem C25_written : forall O cf tr0 tr s, lifetime O cf tr0 tr s -> writes_ok tr ->
    exists R, subseq R (regs cf tr0 tr) /\ map fst R = flushed tr /\
              Forall (fun r => prefix (snd r) (w_disk (watched cf tr0 tr))) R /\
              content (s_disk (f_sys s)) (w_disk (watched cf tr0 tr)) (w_gone (watched cf tr0 tr)).
Proof. exact final_C25_written. Qed.
Print Assumptions C25_written.

Lemma no_op : forall (f : fop -> bool) (o : fop) tr, f o = true -> existsb f (done_of tr) = false -> ~ In o (done_of tr).
Proof. intros f o tr Hf He Hin. assert (existsb f (done_of tr) = true) by (apply existsb_exists; eauto). congruence. Qed.
Definition is_failed (o : fop) : bool := match o with FFailed => true | _ => false end.
Definition is_raised (o : fop) : bool := match o with FNotify false => true | _ => false end.

Example C25_example :
  lifetime ex_oracle ex_conf [] fx_tr fx_s /\ writes_ok fx_tr /\ callbacks_ok fx_tr /\ In FEnd (done_of fx_tr) /\
  flushed fx_tr = [[ex_e1]; [ex_e2]; [ex_e4]] /\ map (fun r => map en_ev (snd r)) (regs ex_conf [] fx_tr) = [[ex_e1]; [ex_e1; ex_e2]; [ex_e1; ex_e2; ex_e4]] /\
  exists xs l tr2, fx_tr = [] ++ (FRegister [ex_e1], xs, l) :: tr2 /\ 2 <= rounds tr2.
Proof.
  split; [exact fx_run|]. split; [apply (no_op is_failed); [reflexivity|vm_compute; reflexivity]|].
  split; [apply (no_op is_raised); [reflexivity|vm_compute; reflexivity]|]. split; [vm_compute; tauto|].
  split; [vm_compute; reflexivity|]. split; [vm_compute; reflexivity|].
  eexists _, _, (skipn 1 fx_tr). split; [vm_compute; reflexivity|]. apply Nat.leb_le. vm_compute. reflexivity.
Qed.

(** C25.  If a callback raises, batches that were written with its batch are
    never notified. *)
Theorem C25_refuted : exists O cf tr s es, lifetime O cf [] tr s /\ writes_ok tr /\ In FEnd (done_of tr) /\
    In es (registered tr) /\ Forall (stored_event (s_disk (f_sys s))) es /\ es <> [] /\ ~ In es (flushed tr).
Proof.
  exists ex_oracle, ex_conf, fx_tr_cb, fx_s_cb, [ex_e2].
  split; [exact fx_run_cb|]. split; [apply (no_op is_failed); [reflexivity|vm_compute; reflexivity]|]. split; [vm_compute; tauto|].
  split; [vm_compute; tauto|]. split.
  - apply Forall_cons; [|apply Forall_nil]. left. vm_compute. tauto.
  - split; [discriminate|]. vm_compute. intros [H|[]]. discriminate.
Qed.
Print Assumptions C25_refuted.

(** C50.  When the backend was closed and no write raised, everything that was
    accepted is written. *)
Theorem C50_close : forall O cf tr0 tr s, lifetime O cf tr0 tr s -> writes_ok tr -> In FEnd (done_of tr) ->
    let w := watched cf tr0 tr in
    w_disk w = w_all w /\ content (s_disk (f_sys s)) (w_all w) (w_gone w).
Proof. exact final_C50. Qed.
Print Assumptions C50_close.

Example C50_example :
  lifetime ex_oracle ex_conf [] fx_tr fx_s /\ writes_ok fx_tr /\ In FEnd (done_of fx_tr) /\
  map en_ev (w_all (watched ex_conf [] fx_tr)) = [ex_e1; ex_e2; ex_e4].
Proof.
  split; [exact fx_run|]. split; [apply (no_op is_failed); [reflexivity|vm_compute; reflexivity]|].
  split; [vm_compute; tauto|vm_compute; reflexivity].
Qed.

(** C51.  If a write transaction raises, the final flush still writes what was
    registered meanwhile: the database then has a later event of a server
    without an earlier one, which can not be registered any more. *)
Theorem C51_refuted : exists O cf tr s e1 e2, lifetime O cf [] tr s /\ In FEnd (done_of tr) /\
    registered tr = [[e1]; [e2]] /\ map en_ev (w_all (watched cf [] tr)) = [e1; e2] /\
    eid_server (ev_id e1) = eid_server (ev_id e2) /\ eid_ltb (ev_id e1) (ev_id e2) = true /\
    stored_event (s_disk (f_sys s)) e2 /\ ~ stored_event (s_disk (f_sys s)) e1 /\
    In (eid_server (ev_id e2), ev_id e2) (db_ids (s_disk (f_sys s))).
Proof.
  exists ex_oracle, ex_conf, fx_tr_fail, fx_s_fail, ex_e1, ex_e2.
  split; [exact fx_run_fail|]. split; [vm_compute; tauto|]. split; [vm_compute; reflexivity|]. split; [vm_compute; reflexivity|].
  split; [reflexivity|]. split; [reflexivity|]. split; [left; vm_compute; tauto|]. split.
  - intros [H|H]; vm_compute in H; repeat (destruct H as [H|H]; [discriminate|]); destruct H.
  - vm_compute. tauto.
Qed.
Print Assumptions C51_refuted.

(** C51.  Otherwise the database holds a prefix of what was accepted at all
    times. *)
Theorem C51_prefix_partial : forall O cf tr0 tr s, lifetime O cf tr0 tr s -> writes_ok tr ->
    let w := watched cf tr0 tr in
    prefix (w_disk w) (w_all w) /\ content (s_disk (f_sys s)) (w_disk w) (w_gone w).
Proof. exact final_C51. Qed.
Print Assumptions C51_prefix_partial.
