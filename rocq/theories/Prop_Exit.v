(** C79: an orderly end of the server's process.

    [server_process O cf mc T tr s]: the process has done the steps [tr], in any
    interleaving of its main function, the main runner, the backend, and signals;
    [T] happened to the database before.  [back_of tr] is what happened in the
    backend, [main_of tr] in the main runner.  [exited tr]: the process has ended
    and was not killed.  [answered …] (C77): a client registered events [rs] and
    was answered with [r]. *)
From Coq Require Import String Bool ZArith Arith Lia List.
From Verif Require Import Base Model_Types Model_Lmdb Model_LmdbSys Spec_Lmdb Spec_LmdbContent Spec_LmdbQuery Spec_Order Ex_Lmdb
  Model_Engine Spec_Engine Ex_Engine Model_Eventer Spec_Eventer Model_Service Spec_Service Ex_Service Ex_Reach Ex_Pair
  Model_LmdbFlush Spec_LmdbFlush Spec_Eventual Model_Exit Spec_Exit Proof_Exit2 Ex_Exit.
From Verif Require Model_Main Spec_Main.
Import ListNotations.
Open Scope string_scope.
Open Scope list_scope.
Open Scope nat_scope.

(** C79.  The process ends last: the main runner is closed, and the backend, if
    it was created, has ended its flush loop. *)
Theorem C79_order : forall O cf mc T tr s, server_process O cf mc T tr s -> exited tr ->
    (exists a ms fs, tr = a ++ [(XExit, ms, fs)] /\ ~ exited a) /\
    Model_Main.mruns mc Model_Main.minit (main_of tr) (x_main s) /\ In Model_Main.OOver (Spec_Main.seen (main_of tr)) /\
    (has_backend tr -> In FEnd (done_of (back_of tr))) /\ (~ has_backend tr -> back_of tr = []).
Proof. exact final_C79_order. Qed.
Print Assumptions C79_order.

(** C79.  Everything the backend has accepted is then written. *)
Theorem C79_written : forall O cf mc T tr s, server_process O cf mc T tr s -> exited tr -> writes_ok (back_of tr) ->
    let w := watched cf T (back_of tr) in
    has_backend tr -> w_disk w = w_all w /\ exists d, execution O cf (T ++ inner (back_of tr)) d /\ content (s_disk d) (w_all w) (w_gone w).
Proof. exact final_C79_written. Qed.
Print Assumptions C79_written.

(** C79.  The events a client was answered with are in the database, whatever
    happens to it afterwards, until they are cleaned up. *)
Theorem C79_acknowledged : forall O cf mc T tr s tr0 srv rs r acked C, server_process O cf mc T tr s -> exited tr -> writes_ok (back_of tr) ->
    answered O cf tr0 srv rs r acked C -> tr0 ++ backend_part (acked ++ C) = T ++ inner (back_of tr) ->
    exists es, r = Some es /\ map reg_of es = rs /\
      forall e, In e es -> cf_cond (conf_at cf tr0) e = true -> has_place (conf_at cf tr0) e = true ->
      forall X d, execution O cf ((T ++ inner (back_of tr)) ++ X) d ->
        (forall n t, ~ In (n, t, ev_id e) (w_gone (watch_run cf ((T ++ inner (back_of tr)) ++ X)))) -> stored_event (s_disk d) e.
Proof. exact final_C79_acknowledged. Qed.
Print Assumptions C79_acknowledged.

(** C79.  The next process, with the same configuration, answers a query of
    latest events with them or with later events of their types. *)
Theorem C79_latest : forall O cf mc T tr s tr0 srv rs r acked C x Y p a d, server_process O cf mc T tr s -> exited tr -> writes_ok (back_of tr) ->
    answered O cf tr0 srv rs r acked C -> tr0 ++ backend_part (acked ++ C) = T ++ inner (back_of tr) ->
    let next := (T ++ inner (back_of tr)) ++ (OReopen (conf_at cf tr0), x) :: Y in
    execution O cf (next ++ [(OLatest p, a)]) d -> no_reopen Y -> valid_latest p ->
    exists es found, r = Some es /\ map reg_of es = rs /\ a = Answer (Some (QRes found false)) /\ NoDup (map ev_type found) /\
      forall e, In e es -> cf_cond (conf_at cf tr0) e = true -> covers (conf_at cf tr0) (ev_type e) = true -> asked p (ev_type e) ->
        exists e', In e' found /\ up_to_date (events_of next) e e'.
Proof. exact final_C79_latest. Qed.
Print Assumptions C79_latest.

Example C79_example :
  server_process ex_oracle sv_conf q_mc [] q_tr q_s /\ exited q_tr /\ writes_ok (back_of q_tr) /\ has_backend q_tr /\
  answered ex_oracle sv_conf sv_tr0 1 sv_rs (Some (sv_es 11)) sv_acked sv_flush /\ sv_tr0 ++ backend_part (sv_acked ++ sv_flush) = [] ++ inner (back_of q_tr) /\
  Forall (fun e => cf_cond (conf_at sv_conf sv_tr0) e = true /\ has_place (conf_at sv_conf sv_tr0) e = true /\ covers (conf_at sv_conf sv_tr0) (ev_type e) = true /\ asked sv_all (ev_type e)) (sv_es 11) /\
  ~ In (sv_e1 11) (map en_ev (w_disk (watched sv_conf [] (back_of (firstn 20 q_tr))))) /\
  map en_ev (w_all (watched sv_conf [] (back_of q_tr))) = [ev 1 3 1 ["a"] 5 None; sv_started; ev 2 1 1 ["a"] 9 None; sv_e1 11; sv_e2 11] /\
  let Y := [(ORegister [ev 2 1 2 ["a"] 20 None], Quiet)] in
  execution ex_oracle sv_conf ((([] ++ inner (back_of q_tr)) ++ (OReopen (conf_at sv_conf sv_tr0), Quiet) :: Y) ++ [(OLatest sv_all, Answer (Some sv_latest))])
    (end_of sv_conf (plays ex_oracle sv_conf q_next)) /\ no_reopen Y /\ valid_latest sv_all /\
  w_gone (watch_run sv_conf (([] ++ inner (back_of q_tr)) ++ (OReopen (conf_at sv_conf sv_tr0), Quiet) :: Y)) = [].
Proof.
  split; [exact q_run|]. split; [exact q_exited|]. split; [apply wok; vm_compute; reflexivity|]. split; [vm_compute; tauto|].
  split; [exact q_answered|]. split; [exact q_same|].
  split; [repeat (apply Forall_cons; [split; [vm_compute; reflexivity|]; split; [vm_compute; reflexivity|]; split; [vm_compute; reflexivity|exact I]|]); apply Forall_nil|].
  split; [vm_compute; intros H; repeat (destruct H as [H|H]; [discriminate|]); destruct H|]. split; [vm_compute; reflexivity|]. cbv zeta.
  split; [exact q_next_run|]. split; [intros c x [H|[]]; discriminate|]. split; [exact I|vm_compute; reflexivity].
Qed.

(** C79.  Whatever happens afterwards (other configurations, crashes), engines of
    later processes give greater ids than those of the server's events which the
    backend of this process had accepted. *)
Theorem C79_ids : forall O cf mc T tr s X d srv ms size etr es, server_process O cf mc T tr s -> exited tr -> writes_ok (back_of tr) ->
    execution O cf ((T ++ inner (back_of tr)) ++ X) d -> engine_run ms size (get_last_event_id (m_sys (s_mem d)) srv) etr es ->
    forall en e, In en (w_all (watched cf T (back_of tr))) -> eid_server (ev_id (en_ev en)) = srv -> In e (concat (handed etr)) ->
    eid_lt (ev_id (en_ev en)) (ev_id e).
Proof. exact final_C79_ids. Qed.
Print Assumptions C79_ids.

(** The next process is killed before it writes anything. *)
Example C79_ids_example :
  let X := [(OReopen sv_conf, Quiet); (ORegister [ev 1 8 1 ["a"] 30 None], Quiet); (OReopen sv_conf, Quiet)] in
  exists d, execution ex_oracle sv_conf (([] ++ inner (back_of q_tr)) ++ X) d /\
    get_last_event_id (m_sys (s_mem d)) 1 = Eid 1 5 2 /\
    engine_run [] 5 (Eid 1 5 2) (Ex_Engine.etrace [] 5 (Eid 1 5 2) (life 20)) (Ex_Engine.eend [] 5 (Eid 1 5 2) (life 20)) /\
    map ev_id (concat (handed (Ex_Engine.etrace [] 5 (Eid 1 5 2) (life 20)))) = [Eid 1 6 1; Eid 1 7 1] /\
    map (fun en => ev_id (en_ev en)) (w_all (watched sv_conf [] (back_of q_tr))) = [Eid 1 3 1; Eid 1 4 1; Eid 2 1 1; Eid 1 5 1; Eid 1 5 2].
Proof.
  cbv zeta. exists (end_of sv_conf (plays ex_oracle sv_conf q_later)). split; [exact q_later_run|]. split; [vm_compute; reflexivity|].
  split; [apply Ex_Engine.eplayed; vm_compute; reflexivity|]. split; vm_compute; reflexivity.
Qed.

(** C79.  Once the process was asked to end, or something has failed in the main
    runner, its own steps bring it to its end, whatever it was doing; nobody
    else has to do anything. *)
Theorem C79_ends : forall O cf mc T tr s, pick_ok O -> server_process O cf mc T tr s -> writes_ok (back_of tr) ->
    In XSignal (ops_of_process tr) \/ Spec_Main.must_end (main_of tr) ->
    exists k s2, server_process O cf mc T (tr ++ k) s2 /\ Forall ending_step (ops_of_process k) /\ writes_ok (back_of (tr ++ k)) /\ exited (tr ++ k).
Proof. exact final_C79_ends. Qed.
Print Assumptions C79_ends.

Example C79_ends_example :
  pick_ok ex_oracle /\ server_process ex_oracle sv_conf q_mc [] q_open q_open_s /\ writes_ok (back_of q_open) /\ In XSignal (ops_of_process q_open) /\
  ~ In (sv_e1 11) (map en_ev (w_disk (watched sv_conf [] (back_of q_open)))).
Proof.
  split; [exact ex_pick|]. split; [exact q_open_run|]. split; [apply wok; vm_compute; reflexivity|].
  split; [vm_compute; tauto|vm_compute; intros H; repeat (destruct H as [H|H]; [discriminate|]); destruct H].
Qed.

(** C79.  If the last write transaction fails, the process ends in the same way
    though events that a client was answered with are not in the database. *)
Theorem C79_failed_write_refuted : exists O cf mc tr s f tr0 srv rs es acked C e, server_process O cf mc [] tr s /\ exited tr /\ x_back s = Some f /\
    answered O cf tr0 srv rs (Some es) acked C /\ tr0 ++ backend_part (acked ++ C) = inner (back_of tr) /\
    In e es /\ cf_cond (conf_at cf tr0) e = true /\ has_place (conf_at cf tr0) e = true /\ ~ stored_event (s_disk (f_sys f)) e.
Proof.
  destruct (x_back q_fail_s) as [f|] eqn:Ef; [|exfalso; revert Ef; vm_compute; discriminate].
  exists ex_oracle, sv_conf, q_mc, q_fail, q_fail_s, f, sv_tr0, 1%Z, sv_rs, (sv_es 11), sv_acked, (firstn 1 sv_flush), (sv_e1 11).
  split; [exact q_fail_run|]. split; [vm_compute; tauto|]. split; [exact Ef|]. split; [exact q_fail_answered|]. split; [vm_compute; reflexivity|].
  split; [now left|]. split; [vm_compute; reflexivity|]. split; [vm_compute; reflexivity|].
  replace (f_sys f) with (back_sys q_fail_s) by (unfold back_sys; now rewrite Ef).
  intros [H|H]; vm_compute in H; repeat (destruct H as [H|H]; [discriminate|]); destruct H.
Qed.
Print Assumptions C79_failed_write_refuted.
