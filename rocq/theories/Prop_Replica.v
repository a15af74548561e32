(** C73: a local server that follows a remote one over any number of
    connections. *)
From Coq Require Import String Bool ZArith Arith Sorted List.
From Verif Require Import Base Model_Types Model_Lmdb Model_LmdbSys Spec_Lmdb Ex_Lmdb Model_Sync Spec_Sync Model_Replica Spec_Replica Proof_Replica5 Ex_Sync Ex_Replica.
Import ListNotations.
Open Scope string_scope.
Open Scope list_scope.
Open Scope nat_scope.

Example replica_example : replicated ex_oracle x_conf 7 (xtrace x_conf x_ops) (xyend x_conf x_ops) (xsend x_conf x_ops) /\ restarts_safe (xtrace x_conf x_ops) /\ timely (remote_events (xtrace x_conf x_ops)) /\
  remote_events (xtrace x_conf x_ops) = [x1; x2; x3; x4; x5; x6; x7; x8].
Proof.
  split; [apply xran; [exact x_conf_ok|vm_compute; reflexivity]|]. split; [apply safeb_ok; vm_compute; reflexivity|]. split; [apply timelyb_ok; vm_compute; reflexivity|vm_compute; reflexivity].
Qed.

(** C73.  The local server has no gaps: what the remote has stored (and not
    removed) up to the last id the local server has of it, the local server has
    as well, whenever connections are lost and however often both servers are
    restarted, after a crash or not. *)
Theorem C73_behind : forall O cf sv tr y s, replicated O cf sv tr y s -> restarts_safe tr -> timely (remote_events tr) ->
    forall e, persisted (sync_part tr) e -> ~ removed (sync_part tr) e -> taken cf tr e ->
    eid_leb (ev_id e) (get_last_event_id (m_sys (s_mem s)) sv) = true -> have cf tr e.
Proof. exact final_C73_behind. Qed.
Print Assumptions C73_behind.

(** In the middle of the second connection, when the first batch was given. *)
Example C73_behind_example :
  let ops := x_first ++ x_crash ++ firstn 11 x_second in let tr := xtrace x_conf ops in
  replicated ex_oracle x_conf 7 tr (xyend x_conf ops) (xsend x_conf ops) /\ restarts_safe tr /\ timely (remote_events tr) /\
  persisted (sync_part tr) x2 /\ ~ removed (sync_part tr) x2 /\ taken x_conf tr x2 /\ persisted (sync_part tr) x4 /\
  get_last_event_id (m_sys (s_mem (xsend x_conf ops))) 7 = ev_id x4 /\ copy x_conf 7 tr = [x1; x2; x4].
Proof.
  cbv zeta. split; [apply xran; [exact x_conf_ok|vm_compute; reflexivity]|]. split; [apply safeb_ok; vm_compute; reflexivity|]. split; [apply timelyb_ok; vm_compute; reflexivity|].
  split; [apply (persisted_of _ (firstn 5 x_commits) [(x1, true); (x2, true)]); [vm_compute; reflexivity|now left|right; now left]|]. split; [apply never_removed; vm_compute; reflexivity|].
  split; [apply takenb_ok; vm_compute; reflexivity|]. split; [apply (persisted_of _ (firstn 5 x_commits) [(x4, true)]); [vm_compute; reflexivity|right; right; now left|now left]|]. split; vm_compute; reflexivity.
Qed.

(** C73.  The same is true of what is written: there are no gaps in the
    database. *)
Theorem C73_disk : forall O cf sv tr y s, replicated O cf sv tr y s -> restarts_safe tr -> timely (remote_events tr) ->
    forall e en, persisted (sync_part tr) e -> ~ removed (sync_part tr) e -> taken cf tr e ->
    In en (w_disk (watch_run cf (local_part tr))) -> eid_server (ev_id (en_ev en)) = sv -> eid_leb (ev_id e) (ev_id (en_ev en)) = true ->
    exists en', In en' (w_disk (watch_run cf (local_part tr))) /\ en_ev en' = e.
Proof. exact final_C73_disk. Qed.
Print Assumptions C73_disk.

Example C73_disk_example :
  let tr := xtrace x_conf x_ops in
  In (Entry x_conf x2) (w_disk (watch_run x_conf (local_part tr))) /\ persisted (sync_part tr) x1 /\ ~ removed (sync_part tr) x1 /\ taken x_conf tr x1 /\
  eid_leb (ev_id x1) (ev_id x2) = true.
Proof.
  cbv zeta. split; [match goal with |- In _ ?l => replace l with [Entry x_conf x1; Entry x_conf x2; Entry x_conf x_own] by (vm_compute; reflexivity) end; right; now left|].
  split; [apply (persisted_of _ x_commits [(x1, true); (x2, true)]); [vm_compute; reflexivity|now left|now left]|]. split; [apply never_removed; vm_compute; reflexivity|]. split; [apply takenb_ok; vm_compute; reflexivity|reflexivity].
Qed.

(** C73.  When SYNCED was told in the current connection, the local server has
    what the remote had stored (and did not remove since) when it answered the
    last page, whatever happened in former connections. *)
Theorem C73_synced : forall O cf sv tr y s, replicated O cf sv tr y s -> restarts_safe tr -> timely (remote_events tr) -> finished (sync_part (current tr)) ->
    exists a k es xs b, tr = a ++ RSync (RQuery k, [Answered (QRes es false)]) xs :: b /\ existsb again b = false /\
      forall e, persisted (sync_part a) e -> ~ removed (sync_part tr) e -> taken cf tr e -> have cf tr e.
Proof. exact final_C73_synced. Qed.
Print Assumptions C73_synced.

(** C73.  And it has everything else the remote stores, but what is not
    notified or received yet. *)
Theorem C73_all : forall O cf sv tr y s, replicated O cf sv tr y s -> restarts_safe tr -> timely (remote_events tr) -> finished (sync_part (current tr)) ->
    forall e, persisted (sync_part tr) e -> ~ removed (sync_part tr) e -> taken cf tr e -> ~ waiting y e -> have cf tr e.
Proof. exact final_C73_all. Qed.
Print Assumptions C73_all.

(** The fourth event was lost by the crash; the sixth was not notified because
    the remote crashed; the seventh came while the second
    client synchronized; the last one was not notified yet. *)
Example C73_all_example :
  let tr := xtrace x_conf x_ops in let y := xyend x_conf x_ops in
  finished (sync_part (current tr)) /\ existsb again tr = true /\
  persisted (sync_part tr) x4 /\ taken x_conf tr x4 /\ persisted (sync_part tr) x7 /\ taken x_conf tr x7 /\ ~ removed (sync_part tr) x4 /\ ~ removed (sync_part tr) x7 /\
  ~ waiting y x4 /\ ~ waiting y x7 /\ waiting y x8 /\ copy x_conf 7 (xtrace x_conf (x_first ++ x_crash)) = [x1; x2] /\ copy x_conf 7 tr = [x1; x2; x4; x6; x7].
Proof.
  cbv zeta.
  assert (L : r_lag (xyend x_conf x_ops) = [[x8]]) by (vm_compute; reflexivity). assert (C : r_chan (xyend x_conf x_ops) = []) by (vm_compute; reflexivity).
  split; [exists (Some 3); vm_compute; auto|]. split; [vm_compute; reflexivity|].
  split; [apply (persisted_of _ x_commits [(x4, true)]); [vm_compute; reflexivity|right; right; now left|now left]|]. split; [apply takenb_ok; vm_compute; reflexivity|].
  split; [apply (persisted_of _ x_commits [(x7, true)]); [vm_compute; reflexivity|right; right; right; right; now left|now left]|]. split; [apply takenb_ok; vm_compute; reflexivity|].
  split; [apply never_removed; vm_compute; reflexivity|]. split; [apply never_removed; vm_compute; reflexivity|].
  split; [intros (b & B1 & [B2|B2]); [rewrite L in B2; destruct B2 as [<-|[]]; destruct B1 as [B1|[]]; discriminate B1|rewrite C in B2; destruct B2]|].
  split; [intros (b & B1 & [B2|B2]); [rewrite L in B2; destruct B2 as [<-|[]]; destruct B1 as [B1|[]]; discriminate B1|rewrite C in B2; destruct B2]|].
  split; [exists [x8]; split; [now left|left; rewrite L; now left]|]. split; vm_compute; reflexivity.
Qed.

(** C73.  What the local server has of the remote are events of the remote, each
    once and in the order in which the remote registered them. *)
Theorem C73_only : forall O cf sv tr y s, replicated O cf sv tr y s -> restarts_safe tr ->
    increasing (copy cf sv tr) /\ increasing (remote_events tr) /\ forall e, In e (copy cf sv tr) -> In e (remote_events tr).
Proof. exact final_C73_only. Qed.
Print Assumptions C73_only.

(** C73.  If the clock of the remote goes back this is not true, even when
    nothing is lost or restarted: the remote has stored an event, the local
    server is synchronized and does not take the event, having taken one before
    that the remote has not stored. *)
Theorem C73_clock_refuted : exists O cf sv tr y s e, replicated O cf sv tr y s /\ finished (sync_part (current tr)) /\
    persisted (sync_part tr) e /\ ~ removed (sync_part tr) e /\ taken cf tr e /\ ~ waiting y e /\ existsb again tr = false /\ ~ have cf tr e.
Proof.
  exists ex_oracle, x_conf, 7%Z, (xtrace x_conf x_back), (xyend x_conf x_back), (xsend x_conf x_back), xb2.
  split; [apply xran; [exact x_conf_ok|vm_compute; reflexivity]|]. split; [exists (Some 0); vm_compute; auto|].
  split; [apply (persisted_of _ [[(xb1, false)]; [(xb2, true)]] [(xb2, true)]); [vm_compute; reflexivity|right; now left|now left]|]. split; [apply never_removed; vm_compute; reflexivity|]. split; [apply takenb_ok; vm_compute; reflexivity|].
  split.
  { intros (b & _ & [B|B]); [replace (r_lag (xyend x_conf x_back)) with (@nil (list event)) in B by (vm_compute; reflexivity)|replace (r_chan (xyend x_conf x_back)) with (@nil ymsg) in B by (vm_compute; reflexivity)]; destruct B. }
  split; [vm_compute; reflexivity|]. intros (en & H1 & H2).
  replace (w_all (watch_run x_conf (local_part (xtrace x_conf x_back)))) with [Entry x_conf xb1] in H1 by (vm_compute; reflexivity). destruct H1 as [<-|[]]. discriminate H2.
Qed.
Print Assumptions C73_clock_refuted.

(** C73.  If the remote is restarted when it has notified but not stored the
    last event it registered, this is not true either: the id is used again and
    the local server refuses the event that is stored with it. *)
Theorem C73_restart_refuted : exists O cf sv tr y s e, replicated O cf sv tr y s /\ timely (remote_events tr) /\ finished (sync_part (current tr)) /\
    persisted (sync_part tr) e /\ ~ removed (sync_part tr) e /\ taken cf tr e /\ ~ waiting y e /\ ~ have cf tr e /\
    exists e', have cf tr e' /\ ev_id e' = ev_id e /\ e' <> e.
Proof.
  exists ex_oracle, x_conf, 7%Z, (xtrace x_conf x_reuse), (xyend x_conf x_reuse), (xsend x_conf x_reuse), xc2.
  assert (A : w_all (watch_run x_conf (local_part (xtrace x_conf x_reuse))) = [Entry x_conf xc1]) by (vm_compute; reflexivity).
  split; [apply xran; [exact x_conf_ok|vm_compute; reflexivity]|]. split; [apply timelyb_ok; vm_compute; reflexivity|]. split; [exists (Some 0); vm_compute; auto|].
  split; [apply (persisted_of _ [[(xc1, false)]; [(xc2, true)]] [(xc2, true)]); [vm_compute; reflexivity|right; now left|now left]|]. split; [apply never_removed; vm_compute; reflexivity|]. split; [apply takenb_ok; vm_compute; reflexivity|].
  split.
  { intros (b & _ & [B|B]); [replace (r_lag (xyend x_conf x_reuse)) with (@nil (list event)) in B by (vm_compute; reflexivity)|replace (r_chan (xyend x_conf x_reuse)) with (@nil ymsg) in B by (vm_compute; reflexivity)]; destruct B. }
  split; [intros (en & H1 & H2); rewrite A in H1; destruct H1 as [<-|[]]; discriminate H2|].
  exists xc1. split; [exists (Entry x_conf xc1); rewrite A; split; [now left|reflexivity]|]. split; [reflexivity|discriminate].
Qed.
Print Assumptions C73_restart_refuted.
