(** C74: two servers with the LMDB backend, one of which follows the other
    one. *)
From Coq Require Import String Bool ZArith Arith Sorted List.
From Verif Require Import Base Kv Model_Types Model_Lmdb Model_LmdbSys Spec_Lmdb Spec_LmdbContent Ex_Lmdb Model_Sync Spec_Sync Spec_Replica Ex_Replica
  Model_Pair Spec_Pair Proof_Pair8 Ex_Pair.
Import ListNotations.
Open Scope string_scope.
Open Scope list_scope.
Open Scope nat_scope.

Example pair_example : let tr := etrace e_conf x_conf e_ops in
  paired ex_oracle ex_oracle e_conf x_conf 7 tr (eend e_conf x_conf e_ops) /\ restarts_ok e_conf 7 tr /\ clock_ok 7 tr /\
  finished (client_part (since tr)) /\ existsb lost tr = true.
Proof.
  cbv zeta. split; [apply eran; [exact e_conf_ok|exact x_conf_ok|vm_compute; reflexivity]|].
  split; [apply (calm_one _ _ _ [x1; x2; x3; x4; x5; x6] [x1; x2; x4; x5; x6] [x1; x2; x3; x4; x5] x6); [vm_compute; reflexivity|reflexivity|right; right; right; right; now left]|].
  split; [apply timelyb_ok; vm_compute; reflexivity|]. split; [exists (Some 3); vm_compute; auto|vm_compute; reflexivity].
Qed.

(** C74.  When SYNCED was told in the current connection, the local server has
    every event of the remote that is in the remote's database, but those the
    remote has to notify yet and those on their way, whatever happened in former
    connections; events the local configuration does not take are left out. *)
Theorem C74_all : forall OA OB cfA cfB sv tr st, paired OA OB cfA cfB sv tr st -> restarts_ok cfA sv tr -> clock_ok sv tr -> finished (client_part (since tr)) ->
    forall e, eid_server (ev_id e) = sv -> stored_event (remote_db st) e -> takes cfB tr e -> ~ coming st e -> got cfB tr e.
Proof. exact final_C74_all. Qed.
Print Assumptions C74_all.

(** The fourth event came before the crash of the local server, which lost it;
    the sixth was never notified because the remote crashed; the last one is to
    be notified. *)
Example C74_all_example : let tr := etrace e_conf x_conf e_ops in let st := eend e_conf x_conf e_ops in
  stored_event (remote_db st) x4 /\ takes x_conf tr x4 /\ ~ coming st x4 /\ stored_event (remote_db st) x6 /\ takes x_conf tr x6 /\ ~ coming st x6 /\
  stored_event (remote_db st) x8 /\ coming st x8 /\ got_list x_conf 7 (etrace e_conf x_conf e_first) = [x1; x2; x3; x4] /\
  got_list x_conf 7 (etrace e_conf x_conf (e_first ++ e_crash)) = [x1; x2] /\ got_list x_conf 7 tr = [x1; x2; x4; x6; x7].
Proof.
  cbv zeta. assert (N : to_notify (d_remote (eend e_conf x_conf e_ops)) = [[x8]]) by (vm_compute; reflexivity).
  assert (C : r_chan (d_client (eend e_conf x_conf e_ops)) = []) by (vm_compute; reflexivity).
  assert (D : vals (db_ts (remote_db (eend e_conf x_conf e_ops))) = [x1; x2; x4; x5; x6; x8]) by (vm_compute; reflexivity).
  assert (X : forall e, coming (eend e_conf x_conf e_ops) e -> e = x8).
  { intros e [(b & B1 & B2)|(b & B1 & _)]; [rewrite N in B1; destruct B1 as [<-|[]]; destruct B2 as [<-|[]]; reflexivity|rewrite C in B1; destruct B1]. }
  unfold stored_event. rewrite D.
  split; [right; right; right; now left|]. split; [apply takesb_ok; vm_compute; reflexivity|]. split; [intros B; discriminate (X _ B)|].
  split; [right; right; right; right; right; now left|]. split; [apply takesb_ok; vm_compute; reflexivity|]. split; [intros B; discriminate (X _ B)|].
  split; [right; right; right; right; right; right; now left|]. split; [left; exists [x8]; rewrite N; split; now left|].
  split; [vm_compute; reflexivity|]. split; vm_compute; reflexivity.
Qed.

(** C74.  The local server has no gaps: what is in the remote's database up to
    the last id the local server has of the remote, it has as well; at any
    time, synchronized or not. *)
Theorem C74_behind : forall OA OB cfA cfB sv tr st, paired OA OB cfA cfB sv tr st -> restarts_ok cfA sv tr -> clock_ok sv tr ->
    forall e, eid_server (ev_id e) = sv -> stored_event (remote_db st) e -> takes cfB tr e ->
    eid_leb (ev_id e) (get_last_event_id (m_sys (s_mem (d_local st))) sv) = true -> got cfB tr e.
Proof. exact final_C74_behind. Qed.
Print Assumptions C74_behind.

(** C74.  There are no gaps in what the local server has written either. *)
Theorem C74_disk : forall OA OB cfA cfB sv tr st, paired OA OB cfA cfB sv tr st -> restarts_ok cfA sv tr -> clock_ok sv tr ->
    forall e en, eid_server (ev_id e) = sv -> stored_event (remote_db st) e -> takes cfB tr e ->
    In en (w_disk (watch_run cfB (near_part tr))) -> eid_server (ev_id (en_ev en)) = sv -> eid_leb (ev_id e) (ev_id (en_ev en)) = true ->
    exists en', In en' (w_disk (watch_run cfB (near_part tr))) /\ en_ev en' = e.
Proof. exact final_C74_disk. Qed.
Print Assumptions C74_disk.

(** In the second connection, when the missing part of the first one was
    received; what is written is still what was before the crash. *)
Example C74_behind_example : let ops := e_first ++ e_crash ++ firstn 18 e_second in let tr := etrace e_conf x_conf ops in let st := eend e_conf x_conf ops in
  paired ex_oracle ex_oracle e_conf x_conf 7 tr st /\ restarts_ok e_conf 7 tr /\ clock_ok 7 tr /\
  stored_event (remote_db st) x2 /\ takes x_conf tr x2 /\ stored_event (remote_db st) x4 /\ takes x_conf tr x4 /\
  get_last_event_id (m_sys (s_mem (d_local st))) 7 = ev_id x4 /\ got_list x_conf 7 tr = [x1; x2; x4] /\
  map en_ev (w_disk (watch_run x_conf (near_part tr))) = [x1; x2; x_own].
Proof.
  cbv zeta.
  assert (D : vals (db_ts (remote_db (eend e_conf x_conf (e_first ++ e_crash ++ firstn 18 e_second)))) = [x1; x2; x4; x5; x6]) by (vm_compute; reflexivity).
  split; [apply eran; [exact e_conf_ok|exact x_conf_ok|vm_compute; reflexivity]|].
  split; [apply (calm_one _ _ _ [x1; x2; x3; x4; x5; x6] [x1; x2; x4; x5; x6] [x1; x2; x3; x4; x5] x6); [vm_compute; reflexivity|reflexivity|right; right; right; right; now left]|].
  split; [apply timelyb_ok; vm_compute; reflexivity|]. unfold stored_event. rewrite D.
  split; [right; right; now left|]. split; [apply takesb_ok; vm_compute; reflexivity|]. split; [right; right; right; now left|]. split; [apply takesb_ok; vm_compute; reflexivity|].
  split; [vm_compute; reflexivity|]. split; vm_compute; reflexivity.
Qed.

(** C74.  What the local server has of the remote are events that the remote
    has flushed, each once and in the order of their registration. *)
Theorem C74_only : forall OA OB cfA cfB sv tr st, paired OA OB cfA cfB sv tr st -> restarts_ok cfA sv tr ->
    increasing (got_list cfB sv tr) /\ increasing (own sv (flushed_events (remote_part tr))) /\
    forall e, In e (got_list cfB sv tr) -> In e (flushed_events (remote_part tr)).
Proof. exact final_C74_only. Qed.
Print Assumptions C74_only.

Example C74_only_example : flushed_events (remote_part (etrace e_conf x_conf e_ops)) = [x1; x2; x3; x4; x5; x6; x7; x8].
Proof. vm_compute. reflexivity. Qed.

(** C74.  If the clock of the remote goes back the claim is not true, even when
    nothing is lost or restarted. *)
Theorem C74_clock_refuted : exists OA OB cfA cfB sv tr st e, paired OA OB cfA cfB sv tr st /\ restarts_ok cfA sv tr /\ finished (client_part (since tr)) /\
    eid_server (ev_id e) = sv /\ stored_event (remote_db st) e /\ takes cfB tr e /\ ~ coming st e /\ existsb lost tr = false /\ ~ got cfB tr e.
Proof.
  exists ex_oracle, ex_oracle, e_conf, x_conf, 7%Z, (etrace e_conf x_conf e_back), (eend e_conf x_conf e_back), xb2.
  assert (N : to_notify (d_remote (eend e_conf x_conf e_back)) = []) by (vm_compute; reflexivity).
  assert (C : r_chan (d_client (eend e_conf x_conf e_back)) = []) by (vm_compute; reflexivity).
  assert (D : vals (db_ts (remote_db (eend e_conf x_conf e_back))) = [xb2]) by (vm_compute; reflexivity).
  assert (A : map en_ev (w_all (watch_run x_conf (near_part (etrace e_conf x_conf e_back)))) = [xb1]) by (vm_compute; reflexivity).
  split; [apply eran; [exact e_conf_ok|exact x_conf_ok|vm_compute; reflexivity]|].
  split; [apply calm; match goal with |- Forall _ ?l => replace l with (@nil (list event * list event)) by (vm_compute; reflexivity) end; constructor|].
  split; [exists (Some 0); vm_compute; auto|]. split; [reflexivity|]. split; [right; rewrite D; now left|]. split; [apply takesb_ok; vm_compute; reflexivity|].
  split; [intros [(b & B & _)|(b & B & _)]; [rewrite N in B|rewrite C in B]; destruct B|]. split; [vm_compute; reflexivity|].
  intros (en & H1 & H2). assert (X : In xb2 [xb1]) by (rewrite <- A, <- H2; apply in_map; exact H1). destruct X as [X|[]]. discriminate X.
Qed.
Print Assumptions C74_clock_refuted.

(** C74.  Nor is it if the remote is restarted when the last event it has
    flushed was not stored: the next event gets the same id, and the local
    server, which has the former one, refuses it for good. *)
Theorem C74_restart_refuted : exists OA OB cfA cfB sv tr st e, paired OA OB cfA cfB sv tr st /\ clock_ok sv tr /\ finished (client_part (since tr)) /\
    eid_server (ev_id e) = sv /\ stored_event (remote_db st) e /\ takes cfB tr e /\ ~ coming st e /\ ~ got cfB tr e /\
    exists e', got cfB tr e' /\ ev_id e' = ev_id e /\ e' <> e.
Proof.
  exists ex_oracle, ex_oracle, e_conf, x_conf, 7%Z, (etrace e_conf x_conf e_reuse), (eend e_conf x_conf e_reuse), xc2.
  assert (N : to_notify (d_remote (eend e_conf x_conf e_reuse)) = []) by (vm_compute; reflexivity).
  assert (C : r_chan (d_client (eend e_conf x_conf e_reuse)) = []) by (vm_compute; reflexivity).
  assert (D : vals (db_ts (remote_db (eend e_conf x_conf e_reuse))) = [xc2]) by (vm_compute; reflexivity).
  assert (A : w_all (watch_run x_conf (near_part (etrace e_conf x_conf e_reuse))) = [Entry x_conf xc1]) by (vm_compute; reflexivity).
  split; [apply eran; [exact e_conf_ok|exact x_conf_ok|vm_compute; reflexivity]|].
  split; [apply timelyb_ok; vm_compute; reflexivity|].
  split; [exists (Some 0); vm_compute; auto|]. split; [reflexivity|]. split; [right; rewrite D; now left|]. split; [apply takesb_ok; vm_compute; reflexivity|].
  split; [intros [(b & B & _)|(b & B & _)]; [rewrite N in B|rewrite C in B]; destruct B|].
  split; [intros (en & H1 & H2); rewrite A in H1; destruct H1 as [<-|[]]; discriminate H2|].
  exists xc1. split; [exists (Entry x_conf xc1); rewrite A; split; [now left|reflexivity]|]. split; [reflexivity|discriminate].
Qed.
Print Assumptions C74_restart_refuted.
