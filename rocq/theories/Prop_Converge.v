(** C76: two servers, one of which follows the other one, that are left
    alone. *)
From Coq Require Import String Bool ZArith Arith Sorted List.
From Verif Require Import Base Kv Model_Types Model_Lmdb Model_LmdbSys Spec_Lmdb Spec_LmdbContent Ex_Lmdb Model_LmdbFlush Model_Sync Spec_Sync Spec_Replica Ex_Replica
  Model_Pair Spec_Pair Ex_Pair Spec_Converge Proof_Converge3 Proof_Converge6 Ex_Converge.
Import ListNotations.
Open Scope string_scope.
Open Scope list_scope.
Open Scope nat_scope.

(** The remote has crashed before two written events were notified, the local
    server has crashed before two events were written; two other events are
    registered then.  Nothing of this is known to the local server. *)
Example converge_example : let tr := etrace e_conf x_conf v_ops in
  paired ex_oracle ex_oracle e_conf x_conf 7 tr (eend e_conf x_conf v_ops) /\ restarts_ok e_conf 7 tr /\ clock_ok 7 tr /\
  existsb lost tr = true /\ client_part (since tr) = [] /\ f_reg (d_remote (eend e_conf x_conf v_ops)) = [[x7; x8]] /\ got_list x_conf 7 tr = [x1; x2].
Proof.
  cbv zeta. split; [apply eran; [exact e_conf_ok|exact x_conf_ok|vm_compute; reflexivity]|].
  split; [apply (calm_one _ _ _ [x1; x2; x3; x4; x5; x6] [x1; x2; x4; x5; x6] [x1; x2; x3; x4; x5] x6); [vm_compute; reflexivity|reflexivity|right; right; right; right; now left]|].
  split; [apply timelyb_ok; vm_compute; reflexivity|]. repeat split; vm_compute; reflexivity.
Qed.

(** C76.  The two servers do not go on forever: whatever happened, there is a
    bound for the number of steps they do of themselves. *)
Theorem C76_ends : forall OA OB cfA cfB sv tr st, paired OA OB cfA cfB sv tr st -> restarts_ok cfA sv tr ->
    exists n, forall D st', paired OA OB cfA cfB sv (tr ++ D) st' -> undisturbed OA OB cfA cfB sv tr D -> length D <= n.
Proof. exact final_C76_ends. Qed.
Print Assumptions C76_ends.

Example C76_ends_example : exists D, let tr := etrace e_conf x_conf v_ops in
  paired ex_oracle ex_oracle e_conf x_conf 7 (tr ++ D) (eend e_conf x_conf (v_ops ++ v_more)) /\ undisturbed ex_oracle ex_oracle e_conf x_conf 7 tr D /\ length D = 20.
Proof.
  destruct v_alone as (D & D1 & D2 & D3 & _).
  exists D. cbv zeta. split; [exact D3|]. split; [exact D2|]. apply (f_equal (@length _)) in D1. rewrite app_length in D1.
  assert (L1 : length (etrace e_conf x_conf (v_ops ++ v_more)) = 67) by (vm_compute; reflexivity). assert (L2 : length (etrace e_conf x_conf v_ops) = 47) by (vm_compute; reflexivity).
  rewrite L1, L2 in D1. apply (Nat.add_cancel_l _ _ 47). symmetry. exact D1.
Qed.

(** C76.  They do not stop before they are done: when neither can go on, the
    client has told SYNCED in the current connection, there is no notification
    left and the remote has written what it has accepted. *)
Theorem C76_rests : forall OA OB cfA cfB sv tr st, paired OA OB cfA cfB sv tr st -> restarts_ok cfA sv tr -> at_rest OA OB cfA cfB sv tr st ->
    finished (client_part (since tr)) /\ (forall e, ~ coming st e) /\ all_written cfA tr.
Proof. exact final_C76_rests. Qed.
Print Assumptions C76_rests.

(** C76.  So from any state they come to rest. *)
Theorem C76_can : forall OA OB cfA cfB sv tr st, paired OA OB cfA cfB sv tr st -> restarts_ok cfA sv tr ->
    exists D st', paired OA OB cfA cfB sv (tr ++ D) st' /\ undisturbed OA OB cfA cfB sv tr D /\ at_rest OA OB cfA cfB sv (tr ++ D) st'.
Proof. exact final_C76_can. Qed.
Print Assumptions C76_can.

(** C76.  When they are at rest, the local server has all events of the remote
    that the remote had accepted and keeps, written or not, whatever was lost
    before; events the local configuration does not take are left out. *)
Theorem C76_converges : forall OA OB cfA cfB sv tr st, paired OA OB cfA cfB sv tr st -> restarts_ok cfA sv tr -> clock_ok sv tr ->
    forall D st', paired OA OB cfA cfB sv (tr ++ D) st' -> undisturbed OA OB cfA cfB sv tr D -> at_rest OA OB cfA cfB sv (tr ++ D) st' ->
    forall e, eid_server (ev_id e) = sv -> to_keep cfA tr D e -> takes cfB tr e -> stored_event (remote_db st') e /\ got cfB (tr ++ D) e.
Proof. exact final_C76_converges. Qed.
Print Assumptions C76_converges.

(** [x4] was lost by the local server, [x6] was never notified, [x8] was not
    written when they were left alone. *)
Example C76_converges_example : exists D, let tr := etrace e_conf x_conf v_ops in
  paired ex_oracle ex_oracle e_conf x_conf 7 (tr ++ D) (eend e_conf x_conf (v_ops ++ v_more)) /\ undisturbed ex_oracle ex_oracle e_conf x_conf 7 tr D /\
  at_rest ex_oracle ex_oracle e_conf x_conf 7 (tr ++ D) (eend e_conf x_conf (v_ops ++ v_more)) /\
  to_keep e_conf tr D x4 /\ takes x_conf tr x4 /\ to_keep e_conf tr D x6 /\ takes x_conf tr x6 /\ to_keep e_conf tr D x8 /\ takes x_conf tr x8 /\
  w_disk (watch_run e_conf (remote_part tr)) <> w_all (watch_run e_conf (remote_part tr)) /\ got_list x_conf 7 (tr ++ D) = [x1; x2; x4; x6; x7; x8].
Proof.
  destruct v_alone as (D & D1 & D2 & D3 & D4).
  exists D. cbv zeta. split; [exact D3|]. split; [exact D2|]. split; [exact D4|].
  assert (G : w_gone (watch_run e_conf (remote_part (etrace e_conf x_conf v_ops ++ D))) = []) by (rewrite <- D1; vm_compute; reflexivity).
  assert (W : map en_ev (w_all (watch_run e_conf (remote_part (etrace e_conf x_conf v_ops)))) = [x1; x2; x4; x5; x6; x8]) by (vm_compute; reflexivity).
  assert (P : forallb (fun en => has_place (en_conf en) (en_ev en)) (w_all (watch_run e_conf (remote_part (etrace e_conf x_conf v_ops)))) = true) by (vm_compute; reflexivity).
  pose proof (keeps _ _ _ _ W P G) as K.
  assert (N : length (w_disk (watch_run e_conf (remote_part (etrace e_conf x_conf v_ops)))) = 5) by (vm_compute; reflexivity).
  assert (N' : length (w_all (watch_run e_conf (remote_part (etrace e_conf x_conf v_ops)))) = 6) by (vm_compute; reflexivity).
  split; [apply K; right; right; left; reflexivity|]. split; [apply takesb_ok; vm_compute; reflexivity|]. split; [apply K; right; right; right; right; left; reflexivity|]. split; [apply takesb_ok; vm_compute; reflexivity|].
  split; [apply K; right; right; right; right; right; left; reflexivity|]. split; [apply takesb_ok; vm_compute; reflexivity|].
  split; [intros E; apply (f_equal (@length _)) in E; rewrite N, N' in E; discriminate|].
  rewrite <- D1. assert (GL : got_list x_conf 7 (etrace e_conf x_conf (v_ops ++ v_more)) = [x1; x2; x4; x6; x7; x8]) by (vm_compute; reflexivity). exact GL.
Qed.

(** C76.  Without the clock of the remote going forward this is not true: they
    are at rest and the local server lacks an event, for good. *)
Theorem C76_clock_refuted : exists OA OB cfA cfB sv tr st e, paired OA OB cfA cfB sv tr st /\ restarts_ok cfA sv tr /\ at_rest OA OB cfA cfB sv tr st /\
    eid_server (ev_id e) = sv /\ to_keep cfA tr [] e /\ takes cfB tr e /\ existsb lost tr = false /\ ~ got cfB tr e.
Proof.
  exists ex_oracle, ex_oracle, e_conf, x_conf, 7%Z, (etrace e_conf x_conf e_back), (eend e_conf x_conf e_back), xb2.
  assert (R : paired ex_oracle ex_oracle e_conf x_conf 7 (etrace e_conf x_conf e_back) (eend e_conf x_conf e_back)) by (apply eran; [exact e_conf_ok|exact x_conf_ok|vm_compute; reflexivity]).
  assert (W : map en_ev (w_all (watch_run e_conf (remote_part (etrace e_conf x_conf e_back)))) = [xb2]) by (vm_compute; reflexivity).
  assert (P : forallb (fun en => has_place (en_conf en) (en_ev en)) (w_all (watch_run e_conf (remote_part (etrace e_conf x_conf e_back)))) = true) by (vm_compute; reflexivity).
  assert (G : w_gone (watch_run e_conf (remote_part (etrace e_conf x_conf e_back ++ []))) = []) by (vm_compute; reflexivity).
  assert (A : map en_ev (w_all (watch_run x_conf (near_part (etrace e_conf x_conf e_back)))) = [xb1]) by (vm_compute; reflexivity).
  split; [exact R|].
  split; [apply calm; match goal with |- Forall _ ?l => replace l with (@nil (list event * list event)) by (vm_compute; reflexivity) end; constructor|].
  split; [apply restful_rest; [exact R|]; apply quietb_rest; vm_compute; reflexivity|]. split; [reflexivity|].
  split; [apply (keeps _ _ _ _ W P G); left; reflexivity|]. split; [apply takesb_ok; vm_compute; reflexivity|]. split; [vm_compute; reflexivity|].
  intros (en & H1 & H2). assert (X : In xb2 [xb1]) by (rewrite <- A, <- H2; apply in_map; exact H1). destruct X as [X|[]]. discriminate X.
Qed.
Print Assumptions C76_clock_refuted.
