(** C77: an event that a server has acknowledged comes to a server that follows
    it, if both are left alone; nobody has to ask for a flush. *)
From Coq Require Import String Bool ZArith Arith Sorted List.
From Verif Require Import Base Kv Model_Types Model_Subscription Model_Lmdb Model_LmdbSys Spec_Lmdb Spec_LmdbContent Spec_LmdbQuery Ex_Lmdb
  Model_Engine Spec_Engine Model_Eventer Spec_Eventer Model_Service Spec_Service Ex_Service
  Model_LmdbFlush Model_Sync Spec_Sync Spec_Replica Ex_Replica Model_Pair Spec_Pair Ex_Pair Spec_Reach Ex_Reach Spec_Converge Ex_Converge Spec_Eventual Proof_Eventual Ex_Eventual.
Import ListNotations.
Open Scope string_scope.
Open Scope list_scope.
Open Scope nat_scope.

(** C77.  The events a client was answered with are those it has requested; once
    no step of the two servers is possible any more, each of them is in the
    database of the first server and was accepted by the second one. *)
Theorem C77_comes : forall OA OB cfA cfB tr0 srv rs r acked C tr st, answered OA cfA tr0 srv rs r acked C ->
    runs_on OA OB cfA cfB srv (tr0 ++ backend_part (acked ++ C)) tr st ->
    forall D st', paired OA OB cfA cfB srv (tr ++ D) st' -> undisturbed OA OB cfA cfB srv tr D -> at_rest OA OB cfA cfB srv (tr ++ D) st' ->
    exists es, r = Some es /\ map reg_of es = rs /\
      forall e, In e es -> lasting (conf_at cfA tr0) cfA cfB tr D e -> stored_event (remote_db st') e /\ got cfB (tr ++ D) e.
Proof. exact final_C77_comes. Qed.
Print Assumptions C77_comes.

(** Nothing is flushed and nobody is connected when the client has its answer;
    both events are notified after the synchronization. *)
Example C77_comes_example : exists D, let tr := rtrace u_ops in
  answered ex_oracle sv_conf sv_tr0 1 sv_rs (Some (sv_es 11)) sv_acked [] /\
  runs_on ex_oracle ex_oracle sv_conf x_conf 1 (sv_tr0 ++ backend_part (sv_acked ++ [])) tr (rend u_ops) /\
  paired ex_oracle ex_oracle sv_conf x_conf 1 (tr ++ D) (rend (u_ops ++ u_more)) /\ undisturbed ex_oracle ex_oracle sv_conf x_conf 1 tr D /\
  at_rest ex_oracle ex_oracle sv_conf x_conf 1 (tr ++ D) (rend (u_ops ++ u_more)) /\
  (forall e, In e (sv_es 11) -> lasting (conf_at sv_conf sv_tr0) sv_conf x_conf tr D e) /\
  map en_ev (w_disk (watch_run sv_conf (remote_part tr))) = [ev 1 3 1 ["a"] 5 None] /\ got_list x_conf 1 tr = [] /\
  got_list x_conf 1 (tr ++ D) = [ev 1 3 1 ["a"] 5 None; sv_started; sv_e1 11; sv_e2 11].
Proof.
  destruct u_alone as (D & D1 & D2 & D3 & D4). exists D. cbv zeta. split; [exact u_answered|]. split; [exact u_runs|]. split; [exact D3|]. split; [exact D2|]. split; [exact D4|].
  assert (G : w_gone (watch_run sv_conf (remote_part (rtrace u_ops ++ D))) = []) by (rewrite <- D1; vm_compute; reflexivity).
  assert (L : forallb (lastb (rtrace u_ops)) (sv_es 11) = true) by (vm_compute; reflexivity). rewrite forallb_forall in L.
  assert (Ec : conf_at sv_conf sv_tr0 = sv_conf) by (vm_compute; reflexivity).
  split; [intros e He; rewrite Ec; apply lastb_ok; [exact (L e He)|exact G]|].
  assert (GL : got_list x_conf 1 (rtrace (u_ops ++ u_more)) = [ev 1 3 1 ["a"] 5 None; sv_started; sv_e1 11; sv_e2 11]) by (vm_compute; reflexivity).
  split; [vm_compute; reflexivity|]. split; [vm_compute; reflexivity|]. rewrite <- D1. exact GL.
Qed.

(** C77.  That is reached after finitely many steps, whichever they are, if
    every possible step is done at some time: there is no endless sequence of
    them, and one that ends at rest. *)
Theorem C77_ends : forall OA OB cfA cfB srv T tr st, runs_on OA OB cfA cfB srv T tr st ->
    (exists D st', paired OA OB cfA cfB srv (tr ++ D) st' /\ undisturbed OA OB cfA cfB srv tr D /\ at_rest OA OB cfA cfB srv (tr ++ D) st') /\
    exists n, forall D st', paired OA OB cfA cfB srv (tr ++ D) st' -> undisturbed OA OB cfA cfB srv tr D -> List.length D <= n.
Proof. exact final_C77_ends. Qed.
Print Assumptions C77_ends.

Example C77_ends_example : runs_on ex_oracle ex_oracle sv_conf x_conf 1 (sv_tr0 ++ backend_part (sv_acked ++ [])) (rtrace u_ops) (rend u_ops) /\
  ~ at_rest ex_oracle ex_oracle sv_conf x_conf 1 (rtrace u_ops) (rend u_ops).
Proof.
  split; [exact u_runs|]. intros H.
  assert (S : exists x, rtrace (u_ops ++ [ER FWake]) = rtrace u_ops ++ [DRemote x] /\ fst (fst x) = FWake) by (eexists; split; [vm_compute; reflexivity|reflexivity]).
  destruct S as ([[o xs] l] & S & E). cbn [fst] in E. subst o.
  assert (P : paired ex_oracle ex_oracle sv_conf x_conf 1 (rtrace (u_ops ++ [ER FWake])) (rend (u_ops ++ [ER FWake]))) by (apply rran; vm_compute; reflexivity).
  rewrite S in P. apply (H _ _ P). left. vm_compute. discriminate.
Qed.

(** C77.  A query for latest events at the second server, after whatever it does
    then but a restart, finds the event or one of its type with a timestamp that
    is not less, the newest the second server has. *)
Theorem C77_latest : forall OA OB cfA cfB tr0 srv rs r acked C tr st, answered OA cfA tr0 srv rs r acked C ->
    runs_on OA OB cfA cfB srv (tr0 ++ backend_part (acked ++ C)) tr st ->
    forall D st1, paired OA OB cfA cfB srv (tr ++ D) st1 -> undisturbed OA OB cfA cfB srv tr D -> at_rest OA OB cfA cfB srv (tr ++ D) st1 ->
    forall L p a st', paired OA OB cfA cfB srv ((tr ++ D) ++ L ++ [DLocal (OLatest p, a)]) st' -> local_up L -> Forall (fun c => c = cfB) (confs_of (near_part (tr ++ D))) -> valid_latest p ->
    exists es found, r = Some es /\ map reg_of es = rs /\ a = Answer (Some (QRes found false)) /\ NoDup (map ev_type found) /\
      forall e, In e es -> lasting (conf_at cfA tr0) cfA cfB tr D e -> covers cfB (ev_type e) = true -> asked p (ev_type e) ->
        exists e', In e' found /\ ev_type e' = ev_type e /\ ts_leb (ev_ts e) (ev_ts e') = true /\ newest (w_all (watch_run cfB (near_part ((tr ++ D) ++ L)))) (ev_type e) e'.
Proof. exact final_C77_latest. Qed.
Print Assumptions C77_latest.

(** The second server has a later event of the type of the first one. *)
Example C77_latest_example : exists D, let tr := rtrace u_ops in let a := Answer (Some (QRes [r_own; sv_started; sv_e2 11] false)) in
  paired ex_oracle ex_oracle sv_conf x_conf 1 (tr ++ D) (rend (u_ops ++ u_more)) /\ undisturbed ex_oracle ex_oracle sv_conf x_conf 1 tr D /\
  at_rest ex_oracle ex_oracle sv_conf x_conf 1 (tr ++ D) (rend (u_ops ++ u_more)) /\
  paired ex_oracle ex_oracle sv_conf x_conf 1 ((tr ++ D) ++ u_L ++ [DLocal (OLatest (QLatest None), a)]) (rend u_asks) /\
  local_up u_L /\ confs_of (near_part (tr ++ D)) = [] /\ valid_latest (QLatest None) /\ map (fun e => covers x_conf (ev_type e)) (sv_es 11) = [true; true].
Proof.
  destruct u_alone as (D & D1 & D2 & D3 & D4). exists D. cbv zeta. split; [exact D3|]. split; [exact D2|]. split; [exact D4|]. rewrite <- D1.
  assert (P : paired ex_oracle ex_oracle sv_conf x_conf 1 (rtrace u_asks) (rend u_asks)) by (apply rran; vm_compute; reflexivity).
  assert (S : rtrace u_asks = rtrace (u_ops ++ u_more) ++ u_L ++ [DLocal (OLatest (QLatest None), Answer (Some (QRes [r_own; sv_started; sv_e2 11] false)))]) by (vm_compute; reflexivity).
  rewrite S in P. split; [exact P|]. split; [intros c x [H|[]]; discriminate H|]. split; [vm_compute; reflexivity|]. split; [exact I|]. vm_compute. reflexivity.
Qed.

(** C77.  It is not true if the first server is killed before it was left alone:
    both servers are at rest and have not got the events that were acknowledged. *)
Theorem C77_killed_refuted : exists O cfA cfB tr0 srv rs es acked tr st e, answered O cfA tr0 srv rs (Some es) acked [] /\
    paired O O cfA cfB srv tr st /\ (exists X, remote_part tr = (tr0 ++ backend_part acked) ++ X) /\ restarts_ok cfA srv tr /\ clock_ok srv tr /\ at_rest O O cfA cfB srv tr st /\
    In e es /\ lasting (conf_at cfA tr0) cfA cfB tr [] e /\ ~ got cfB tr e /\ ~ stored_event (remote_db st) e.
Proof.
  exists ex_oracle, sv_conf, x_conf, sv_tr0, 1%Z, sv_rs, (sv_es 11), sv_acked, (rtrace u_lost), (rend u_lost), (sv_e1 11).
  destruct u_killed as (K1 & K2 & K3 & K4).
  assert (A : map en_ev (w_all (watch_run x_conf (near_part (rtrace u_lost)))) = [ev 3 1 1 ["a"] 10 None; ev 1 3 1 ["a"] 5 None]) by (vm_compute; reflexivity).
  assert (D : vals (db_ts (remote_db (rend u_lost))) = [ev 1 3 1 ["a"] 5 None]) by (vm_compute; reflexivity).
  assert (D' : vals (db_latest (remote_db (rend u_lost))) = [ev 1 3 1 ["a"] 5 None]) by (vm_compute; reflexivity).
  assert (L : lastb (rtrace u_lost) (sv_e1 11) = true) by (vm_compute; reflexivity).
  assert (G : w_gone (watch_run sv_conf (remote_part (rtrace u_lost ++ []))) = []) by (vm_compute; reflexivity).
  assert (Ec : conf_at sv_conf sv_tr0 = sv_conf) by (vm_compute; reflexivity).
  split; [exact u_answered|]. split; [exact K1|]. destruct r_unflushed as (_ & (X & EX) & _). split; [exists X; exact EX|]. split; [exact K2|]. split; [exact K3|]. split; [exact K4|].
  split; [left; reflexivity|]. split; [rewrite Ec; apply lastb_ok; [exact L|exact G]|].
  split; [intros (en & H1 & H2); assert (Y : In (sv_e1 11) [ev 3 1 1 ["a"] 10 None; ev 1 3 1 ["a"] 5 None]) by (rewrite <- A, <- H2; apply in_map; exact H1); destruct Y as [Y|[Y|[]]]; discriminate Y|].
  unfold stored_event. rewrite D, D'. intros [[H|[]]|[H|[]]]; discriminate H.
Qed.
Print Assumptions C77_killed_refuted.
