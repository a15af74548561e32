(** C75: an event that a server has acknowledged is found at a server that
    follows it. *)
From Coq Require Import String Bool ZArith Arith Sorted List.
From Verif Require Import Base Kv Model_Types Model_Subscription Model_Lmdb Model_LmdbSys Spec_Lmdb Spec_LmdbContent Spec_LmdbQuery Ex_Lmdb
  Model_Engine Spec_Engine Model_Eventer Spec_Eventer Model_Service Spec_Service Ex_Service
  Model_Sync Spec_Sync Spec_Replica Ex_Replica Model_Pair Spec_Pair Ex_Pair Spec_Reach Proof_Reach Ex_Reach.
Import ListNotations.
Open Scope string_scope.
Open Scope list_scope.
Open Scope nat_scope.

(** C75.  The events a client was answered with are those it has requested; if
    they were flushed, whatever happens to the server afterwards, each of them
    comes to a server that is synchronized with it. *)
Theorem C75_reaches : forall OA OB cfA cfB tr0 srv rs r acked C tr st, acknowledged OA cfA tr0 srv rs r acked C ->
    synchronized OA OB cfA cfB srv (tr0 ++ backend_part (acked ++ C)) tr st ->
    exists es, r = Some es /\ map reg_of es = rs /\
      forall e, In e es -> due (conf_at cfA tr0) cfA cfB tr st e -> eid_server (ev_id e) = srv /\ got cfB tr e.
Proof. exact final_C75_reaches. Qed.
Print Assumptions C75_reaches.

(** The first server is killed after the flush, before it notifies anybody; the
    second one follows the next process. *)
Example C75_reaches_example :
  acknowledged ex_oracle sv_conf sv_tr0 1 sv_rs (Some (sv_es 11)) sv_acked sv_flush /\
  synchronized ex_oracle ex_oracle sv_conf x_conf 1 (sv_tr0 ++ backend_part (sv_acked ++ sv_flush)) (rtrace r_ops) (rend r_ops) /\
  (forall e, In e (sv_es 11) -> due (conf_at sv_conf sv_tr0) sv_conf x_conf (rtrace r_ops) (rend r_ops) e) /\
  got_list x_conf 1 (rtrace r_ops) = [ev 1 3 1 ["a"] 5 None; sv_started; sv_e1 11; sv_e2 11].
Proof.
  split; [exact r_acknowledged|]. split; [exact r_synchronized|]. split; [|vm_compute; reflexivity].
  intros e [<-|[<-|[]]]; apply dueb_ok; vm_compute; reflexivity.
Qed.

(** C75.  A query for latest events at the second server, after whatever it does
    but a restart, finds the event or one of its type with a timestamp that is
    not less, the newest the second server has. *)
Theorem C75_latest : forall OA OB cfA cfB tr0 srv rs r acked C tr st D p a st', acknowledged OA cfA tr0 srv rs r acked C ->
    synchronized OA OB cfA cfB srv (tr0 ++ backend_part (acked ++ C)) tr st ->
    paired OA OB cfA cfB srv (tr ++ D ++ [DLocal (OLatest p, a)]) st' -> local_up D -> Forall (fun c => c = cfB) (confs_of (near_part tr)) -> valid_latest p ->
    exists es found, r = Some es /\ map reg_of es = rs /\ a = Answer (Some (QRes found false)) /\ NoDup (map ev_type found) /\
      forall e, In e es -> due (conf_at cfA tr0) cfA cfB tr st e -> covers cfB (ev_type e) = true -> asked p (ev_type e) ->
        exists e', In e' found /\ ev_type e' = ev_type e /\ ts_leb (ev_ts e) (ev_ts e') = true /\ newest (w_all (watch_run cfB (near_part (tr ++ D)))) (ev_type e) e'.
Proof. exact final_C75_latest. Qed.
Print Assumptions C75_latest.

(** The second server has a later event of its own. *)
Example C75_latest_example : let a := Answer (Some (QRes [r_own; sv_started; sv_e2 11] false)) in
  paired ex_oracle ex_oracle sv_conf x_conf 1 (rtrace r_ops ++ r_D ++ [DLocal (OLatest (QLatest None), a)]) (rend (r_asks (OLatest (QLatest None)))) /\ local_up r_D /\
  confs_of (near_part (rtrace r_ops)) = [] /\ valid_latest (QLatest None) /\ map (fun e => covers x_conf (ev_type e)) (sv_es 11) = [true; true].
Proof.
  cbv zeta. split; [|split; [|split; [vm_compute; reflexivity|split; [exact I|vm_compute; reflexivity]]]].
  - match goal with |- paired _ _ _ _ _ ?t _ => replace t with (rtrace (r_asks (OLatest (QLatest None)))) by (vm_compute; reflexivity) end. apply rran. vm_compute. reflexivity.
  - intros c x [H|[]]. discriminate H.
Qed.

(** C75.  A query for the events of the first server, put to the second one
    after whatever it does but a restart and answered after whatever it does,
    finds the event unless the page is full of earlier ones. *)
Theorem C75_server : forall OA OB cfA cfB tr0 srv rs r acked C tr st D q p E found more st', acknowledged OA cfA tr0 srv rs r acked C ->
    synchronized OA OB cfA cfB srv (tr0 ++ backend_part (acked ++ C)) tr st ->
    let tr' := tr ++ D ++ DLocal (OServer q p, Quiet) :: E ++ [DLocal (ODeliver q, Answer (Some (QRes found more)))] in
    paired OA OB cfA cfB srv tr' st' -> local_up D -> local_up E -> conditions_kept (cfB :: confs_of (near_part tr)) -> pick_ok OB ->
    ~ In q (queries_of (near_part (tr ++ D))) -> ~ In q (queries_of (near_part E)) -> qs_server p = srv -> qs_persisted p = false ->
    by_id found /\
    exists es, r = Some es /\ map reg_of es = rs /\
      forall e, In e es -> due (conf_at cfA tr0) cfA cfB tr st e -> after (qs_last p) e ->
        (forall n t, ~ In (n, t, ev_id e) (w_gone (watch_run cfB (near_part tr')))) ->
        In e found \/ (more = true /\ Z.of_nat (List.length found) = server_max p /\ forall y, In y found -> eid_ltb (ev_id y) (ev_id e) = true).
Proof. exact final_C75_server. Qed.
Print Assumptions C75_server.

(** The second server is about to write the events while it is asked. *)
Example C75_server_example :
  let tr' := rtrace r_ops ++ r_D ++ DLocal (OServer 5 r_server, Quiet) :: r_E ++ [DLocal (ODeliver 5, Answer (Some (QRes r_found false)))] in
  paired ex_oracle ex_oracle sv_conf x_conf 1 tr' (rend r_serve) /\ local_up r_E /\ conditions_kept (x_conf :: confs_of (near_part (rtrace r_ops))) /\ pick_ok ex_oracle /\
  queries_of (near_part (rtrace r_ops ++ r_D)) = [] /\ queries_of (near_part r_E) = [] /\ qs_server r_server = 1%Z /\ qs_persisted r_server = false /\
  (forall e, In e (sv_es 11) -> after (qs_last r_server) e) /\ w_gone (watch_run x_conf (near_part tr')) = [].
Proof.
  cbv zeta. split; [match goal with |- paired _ _ _ _ _ ?t _ => replace t with (rtrace r_serve) by (vm_compute; reflexivity) end; apply rran; vm_compute; reflexivity|].
  split; [intros c x [H|[H|[H|[]]]]; discriminate H|].
  split; [replace (confs_of (near_part (rtrace r_ops))) with (@nil conf) by (vm_compute; reflexivity); repeat constructor|]. split; [exact ex_pick|].
  split; [vm_compute; reflexivity|]. split; [reflexivity|]. split; [reflexivity|]. split; [reflexivity|].
  split; [intros e [<-|[<-|[]]]; reflexivity|vm_compute; reflexivity].
Qed.

(** C75.  An acknowledgement alone is not enough: if the first server is killed
    before it has flushed the event, nobody has it. *)
Theorem C75_unflushed_refuted : exists O cfA cfB tr0 vtr0 srv tk ms size A c conv last rs l j B es l2 tr st e,
    let acked := A ++ SRegister (VRegister c conv last rs, l) j :: B ++ [SServer (VRegistered c (Some es), l2)] in
    service O cfA tr0 vtr0 srv tk ms size acked /\ Spec_Eventer.quiet c (server_part B) /\ clock_forward srv (w_all (watch_run cfA tr0)) (readings (engine_part acked)) /\
    synchronized O O cfA cfB srv (tr0 ++ backend_part acked) tr st /\ In e es /\ due (conf_at cfA tr0) cfA cfB tr st e /\
    ~ got cfB tr e /\ ~ stored_event (remote_db st) e.
Proof.
  exists ex_oracle, sv_conf, x_conf, sv_tr0, sv_vtr0, 1%Z, (Some "secret"), [], 5, sv_A, 1, 20, false, sv_rs, [Model_Eventer.EngineCall 1 sv_rs],
    (ERegister (Model_Engine.Request 1 (Source EVENTER 1) sv_rs), []), (sv_B 11), (sv_es 11), [Model_Eventer.Sent 1 (MRegisterRes 20 (Some (sv_es 11)))],
    (rtrace r_lost), (rend r_lost), (sv_e1 11).
  assert (A : map en_ev (w_all (watch_run x_conf (near_part (rtrace r_lost)))) = [ev 3 1 1 ["a"] 10 None; ev 1 3 1 ["a"] 5 None]) by (vm_compute; reflexivity).
  assert (D : vals (db_ts (remote_db (rend r_lost))) = [ev 1 3 1 ["a"] 5 None]) by (vm_compute; reflexivity).
  assert (D' : vals (db_latest (remote_db (rend r_lost))) = [ev 1 3 1 ["a"] 5 None]) by (vm_compute; reflexivity).
  cbv zeta. match goal with |- service _ _ _ _ _ _ _ _ ?t /\ _ => replace t with sv_acked by (vm_compute; reflexivity) end. split; [exact r_served|].
  split; [apply quietb_ok; vm_compute; reflexivity|]. split; [apply clockb_ok; vm_compute; reflexivity|]. split; [exact r_unflushed|]. split; [now left|].
  split; [apply dueb_ok; vm_compute; reflexivity|].
  split; [intros (en & H1 & H2); assert (X : In (sv_e1 11) [ev 3 1 1 ["a"] 10 None; ev 1 3 1 ["a"] 5 None]) by (rewrite <- A, <- H2; apply in_map; exact H1); destruct X as [X|[X|[]]]; discriminate X|].
  unfold stored_event. rewrite D, D'. intros [[H|[]]|[H|[]]]; discriminate H.
Qed.
Print Assumptions C75_unflushed_refuted.
