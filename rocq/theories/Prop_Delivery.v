(** C67: delivery of events to clients, from the engine or the flush loop of the
    backend, through the eventer server, to the callback of a client. *)
From Coq Require Import String Bool ZArith Arith List Sorting.Sorted.
From Verif Require Import Base Model_Types Spec_Order Model_Subscription Spec_Subscription Model_Lmdb Model_LmdbSys Spec_Lmdb Ex_Lmdb Model_LmdbFlush Spec_LmdbFlush Ex_LmdbFlush Spec_LmdbContent
  Model_Engine Spec_Engine Model_Eventer Spec_Eventer Ex_Eventer Model_Client Spec_Client Ex_Client Spec_Delivery Spec_Delivery2 Spec_Delivery3
  Proof_Delivery Proof_Delivery2 Proof_Delivery3 Ex_Delivery.
Import ListNotations.
Open Scope string_scope.
Open Scope list_scope.
Open Scope nat_scope.

(** C67.  Of the calls of [notify_events] made one after another since the
    client was accepted, the server sends the client each event that it asked
    for, once, in the order of the calls, and nothing else of that kind; all of
    them once the calls have returned. *)
Theorem C67_server : forall sv tk N X tr s c conv req, server_run sv tk tr s -> in_turn N tr -> only_by N X (ir_persisted req) tr -> undropped N c tr ->
    init_of c tr = Some (conv, req) ->
    exists l, picked (asked_from req X) (concat (map snd (announced N (ir_persisted req) (since c tr)))) l /\
      prefix (from X (events_in (sent_to c tr))) l /\
      (gone c tr = false -> all_returned N (ir_persisted req) c tr -> from X (events_in (sent_to c tr)) = l).
Proof. exact final_C67_server. Qed.
Print Assumptions C67_server.

(** C67.  So does the callback of the client get them. *)
Theorem C67_client : forall sv tk N X str ss ctr cs c conv req, server_run sv tk str ss -> client_run ctr cs -> prefix (received ctr) (sent_to c str) ->
    in_turn N str -> only_by N X (ir_persisted req) str -> undropped N c str -> init_of c str = Some (conv, req) ->
    exists l, picked (asked_from req X) (concat (map snd (announced N (ir_persisted req) (since c str)))) l /\
      prefix (from X (got_events ctr)) l /\
      (gone c str = false -> all_returned N (ir_persisted req) c str -> received ctr = sent_to c str -> from X (got_events ctr) = l).
Proof. exact final_C67_client. Qed.
Print Assumptions C67_client.

(** C67.  From the engine to the client: if the loop of the engine is not
    interrupted while clients are told of a batch, the callback of the client
    gets every event that the client asked for of the batches handed to the
    backend since the client was accepted (up to a batch that is on its way at
    that time), once and in order; all of them once clients were told of every
    batch and the client received what was sent. *)
Theorem C67_engine_partial : forall ms size last es sv tk ss ctr cs N tr w pre i post c conv req,
    engine_run ms size last (engine_of tr) es -> server_run sv tk (server_of tr) ss -> joined N tr w -> calm N tr ->
    client_run ctr cs -> prefix (received ctr) (sent_to c (server_of tr)) ->
    only_by N (of_server (eid_server last)) false (server_of tr) ->
    tr = pre ++ JS i :: post -> existsb is_welcome (sent_in c (snd i)) = true ->
    init_of c (server_of tr) = Some (conv, req) -> ir_persisted req = false ->
    let got := from (of_server (eid_server last)) (got_events ctr) in
    exists early due l, upto1 early (handed (engine_of pre)) /\ upto1 (early ++ due) (handed (engine_of tr)) /\
      picked (interested req) (concat due) l /\ prefix got l /\
      (gone c (server_of tr) = false -> settled N tr -> received ctr = sent_to c (server_of tr) -> handed (engine_of tr) = early ++ due /\ got = l).
Proof. exact final_C67_engine. Qed.
Print Assumptions C67_engine_partial.

(** C67.  Then the events of the engine's server arrive with increasing ids, all
    greater than the last id before the engine started. *)
Theorem C67_increasing_partial : forall ms size last es sv tk ss ctr cs N tr w pre i post c conv req,
    engine_run ms size last (engine_of tr) es -> server_run sv tk (server_of tr) ss -> joined N tr w -> calm N tr ->
    client_run ctr cs -> prefix (received ctr) (sent_to c (server_of tr)) ->
    only_by N (of_server (eid_server last)) false (server_of tr) ->
    tr = pre ++ JS i :: post -> existsb is_welcome (sent_in c (snd i)) = true ->
    init_of c (server_of tr) = Some (conv, req) -> ir_persisted req = false ->
    StronglySorted eid_lt (last :: map ev_id (from (of_server (eid_server last)) (got_events ctr))).
Proof. exact final_C67_increasing. Qed.
Print Assumptions C67_increasing_partial.

(** The engine registers two requests; the client gets their events that it
    asked for, and one of another server in between; the batch with the event
    of the stopped engine is on its way. *)
Example C67_engine_example :
  let tr := jtrace d_last d_all in let str := server_of tr in let ctr := ctrace d_ops in
  engine_run [] 5 d_last (engine_of tr) (jeend d_last d_all) /\ server_run 1 (Some "secret") str (jvend d_last d_all) /\ joined dN tr (Told 103) /\
  calm dN tr /\ in_turn dN str /\ undropped dN 1 str /\ client_run ctr (cend d_ops) /\ received ctr = sent_to 1 str /\
  only_by dN (of_server 1) false str /\
  (exists pre i post, tr = pre ++ JS i :: post /\ existsb is_welcome (sent_in 1 (snd i)) = true) /\
  init_of 1 str = Some (0, vreq1) /\ ir_persisted vreq1 = false /\ gone 1 str = false /\
  map (fun b => length b) (handed (engine_of tr)) = [1; 3; 1; 1] /\ from (of_server 7) (got_events ctr) = [vev1] /\
  map (fun e => (ev_id e, ev_type e)) (from (of_server 1) (got_events ctr)) =
    [(Eid 1 6 1, ["a"; "x"]); (Eid 1 6 3, ["a"; "y"]); (Eid 1 7 1, ["a"; "z"])].
Proof.
  cbv zeta. destruct (jplayed d_last d_all) as (H1 & H2 & H3); [vm_compute; reflexivity|].
  assert (H4 : calm dN (jtrace d_last d_all)).
  { apply calm_at. replace (filter _ _) with [33] by (vm_compute; reflexivity). constructor; [|constructor].
    split; [vm_compute; reflexivity|]. apply all_told_ok. vm_compute. reflexivity. }
  pose proof (joined_inv _ _ _ _ _ H3 _ H2 H4) as I.
  repeat match goal with |- _ /\ _ => split end; try assumption; try (match goal with |- _ = _ => vm_compute; reflexivity end).
  - exact (ji_turn _ _ _ I).
  - exact (plain_undropped _ _ _ _ _ _ _ H2 (ji_plain _ _ _ I)).
  - apply cplayed. vm_compute. reflexivity.
  - apply only_byb_ok. vm_compute. reflexivity.
  - eexists (firstn 8 (jtrace d_last d_all)), _, (skipn 9 (jtrace d_last d_all)). split; vm_compute; reflexivity.
Qed.

(** C67 fails if the loop of the engine is interrupted while clients are told of
    a batch: the client misses events of this batch though it stays connected,
    and gets the following ones. *)
Theorem C67_refuted : exists ms size last es sv tk ss ctr cs N tr w pre i post c conv req b b' e e',
    engine_run ms size last (engine_of tr) es /\ server_run sv tk (server_of tr) ss /\ joined N tr w /\
    client_run ctr cs /\ received ctr = sent_to c (server_of tr) /\
    only_by N (of_server (eid_server last)) false (server_of tr) /\
    tr = pre ++ JS i :: post /\ existsb is_welcome (sent_in c (snd i)) = true /\
    init_of c (server_of tr) = Some (conv, req) /\ ir_persisted req = false /\ gone c (server_of tr) = false /\ w = Over /\
    handed (engine_of tr) = handed (engine_of pre) ++ [b; b'] /\ In e b /\ interested req e /\ ~ In e (got_events ctr) /\ In e' b' /\ In e' (got_events ctr).
Proof.
  exists [], 5, d_last, (jeend d_last d_lost), 1%Z, (Some "secret"), (jvend d_last d_lost), (ctrace d_lost_ops), (cend d_lost_ops), dN, (jtrace d_last d_lost), Over,
    (firstn 8 (jtrace d_last d_lost)), (VInit 1 0 d_vreq true, [Sent 1 (MInitRes 0 (Some STANDBY))]), (skipn 9 (jtrace d_last d_lost)), 1, 0, d_vreq.
  destruct (jplayed d_last d_lost) as (H1 & H2 & H3); [vm_compute; reflexivity|].
  eexists _, _, (Ev (Eid 1 6 1) ["a"; "x"] (Ts 11 0) None None), _.
  repeat match goal with |- _ /\ _ => split end; try assumption; try (match goal with |- _ = _ => vm_compute; reflexivity end).
  - apply cplayed. vm_compute. reflexivity.
  - apply only_byb_ok. vm_compute. reflexivity.
  - vm_compute. left. reflexivity.
  - split; [|exact I]. exists ["*"]. split; [now left|]. split; [|constructor]. intros [|x [|]] r E; try discriminate. now injection E.
  - intros H. vm_compute in H. intuition discriminate.
  - vm_compute. left. reflexivity.
  - vm_compute. left. reflexivity.
Qed.
Print Assumptions C67_refuted.

(** C67.  From the flush loop to a client that asked for persisted events: its
    callback gets every event that it asked for of the batches flushed since it
    was accepted, once and in order of registration, and every event it gets is
    on disk. *)
Theorem C67_persisted_partial : forall O cf tr0 fs sv tk ss ctr cs N tr w pre i post c conv req,
    lifetime O cf tr0 (flush_of tr) fs -> server_run sv tk (kserver_of tr) ss -> kjoined O cf tr0 N tr w -> writes_ok (flush_of tr) -> callbacks_ok (flush_of tr) ->
    client_run ctr cs -> prefix (received ctr) (sent_to c (kserver_of tr)) ->
    only_by N any true (kserver_of tr) ->
    tr = pre ++ KS i :: post -> existsb is_welcome (sent_in c (snd i)) = true ->
    init_of c (kserver_of tr) = Some (conv, req) -> ir_persisted req = true ->
    (exists early due l, kupto1 (flushed (flush_of pre)) early /\ kupto1 (flushed (flush_of tr)) (early ++ due) /\
      prefix (early ++ due) (registered (flush_of tr)) /\
      picked (interested req) (concat due) l /\ prefix (got_events ctr) l /\
      (gone c (kserver_of tr) = false -> ksettled N tr -> received ctr = sent_to c (kserver_of tr) -> got_events ctr = l)) /\
    (forall e, In e (got_events ctr) -> exists es h, In (es, h) (regs cf tr0 (flush_of tr)) /\ In e es /\ prefix h (w_disk (watched cf tr0 (flush_of tr)))) /\
    content (s_disk (f_sys fs)) (w_disk (watched cf tr0 (flush_of tr))) (w_gone (watched cf tr0 (flush_of tr))).
Proof. exact final_C67_persisted. Qed.
Print Assumptions C67_persisted_partial.

(** The client is accepted after the first batch was flushed; it has got what it
    asked for of the second and of the third one, whose call has not returned
    yet; the fourth one is registered only. *)
Example C67_persisted_example :
  let tr := ktrace k_all in let str := kserver_of tr in let ctr := ctrace k_ops in
  lifetime ex_oracle ex_conf [] (flush_of tr) (kfend k_all) /\ server_run 1 (Some "secret") str (kvend k_all) /\
  kjoined ex_oracle ex_conf [] dN tr (kwhere k_all) /\ kwhere k_all = Some (102, [ex_e6]) /\ writes_ok (flush_of tr) /\ callbacks_ok (flush_of tr) /\
  client_run ctr (cend k_ops) /\ received ctr = sent_to 1 str /\ only_by dN any true str /\
  (exists pre i post, tr = pre ++ KS i :: post /\ existsb is_welcome (sent_in 1 (snd i)) = true) /\
  init_of 1 str = Some (0, k_req) /\ ir_persisted k_req = true /\ gone 1 str = false /\
  flushed (flush_of tr) = [[ex_e1]; [ex_e2; ex_e5]] /\ registered (flush_of tr) = [[ex_e1]; [ex_e2; ex_e5]; [ex_e6]; [ex_e7]] /\
  got_events ctr = [ex_e5; ex_e6].
Proof.
  cbv zeta. destruct (kplayed k_all) as (H1 & H2 & H3); [vm_compute; reflexivity|vm_compute; reflexivity|].
  repeat match goal with |- _ /\ _ => split end; try assumption; try (match goal with |- _ = _ => vm_compute; reflexivity end).
  - intros H. vm_compute in H. intuition discriminate.
  - intros H. vm_compute in H. intuition discriminate.
  - apply cplayed. vm_compute. reflexivity.
  - apply only_byb_ok. vm_compute. reflexivity.
  - eexists (firstn 9 (ktrace k_all)), _, (skipn 10 (ktrace k_all)). split; vm_compute; reflexivity.
Qed.
