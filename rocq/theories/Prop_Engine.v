(** C31 - C35: sessions, answers, modules and life of the engine.

    [engine_run ms size last tr s]: an engine with modules of subscriptions
    [ms] was created when the backend reported [last] as last id, then [tr]
    happened in any interleaving of register calls, their cancellation,
    closing, and steps of the register loop; modules and backend answer
    anything, also exceptions.  An item of the trace is a step and what is seen
    at it.  [handed tr] are the batches given to the backend. *)
From Coq Require Import String Bool ZArith Arith Lia Sorted List.
From Verif Require Import Base Model_Types Model_Subscription Spec_Order Model_Lmdb Model_LmdbSys Spec_Lmdb Ex_Lmdb
  Model_Engine Spec_Engine Proof_Engine2 Proof_Engine3 Proof_Engine5 Ex_Engine.
Import ListNotations.
Open Scope string_scope.
Open Scope list_scope.
Open Scope nat_scope.

(** C31.  Ids are strictly increasing and greater than the last id known to the
    backend. *)
Theorem C31_increasing : forall ms size last tr s, engine_run ms size last tr s ->
    StronglySorted eid_lt (last :: map ev_id (concat (handed tr))) /\
    Forall (fun e => eid_server (ev_id e) = eid_server last) (concat (handed tr)).
Proof. exact final_C31_increasing. Qed.
Print Assumptions C31_increasing.

(** C31.  A batch is one session: instances 1, 2, ... in order, one timestamp;
    the session number counts the sessions begun. *)
Theorem C31_session : forall ms size last A o l es s, engine_run ms size last (A ++ [(o, l)]) s -> In (Hand es) l ->
    es <> [] /\ exists now ss, map ev_id es = ids_from (eid_server last) ss 1 (List.length es) /\ Forall (fun e => ev_ts e = now) es /\
    ((o = EStep /\ ss = (eid_session last + Z.of_nat (List.length (begun A)))%Z /\ last_get (ops_of A) = Some now) \/
     ((o = ERaise now \/ o = ECancel now) /\ ss = (eid_session last + Z.of_nat (List.length (begun A)) + 1)%Z)).
Proof. exact final_C31_session. Qed.
Print Assumptions C31_session.

Example C31_example :
  engine_run en_ms 5 en_last (en_tr en_all) (en_s en_all) /\
  handed (en_tr en_all) = [[en_started]; en_batch; [en_stopped]] /\
  exists s, engine_run en_ms 5 en_last (en_tr (en_ops1 ++ en_ops2) ++ [(EStep, [Hand en_batch])]) s.
Proof.
  split; [apply en_run; vm_compute; reflexivity|]. split; [vm_compute; reflexivity|].
  exists (en_s (en_ops1 ++ en_ops2 ++ [EStep])).
  replace (en_tr (en_ops1 ++ en_ops2) ++ [(EStep, [Hand en_batch])]) with (en_tr (en_ops1 ++ en_ops2 ++ [EStep])) by (vm_compute; reflexivity).
  apply en_run. vm_compute. reflexivity.
Qed.

(** C32.  An answer of events is the first part of the batch of the request and
    corresponds one to one to the requested events; it is given when the
    backend has registered the batch.  Other answers are [None] if the backend
    says so, and an exception when the engine is interrupted or closed. *)
Theorem C32_answer : forall ms size last A o l n a s, engine_run ms size last (A ++ [(o, l)]) s -> In (Reply n a) l ->
    right_answer A o n a.
Proof. exact final_C32_answer. Qed.
Print Assumptions C32_answer.

(** C32.  When the backend has registered the batch, the request is answered,
    unless its caller gave up. *)
Theorem C32_served : forall ms size last A ok l s, engine_run ms size last (A ++ [(ERegistered ok, l)]) s ->
    exists bs r, begun A = bs ++ [r] /\
      (~ In (EGiveUp (rq_fut r)) (ops_of A) -> exists a, l = [Reply (rq_fut r) a] /\ a <> Failed /\ (ok = true -> a <> NoEvents)).
Proof. exact final_C32_served. Qed.
Print Assumptions C32_served.

(** C32.  A request is answered once. *)
Theorem C32_once : forall ms size last tr s, engine_run ms size last tr s -> NoDup (replied tr).
Proof. exact final_C32_once. Qed.
Print Assumptions C32_once.

(** C32.  An empty request is answered at once with an empty list and without
    a session. *)
Theorem C32_empty : forall ms size last tr s, engine_run ms size last tr s ->
    Forall (fun r => rq_events r <> []) (begun tr) /\
    (forall A r l B, tr = A ++ (ERegister r, l) :: B -> rq_events r = [] -> l = [Reply (rq_fut r) (Events [])]).
Proof. exact final_C32_empty. Qed.
Print Assumptions C32_empty.

Example C32_example :
  engine_run en_ms 5 en_last (en_tr en_all) (en_s en_all) /\
  replied (en_tr en_all) = [5; 0; 1; 2; 4] /\
  (exists s, engine_run en_ms 5 en_last (en_tr (en_ops1 ++ en_ops2 ++ [EStep]) ++ [(ERegistered true, [Reply 1 (Events [en_e 1 ["a"; "x"]; en_e 2 ["c"]])])]) s) /\
  In (ERegister en_req5, [Reply 5 (Events [])]) (en_tr en_all) /\ rq_events en_req5 = [].
Proof.
  split; [apply en_run; vm_compute; reflexivity|]. split; [vm_compute; reflexivity|]. split; [|split; [vm_compute; auto 20|reflexivity]].
  exists (en_s (en_ops1 ++ en_ops2 ++ [EStep; ERegistered true])).
  match goal with |- engine_run _ _ _ ?t _ => replace t with (en_tr (en_ops1 ++ en_ops2 ++ [EStep; ERegistered true])) by (vm_compute; reflexivity) end.
  apply en_run. vm_compute. reflexivity.
Qed.

(** C33.  In a session: the batch is the request's events with the request's
    source, then what modules produced, each with the module as source; each
    module is given exactly the events of the batch it subscribed to, once, in
    order and with their sources; modules are told of the start before and of
    the stop after all processing. *)
Theorem C33_session : forall ms size last A now l B es s,
    engine_run ms size last (A ++ (EGet now, l) :: B ++ [(EStep, [Hand es])]) s -> no_get B ->
    let ss := (eid_session last + Z.of_nat (List.length (begun A)) + 1)%Z in
    exists r T procs, l = [Begin r] /\ map snd T = es /\
      map (fun x => (fst x, reg_of (snd x))) T = map (fun y => (rq_src r, y)) (rq_events r) ++ produced B /\
      (forall m, calls m B = filter (wants ms m) T) /\
      work B = map (fun m => Started m ss) (seq 0 (List.length ms)) ++ procs ++ map (fun m => Stopped m ss) (seq 0 (List.length ms)) /\
      Forall (fun x => is_process x = true) procs.
Proof. exact final_C33_session. Qed.
Print Assumptions C33_session.

(** C33.  Sessions do not overlap: before the next one begins, the batch of the
    session was given to the backend, which answered; in between no module is
    called. *)
Theorem C33_serial : forall ms size last A n1 l1 B n2 l2 s,
    engine_run ms size last (A ++ (EGet n1, l1) :: B ++ [(EGet n2, l2)]) s -> no_get B ->
    exists B1 es B2 ok, B = B1 ++ (EStep, [Hand es]) :: B2 /\ handed B1 = [] /\ work B2 = [] /\ In (ERegistered ok) (ops_of B2).
Proof. exact final_C33_serial. Qed.
Print Assumptions C33_serial.

Example C33_example :
  let tr := en_tr (en_ops1 ++ en_ops2 ++ [EStep]) in
  let B := skipn 16 (firstn 35 tr) in
  engine_run en_ms 5 en_last tr (en_s (en_ops1 ++ en_ops2 ++ [EStep])) /\
  tr = firstn 15 tr ++ (EGet (Ts 11 0), [Begin en_req1]) :: B ++ [(EStep, [Hand en_batch])] /\ no_get B /\
  calls 0 B = [(Source EVENTER 3, en_e 1 ["a"; "x"]); (Source MODULE 0, en_e 3 ["b"])] /\
  calls 1 B = [(Source MODULE 0, en_e 3 ["b"])] /\
  produced B = [(Source MODULE 0, rg ["b"]); (Source MODULE 1, rg ["d"])] /\
  List.length (work B) = 7 /\
  engine_run en_ms 5 en_last (en_tr en_all) (en_s en_all) /\
  map (fun i => is_get (fst i)) (firstn 30 (skipn 15 (en_tr en_all))) =
    true :: repeat false 26 ++ [true; false; false].
Proof.
  cbv zeta. split; [apply en_run; vm_compute; reflexivity|]. split; [vm_compute; reflexivity|]. split; [vm_compute; repeat constructor|].
  repeat (split; [vm_compute; reflexivity|]). split; [apply en_run; vm_compute; reflexivity|]. vm_compute. reflexivity.
Qed.

(** C34.  The first event given to the backend is the STARTED event, unless the
    engine is interrupted before; then STOPPED is the only one. *)
Theorem C34_first : forall ms size last tr s h hs, engine_run ms size last tr s -> handed tr = h :: hs ->
    exists e t, h = e :: t /\ (is_status (eid_server last) "STARTED" e \/ is_status (eid_server last) "STOPPED" e /\ t = [] /\ hs = [] /\ shut_in tr = true).
Proof. exact final_C34_first. Qed.
Print Assumptions C34_first.

(** C34.  When the loop is interrupted, the STOPPED event is the last one given
    to the backend. *)
Theorem C34_last : forall ms size last A B s, engine_run ms size last (A ++ B) s -> shut_in A = true ->
    handed (A ++ B) = handed A /\ exists hs e, handed A = hs ++ [[e]] /\ is_status (eid_server last) "STOPPED" e.
Proof. exact final_C34_last. Qed.
Print Assumptions C34_last.

(** C34.  Sessions begin in the order in which requests were queued. *)
Theorem C34_order : forall ms size last tr s, engine_run ms size last tr s -> eprefix (map rq_fut (begun tr)) (queued tr).
Proof. exact final_C34_fifo. Qed.
Print Assumptions C34_order.

(** C34.  When the engine has ended, every request was answered or given up, or
    is still to be put to the queue, which will fail.  (If the creation of the
    engine fails, requests may stay unanswered, see below.) *)
Theorem C34_ended_partial : forall ms size last tr s r, engine_run ms size last tr s -> In ELast (ops_of tr) -> In (ERegister r) (ops_of tr) ->
    let n := rq_fut r in
    In n (replied tr) \/ In (EGiveUp n) (ops_of tr) \/ exists s2, eexec ms size s (EPut n) = Some (s2, [Reply n Failed]).
Proof. exact final_C34_ended. Qed.
Print Assumptions C34_ended_partial.

(** C34.  Later requests fail. *)
Theorem C34_later : forall ms size last A n l B s, engine_run ms size last (A ++ (EPut n, l) :: B) s -> shut_in A = true -> l = [Reply n Failed].
Proof. exact final_C34_later. Qed.
Print Assumptions C34_later.

(** C34.  An engine that was closed comes to its end by steps of the loop and
    its cancellation, whatever it is busy with. *)
Theorem C34_closes : forall ms size last tr s, engine_run ms size last tr s -> In EBegin (ops_of tr) -> In EClose (ops_of tr) ->
    exists tr2 s2, engine_run ms size last (tr ++ tr2) s2 /\ Forall (fun o => closing_step o = true) (ops_of tr2) /\ In ELast (ops_of (tr ++ tr2)).
Proof. exact final_C34_closes. Qed.
Print Assumptions C34_closes.

Example C34_example :
  engine_run en_ms 5 en_last (en_tr en_all) (en_s en_all) /\ In ELast (ops_of (en_tr en_all)) /\
  handed (en_tr en_all) = [[en_started]; en_batch; [en_stopped]] /\
  queued (en_tr en_all) = [0; 1; 2; 3] /\ map rq_fut (begun (en_tr en_all)) = [0; 1; 2] /\
  replied (en_tr en_all) = [5; 0; 1; 2; 4] /\ In (EGiveUp 3) (ops_of (en_tr en_all)) /\
  shut_in (firstn 47 (en_tr en_all)) = true /\ nth_error (en_tr en_all) 47 = Some (EPut 4, [Reply 4 Failed]) /\
  In EBegin (ops_of (en_tr en_all)) /\ In EClose (ops_of (en_tr en_all)).
Proof.
  split; [apply en_run; vm_compute; reflexivity|]. split; [vm_compute; auto 60|]. repeat (split; [vm_compute; reflexivity|]).
  split; [vm_compute; auto 60|]. repeat (split; [vm_compute; reflexivity|]). split; vm_compute; auto 60.
Qed.

(** C34.  If the creation of the engine fails, a request that a module queued
    before is never answered. *)
Theorem C34_refuted : exists ms size last tr s r,
    engine_run ms size last tr s /\ In EInitFailed (ops_of tr) /\ In (ERegister r) (ops_of tr) /\ In (EPut (rq_fut r)) (ops_of tr) /\
    forall tr2 s2, engine_run ms size last (tr ++ tr2) s2 -> ~ In (rq_fut r) (replied (tr ++ tr2)).
Proof.
  exists en_ms, 5, en_last, (en_tr en_failed), (en_s en_failed), en_req1.
  split; [apply en_run; vm_compute; reflexivity|]. split; [vm_compute; auto|]. split; [vm_compute; auto|]. split; [vm_compute; auto|].
  apply init_failed_never with (s := en_s en_failed); [apply en_run; vm_compute; reflexivity|vm_compute; reflexivity|vm_compute; reflexivity|vm_compute; auto].
Qed.
Print Assumptions C34_refuted.

(** C35.  Ids given by an engine are greater than those of all events of its
    server which the backend has accepted and not lost by a crash, whatever
    restarts there were.  Missing: events which the backend does not accept, and
    events lost by a crash. *)
Theorem C35_stored_partial : forall O cf tr s srv ms size etr es, execution O cf tr s ->
    engine_run ms size (get_last_event_id (m_sys (s_mem s)) srv) etr es ->
    forall en e, In en (w_all (watch_run cf tr)) -> eid_server (ev_id (en_ev en)) = srv -> In e (concat (handed etr)) ->
    eid_lt (ev_id (en_ev en)) (ev_id e).
Proof. exact final_C35_stored. Qed.
Print Assumptions C35_stored_partial.

(** C35.  If the last event given by an engine is accepted by the backend and
    not lost, later engines give greater ids than that engine, also than ids of
    events that were not accepted. *)
Theorem C35_restart_partial : forall O cf tr s ms1 size1 last1 etr1 es1 given e en ms2 size2 etr2 es2,
    engine_run ms1 size1 last1 etr1 es1 -> concat (handed etr1) = given ++ [e] ->
    execution O cf tr s -> In en (w_all (watch_run cf tr)) -> en_ev en = e ->
    engine_run ms2 size2 (get_last_event_id (m_sys (s_mem s)) (eid_server last1)) etr2 es2 ->
    forall a b, In a (concat (handed etr1)) -> In b (concat (handed etr2)) -> eid_lt (ev_id a) (ev_id b).
Proof. exact final_C35_restart. Qed.
Print Assumptions C35_restart_partial.

Example C35_example :
  let bs := life_batches (Eid 1 0 0) 10 in
  let tr := trace_of (plays ex_oracle latest_conf (site_ops latest_conf bs)) in
  let s := end_of latest_conf (plays ex_oracle latest_conf (site_ops latest_conf bs)) in
  let last := get_last_event_id (m_sys (s_mem s)) 1 in
  engine_run [] 5 (Eid 1 0 0) (etrace [] 5 (Eid 1 0 0) (life 10)) (eend [] 5 (Eid 1 0 0) (life 10)) /\
  execution ex_oracle latest_conf tr s /\
  map ev_id (concat bs) = [Eid 1 1 1; Eid 1 2 1] /\
  map (fun en => ev_id (en_ev en)) (w_all (watch_run latest_conf tr)) = [Eid 1 1 1; Eid 1 2 1] /\
  engine_run [] 5 last (etrace [] 5 last (life 20)) (eend [] 5 last (life 20)) /\
  map ev_id (concat (life_batches last 20)) = [Eid 1 3 1; Eid 1 4 1].
Proof.
  cbv zeta. split; [apply eplayed; vm_compute; reflexivity|]. split.
  { apply played'; [vm_compute; reflexivity| |vm_compute; reflexivity].
    apply Forall_cons; [apply latest_conf_ok|]. apply Forall_cons; [apply latest_conf_ok|apply Forall_nil]. }
  repeat (split; [vm_compute; reflexivity|]). split; [apply eplayed; vm_compute; reflexivity|vm_compute; reflexivity].
Qed.

(** C35.  Events of the engine that are not selected for storage do not move the
    last id: after a clean restart (all flushed) a new engine gives the same id
    to another event. *)
Theorem C35_refuted : exists O cf tr s s2 etr1 es1 etr2 es2 a b,
    execution O cf tr s /\ engine_run [] 5 (Eid 1 0 0) etr1 es1 /\
    flat_map (fun x => match fst x with ORegister es => [es] | _ => [] end) tr = handed etr1 /\
    w_cur (watch_run cf tr) = [] /\ w_queue (watch_run cf tr) = [] /\ exec O s (OReopen cf) = Some (s2, Quiet) /\
    engine_run [] 5 (get_last_event_id (m_sys (s_mem s2)) 1) etr2 es2 /\
    In a (concat (handed etr1)) /\ In b (concat (handed etr2)) /\ ev_id a = ev_id b /\ a <> b.
Proof.
  set (bs := life_batches (Eid 1 0 0) 10). set (ops := map ORegister bs ++ [OFlush; OWork]).
  set (ops2 := ops ++ [OReopen nothing_conf]).
  exists ex_oracle, nothing_conf, (trace_of (plays ex_oracle nothing_conf ops)), (end_of nothing_conf (plays ex_oracle nothing_conf ops)),
    (end_of nothing_conf (plays ex_oracle nothing_conf ops2)), (etrace [] 5 (Eid 1 0 0) (life 10)), (eend [] 5 (Eid 1 0 0) (life 10)),
    (etrace [] 5 (Eid 1 0 0) (life 20)), (eend [] 5 (Eid 1 0 0) (life 20)),
    (Ev (Eid 1 1 1) ["event"; "1"; "engine"] (Ts 10 0) None (Some (PJson (JStr "STARTED")))),
    (Ev (Eid 1 1 1) ["event"; "1"; "engine"] (Ts 20 0) None (Some (PJson (JStr "STARTED")))).
  split. { apply played'; [vm_compute; reflexivity| |vm_compute; reflexivity]. apply Forall_cons; [apply nothing_conf_ok|apply Forall_nil]. }
  split; [apply eplayed; vm_compute; reflexivity|]. repeat (split; [vm_compute; reflexivity|]). split.
  { replace (get_last_event_id (m_sys (s_mem (end_of nothing_conf (plays ex_oracle nothing_conf ops2)))) 1) with (Eid 1 0 0) by (vm_compute; reflexivity).
    apply eplayed. vm_compute. reflexivity. }
  split; [vm_compute; auto|]. split; [vm_compute; auto|]. split; [reflexivity|discriminate].
Qed.
Print Assumptions C35_refuted.

(** C35.  The same after a crash before the flush, also if all events are
    selected for storage. *)
Theorem C35_crash_refuted : exists O cf tr s etr1 es1 etr2 es2 a b,
    execution O cf (tr ++ [(OReopen cf, Quiet)]) s /\ engine_run [] 5 (Eid 1 0 0) etr1 es1 /\
    map en_ev (w_all (watch_run cf tr)) = concat (handed etr1) /\
    engine_run [] 5 (get_last_event_id (m_sys (s_mem s)) 1) etr2 es2 /\
    In a (concat (handed etr1)) /\ In b (concat (handed etr2)) /\ ev_id a = ev_id b /\ a <> b.
Proof.
  set (bs := life_batches (Eid 1 0 0) 10). set (ops := map ORegister bs). set (ops2 := crash_ops latest_conf bs).
  exists ex_oracle, latest_conf, (trace_of (plays ex_oracle latest_conf ops)),
    (end_of latest_conf (plays ex_oracle latest_conf ops2)), (etrace [] 5 (Eid 1 0 0) (life 10)), (eend [] 5 (Eid 1 0 0) (life 10)),
    (etrace [] 5 (Eid 1 0 0) (life 20)), (eend [] 5 (Eid 1 0 0) (life 20)),
    (Ev (Eid 1 1 1) ["event"; "1"; "engine"] (Ts 10 0) None (Some (PJson (JStr "STARTED")))),
    (Ev (Eid 1 1 1) ["event"; "1"; "engine"] (Ts 20 0) None (Some (PJson (JStr "STARTED")))).
  split.
  { replace (trace_of (plays ex_oracle latest_conf ops) ++ [(OReopen latest_conf, Quiet)]) with (trace_of (plays ex_oracle latest_conf ops2)) by (vm_compute; reflexivity).
    apply played'; [vm_compute; reflexivity| |vm_compute; reflexivity]. apply Forall_cons; [apply latest_conf_ok|].
    apply Forall_cons; [apply latest_conf_ok|apply Forall_nil]. }
  split; [apply eplayed; vm_compute; reflexivity|]. repeat (split; [vm_compute; reflexivity|]). split.
  { replace (get_last_event_id (m_sys (s_mem (end_of latest_conf (plays ex_oracle latest_conf ops2)))) 1) with (Eid 1 0 0) by (vm_compute; reflexivity).
    apply eplayed. vm_compute. reflexivity. }
  split; [vm_compute; auto|]. split; [vm_compute; auto|]. split; [reflexivity|discriminate].
Qed.
Print Assumptions C35_crash_refuted.
