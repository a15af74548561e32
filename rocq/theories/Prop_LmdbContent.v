(** C14, C15, C16, C21, C22, C23, C28, C30: content of the LMDB database over
    whole executions.

    [execution O cf tr s]: from the first start with configuration [cf] on, the
    operations and what was seen of them are [tr]; the backend is now in state
    [s].  [watch_run cf tr] is what follows from [tr] alone: [w_all] is the
    history of accepted events, [w_disk] its part that was written by completed
    flushes, [w_gone] what cleanup removed. *)
From Coq Require Import String Bool ZArith Lia Permutation List.
From Verif Require Import Base Model_Types Model_Subscription Model_Codec Spec_Subscription Model_Lmdb Model_LmdbSys
  Spec_Lmdb Spec_LmdbContent Proof_Lmdb9 Proof_Lmdb10 Proof_Subscription3 Ex_Lmdb.
Import ListNotations.
Open Scope string_scope.
Open Scope list_scope.
Open Scope Z_scope.

(** C14.  Accepted events of a server are in order; only accepted events are in
    the database; the reported last id is the one of the last accepted event. *)
Theorem C14_order : forall O cf tr s, execution O cf tr s ->
    let w := watch_run cf tr in
    server_order (w_all w) /\
    (forall e, stored_event (s_disk s) e -> exists en, In en (w_disk w) /\ en_ev en = e) /\
    (forall srv, last_id (w_all w) srv (get_last_event_id (m_sys (s_mem s)) srv)).
Proof. exact final_C14. Qed.
Print Assumptions C14_order.

(** C14.  The reported id does not decrease, except by a crash; then it is not
    smaller than what had been written. *)
Theorem C14_last_id : forall O cf tr1 tr2 s1 s2, execution O cf tr1 s1 -> execution O cf (tr1 ++ tr2) s2 ->
    forall srv,
    (no_reopen tr2 -> eid_leb (get_last_event_id (m_sys (s_mem s1)) srv) (get_last_event_id (m_sys (s_mem s2)) srv) = true) /\
    (forall i, In (srv, i) (db_ids (s_disk s1)) -> eid_leb i (get_last_event_id (m_sys (s_mem s2)) srv) = true).
Proof. exact final_C14_grows. Qed.
Print Assumptions C14_last_id.

Example C14_example :
  execution ex_oracle ex_conf ex_tr ex_s /\
  ex_evs (w_all (watch_run ex_conf ex_tr)) = [ex_e1; ex_e2; ex_e4; ex_e5; ex_e6] /\
  map snd (db_latest (s_disk ex_s)) = [ex_e4; ex_e2; ex_e5] /\
  get_last_event_id (m_sys (s_mem ex_s)) 1 = Eid 1 2 2 /\
  execution ex_oracle ex_conf (ex_tr ++ [(OReopen ex_conf, Quiet)]) ex_s_crash /\
  get_last_event_id (m_sys (s_mem ex_s_crash)) 1 = Eid 1 2 1.
Proof.
  split; [exact ex_run|]. split; [vm_compute; reflexivity|]. split; [vm_compute; reflexivity|]. split; [vm_compute; reflexivity|].
  split; [|vm_compute; reflexivity]. replace (ex_tr ++ [(OReopen ex_conf, Quiet)]) with ex_tr_crash by (vm_compute; reflexivity).
  exact ex_run_crash.
Qed.

(** C15.  A latest query gives exactly the latest accepted events the
    configuration in force lets be seen, among the types asked for; one for
    each type. *)
Theorem C15_latest : forall O cf tr p a s, execution O cf (tr ++ [(OLatest p, a)]) s -> valid_latest p ->
    let w := watch_run cf tr in
    exists es, a = Answer (Some (QRes es false)) /\ NoDup (map ev_type es) /\
      forall e, In e es <-> visible (w_conf w) (w_all w) (ev_type e) = Some e /\ asked p (ev_type e).
Proof. exact final_C15. Qed.
Print Assumptions C15_latest.

(** C15.  As long as the configuration stays the same, these are the newest
    accepted events of the types covered by the latest subscription. *)
Theorem C15_newest : forall O cf tr p a s, execution O cf (tr ++ [(OLatest p, a)]) s -> valid_latest p ->
    Forall (fun c => c = cf) (confs_of tr) ->
    exists es, a = Answer (Some (QRes es false)) /\ NoDup (map ev_type es) /\
      forall e, In e es <-> covers cf (ev_type e) = true /\ asked p (ev_type e) /\ newest (w_all (watch_run cf tr)) (ev_type e) e.
Proof. exact final_C15_newest. Qed.
Print Assumptions C15_newest.

Definition ex_query : query_latest := QLatest (Some [["?"; "x"]; ["b"]; ["c"]]).
Definition ex_tr_latest := trace_of (plays ex_oracle ex_conf (ex_ops_crash ++ [OLatest ex_query])).
Example C15_example :
  execution ex_oracle ex_conf (ex_tr_crash ++ [(OLatest ex_query, Answer (Some (QRes [ex_e4; ex_e2] false)))]) ex_s_crash /\
  valid_latest ex_query /\ Forall (fun c => c = ex_conf) (confs_of ex_tr_crash).
Proof.
  split; [|split].
  - apply Proof_Lmdb8.execution_snoc. exists ex_s_crash. split; [exact ex_run_crash|].
    split; [vm_compute; reflexivity|]. split; constructor.
  - repeat (apply Forall_cons; [apply Proof_Subscription.validb_spec; reflexivity|]).
    apply Forall_nil.
  - replace (confs_of ex_tr_crash) with [ex_conf] by (vm_compute; reflexivity).
    constructor; [reflexivity|constructor].
Qed.

(** C16.  After a restart with the same configuration at any point, a latest
    query gives what it gave when the history was what is on disk now ... *)
Theorem C16_restart : forall O cf tr1 tr2 c p a b s1 s2,
    execution O cf (tr1 ++ [(OLatest p, a)]) s1 ->
    execution O cf (tr1 ++ tr2 ++ [(OReopen c, Quiet); (OLatest p, b)]) s2 ->
    valid_latest p -> c = w_conf (watch_run cf tr1) ->
    w_disk (watch_run cf (tr1 ++ tr2)) = w_all (watch_run cf tr1) ->
    same_answer a b.
Proof. exact final_C16. Qed.
Print Assumptions C16_restart.

(** ... in particular the same as before, if everything was flushed.  (For a
    crash, C23 tells which [tr1] it is: the one that ends where the last
    completed flush was started.) *)
Theorem C16_flush : forall O cf tr1 tr2 p a b s1 s2,
    execution O cf (tr1 ++ [(OLatest p, a)]) s1 ->
    execution O cf (tr1 ++ tr2 ++ [(OReopen (w_conf (watch_run cf tr1)), Quiet); (OLatest p, b)]) s2 ->
    valid_latest p -> no_register tr2 -> no_reopen tr2 ->
    w_queue (watch_run cf (tr1 ++ tr2)) = [] -> w_cur (watch_run cf (tr1 ++ tr2)) = [] ->
    same_answer a b.
Proof. exact final_C16_flush. Qed.
Print Assumptions C16_flush.

Definition ex_flush : list (op * out) := [(OFlush, Quiet); (OWork, Wrote)].
Example C16_example : exists a b s1 s2,
  execution ex_oracle ex_conf (ex_tr ++ [(OLatest ex_query, a)]) s1 /\
  execution ex_oracle ex_conf (ex_tr ++ ex_flush ++ [(OReopen ex_conf, Quiet); (OLatest ex_query, b)]) s2 /\
  w_queue (watch_run ex_conf (ex_tr ++ ex_flush)) = [] /\ w_cur (watch_run ex_conf (ex_tr ++ ex_flush)) = [] /\
  a = Answer (Some (QRes [ex_e6; ex_e2] false)) /\ b = a.
Proof.
  pose (o1 := ex_ops ++ [OLatest ex_query]).
  pose (o2 := ex_ops ++ [OFlush; OWork; OReopen ex_conf; OLatest ex_query]).
  exists (Answer (Some (QRes [ex_e6; ex_e2] false))), (Answer (Some (QRes [ex_e6; ex_e2] false))),
    (end_of ex_conf (plays ex_oracle ex_conf o1)), (end_of ex_conf (plays ex_oracle ex_conf o2)).
  split; [|split; [|split; [vm_compute; reflexivity|split; [vm_compute; reflexivity|split; reflexivity]]]].
  - replace (ex_tr ++ _) with (trace_of (plays ex_oracle ex_conf o1)) by (vm_compute; reflexivity).
    apply played'; [vm_compute; reflexivity| |vm_compute; reflexivity].
    apply Forall_cons; [apply ex_conf_ok|apply Forall_nil].
  - replace (ex_tr ++ ex_flush ++ _) with (trace_of (plays ex_oracle ex_conf o2)) by (vm_compute; reflexivity).
    apply played'; [vm_compute; reflexivity| |vm_compute; reflexivity].
    apply Forall_cons; [apply ex_conf_ok|]. apply Forall_cons; [apply ex_conf_ok|apply Forall_nil].
Qed.

(** C21.  Every place that holds an event is in the reference index under the
    id of the event; lists of references are never empty. *)
Theorem C21_complete : forall O cf tr s, execution O cf tr s ->
    NoDup (keys (db_ref (s_disk s))) /\
    (forall i rs, In (i, rs) (db_ref (s_disk s)) -> rs <> [] /\ NoDup rs) /\
    (forall r i, at_ref (s_disk s) r i -> exists rs, In (i, rs) (db_ref (s_disk s)) /\ In r rs).
Proof. exact final_C21. Qed.
Print Assumptions C21_complete.

(** C21.  The index is exact, if conditions that were met stay met when the
    configuration changes.  Missing: other changes of conditions. *)
Theorem C21_exact_partial : forall O cf tr s, execution O cf tr s -> conditions_kept (cf :: confs_of tr) ->
    forall i r, (exists rs, In (i, rs) (db_ref (s_disk s)) /\ In r rs) <-> at_ref (s_disk s) r i.
Proof. exact final_C21_exact. Qed.
Print Assumptions C21_exact_partial.

Example C21_example : execution ex_oracle ex_conf ex_tr_crash ex_s_crash /\ conditions_kept (ex_conf :: confs_of ex_tr_crash) /\
  In (Eid 2 1 1, [LatestRef 1; TimeseriesRef (1, Ts 1 0, Eid 2 1 1)]) (db_ref (s_disk ex_s_crash)).
Proof.
  split; [exact ex_run_crash|]. split.
  - replace (confs_of ex_tr_crash) with [ex_conf] by (vm_compute; reflexivity). unfold conditions_kept.
    constructor; [|constructor; [constructor|constructor]]. constructor; [|constructor]. auto.
  - vm_compute. auto.
Qed.

(** C21.  With other changes it is not: an event which does not meet the new
    conditions is replaced, but its reference stays. *)
Theorem C21_refuted : exists O cf tr s i r rs, execution O cf tr s /\
    In (i, rs) (db_ref (s_disk s)) /\ In r rs /\ ~ at_ref (s_disk s) r i.
Proof.
  exists ex_oracle, ex_conf_all, ex_tr_hidden, ex_s_hidden, (Eid 1 1 1), (LatestRef 1), [LatestRef 1].
  split; [exact ex_run_hidden|]. split; [vm_compute; auto|]. split; [now left|].
  intros (e & Hin & Hid). vm_compute in Hin. destruct Hin as [[= <-]|[]]. discriminate Hid.
Qed.
Print Assumptions C21_refuted.

(** C22.  The counter of a partition is the number of its entries. *)
Theorem C22_counters : forall O cf tr s, execution O cf tr s ->
    forall p n, counter (s_disk s) p n <-> n = entries_in (s_disk s) p.
Proof. exact final_C22. Qed.
Print Assumptions C22_counters.

Example C22_example : execution ex_oracle ex_conf ex_tr ex_s /\ db_counts (s_disk ex_s) = [(1, 2); (2, 2)] /\
  List.length (db_ts (s_disk ex_s)) = 4%nat.
Proof. split; [exact ex_run|]. split; vm_compute; reflexivity. Qed.

(** C23.  At any point the database holds what belongs to [w_disk], less what
    was removed by cleanups; [w_disk] is the whole history as it was when some
    flush was started; and this is what a restart at any point finds. *)
Theorem C23_crash : forall O cf tr s, execution O cf tr s ->
    let w := watch_run cf tr in
    content (s_disk s) (w_disk w) (w_gone w) /\
    (exists tr1 tr2, tr = tr1 ++ tr2 /\ flush_point tr1 tr2 /\ w_disk w = w_all (watch_run cf tr1)) /\
    (forall c x s', execution O cf (tr ++ [(OReopen c, x)]) s' -> content (s_disk s') (w_disk w) (w_gone w) /\
       w_all (watch_run cf (tr ++ [(OReopen c, x)])) = w_disk w).
Proof. exact final_C23. Qed.
Print Assumptions C23_crash.

(** A crash between two flushes, of which the first one completed. *)
Definition ex_tr_two := firstn 5 ex_tr.
Example C23_example : exists s, execution ex_oracle ex_conf (ex_tr_two ++ [(OFlush, Quiet); (OReopen ex_conf, Quiet)]) s /\
  ex_evs (w_all (watch_run ex_conf (ex_tr_two ++ [(OFlush, Quiet)]))) = [ex_e1; ex_e2; ex_e4; ex_e5] /\
  map snd (db_ts (s_disk s)) = [ex_e1; ex_e4; ex_e2].
Proof.
  pose (o := firstn 6 ex_ops ++ [OReopen ex_conf]).
  exists (end_of ex_conf (plays ex_oracle ex_conf o)). split; [|split; vm_compute; reflexivity].
  replace (ex_tr_two ++ _) with (trace_of (plays ex_oracle ex_conf o)) by (vm_compute; reflexivity).
  apply played'; [vm_compute; reflexivity| |vm_compute; reflexivity].
  apply Forall_cons; [apply ex_conf_ok|]. apply Forall_cons; [apply ex_conf_ok|apply Forall_nil].
Qed.

(** C28.  Stored partitions have distinct ids and distinct descriptions (order
    and event types); each configured partition has one. *)
Theorem C28_partitions : forall O cf tr s, execution O cf tr s ->
    NoDup (keys (db_parts (s_disk s))) /\ NoDup (vals (db_parts (s_disk s))) /\
    forall pt, In pt (cf_parts (w_conf (watch_run cf tr))) -> exists p, In (p, part_data_of pt) (db_parts (s_disk s)).
Proof. exact final_C28. Qed.
Print Assumptions C28_partitions.

(** C28.  An id once given stays, whatever configurations follow. *)
Theorem C28_stable : forall O cf tr1 tr2 s1 s2, execution O cf tr1 s1 -> execution O cf (tr1 ++ tr2) s2 ->
    forall p v, In (p, v) (db_parts (s_disk s1)) -> In (p, v) (db_parts (s_disk s2)).
Proof. exact final_C28_stable. Qed.
Print Assumptions C28_stable.

(** C28.  Partitions with the same description have the same order and match
    the same event types. *)
Theorem C28_distinct : forall a b, py_subscription (pt_sub a) -> py_subscription (pt_sub b) ->
    part_data_of a = part_data_of b ->
    pt_order a = pt_order b /\ forall t, node_matches (pt_sub a) t = node_matches (pt_sub b) t.
Proof. exact final_C28_distinct. Qed.
Print Assumptions C28_distinct.

(** A restart with the partitions swapped and one more. *)
Definition ex_conf_swapped : conf :=
  mk_conf "0.9" None (fun _ => true) []
    [(SOURCE_TIMESTAMP, [["*"]], None); (TIMESTAMP, [["c"]; ["b"]], None); (TIMESTAMP, [["a"; "*"]], None)] 10.
Example C28_example : exists s, execution ex_oracle ex_conf (ex_tr ++ [(OReopen ex_conf_swapped, Quiet)]) s /\
  db_parts (s_disk s) = [(1, PartData "timestamp" [["a"; "*"]]); (2, PartData "sourceTimestamp" [["*"]]);
                         (3, PartData "timestamp" [["b"]; ["c"]])].
Proof.
  pose (o := ex_ops ++ [OReopen ex_conf_swapped]).
  exists (end_of ex_conf (plays ex_oracle ex_conf o)). split; [|vm_compute; reflexivity].
  replace (ex_tr ++ _) with (trace_of (plays ex_oracle ex_conf o)) by (vm_compute; reflexivity).
  apply played'; [vm_compute; reflexivity| |vm_compute; reflexivity].
  apply Forall_cons; [apply ex_conf_ok|]. apply Forall_cons; [apply conf_ok_of; reflexivity|apply Forall_nil].
Qed.

(** C28.  The description does not depend on order, repetition and overlap
    being written differently: the same set of event types is the same
    partition. *)
Theorem C28_same : forall qs qs' n n' o l l', Forall valid_query qs -> Forall valid_query qs' ->
    py_create qs = Some n -> py_create qs' = Some n' -> (forall q, In q qs <-> In q qs') ->
    part_data_of (Partition o n l) = part_data_of (Partition o n' l').
Proof. exact part_data_set. Qed.
Print Assumptions C28_same.

Definition ex_qs : list etype := [["a"; "*"]; ["b"]; ["?"; "c"]; ["a"]].
Definition ex_qs' : list etype := [["a"]; ["?"; "c"]; ["a"; "*"]; ["b"]; ["a"]].
Example C28_same_example : exists n n', py_create ex_qs = Some n /\ py_create ex_qs' = Some n' /\ n <> n' /\ (forall q, In q ex_qs <-> In q ex_qs').
Proof.
  destruct (py_create ex_qs) as [n|] eqn:E; [|vm_compute in E; discriminate].
  destruct (py_create ex_qs') as [n'|] eqn:E'; [|vm_compute in E'; discriminate].
  exists n, n'. split; auto. split; auto. split.
  - vm_compute in E, E'. injection E as <-. injection E' as <-. discriminate.
  - intros q. unfold ex_qs, ex_qs'. cbn [In]. intuition.
Qed.

(** C30.  Opening fails exactly on another version or another identifier;
    otherwise version and identifier are there afterwards, an identifier once
    set stays, and nothing but partitions is changed. *)
Theorem C30_open : forall cf d, NoDup (keys (db_settings d)) ->
    match open_db cf d with
    | None => (exists v, setting d 0 = Some v /\ v <> cf_version cf) \/
              (exists i j, setting d 1 = Some i /\ cf_ident cf = Some j /\ i <> j)
    | Some (d', _) =>
        (forall v, setting d 0 = Some v -> v = cf_version cf) /\
        (forall i j, setting d 1 = Some i -> cf_ident cf = Some j -> i = j) /\
        setting d' 0 = Some (cf_version cf) /\
        setting d' 1 = match setting d 1 with Some i => Some i | None => cf_ident cf end /\
        (forall k, k <> 0 -> k <> 1 -> setting d' k = setting d k) /\
        (db_ids d', db_tss d', db_ref d', db_latest d', db_types d', db_ts d', db_counts d') =
        (db_ids d, db_tss d, db_ref d, db_latest d, db_types d, db_ts d, db_counts d)
    end.
Proof. exact final_C30. Qed.
Print Assumptions C30_open.

(** C30.  Over all openings: the version is the first one, the identifier the
    first one given, and all openings agreed with them. *)
Theorem C30_openings : forall O cf tr s, execution O cf tr s ->
    setting (s_disk s) 0 = Some (cf_version cf) /\
    Forall (fun c => cf_version c = cf_version cf) (confs_of tr) /\
    setting (s_disk s) 1 = first_ident (cf :: confs_of tr) /\
    (forall c i, In c (cf :: confs_of tr) -> cf_ident c = Some i -> setting (s_disk s) 1 = Some i).
Proof. exact final_C30_runs. Qed.
Print Assumptions C30_openings.

Example C30_example :
  NoDup (keys (db_settings (s_disk ex_s))) /\ setting (s_disk ex_s) 1 = Some "id" /\
  open_db (mk_conf "0.9" (Some "other") (fun _ => true) [] [] 1) (s_disk ex_s) = None /\
  open_db (mk_conf "1.0" None (fun _ => true) [] [] 1) (s_disk ex_s) = None /\
  (if open_db ex_conf_swapped (s_disk ex_s) then true else false) = true /\
  setting (s_disk ex_s_hidden) 1 = None.
Proof.
  split; [vm_compute; repeat constructor; cbn; intuition discriminate|]. repeat split; vm_compute; reflexivity.
Qed.
