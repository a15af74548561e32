(** Properties C17, C18 and C26 (timeseries queries of the LMDB backend). *)
From Coq Require Import String Bool ZArith Lia Sorted List.
From Verif Require Import Base Model_Types Model_Subscription Model_Codec Model_Lmdb Model_LmdbSys Spec_Lmdb Spec_LmdbContent Spec_LmdbQuery Spec_LmdbTs
  Proof_Lmdb21 Proof_Lmdb22 Ex_Lmdb Ex_LmdbTs.
Import ListNotations.
Open Scope string_scope.
Open Scope list_scope.
Open Scope Z_scope.

(** C17.  Whatever happens between a timeseries query and its answer: the query
    is for the first partition with the requested ordering which can have
    requested events.  The answer is a page of the wanted events, each once, of
    those that are looked at: entries of the partition in the database at some
    point between (in order and within the range), and pending entries.
    Missing: pending entries are looked at in the order of registration; unless
    they are sorted, those within the range may be missed, and the result is not
    sorted. *)
Theorem C17_timeseries_partial : forall O cf trA q p trB a s sA, disj_ok O ->
    execution O cf (trA ++ (OTs q p, Quiet) :: trB ++ [(ODeliver q, a)]) s -> execution O cf trA sA ->
    made (w_conf (watch_run cf trA)) -> ~ In q (queries_of trA) -> ~ In q (queries_of trB) ->
    let cfA := w_conf (watch_run cf trA) in
    0 <= ts_max cfA p ->
    exists n pt trB1 trB2 s2, chosen cfA (s_disk sA) p n pt /\ trB = trB1 ++ (OWork, Quiet) :: trB2 /\
      execution O cf (trA ++ (OTs q p, Quiet) :: trB1) s2 /\
      let D := seen (cf_cond cfA) (stored_in (s_disk s2) n) in
      let P := pending_in pt (pending_for p cf trA trB) in
      ts_exact cfA p (looked_at p D P) a /\ (cuttable p P -> ts_answer cfA p (D ++ P) a).
Proof. exact final_C17. Qed.
Print Assumptions C17_timeseries_partial.

(** Three events are within the range: one is stored, one pending, and one is
    registered during the query; the page has two. *)
Example C17_example :
  execution ex_oracle ex_conf (ex_tr ++ (OTs 0 ex_ts, Quiet) :: ex_during_ts ++ [(ODeliver 0, Answer (Some (QRes [ex_e5; ex_e6] true)))]) ex_s_ts /\
  execution ex_oracle ex_conf ex_tr ex_s /\ disj_ok ex_oracle /\ made (w_conf (watch_run ex_conf ex_tr)) /\
  ~ In 0%nat (queries_of ex_tr) /\ ~ In 0%nat (queries_of ex_during_ts) /\ 0 <= ts_max (w_conf (watch_run ex_conf ex_tr)) ex_ts.
Proof.
  replace (w_conf (watch_run ex_conf ex_tr)) with ex_conf by (vm_compute; reflexivity).
  split; [|split; [|split; [|split; [|split; [|split]]]]].
  - replace (ex_tr ++ _) with ex_tr_ts by (vm_compute; reflexivity). exact ex_run_ts.
  - exact ex_run.
  - exact ex_disj_ok.
  - exact ex_made.
  - replace (queries_of ex_tr) with (@nil nat) by (vm_compute; reflexivity). auto.
  - auto.
  - vm_compute. discriminate.
Qed.

(** C17.  When nothing is pending, the answer is complete and sorted. *)
Theorem C17_flushed : forall O cf trA q p trB a s sA, disj_ok O ->
    execution O cf (trA ++ (OTs q p, Quiet) :: trB ++ [(ODeliver q, a)]) s -> execution O cf trA sA ->
    made (w_conf (watch_run cf trA)) -> ~ In q (queries_of trA) -> ~ In q (queries_of trB) ->
    let cfA := w_conf (watch_run cf trA) in
    0 <= ts_max cfA p -> pending_for p cf trA trB = [] ->
    exists n pt trB1 trB2 s2 L, chosen cfA (s_disk sA) p n pt /\ trB = trB1 ++ (OWork, Quiet) :: trB2 /\
      execution O cf (trA ++ (OTs q p, Quiet) :: trB1) s2 /\
      selected p (in_sequence p (seen (cf_cond cfA) (stored_in (s_disk s2) n))) L /\
      a = Answer (Some (page (ts_max cfA p) L)) /\ NoDup (map ev_id L) /\ ordered p L.
Proof. exact final_C17_flushed. Qed.
Print Assumptions C17_flushed.

Example C17_flushed_example :
  execution ex_oracle ex_conf_ts (ex_tr_two_flushed ++ (OTs 0 ex_asc, Quiet) :: [(OWork, Quiet)] ++
     [(ODeliver 0, Answer (Some (QRes [ex_f2; ex_f1] false)))]) ex_s_two_sorted /\
  execution ex_oracle ex_conf_ts ex_tr_two_flushed ex_s_two_flushed /\ made (w_conf (watch_run ex_conf_ts ex_tr_two_flushed)) /\
  ~ In 0%nat (queries_of ex_tr_two_flushed) /\ 0 <= ts_max (w_conf (watch_run ex_conf_ts ex_tr_two_flushed)) ex_asc /\
  pending_for ex_asc ex_conf_ts ex_tr_two_flushed [(OWork, Quiet)] = [].
Proof.
  replace (w_conf (watch_run ex_conf_ts ex_tr_two_flushed)) with ex_conf_ts by (vm_compute; reflexivity).
  split; [|split; [|split; [|split; [|split]]]].
  - replace (ex_tr_two_flushed ++ _) with ex_tr_two_sorted by (vm_compute; reflexivity). exact ex_run_two_sorted.
  - exact ex_run_two_flushed.
  - exact ex_made_ts.
  - replace (queries_of ex_tr_two_flushed) with (@nil nat) by (vm_compute; reflexivity). auto.
  - vm_compute. discriminate.
  - vm_compute. reflexivity.
Qed.

(** C17.  Also when all events are of one server and are ordered by
    timestamp. *)
Theorem C17_one_server : forall O cf trA q p trB a s sA srv, disj_ok O ->
    execution O cf (trA ++ (OTs q p, Quiet) :: trB ++ [(ODeliver q, a)]) s -> execution O cf trA sA ->
    made (w_conf (watch_run cf trA)) -> ~ In q (queries_of trA) -> ~ In q (queries_of trB) ->
    let cfA := w_conf (watch_run cf trA) in
    0 <= ts_max cfA p -> qt_order_by p = TIMESTAMP -> (forall e, In e (events_of (trA ++ trB)) -> eid_server (ev_id e) = srv) ->
    exists n pt trB1 trB2 s2 L, chosen cfA (s_disk sA) p n pt /\ trB = trB1 ++ (OWork, Quiet) :: trB2 /\
      execution O cf (trA ++ (OTs q p, Quiet) :: trB1) s2 /\
      selected p (in_sequence p (seen (cf_cond cfA) (stored_in (s_disk s2) n) ++ pending_in pt (pending_for p cf trA trB))) L /\
      a = Answer (Some (page (ts_max cfA p) L)) /\ NoDup (map ev_id L) /\ ordered p L.
Proof. exact final_C17_one_server. Qed.
Print Assumptions C17_one_server.

Example C17_one_server_example :
  execution ex_oracle ex_conf_ts (ex_tr_one ++ (OTs 0 ex_asc, Quiet) :: ex_during_one ++
     [(ODeliver 0, Answer (Some (QRes [ex_f1; ex_f3; ex_f4] false)))]) ex_s_one_q /\
  execution ex_oracle ex_conf_ts ex_tr_one ex_s_one /\ made (w_conf (watch_run ex_conf_ts ex_tr_one)) /\
  ~ In 0%nat (queries_of ex_tr_one) /\ ~ In 0%nat (queries_of ex_during_one) /\
  0 <= ts_max (w_conf (watch_run ex_conf_ts ex_tr_one)) ex_asc /\ qt_order_by ex_asc = TIMESTAMP /\
  forall e, In e (events_of (ex_tr_one ++ ex_during_one)) -> eid_server (ev_id e) = 1.
Proof.
  replace (w_conf (watch_run ex_conf_ts ex_tr_one)) with ex_conf_ts by (vm_compute; reflexivity).
  split; [|split; [|split; [|split; [|split; [|split; [|split]]]]]].
  - replace (ex_tr_one ++ _) with ex_tr_one_q by (vm_compute; reflexivity). exact ex_run_one_q.
  - exact ex_run_one.
  - exact ex_made_ts.
  - replace (queries_of ex_tr_one) with (@nil nat) by (vm_compute; reflexivity). auto.
  - replace (queries_of ex_during_one) with (@nil nat) by (vm_compute; reflexivity). auto.
  - vm_compute. discriminate.
  - reflexivity.
  - replace (events_of (ex_tr_one ++ ex_during_one)) with [ex_f1; ex_f3; ex_f4] by (vm_compute; reflexivity).
    intros e [<-|[<-|[<-|[]]]]; reflexivity.
Qed.

(** C17.  A query is answered at once with an error, if its types are invalid;
    with nothing, if no partition suits it; or, in descending order, from
    pending entries if these are enough, which is as if stored ones were looked
    at. *)
Theorem C17_at_once_partial : forall O cf trA q p x s sA, disj_ok O ->
    execution O cf (trA ++ [(OTs q p, x)]) s -> execution O cf trA sA -> made (w_conf (watch_run cf trA)) ->
    let cfA := w_conf (watch_run cf trA) in
    (exists qs, qt_types p = Some qs /\ py_create qs = None /\ x = Answer None) \/
    ((forall pt, In pt (cf_parts cfA) -> ~ suits p pt) /\ x = Answer (Some (QRes [] false))) \/
    (exists n pt, chosen cfA (s_disk sA) p n pt /\
      (x = Quiet \/
       qt_order p = DESCENDING /\
       let D := seen (cf_cond cfA) (stored_in (s_disk sA) n) in
       let P := pending_in pt (w_cur (watch_run cf trA)) in
       (0 <= ts_max cfA p -> ts_exact cfA p (looked_at p D P) x /\ (cuttable p P -> ts_answer cfA p (D ++ P) x)) /\
       (ts_max cfA p < 0 -> x = Answer None))).
Proof. exact final_C17_at_once. Qed.
Print Assumptions C17_at_once_partial.

Example C17_at_once_example :
  execution ex_oracle ex_conf (ex_tr_pend ++ [(OTs 0 (ask_page ex_desc None (Some 1)), Answer (Some (QRes [ex_e7] true)))]) ex_s_once /\
  execution ex_oracle ex_conf ex_tr_pend ex_s_pend /\ made (w_conf (watch_run ex_conf ex_tr_pend)).
Proof.
  replace (w_conf (watch_run ex_conf ex_tr_pend)) with ex_conf by (vm_compute; reflexivity).
  split; [|split; [exact ex_run_pend|exact ex_made]].
  replace (ex_tr_pend ++ _) with ex_tr_once by (vm_compute; reflexivity). exact ex_run_once.
Qed.

(** C17.  A negative number of events ends in an error. *)
Theorem C17_negative : forall O cf trA q p trB a s, disj_ok O ->
    execution O cf (trA ++ (OTs q p, Quiet) :: trB ++ [(ODeliver q, a)]) s ->
    made (w_conf (watch_run cf trA)) -> ~ In q (queries_of trA) -> ~ In q (queries_of trB) ->
    ts_max (w_conf (watch_run cf trA)) p < 0 -> a = Answer None.
Proof. exact final_C17_negative. Qed.
Print Assumptions C17_negative.

Example C17_negative_example :
  execution ex_oracle ex_conf (ex_tr ++ (OTs 0 ex_neg, Quiet) :: [(OWork, Quiet)] ++ [(ODeliver 0, Answer None)]) ex_s_neg /\
  made (w_conf (watch_run ex_conf ex_tr)) /\ ts_max (w_conf (watch_run ex_conf ex_tr)) ex_neg < 0.
Proof.
  replace (w_conf (watch_run ex_conf ex_tr)) with ex_conf by (vm_compute; reflexivity).
  split; [|split; [exact ex_made|reflexivity]].
  replace (ex_tr ++ _) with ex_tr_neg by (vm_compute; reflexivity). exact ex_run_neg.
Qed.

(** C17.  With pending events of two servers the result is not sorted, even
    though timestamps of events of each server do not decrease. *)
Theorem C17_sorted_refuted : exists O cf trA q p trB es s, disj_ok O /\
    execution O cf (trA ++ (OTs q p, Quiet) :: trB ++ [(ODeliver q, Answer (Some (QRes es false)))]) s /\
    made (w_conf (watch_run cf trA)) /\ ~ In q (queries_of trA) /\ ~ In q (queries_of trB) /\ ~ ordered p es.
Proof.
  exists ex_oracle, ex_conf_ts, ex_tr_two, 0%nat, ex_asc, [(OWork, Quiet)], [ex_f1; ex_f2], ex_s_two_asc.
  replace (w_conf (watch_run ex_conf_ts ex_tr_two)) with ex_conf_ts by (vm_compute; reflexivity).
  split; [exact ex_disj_ok|]. split; [|split; [exact ex_made_ts|split; [|split]]].
  - replace (ex_tr_two ++ _) with ex_tr_two_asc by (vm_compute; reflexivity). exact ex_run_two_asc.
  - replace (queries_of ex_tr_two) with (@nil nat) by (vm_compute; reflexivity). auto.
  - auto.
  - intros H. inversion H as [|? ? _ Hf]; subst. rewrite Forall_forall in Hf.
    destruct (Hf ex_f2 (or_introl eq_refl)) as (t & u & [= <-] & [= <-] & E). vm_compute in E. discriminate.
Qed.
Print Assumptions C17_sorted_refuted.

(** C18.  Paging until [more_follows] is false, while nothing is registered,
    flushed or removed: received events are exactly the wanted ones of those
    that are looked at, as C17 says of a single query, each once. *)
Theorem C18_paging : forall O cf p tr0 s0 tr last acc s, disj_ok O -> execution O cf tr0 s0 -> made (w_conf (watch_run cf tr0)) ->
    ts_paging cf p tr0 tr last acc false -> execution O cf tr s ->
    let cfA := w_conf (watch_run cf tr0) in
    ((forall pt, In pt (cf_parts cfA) -> ~ suits p pt) /\ acc = []) \/
    exists n pt, chosen cfA (s_disk s0) p n pt /\ NoDup (map ev_id acc) /\
      selected p (looked_at p (seen (cf_cond cfA) (stored_in (s_disk s0) n)) (pending_in pt (w_cur (watch_run cf tr0)))) acc.
Proof. exact final_C18. Qed.
Print Assumptions C18_paging.

(** C18.  So the same events in the same order are received with any sizes of
    pages, for instance with a single page ... *)
Theorem C18_same : forall O cf p tr0 s0 tr last acc s tr' last' acc' s', disj_ok O -> execution O cf tr0 s0 -> made (w_conf (watch_run cf tr0)) ->
    ts_paging cf p tr0 tr last acc false -> execution O cf tr s ->
    ts_paging cf p tr0 tr' last' acc' false -> execution O cf tr' s' -> acc = acc'.
Proof. exact final_C18_same. Qed.
Print Assumptions C18_same.

(** ... and before the end, some of them are missing at the end only. *)
Theorem C18_prefix : forall O cf p tr0 s0 tr last acc s tr' last' acc' s', disj_ok O -> execution O cf tr0 s0 -> made (w_conf (watch_run cf tr0)) ->
    ts_paging cf p tr0 tr last acc true -> execution O cf tr s ->
    ts_paging cf p tr0 tr' last' acc' false -> execution O cf tr' s' -> exists rest, acc' = acc ++ rest /\ (acc <> [] -> rest <> []).
Proof. exact final_C18_prefix. Qed.
Print Assumptions C18_prefix.

(** Two pages; the first one is answered at once. *)
Example C18_example :
  execution ex_oracle ex_conf ex_tr_pend ex_s_pend /\ made (w_conf (watch_run ex_conf ex_tr_pend)) /\
  ts_paging ex_conf ex_desc ex_tr_pend ex_tr_once (Some (ev_id ex_e7)) [ex_e7] true /\ execution ex_oracle ex_conf ex_tr_once ex_s_once /\
  ts_paging ex_conf ex_desc ex_tr_pend ex_tr_rest (Some (ev_id ex_e4)) [ex_e7; ex_e6; ex_e5; ex_e4] false /\
  execution ex_oracle ex_conf ex_tr_rest ex_s_rest.
Proof.
  assert (E : w_conf (watch_run ex_conf ex_tr_pend) = ex_conf) by (vm_compute; reflexivity).
  assert (H1 : ts_paging ex_conf ex_desc ex_tr_pend ex_tr_once (Some (ev_id ex_e7)) [ex_e7] true).
  { replace ex_tr_once with (ex_tr_pend ++ [] ++ [(OTs 0 (ask_page ex_desc None (Some 1)), Answer (Some (QRes [ex_e7] true)))])
      by (vm_compute; reflexivity).
    apply (ts_paging_at_once ex_conf ex_desc ex_tr_pend ex_tr_pend None [] [] 0%nat (Some 1) [ex_e7] true).
    - apply ts_paging_start.
    - intros o x [].
    - rewrite E. vm_compute. discriminate. }
  rewrite E. split; [exact ex_run_pend|]. split; [exact ex_made|]. split; [exact H1|]. split; [exact ex_run_once|]. split; [|exact ex_run_rest].
  replace ex_tr_rest with (ex_tr_once ++ [] ++ (OTs 1 (ask_page ex_desc (Some (ev_id ex_e7)) (Some 5)), Quiet) :: [(OWork, Quiet)] ++
     [(ODeliver 1, Answer (Some (QRes [ex_e6; ex_e5; ex_e4] false)))]) by (vm_compute; reflexivity).
  apply (ts_paging_later ex_conf ex_desc ex_tr_pend ex_tr_once (Some (ev_id ex_e7)) [ex_e7] [] 1%nat (Some 5) [(OWork, Quiet)]
           [ex_e6; ex_e5; ex_e4] false).
  - exact H1.
  - intros o x [].
  - intros o x [[= <- <-]|[]]. split; exact I.
  - rewrite E. vm_compute. discriminate.
  - replace (queries_of ex_tr_once) with [0%nat] by (vm_compute; reflexivity). intros [H|[]]. discriminate.
  - intros [].
  - intros [].
Qed.

(** C26 (timeseries queries).  Whatever happens during a query, it does not
    return an event twice, and does not miss a wanted event of the partition
    which was registered before the query started and has not been removed
    when it ends, unless the page was full.  Missing: pending entries which are
    not sorted, for a query with a range. *)
Theorem C26_timeseries_partial : forall O cf trA q p trB es more s sA, disj_ok O ->
    execution O cf (trA ++ (OTs q p, Quiet) :: trB ++ [(ODeliver q, Answer (Some (QRes es more)))]) s -> execution O cf trA sA ->
    made (w_conf (watch_run cf trA)) -> ~ In q (queries_of trA) -> ~ In q (queries_of trB) ->
    let cfA := w_conf (watch_run cf trA) in
    0 <= ts_max cfA p ->
    NoDup (map ev_id es) /\
    exists n pt, chosen cfA (s_disk sA) p n pt /\
      (cuttable p (pending_in pt (pending_for p cf trA trB)) -> qt_last p = None ->
       forall en t, In en (w_all (watch_run cf trA)) -> belongs pt en t -> cf_cond cfA (en_ev en) = true -> wanted p (en_ev en) ->
         ~ In (n, t, ev_id (en_ev en)) (w_gone (watch_run cf (trA ++ (OTs q p, Quiet) :: trB))) ->
         In (en_ev en) es \/ (more = true /\ Z.of_nat (List.length es) = ts_max cfA p)).
Proof. exact final_C26_ts_direct. Qed.
Print Assumptions C26_timeseries_partial.

(** C26 (timeseries queries).  The same about all entries from which the answer
    is made, for queries with a last id too. *)
Theorem C26_timeseries_entries_partial : forall O cf trA q p trB a s sA, disj_ok O ->
    execution O cf (trA ++ (OTs q p, Quiet) :: trB ++ [(ODeliver q, a)]) s -> execution O cf trA sA ->
    made (w_conf (watch_run cf trA)) -> ~ In q (queries_of trA) -> ~ In q (queries_of trB) ->
    let cfA := w_conf (watch_run cf trA) in
    0 <= ts_max cfA p ->
    exists n pt l, chosen cfA (s_disk sA) p n pt /\
      (cuttable p (pending_in pt (pending_for p cf trA trB)) -> ts_answer cfA p l a) /\
      NoDup (map (fun x => ev_id (snd x)) l) /\
      (forall t e, In (t, e) l -> place pt e = Some t /\ In e (events_of (trA ++ trB))) /\
      forall en t, In en (w_all (watch_run cf trA)) -> belongs pt en t -> cf_cond cfA (en_ev en) = true ->
        ~ In (n, t, ev_id (en_ev en)) (w_gone (watch_run cf (trA ++ (OTs q p, Quiet) :: trB))) -> In (t, en_ev en) l.
Proof. exact final_C26_ts. Qed.
Print Assumptions C26_timeseries_entries_partial.

(** An event is pending when the query starts, and is flushed before the answer;
    so is another one that was registered meanwhile. *)
Example C26_timeseries_example :
  execution ex_oracle ex_conf_ts (ex_tr_one ++ (OTs 0 ex_asc, Quiet) :: ex_during_one ++
     [(ODeliver 0, Answer (Some (QRes [ex_f1; ex_f3; ex_f4] false)))]) ex_s_one_q /\
  (exists pt, In pt (cf_parts ex_conf_ts) /\ In (Entry ex_conf_ts ex_f3) (w_cur (watch_run ex_conf_ts ex_tr_one)) /\
     belongs pt (Entry ex_conf_ts ex_f3) (Ts 6 0)) /\ wanted ex_asc ex_f3 /\
  w_gone (watch_run ex_conf_ts (ex_tr_one ++ (OTs 0 ex_asc, Quiet) :: ex_during_one)) = [] /\
  In ex_f3 (map snd (db_ts (s_disk ex_s_one_q))).
Proof.
  split; [apply C17_one_server_example|]. split; [|split; [|split]].
  - exists (Partition TIMESTAMP (sub_of [["*"]]) None). split; [now left|]. split; [vm_compute; auto|].
    split; [|reflexivity]. exists (Partition TIMESTAMP (sub_of [["*"]]) None). split; [now left|reflexivity].
  - split; [exact I|]. split; [reflexivity|]. split; reflexivity.
  - vm_compute. reflexivity.
  - vm_compute. auto.
Qed.

(** An event is missed: it is pending, within the range, but registered after
    one behind the range. *)
Theorem C26_timeseries_refuted : exists O cf trA q p trB s sA n pt en t, disj_ok O /\
    execution O cf (trA ++ (OTs q p, Quiet) :: trB ++ [(ODeliver q, Answer (Some (QRes [] false)))]) s /\ execution O cf trA sA /\
    made (w_conf (watch_run cf trA)) /\ ~ In q (queries_of trA) /\ ~ In q (queries_of trB) /\
    0 < ts_max (w_conf (watch_run cf trA)) p /\ qt_last p = None /\ chosen (w_conf (watch_run cf trA)) (s_disk sA) p n pt /\
    In en (w_all (watch_run cf trA)) /\ belongs pt en t /\ cf_cond (w_conf (watch_run cf trA)) (en_ev en) = true /\ wanted p (en_ev en) /\
    w_gone (watch_run cf (trA ++ (OTs q p, Quiet) :: trB)) = [].
Proof.
  exists ex_oracle, ex_conf_ts, ex_tr_two, 0%nat, ex_upto, [(OWork, Quiet)], ex_s_two_upto, ex_s_two, 1,
    (Partition TIMESTAMP (sub_of [["*"]]) None), (Entry ex_conf_ts ex_f2), (Ts 3 0).
  replace (w_conf (watch_run ex_conf_ts ex_tr_two)) with ex_conf_ts by (vm_compute; reflexivity).
  split; [exact ex_disj_ok|]. split; [|split; [exact ex_run_two|split; [exact ex_made_ts|split; [|split; [|split; [|split; [|split; [|split; [|split; [|split; [|split]]]]]]]]]]].
  - replace (ex_tr_two ++ _) with ex_tr_two_upto by (vm_compute; reflexivity). exact ex_run_two_upto.
  - replace (queries_of ex_tr_two) with (@nil nat) by (vm_compute; reflexivity). auto.
  - auto.
  - reflexivity.
  - reflexivity.
  - exists [], []. split; [reflexivity|]. split; [split; [reflexivity|now left]|]. split; [intros x []|]. vm_compute. auto.
  - vm_compute. auto.
  - split; [|reflexivity]. exists (Partition TIMESTAMP (sub_of [["*"]]) None). split; [now left|reflexivity].
  - reflexivity.
  - split; [exact I|]. split; [reflexivity|]. split; reflexivity.
  - vm_compute. reflexivity.
Qed.
Print Assumptions C26_timeseries_refuted.
