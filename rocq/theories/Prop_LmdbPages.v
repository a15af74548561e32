(** Property C71 (paging through timeseries queries of the LMDB backend while
    events are registered, flushed and removed). *)
From Coq Require Import String Bool ZArith Lia Sorted List.
From Verif Require Import Base Model_Types Model_Subscription Model_Codec Model_Lmdb Model_LmdbSys Spec_Lmdb Spec_LmdbContent Spec_LmdbQuery Spec_LmdbTs
  Spec_LmdbPages Proof_Lmdb23 Ex_Lmdb Ex_LmdbTs Ex_LmdbPages.
Import ListNotations.
Open Scope string_scope.
Open Scope list_scope.
Open Scope Z_scope.

(** C71.  Pages are asked for one after another, each with the id of the last
    received event, while events are registered, flushed and removed during and
    between the queries.  All received events together are strictly in the
    requested order (so none is received twice), wanted and registered ones.
    With the last page, all wanted events of the partition which were registered
    before the first page was asked for and have not been removed are received.
    Missing: pending entries of more than one server, or pending entries of
    events in the order of source timestamps; a last received event which is
    removed before the next page is made. *)
Theorem C71_paging_partial : forall O cf p tr0 s0 tr last acc more pgs s, disj_ok O -> execution O cf tr0 s0 ->
    made (w_conf (watch_run cf tr0)) -> ts_pages cf p tr0 tr last acc more pgs -> execution O cf tr s -> orderly cf p tr pgs ->
    let cfA := w_conf (watch_run cf tr0) in
    StronglySorted (precedes p) acc /\
    (forall e, In e acc -> wanted p e /\ In e (events_of tr)) /\
    (more = false ->
     ((forall pt, In pt (cf_parts cfA) -> ~ suits p pt) /\ acc = []) \/
     exists n pt, chosen cfA (s_disk s0) p n pt /\
       (lasts_kept cf n pgs ->
        forall en t, In en (w_all (watch_run cf tr0)) -> belongs pt en t -> cf_cond cfA (en_ev en) = true -> wanted p (en_ev en) ->
          ~ In (n, t, ev_id (en_ev en)) (w_gone (watch_run cf tr)) -> In (en_ev en) acc)).
Proof. exact final_C71. Qed.
Print Assumptions C71_paging_partial.

(** C71.  In ascending order of timestamps, with events of one server, all
    wanted events registered before the last page was asked for are received. *)
Theorem C71_growing_partial : forall O cf p tr0 s0 tr last acc pgs pg s, disj_ok O -> execution O cf tr0 s0 ->
    made (w_conf (watch_run cf tr0)) -> ts_pages cf p tr0 tr last acc false (pgs ++ [pg]) -> execution O cf tr s ->
    qt_order p = ASCENDING -> qt_order_by p = TIMESTAMP -> (exists srv, forall e, In e (events_of tr) -> eid_server (ev_id e) = srv) ->
    let cfA := w_conf (watch_run cf tr0) in
    forall n pt, chosen cfA (s_disk s0) p n pt -> lasts_kept cf n (pgs ++ [pg]) ->
    forall en t, In en (w_all (watch_run cf (pg_before pg))) -> belongs pt en t -> cf_cond cfA (en_ev en) = true -> wanted p (en_ev en) ->
      ~ In (n, t, ev_id (en_ev en)) (w_gone (watch_run cf tr)) -> In (en_ev en) acc.
Proof. exact final_C71_growing. Qed.
Print Assumptions C71_growing_partial.

(** Three pages; events are registered during the first query and before the
    third, and the oldest event is removed before the second. *)
Definition ex_part_pg (m : Z) : partition := Partition TIMESTAMP (sub_of [["*"]]) (Some (Limit None (Some m) None None)).
Example C71_example :
  execution ex_oracle (ex_conf_pg 4) (ex_tr_pg 4 ex_ops_pg0) (ex_s_of (ex_conf_pg 4) ex_ops_pg0) /\
  made (w_conf (watch_run (ex_conf_pg 4) (ex_tr_pg 4 ex_ops_pg0))) /\
  ts_pages (ex_conf_pg 4) ex_asc (ex_tr_pg 4 ex_ops_pg0) (ex_tr_pg 4 ex_ops_pg3) (Some (ev_id (ex_g 6)))
    [ex_g 1; ex_g 2; ex_g 3; ex_g 4; ex_g 5; ex_g 6] false (ex_pages2 4 ++ [ex_page3]) /\
  execution ex_oracle (ex_conf_pg 4) (ex_tr_pg 4 ex_ops_pg3) (ex_s_of (ex_conf_pg 4) ex_ops_pg3) /\
  orderly (ex_conf_pg 4) ex_asc (ex_tr_pg 4 ex_ops_pg3) (ex_pages2 4 ++ [ex_page3]) /\
  (exists srv, forall e, In e (events_of (ex_tr_pg 4 ex_ops_pg3)) -> eid_server (ev_id e) = srv) /\
  chosen (w_conf (watch_run (ex_conf_pg 4) (ex_tr_pg 4 ex_ops_pg0))) (s_disk (ex_s_of (ex_conf_pg 4) ex_ops_pg0)) ex_asc 1 (ex_part_pg 4) /\
  lasts_kept (ex_conf_pg 4) 1 (ex_pages2 4 ++ [ex_page3]) /\
  w_gone (watch_run (ex_conf_pg 4) (ex_tr_pg 4 ex_ops_pg3)) = [(1, Ts 1 0, Eid 1 1 1)] /\
  In (Entry (ex_conf_pg 4) (ex_g 6)) (w_all (watch_run (ex_conf_pg 4) (pg_before ex_page3))).
Proof.
  assert (One : exists srv, forall e, In e (events_of (ex_tr_pg 4 ex_ops_pg3)) -> eid_server (ev_id e) = srv).
  { exists 1. replace (events_of _) with (map ex_g [1; 2; 3; 4; 5; 6]) by (vm_compute; reflexivity).
    intros e He. apply in_map_iff in He as (i & <- & _). reflexivity. }
  split; [apply ex_pg_run; vm_compute; reflexivity|].
  replace (w_conf (watch_run (ex_conf_pg 4) (ex_tr_pg 4 ex_ops_pg0))) with (ex_conf_pg 4) by (vm_compute; reflexivity).
  split; [apply ex_made_pg|]. split; [exact ex_pg3|]. split; [apply ex_pg_run; vm_compute; reflexivity|].
  split; [left; split; [reflexivity|exact One]|]. split; [exact One|]. split; [|split; [|split]].
  - exists [], []. split; [reflexivity|]. split; [split; [reflexivity|now left]|]. split; [intros x []|]. vm_compute. auto.
  - intros pg i t Hin Hl.
    assert (G : incl (w_gone (watch_run (ex_conf_pg 4) (pg_before pg ++ pg_during pg))) [(1, Ts 1 0, Eid 1 1 1)]).
    { destruct Hin as [<-|[<-|[<-|[]]]]; vm_compute; auto. }
    intros Hg. apply G in Hg as [Hg|[]]. injection Hg as _ <-.
    destruct Hin as [<-|[<-|[<-|[]]]]; vm_compute in Hl; discriminate.
  - vm_compute. reflexivity.
  - vm_compute. auto 10.
Qed.

(** The last received event is removed before the next page is asked for: the
    next page is the last one, without the events which follow. *)
Theorem C71_removed_refuted : exists O cf p tr0 s0 tr last acc pgs s n pt en t, disj_ok O /\ execution O cf tr0 s0 /\
    made (w_conf (watch_run cf tr0)) /\ ts_pages cf p tr0 tr last acc false pgs /\ execution O cf tr s /\ orderly cf p tr pgs /\
    chosen (w_conf (watch_run cf tr0)) (s_disk s0) p n pt /\ In en (w_all (watch_run cf tr0)) /\ belongs pt en t /\
    cf_cond (w_conf (watch_run cf tr0)) (en_ev en) = true /\ wanted p (en_ev en) /\
    ~ In (n, t, ev_id (en_ev en)) (w_gone (watch_run cf tr)) /\ ~ In (en_ev en) acc.
Proof.
  exists ex_oracle, (ex_conf_pg 3), ex_asc, (ex_tr_pg 3 ex_ops_pg0), (ex_s_of (ex_conf_pg 3) ex_ops_pg0),
    (ex_tr_pg 3 ex_ops_pg2), (Some (ev_id (ex_g 2))), [ex_g 1; ex_g 2], (ex_pages2 3), (ex_s_of (ex_conf_pg 3) ex_ops_pg2),
    1, (ex_part_pg 3), (Entry (ex_conf_pg 3) (ex_g 3)), (Ts 3 0).
  replace (w_conf (watch_run (ex_conf_pg 3) (ex_tr_pg 3 ex_ops_pg0))) with (ex_conf_pg 3) by (vm_compute; reflexivity).
  split; [exact ex_disj_ok|]. split; [apply ex_pg_run; vm_compute; reflexivity|]. split; [apply ex_made_pg|].
  split; [exact ex_pg2_gone|]. split; [apply ex_pg_run; vm_compute; reflexivity|].
  split; [|split; [|split; [|split; [|split; [|split; [|split]]]]]].
  - left. split; [reflexivity|]. exists 1. replace (events_of _) with (map ex_g [1; 2; 3; 4; 5]) by (vm_compute; reflexivity).
    intros e He. apply in_map_iff in He as (i & <- & _). reflexivity.
  - exists [], []. split; [reflexivity|]. split; [split; [reflexivity|now left]|]. split; [intros x []|]. vm_compute. auto.
  - vm_compute. auto.
  - split; [|reflexivity]. exists (ex_part_pg 3). split; [now left|reflexivity].
  - reflexivity.
  - split; [exact I|]. split; [reflexivity|]. split; reflexivity.
  - replace (w_gone _) with [(1, Ts 1 0, Eid 1 1 1); (1, Ts 2 0, Eid 1 1 2)] by (vm_compute; reflexivity).
    intros [H|[H|[]]]; discriminate.
  - intros [H|[H|[]]]; discriminate.
Qed.
Print Assumptions C71_removed_refuted.

(** Events of two servers, registered in another order than that of their
    timestamps and flushed between the pages: one is never received, though
    nothing is removed. *)
Theorem C71_missed_refuted : exists O cf p tr0 s0 tr last acc pgs s n pt en t, disj_ok O /\ execution O cf tr0 s0 /\
    made (w_conf (watch_run cf tr0)) /\ ts_pages cf p tr0 tr last acc false pgs /\ execution O cf tr s /\
    chosen (w_conf (watch_run cf tr0)) (s_disk s0) p n pt /\ In en (w_all (watch_run cf tr0)) /\ belongs pt en t /\
    cf_cond (w_conf (watch_run cf tr0)) (en_ev en) = true /\ wanted p (en_ev en) /\
    w_gone (watch_run cf tr) = [] /\ ~ In (en_ev en) acc.
Proof.
  exists ex_oracle, ex_conf_ts, ex_asc, (ex_tr_of ex_conf_ts ex_ops_un0), (ex_s_of ex_conf_ts ex_ops_un0),
    (ex_tr_of ex_conf_ts (ex_ops_un 1 ex_f1)), (Some (ev_id ex_f3)), [ex_f1; ex_f3], (ex_un_pages 1 ex_f1 [ex_f1]),
    (ex_s_of ex_conf_ts (ex_ops_un 1 ex_f1)), 1, (Partition TIMESTAMP (sub_of [["*"]]) None), (Entry ex_conf_ts ex_f2), (Ts 3 0).
  replace (w_conf (watch_run ex_conf_ts (ex_tr_of ex_conf_ts ex_ops_un0))) with ex_conf_ts by (vm_compute; reflexivity).
  split; [exact ex_disj_ok|]. split; [apply ex_un_run; vm_compute; reflexivity|]. split; [exact ex_made_ts|].
  split; [exact ex_un_missed|]. split; [apply ex_un_run; vm_compute; reflexivity|].
  split; [|split; [|split; [|split; [|split; [|split]]]]].
  - exists [], []. split; [reflexivity|]. split; [split; [reflexivity|now left]|]. split; [intros x []|]. vm_compute. auto.
  - vm_compute. auto.
  - split; [|reflexivity]. exists (Partition TIMESTAMP (sub_of [["*"]]) None). split; [now left|reflexivity].
  - reflexivity.
  - split; [exact I|]. split; [reflexivity|]. split; reflexivity.
  - vm_compute. reflexivity.
  - intros [H|[H|[]]]; discriminate.
Qed.
Print Assumptions C71_missed_refuted.

(** And another one is received twice. *)
Theorem C71_twice_refuted : exists O cf p tr0 s0 tr last acc pgs s, disj_ok O /\ execution O cf tr0 s0 /\
    made (w_conf (watch_run cf tr0)) /\ ts_pages cf p tr0 tr last acc false pgs /\ execution O cf tr s /\
    w_gone (watch_run cf tr) = [] /\ ~ NoDup (map ev_id acc).
Proof.
  exists ex_oracle, ex_conf_ts, ex_asc, (ex_tr_of ex_conf_ts ex_ops_un0), (ex_s_of ex_conf_ts ex_ops_un0),
    (ex_tr_of ex_conf_ts (ex_ops_un 2 ex_f2)), (Some (ev_id ex_f3)), [ex_f1; ex_f2; ex_f1; ex_f3], (ex_un_pages 2 ex_f2 [ex_f1; ex_f2]),
    (ex_s_of ex_conf_ts (ex_ops_un 2 ex_f2)).
  replace (w_conf (watch_run ex_conf_ts (ex_tr_of ex_conf_ts ex_ops_un0))) with ex_conf_ts by (vm_compute; reflexivity).
  split; [exact ex_disj_ok|]. split; [apply ex_un_run; vm_compute; reflexivity|]. split; [exact ex_made_ts|].
  split; [exact ex_un_twice|]. split; [apply ex_un_run; vm_compute; reflexivity|]. split; [vm_compute; reflexivity|].
  intros H. inversion H as [|? ? N _]; subst. apply N. right. now left.
Qed.
Print Assumptions C71_twice_refuted.
