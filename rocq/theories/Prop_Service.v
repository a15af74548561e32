(** Property C72: events that a server process acknowledged are found by
    queries. *)
From Coq Require Import String Bool ZArith Arith Sorted List.
From Verif Require Import Base Model_Types Model_Subscription Model_Codec Spec_Subscription Model_Lmdb Model_LmdbSys Spec_Lmdb Spec_LmdbContent Spec_LmdbQuery Spec_LmdbTs Ex_Lmdb Ex_LmdbTs
  Model_Engine Spec_Engine Model_Eventer Spec_Eventer Model_Service Spec_Service Proof_Service5 Proof_Service6 Ex_Service.
Import ListNotations.
Open Scope string_scope.
Open Scope list_scope.
Open Scope nat_scope.

(** C72.  When the request of a client is answered, the events are those that
    were requested, and have been accepted by the backend if they meet the
    conditions and belong to some partition; they stay there whatever the
    process does. *)
Theorem C72_acknowledged : forall O cf tr0 vtr0 srv tk ms size A c conv last rs l j B r l2 C,
    let acked := A ++ SRegister (VRegister c conv last rs, l) j :: B ++ [SServer (VRegistered c r, l2)] in
    let tr := A ++ SRegister (VRegister c conv last rs, l) j :: B ++ SServer (VRegistered c r, l2) :: C in
    service O cf tr0 vtr0 srv tk ms size tr -> quiet c (server_part B) ->
    clock_forward srv (w_all (watch_run cf tr0)) (readings (engine_part acked)) ->
    exists es, r = Some es /\ map reg_of es = rs /\
      forall e, In e es -> cf_cond (conf_at cf tr0) e = true -> eid_server (ev_id e) = srv /\
        (has_place (conf_at cf tr0) e = true -> In (Entry (conf_at cf tr0) e) (w_all (watch_run cf (tr0 ++ backend_part tr)))).
Proof. exact final_C72_stored. Qed.
Print Assumptions C72_acknowledged.

Example C72_acknowledged_example :
  let tr := sv_A ++ sv_asked false :: sv_B 11 ++ sv_answer 11 :: sv_flush in
  service ex_oracle sv_conf sv_tr0 sv_vtr0 1 (Some "secret") [] 5 tr /\ quiet 1 (server_part (sv_B 11)) /\
  clock_forward 1 (w_all (watch_run sv_conf sv_tr0)) (readings (engine_part tr)) /\
  map reg_of (sv_es 11) = sv_rs /\ map (has_place sv_conf) (sv_es 11) = [true; true].
Proof.
  cbn zeta. split; [|split; [|split; [|split]]].
  - pose proof sv_run_flush as H. rewrite <- app_assoc in H. cbn [app] in H. rewrite <- app_assoc in H. exact H.
  - apply quietb_ok. vm_compute. reflexivity.
  - apply clockb_ok. vm_compute. reflexivity.
  - reflexivity.
  - vm_compute. reflexivity.
Qed.

(** C72.  A query for latest events by any client, made after that answer, finds
    such an event, one of its type with a greater timestamp, or one of its type
    with the same timestamp that was registered later. *)
Theorem C72_latest : forall O cf tr0 vtr0 srv tk ms size A c conv last rs l j B r l2 C c' conv' p l3 x D found more l4,
    let acked := A ++ SRegister (VRegister c conv last rs, l) j :: B ++ [SServer (VRegistered c r, l2)] in
    let before := A ++ SRegister (VRegister c conv last rs, l) j :: B ++ SServer (VRegistered c r, l2) :: C in
    service O cf tr0 vtr0 srv tk ms size (before ++ SQuery (VQuery c' conv' (QPLatest p), l3) x :: D ++ [SServer (VQueried c' (QRes found more), l4)]) ->
    quiet c (server_part B) -> quiet c' (server_part D) -> clock_forward srv (w_all (watch_run cf tr0)) (readings (engine_part acked)) -> valid_latest p ->
    NoDup (map ev_type found) /\
    exists es, r = Some es /\ map reg_of es = rs /\
      forall e, In e es -> cf_cond (conf_at cf tr0) e = true -> covers (conf_at cf tr0) (ev_type e) = true -> asked p (ev_type e) ->
        exists e', In e' found /\ up_to_date (events_of (tr0 ++ backend_part before)) e e'.
Proof. exact final_C72_latest. Qed.
Print Assumptions C72_latest.

(** Another server has a newer event of the first type. *)
Example C72_latest_example :
  let before := sv_A ++ sv_asked false :: sv_B 11 ++ sv_answer 11 :: sv_C in
  service ex_oracle sv_conf sv_tr0 sv_vtr0 1 (Some "secret") [] 5
    (before ++ sv_find 2 (QPLatest sv_all) (OLatest sv_all, Answer (Some sv_latest)) :: [] ++ [sv_found 2 sv_latest]) /\
  quiet 1 (server_part (sv_B 11)) /\ quiet 2 (server_part []) /\ clock_forward 1 (w_all (watch_run sv_conf sv_tr0)) (readings (engine_part before)) /\
  valid_latest sv_all /\ map (fun e => covers sv_conf (ev_type e)) (sv_es 11) = [true; true] /\
  qr_events sv_latest = [ev 2 1 2 ["a"] 20 None; sv_started; sv_e2 11].
Proof.
  cbn zeta. split; [exact sv_run_latest|]. split; [apply quietb_ok; vm_compute; reflexivity|]. split; [constructor|].
  split; [apply clockb_ok; vm_compute; reflexivity|]. split; [exact I|]. split; [vm_compute; reflexivity|reflexivity].
Qed.

(** C72.  A client finds what it has registered before on the same connection,
    even if it did not want an answer: requests are handled in order. *)
Theorem C72_own_writes : forall O cf tr0 vtr0 srv tk ms size A c conv last rs l j B conv' p l3 x D found more l4,
    let before := A ++ SRegister (VRegister c conv last rs, l) j :: B in
    service O cf tr0 vtr0 srv tk ms size (before ++ SQuery (VQuery c conv' (QPLatest p), l3) x :: D ++ [SServer (VQueried c (QRes found more), l4)]) ->
    quiet c (server_part D) -> clock_forward srv (w_all (watch_run cf tr0)) (readings (engine_part before)) -> valid_latest p ->
    exists es, map reg_of es = rs /\ (exists B1 l2 B2, B = B1 ++ SServer (VRegistered c (Some es), l2) :: B2 /\ quiet c (server_part B1)) /\
      forall e, In e es -> cf_cond (conf_at cf tr0) e = true -> covers (conf_at cf tr0) (ev_type e) = true -> asked p (ev_type e) ->
        exists e', In e' found /\ up_to_date (events_of (tr0 ++ backend_part before)) e e'.
Proof. exact final_C72_own. Qed.
Print Assumptions C72_own_writes.

Example C72_own_writes_example :
  let before := sv_A ++ sv_asked true :: sv_B 11 ++ sv_silent 11 :: sv_C in
  service ex_oracle sv_conf sv_tr0 sv_vtr0 1 (Some "secret") [] 5
    (before ++ sv_find 1 (QPLatest sv_all) (OLatest sv_all, Answer (Some sv_latest)) :: [] ++ [sv_found 1 sv_latest]) /\
  quiet 1 (server_part []) /\ clock_forward 1 (w_all (watch_run sv_conf sv_tr0)) (readings (engine_part before)) /\
  valid_latest sv_all /\ map (fun e => covers sv_conf (ev_type e)) (sv_es 11) = [true; true].
Proof.
  cbn zeta. split; [exact sv_run_own|]. split; [constructor|].
  split; [apply clockb_ok; vm_compute; reflexivity|]. split; [exact I|]. vm_compute; reflexivity.
Qed.

(** C72.  A server query for events of the server, made after that answer, finds
    such an event if it belongs to a partition and was not removed by a cleanup,
    or if its type is kept and there is no event of its type with a greater
    timestamp or registered later with the same one; unless the page is full.
    With [persisted] so does a query made after a flush that began after the
    answer is done.  Missing: changes of conditions before this process was
    started by which events that met the former ones do not meet the new ones
    (see C19). *)
Theorem C72_server_partial : forall O cf tr0 vtr0 srv tk ms size A c conv last rs l j B r l2 C c' conv' p l3 x D found more l4,
    let acked := A ++ SRegister (VRegister c conv last rs, l) j :: B ++ [SServer (VRegistered c r, l2)] in
    let tr := (acked ++ C) ++ SQuery (VQuery c' conv' (QPServer p), l3) x :: D ++ [SServer (VQueried c' (QRes found more), l4)] in
    service O cf tr0 vtr0 srv tk ms size tr ->
    quiet c (server_part B) -> quiet c' (server_part D) -> clock_forward srv (w_all (watch_run cf tr0)) (readings (engine_part acked)) ->
    pick_ok O -> conditions_kept (cf :: confs_of tr0) -> qs_server p = srv ->
    (qs_persisted p = true -> (exists x, In (OFlush, x) (backend_part C)) /\ w_queue (watch_run cf (tr0 ++ backend_part (acked ++ C))) = []) ->
    by_id found /\
    exists es, r = Some es /\ map reg_of es = rs /\
      let evs := events_of (tr0 ++ backend_part tr) in
      forall e, In e es -> cf_cond (conf_at cf tr0) e = true -> after (qs_last p) e ->
        (has_place (conf_at cf tr0) e = true /\ (forall n t, ~ In (n, t, ev_id e) (w_gone (watch_run cf (tr0 ++ backend_part tr))))) \/
          (covers (conf_at cf tr0) (ev_type e) = true /\ (forall e', In e' evs -> up_to_date evs e e' -> e' = e)) ->
        In e found \/ (more = true /\ Z.of_nat (List.length found) = server_max p /\ forall y, In y found -> eid_ltb (ev_id y) (ev_id e) = true).
Proof. exact final_C72_server. Qed.
Print Assumptions C72_server_partial.

Example C72_server_example :
  let acked := sv_A ++ sv_asked false :: sv_B 11 ++ [sv_answer 11] in
  let tr := (acked ++ sv_C) ++ sv_find 2 (QPServer sv_server) (OServer 0 sv_server, Quiet) :: sv_D (Answer (Some sv_events)) ++ [sv_found 2 sv_events] in
  service ex_oracle sv_conf sv_tr0 sv_vtr0 1 (Some "secret") [] 5 tr /\
  quiet 1 (server_part (sv_B 11)) /\ quiet 2 (server_part (sv_D (Answer (Some sv_events)))) /\
  clock_forward 1 (w_all (watch_run sv_conf sv_tr0)) (readings (engine_part acked)) /\
  pick_ok ex_oracle /\ conditions_kept (sv_conf :: confs_of sv_tr0) /\ qs_server sv_server = 1%Z /\ qs_persisted sv_server = false /\
  after (qs_last sv_server) (sv_e1 11) /\ w_gone (watch_run sv_conf (sv_tr0 ++ backend_part tr)) = [] /\ qr_events sv_events = [sv_started; sv_e1 11; sv_e2 11].
Proof.
  cbn zeta. split; [|split; [apply quietb_ok; vm_compute; reflexivity|split; [constructor|]]].
  { pose proof sv_run_server as H. replace ((sv_A ++ sv_asked false :: sv_B 11 ++ [sv_answer 11]) ++ sv_C) with (sv_A ++ sv_asked false :: sv_B 11 ++ sv_answer 11 :: sv_C); [exact H|].
    rewrite <- app_assoc. cbn [app]. rewrite <- app_assoc. reflexivity. }
  split; [apply clockb_ok; vm_compute; reflexivity|]. split.
  - intros [|a l] H; [now destruct H|]. exists a. split; [reflexivity|now left].
  - split; [|split; [|split; [|split; [|split]]]]; try reflexivity.
    change (confs_of sv_tr0) with (@nil conf). constructor; constructor.
Qed.

(** The second event belongs to no partition, and only what is in the database
    is asked for. *)
Example C72_server_example2 :
  let acked := sv_A ++ sv_asked false :: sv_B 11 ++ [sv_answer 11] in
  let tr := (acked ++ sv_flush) ++ sv_find 2 (QPServer sn_server) (OServer 0 sn_server, Quiet) :: sv_D (Answer (Some sv_events)) ++ [sv_found 2 sv_events] in
  let evs := events_of (sn_tr0 ++ backend_part tr) in
  service ex_oracle sn_conf sn_tr0 sv_vtr0 1 (Some "secret") [] 5 tr /\
  clock_forward 1 (w_all (watch_run sn_conf sn_tr0)) (readings (engine_part acked)) /\
  qs_persisted sn_server = true /\ (exists x, In (OFlush, x) (backend_part sv_flush)) /\ w_queue (watch_run sn_conf (sn_tr0 ++ backend_part (acked ++ sv_flush))) = [] /\
  has_place (conf_at sn_conf sn_tr0) (sv_e2 11) = false /\ covers (conf_at sn_conf sn_tr0) (ev_type (sv_e2 11)) = true /\
  (forall e', In e' evs -> up_to_date evs (sv_e2 11) e' -> e' = sv_e2 11) /\ In (sv_e2 11) (qr_events sv_events).
Proof.
  cbn zeta. split; [exact sn_run_server|]. split; [apply clockb_ok; vm_compute; reflexivity|]. split; [reflexivity|]. split; [exists Quiet; left; reflexivity|].
  split; [vm_compute; reflexivity|]. split; [vm_compute; reflexivity|]. split; [vm_compute; reflexivity|]. split; [|right; right; left; reflexivity].
  match goal with |- forall e', In e' (events_of ?t) -> _ => assert (E : events_of t = [ev 1 3 1 ["a"] 5 None; sv_started; ev 2 1 1 ["a"] 9 None; sv_e1 11; sv_e2 11]) by (vm_compute; reflexivity); rewrite E end.
  intros e' Hi [Ht _]. repeat (destruct Hi as [<-|Hi]; [try discriminate Ht; try reflexivity|]). destruct Hi.
Qed.

(** C72.  A timeseries query, made after that answer, which is for a partition
    that the event belongs to, finds it, unless it was removed by a cleanup or
    the page is full.  Missing: queries with a range of the timestamps that order
    events, when there are events of other servers or source timestamps (pending
    events may be missed then, see C17), and queries with a last event. *)
Theorem C72_timeseries_partial : forall O cf tr0 vtr0 srv tk ms size A c conv last rs l j B r l2 C c' conv' p l3 x D found more l4,
    let before := A ++ SRegister (VRegister c conv last rs, l) j :: B ++ SServer (VRegistered c r, l2) :: C in
    let tr := before ++ SQuery (VQuery c' conv' (QPTimeseries p), l3) x :: D ++ [SServer (VQueried c' (QRes found more), l4)] in
    let acked := A ++ SRegister (VRegister c conv last rs, l) j :: B ++ [SServer (VRegistered c r, l2)] in
    let cfg := conf_at cf tr0 in
    service O cf tr0 vtr0 srv tk ms size tr ->
    quiet c (server_part B) -> quiet c' (server_part D) -> clock_forward srv (w_all (watch_run cf tr0)) (readings (engine_part acked)) ->
    disj_ok O -> Spec_LmdbTs.made cfg -> (0 <= ts_max cfg p)%Z -> qt_last p = None -> plain_query p (events_of (tr0 ++ backend_part tr)) srv ->
    exists es, r = Some es /\ map reg_of es = rs /\
      forall e pt a b t, cf_parts cfg = a ++ pt :: b -> suits p pt -> (forall y, In y a -> ~ suits p y) ->
        In e es -> cf_cond cfg e = true -> place pt e = Some t -> Spec_LmdbTs.wanted p e ->
        (forall n, ~ In (n, t, ev_id e) (w_gone (watch_run cf (tr0 ++ backend_part tr)))) ->
        In e found \/ (more = true /\ Z.of_nat (List.length found) = ts_max cfg p).
Proof. exact final_C72_timeseries. Qed.
Print Assumptions C72_timeseries_partial.

Example C72_timeseries_example :
  let before := sv_A ++ sv_asked false :: sv_B 11 ++ sv_answer 11 :: sv_C in
  let tr := before ++ sv_find 2 (QPTimeseries sv_ts) (OTs 0 sv_ts, Quiet) :: sv_D (Answer (Some sv_series)) ++ [sv_found 2 sv_series] in
  service ex_oracle sv_conf sv_tr0 sv_vtr0 1 (Some "secret") [] 5 tr /\
  quiet 1 (server_part (sv_B 11)) /\ quiet 2 (server_part (sv_D (Answer (Some sv_series)))) /\
  clock_forward 1 (w_all (watch_run sv_conf sv_tr0)) (readings (engine_part before)) /\
  disj_ok ex_oracle /\ Spec_LmdbTs.made sv_conf /\ conf_at sv_conf sv_tr0 = sv_conf /\ ts_max sv_conf sv_ts = 10%Z /\ qt_last sv_ts = None /\
  plain_query sv_ts (events_of (sv_tr0 ++ backend_part tr)) 1 /\
  (exists pt, cf_parts sv_conf = [pt] /\ suits sv_ts pt /\ place pt (sv_e1 11) = Some (Ts 11 0)) /\ Spec_LmdbTs.wanted sv_ts (sv_e1 11) /\
  w_gone (watch_run sv_conf (sv_tr0 ++ backend_part tr)) = [] /\ In (sv_e1 11) (qr_events sv_series).
Proof.
  cbn zeta. split; [exact sv_run_ts|]. split; [apply quietb_ok; vm_compute; reflexivity|]. split; [constructor|].
  split; [apply clockb_ok; vm_compute; reflexivity|]. split; [exact ex_disj_ok|]. split; [exact sv_made|]. split; [vm_compute; reflexivity|].
  split; [reflexivity|]. split; [reflexivity|]. split; [left; split; reflexivity|].
  assert (T : types_asked sv_ts ["a"]) .
  { cbn. exists ["a"]. split; [now left|].
    split; [intros [|a [|b q]] r H; discriminate H|]. apply qm_same; [discriminate|apply qm_end]. }
  split; [|split; [|split]].
  - exists (Partition TIMESTAMP (sub_of [["*"]]) None). split; [reflexivity|]. split; [|vm_compute; reflexivity].
    split; [reflexivity|]. right. exists ["a"]. split; [vm_compute; reflexivity|exact T].
  - split; [exact T|]. split; [reflexivity|]. split; reflexivity.
  - vm_compute. reflexivity.
  - right. right. now left.
Qed.

(** C72.  When a flush begins after that answer and all flushes are done, the
    event is in the database, whatever happens then, restarts and crashes
    included, until it is removed by a cleanup. *)
Theorem C72_written : forall O cf tr0 vtr0 srv tk ms size A c conv last rs l j B r l2 C,
    let acked := A ++ SRegister (VRegister c conv last rs, l) j :: B ++ [SServer (VRegistered c r, l2)] in
    service O cf tr0 vtr0 srv tk ms size (acked ++ C) -> quiet c (server_part B) ->
    clock_forward srv (w_all (watch_run cf tr0)) (readings (engine_part acked)) ->
    (exists x, In (OFlush, x) (backend_part C)) -> w_queue (watch_run cf (tr0 ++ backend_part (acked ++ C))) = [] ->
    exists es, r = Some es /\ map reg_of es = rs /\
      forall e, In e es -> cf_cond (conf_at cf tr0) e = true -> has_place (conf_at cf tr0) e = true ->
      forall X s, execution O cf (tr0 ++ backend_part (acked ++ C) ++ X) s ->
        (forall n t, ~ In (n, t, ev_id e) (w_gone (watch_run cf (tr0 ++ backend_part (acked ++ C) ++ X)))) -> stored_event (s_disk s) e.
Proof. exact final_C72_written. Qed.
Print Assumptions C72_written.

(** A crash afterwards. *)
Example C72_written_example :
  let acked := sv_A ++ sv_asked false :: sv_B 11 ++ [sv_answer 11] in
  service ex_oracle sv_conf sv_tr0 sv_vtr0 1 (Some "secret") [] 5 (acked ++ sv_flush) /\ quiet 1 (server_part (sv_B 11)) /\
  clock_forward 1 (w_all (watch_run sv_conf sv_tr0)) (readings (engine_part acked)) /\
  In (OFlush, Quiet) (backend_part sv_flush) /\ w_queue (watch_run sv_conf (sv_tr0 ++ backend_part (acked ++ sv_flush))) = [] /\
  (exists s, execution ex_oracle sv_conf (sv_tr0 ++ backend_part (acked ++ sv_flush) ++ sv_crash) s) /\
  w_gone (watch_run sv_conf (sv_tr0 ++ backend_part (acked ++ sv_flush) ++ sv_crash)) = [].
Proof.
  cbn zeta. split; [exact sv_run_flush|]. split; [apply quietb_ok; vm_compute; reflexivity|].
  split; [apply clockb_ok; vm_compute; reflexivity|]. split; [now left|]. split; [vm_compute; reflexivity|]. split; [exact sv_run_crash|]. vm_compute; reflexivity.
Qed.

(** C72.  Without the clock going forward this is not true: the client gets the
    events it has requested, but they are not stored, and nothing of their type
    is found. *)
Theorem C72_clock_refuted : exists O cf tr0 vtr0 srv tk ms size A c conv rs l j B es l2 C c' conv' p l3 x D found l4 e,
    let before := A ++ SRegister (VRegister c conv false rs, l) j :: B ++ SServer (VRegistered c (Some es), l2) :: C in
    service O cf tr0 vtr0 srv tk ms size (before ++ SQuery (VQuery c' conv' (QPLatest p), l3) x :: D ++ [SServer (VQueried c' (QRes found false), l4)]) /\
    quiet c (server_part B) /\ quiet c' (server_part D) /\ valid_latest p /\ asked p (ev_type e) /\ In e es /\
    cf_cond (conf_at cf tr0) e = true /\ covers (conf_at cf tr0) (ev_type e) = true /\ has_place (conf_at cf tr0) e = true /\
    l2 = [Sent c (MRegisterRes conv (Some es))] /\
    (forall e', In e' found -> ev_type e' <> ev_type e) /\ ~ In e (map en_ev (w_all (watch_run cf (tr0 ++ backend_part before)))).
Proof.
  exists ex_oracle, sv_conf, sv_tr0, sv_vtr0, 1%Z, (Some "secret"), [], 5, sv_A, 1, 20, sv_rs, [EngineCall 1 sv_rs], (ERegister (Request 1 (Source EVENTER 1) sv_rs), []),
    (sv_B 6), (sv_es 6), [Sent 1 (MRegisterRes 20 (Some (sv_es 6)))], sv_C, 2, 30, sv_all, [QueryCall 2 (QPLatest sv_all)], (OLatest sv_all, Answer (Some sv_missed)), [],
    (qr_events sv_missed), [Sent 2 (MQueryRes 30 sv_missed)], (sv_e2 6).
  cbn zeta. split; [exact sv_run_back|]. split; [apply quietb_ok; vm_compute; reflexivity|]. split; [constructor|]. split; [exact I|]. split; [exact I|].
  split; [right; now left|]. split; [vm_compute; reflexivity|]. split; [vm_compute; reflexivity|]. split; [vm_compute; reflexivity|]. split; [reflexivity|]. split.
  - intros e' [<-|[<-|[]]]; discriminate.
  - match goal with |- ~ In _ ?l => replace l with [ev 1 3 1 ["a"] 5 None; sv_started; ev 2 1 1 ["a"] 9 None; ev 2 1 2 ["a"] 20 None] by (vm_compute; reflexivity) end.
    intros [H|[H|[H|[H|[]]]]]; discriminate H.
Qed.
Print Assumptions C72_clock_refuted.
