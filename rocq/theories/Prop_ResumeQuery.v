(** C81: queries of a server that goes on from a converted database. *)
From Coq Require Import String Bool ZArith Lia List.
From Verif Require Import Base Kv Model_Types Model_Subscription Model_Codec Keys Model_Lmdb Model_LmdbSys Spec_Order Spec_Lmdb Spec_LmdbContent Spec_Copy
  Model_Convert Spec_Convert Spec_Resume Ex_Lmdb Ex_LmdbTs Ex_Convert Ex_Resume Ex_ResumeQuery Spec_LmdbQuery Spec_LmdbTs Spec_ResumeQuery Proof_ResumeQuery2.
Import ListNotations.
Open Scope string_scope.
Open Scope list_scope.
Open Scope Z_scope.

(** C81.  As long as nothing is registered and no cleanup removes anything,
    timeseries queries are answered from the entries of the former database: the
    first ones that were asked for, in their order. *)
Theorem C81_former : forall O cf c trA q p trB a s sA, consistent c -> disj_ok O ->
  resumed O cf c (trA ++ (OTs q p, Quiet) :: trB ++ [(ODeliver q, a)]) s -> resumed O cf c trA sA -> undisturbed (trA ++ trB) ->
  ~ In q (queries_of trA) -> ~ In q (queries_of trB) ->
  let cfA := s_conf sA in
  made cfA -> 0 <= ts_max cfA p ->
  exists n pt L, chosen cfA (s_disk sA) p n pt /\ selected p (in_sequence p (seen (cf_cond cfA) (stored_in c n))) L /\
    a = Answer (Some (page (ts_max cfA p) L)) /\ NoDup (map ev_id L) /\ ordered p L.
Proof. exact final_C81_former. Qed.
Print Assumptions C81_former.

(** C81, partial in the same way as C17 (the order of events that wait to be
    written): timeseries queries that are answered later look at what is stored in
    the chosen partition and at what waits to be written; former entries that meet
    the conditions are among that, unless a cleanup has removed them. *)
Theorem C81_timeseries_partial : forall c, consistent c -> exists H, stands_for H c /\ forall O cf trA q p trB a s sA, disj_ok O ->
  resumed O cf c (trA ++ (OTs q p, Quiet) :: trB ++ [(ODeliver q, a)]) s -> resumed O cf c trA sA ->
  made (w_conf (watch_from H cf trA)) -> ~ In q (queries_of trA) -> ~ In q (queries_of trB) ->
  let cfA := w_conf (watch_from H cf trA) in
  0 <= ts_max cfA p ->
  exists n pt trB1 trB2 s2, chosen cfA (s_disk sA) p n pt /\ trB = trB1 ++ (OWork, Quiet) :: trB2 /\
    resumed O cf c (trA ++ (OTs q p, Quiet) :: trB1) s2 /\
    let D := seen (cf_cond cfA) (stored_in (s_disk s2) n) in
    let P := pending_in pt (pending_from H p cf trA trB) in
    ts_exact cfA p (looked_at p D P) a /\ (cuttable p P -> ts_answer cfA p (D ++ P) a) /\
    forall t i e, In ((n, t, i), e) (db_ts c) -> cf_cond cfA e = true ->
      In (t, e) D \/ exists ks, In (OWork, Cleaned ks) (trA ++ (OTs q p, Quiet) :: trB1) /\ In (n, t, i) ks.
Proof. exact final_C81_timeseries. Qed.
Print Assumptions C81_timeseries_partial.

(** The same for queries that are answered at once, or wrong. *)
Theorem C81_at_once_partial : forall c, consistent c -> exists H, stands_for H c /\ forall O cf trA q p x s sA, disj_ok O ->
  resumed O cf c (trA ++ [(OTs q p, x)]) s -> resumed O cf c trA sA -> made (w_conf (watch_from H cf trA)) ->
  let cfA := w_conf (watch_from H cf trA) in
  (exists qs, qt_types p = Some qs /\ py_create qs = None /\ x = Answer None) \/
  ((forall pt, In pt (cf_parts cfA) -> ~ suits p pt) /\ x = Answer (Some (QRes [] false))) \/
  (exists n pt, chosen cfA (s_disk sA) p n pt /\
    (x = Quiet \/
     qt_order p = DESCENDING /\
     let D := seen (cf_cond cfA) (stored_in (s_disk sA) n) in
     let P := pending_in pt (w_cur (watch_from H cf trA)) in
     (0 <= ts_max cfA p -> ts_exact cfA p (looked_at p D P) x /\ (cuttable p P -> ts_answer cfA p (D ++ P) x)) /\
     (ts_max cfA p < 0 -> x = Answer None))).
Proof. exact final_C81_at_once. Qed.
Print Assumptions C81_at_once_partial.

(** C81, partial: provided that the conditions of the configuration accept the
    former latest events, and that conditions are not made stricter later, server queries
    are answered by the events of that server that are stored, former ones among
    them, and by those that wait to be written if these are asked for too. *)
Theorem C81_server_partial : forall c, consistent c -> exists H, stands_for H c /\ forall O cf trA q p trB a s,
  pick_ok O -> resumed O cf c (trA ++ (OServer q p, Quiet) :: trB ++ [(ODeliver q, a)]) s ->
  conditions_kept (cf :: confs_of trA) -> (forall e, In e (vals (db_latest c)) -> cf_cond cf e = true) ->
  ~ In q (queries_of trA) -> ~ In q (queries_of trB) -> 0 <= server_max p ->
  exists trB1 trB2 s2 L, trB = trB1 ++ (OWork, Quiet) :: trB2 /\
    resumed O cf c (trA ++ (OServer q p, Quiet) :: trB1) s2 /\
    a = Answer (Some (page (server_max p) L)) /\ by_id L /\
    (let w := pending_at (watch_from H cf trA) trB in
     forall e, In e L <-> eid_server (ev_id e) = qs_server p /\ after (qs_last p) e /\
       (stored_event (s_disk s2) e \/
        (qs_persisted p = false /\ exists en, In en (w_cur w) /\ en_ev en = e /\ live (w_all w) en))).
Proof. exact final_C81_server. Qed.
Print Assumptions C81_server_partial.

(** The first query of the server: all three former events. *)
Example C81_former_example : consistent rs_db /\ disj_ok ex_oracle /\
  resumed ex_oracle rs_conf rs_db ([] ++ (OTs 0 ex_asc, Quiet) :: [(OWork, Quiet)] ++ [(ODeliver 0, Answer (Some (QRes [rs_x1; rs_x3; rs_x2] false)))]) (rs_final rs_ops_first) /\
  resumed ex_oracle rs_conf rs_db [] (rs_final []) /\ undisturbed ([] ++ [(OWork, Quiet)]) /\ made (s_conf (rs_final [])) /\ 0 <= ts_max (s_conf (rs_final [])) ex_asc.
Proof.
  split; [exact rs_consistent|]. split; [exact ex_disj_ok|]. replace (s_conf (rs_final [])) with rs_conf by (vm_compute; reflexivity).
  split; [replace ([] ++ _) with (rs_trace rs_ops_first) by (vm_compute; reflexivity); now apply rs_played|].
  split; [change (@nil (op * out)) with (rs_trace []); now apply rs_played|].
  split; [intros o x [[= <- <-]|[]]; split; discriminate|]. split; [exact rs_made|vm_compute; discriminate].
Qed.

(** After a new event was written, and while another one waits: former and new
    events. *)
Definition rs_asked : list (op * out) := rs_trace rs_before ++ (OTs 0 ex_asc, Quiet) ::
  [(OWork, Quiet); (ORegister [rs_later], Quiet)] ++ [(ODeliver 0, Answer (Some (QRes [rs_x1; rs_x3; rs_x2; rs_new; rs_later] false)))].

Example C81_timeseries_example : resumed ex_oracle rs_conf rs_db rs_asked (rs_final rs_ops_ts) /\
  resumed ex_oracle rs_conf rs_db (rs_trace rs_before) (rs_final rs_before) /\
  (forall H, made (w_conf (watch_from H rs_conf (rs_trace rs_before)))) /\
  ~ In 0%nat (queries_of (rs_trace rs_before)) /\ (forall H, 0 <= ts_max (w_conf (watch_from H rs_conf (rs_trace rs_before))) ex_asc).
Proof.
  assert (E : forall H, w_conf (watch_from H rs_conf (rs_trace rs_before)) = rs_conf) by (intros H; vm_compute; reflexivity).
  split; [replace rs_asked with (rs_trace rs_ops_ts) by (vm_compute; reflexivity); now apply rs_played|].
  split; [now apply rs_played|]. split; [intros H; rewrite E; exact rs_made|]. split; [vm_compute; auto|intros H; rewrite E; vm_compute; discriminate].
Qed.

(** Events of server 1 after its first one. *)
Example C81_server_example :
  resumed ex_oracle rs_conf rs_db (rs_trace rs_before ++ (OServer 0 (QServer 1 false None (Some (Eid 1 1 1))), Quiet) ::
    [(OWork, Quiet); (ORegister [rs_later], Quiet)] ++ [(ODeliver 0, Answer (Some (QRes [rs_x3; rs_new; rs_later] false)))]) (rs_final rs_ops_sv) /\
  conditions_kept (rs_conf :: confs_of (rs_trace rs_before)) /\ forall e, In e (vals (db_latest rs_db)) -> cf_cond rs_conf e = true.
Proof.
  split; [replace (rs_trace rs_before ++ _) with (rs_trace rs_ops_sv) by (vm_compute; reflexivity); now apply rs_played|].
  split; [|reflexivity]. replace (confs_of (rs_trace rs_before)) with (@nil conf) by (vm_compute; reflexivity). constructor; constructor.
Qed.
