(** Properties C19, C20 and C26 (server queries of the LMDB backend). *)
From Coq Require Import String Bool ZArith Lia Sorted List.
From Verif Require Import Base Model_Types Model_Subscription Model_Codec Model_Lmdb Model_LmdbSys Spec_Lmdb Spec_LmdbContent Spec_LmdbQuery
  Proof_Lmdb14 Proof_Lmdb15 Ex_Lmdb.
Import ListNotations.
Open Scope string_scope.
Open Scope list_scope.
Open Scope Z_scope.

(** C19.  Whatever happens between a server query and its answer, the answer is
    a page of all events of the server after the given id that are in the
    database at some point between, or (unless only persisted events are asked
    for) registered but not flushed when the query was made, or registered
    later but before the next flush; in increasing order of ids and without
    repetition.  Missing: changes of conditions by which events that met the
    former ones do not meet the new ones. *)
Theorem C19_server_partial : forall O cf trA q p trB a s,
    pick_ok O -> execution O cf (trA ++ (OServer q p, Quiet) :: trB ++ [(ODeliver q, a)]) s ->
    conditions_kept (cf :: confs_of trA) -> ~ In q (queries_of trA) -> ~ In q (queries_of trB) -> 0 <= server_max p ->
    exists trB1 trB2 s2 L, trB = trB1 ++ (OWork, Quiet) :: trB2 /\
      execution O cf (trA ++ (OServer q p, Quiet) :: trB1) s2 /\
      a = Answer (Some (page (server_max p) L)) /\ by_id L /\
      (let w := pending_at (watch_run cf trA) trB in
       forall e, In e L <-> eid_server (ev_id e) = qs_server p /\ after (qs_last p) e /\
         (stored_event (s_disk s2) e \/
          (qs_persisted p = false /\ exists en, In en (w_cur w) /\ en_ev en = e /\ live (w_all w) en))).
Proof. exact final_C19. Qed.
Print Assumptions C19_server_partial.

Lemma ex_pick_ok : pick_ok ex_oracle.
Proof. intros [|r l] H; [congruence|]. exists r. split; [reflexivity|now left]. Qed.

Lemma ex_kept : forall tr, confs_of tr = [] -> conditions_kept (ex_conf :: confs_of tr).
Proof. intros tr ->. constructor; [constructor|constructor]. Qed.

(** Two of five events are returned; one of them is superseded during the
    query, and two were registered during the query. *)
Definition ex_during1 : list (op * out) :=
  [(ORegister [ex_e7], Quiet); (OFlush, Quiet); (OWork, Quiet); (ORegister [ex_e8], Quiet); (OWork, Wrote)].
Definition ex_answer1 : out := Answer (Some (QRes [ex_e2; ex_e5] true)).
Example C19_example :
  execution ex_oracle ex_conf (ex_tr ++ (OServer 0 ex_page1, Quiet) :: ex_during1 ++ [(ODeliver 0, ex_answer1)]) ex_s_page1 /\
  pick_ok ex_oracle /\ conditions_kept (ex_conf :: confs_of ex_tr) /\ ~ In 0%nat (queries_of ex_tr) /\ ~ In 0%nat (queries_of ex_during1) /\
  0 <= server_max ex_page1.
Proof.
  split; [|split; [exact ex_pick_ok|split; [apply ex_kept; vm_compute; reflexivity|split; [|split]]]].
  - replace (ex_tr ++ _) with ex_tr_page1 by (vm_compute; reflexivity). exact ex_run_page1.
  - replace (queries_of ex_tr) with (@nil nat) by (vm_compute; reflexivity). auto.
  - replace (queries_of ex_during1) with (@nil nat) by (vm_compute; reflexivity). auto.
  - vm_compute. discriminate.
Qed.

(** C19.  A last id of another server is refused, and only this ... *)
Theorem C19_refused : forall O cf tr q p x s, execution O cf (tr ++ [(OServer q p, x)]) s ->
    x = match qs_last p with
        | Some i => if eid_server i =? qs_server p then Quiet else Answer None
        | None => Quiet
        end.
Proof. exact final_C19_refused. Qed.
Print Assumptions C19_refused.

(** ... and a negative number of events ends in an error. *)
Theorem C19_negative : forall O cf trA q p trB a s,
    execution O cf (trA ++ (OServer q p, Quiet) :: trB ++ [(ODeliver q, a)]) s ->
    ~ In q (queries_of trA) -> ~ In q (queries_of trB) -> server_max p < 0 -> a = Answer None.
Proof. exact final_C19_negative. Qed.
Print Assumptions C19_negative.

Definition ex_tr_negative := trace_of (plays ex_oracle ex_conf (ex_ops ++ [OServer 3 (QServer 1 false (Some (-1)) None); OWork; ODeliver 3])).
Example C19_refused_example :
  (exists s, execution ex_oracle ex_conf (ex_tr ++ [(OServer 3 (QServer 1 false None (Some (Eid 2 1 1))), Answer None)]) s) /\
  (exists s, execution ex_oracle ex_conf
     (ex_tr ++ (OServer 3 (QServer 1 false (Some (-1)) None), Quiet) :: [(OWork, Quiet)] ++ [(ODeliver 3, Answer None)]) s).
Proof.
  split.
  - exists ex_s. apply Proof_Lmdb8.execution_snoc. exists ex_s. split; [exact ex_run|]. split; [vm_compute; reflexivity|]. split; constructor.
  - exists (end_of ex_conf (plays ex_oracle ex_conf (ex_ops ++ [OServer 3 (QServer 1 false (Some (-1)) None); OWork; ODeliver 3]))).
    replace (ex_tr ++ _) with ex_tr_negative by (vm_compute; reflexivity).
    apply played'; [vm_compute; reflexivity| |vm_compute; reflexivity]. apply Forall_cons; [apply ex_conf_ok|apply Forall_nil].
Qed.

(** C19.  After other changes of conditions the same event may be returned
    twice. *)
Theorem C19_refuted : exists O cf tr q p e s, pick_ok O /\
    execution O cf (tr ++ (OServer q p, Quiet) :: [(OWork, Quiet)] ++ [(ODeliver q, Answer (Some (QRes [e; e] false)))]) s /\
    ~ In q (queries_of tr).
Proof.
  exists ex_oracle, ex_conf_all, ex_tr_hidden, 0%nat, (QServer 1 true None None), (ev 1 1 2 ["a"] 2 None), ex_s_stale.
  split; [exact ex_pick_ok|]. split.
  - replace (ex_tr_hidden ++ _) with ex_tr_stale by (vm_compute; reflexivity). exact ex_run_stale.
  - replace (queries_of ex_tr_hidden) with (@nil nat) by (vm_compute; reflexivity). auto.
Qed.
Print Assumptions C19_refuted.

(** C20.  Paging, with anything but a restart happening during and between the
    queries, until [more_follows] is false: received events are in increasing
    order of ids, so each one once; all of them were held at some point; and
    none is missing of those that were held when paging began and are held when
    it ends.  Missing: changes of conditions as for C19. *)
Theorem C20_paging_partial : forall O cf srv pers last0 tr0 s0 tr last acc s,
    pick_ok O -> execution O cf tr0 s0 -> conditions_kept (cf :: confs_of tr0) ->
    paging srv pers last0 tr0 tr last acc false -> execution O cf tr s ->
    by_id acc /\
    (forall e, In e acc -> eid_server (ev_id e) = srv /\ after last0 e /\
       exists tr1 tr2 s1, tr = tr0 ++ tr1 ++ tr2 /\ execution O cf (tr0 ++ tr1) s1 /\ held pers (s_disk s1) (watch_run cf (tr0 ++ tr1)) e) /\
    (forall e, eid_server (ev_id e) = srv -> after last0 e -> held pers (s_disk s0) (watch_run cf tr0) e ->
       held pers (s_disk s) (watch_run cf tr) e -> In e acc).
Proof. exact final_C20. Qed.
Print Assumptions C20_paging_partial.

Definition ex_during2 : list (op * out) := [(OFlush, Quiet); (OWork, Quiet); (OWork, Wrote)].
Example C20_example :
  execution ex_oracle ex_conf ex_tr ex_s /\ execution ex_oracle ex_conf ex_tr_page2 ex_s_page2 /\
  paging 1 false None ex_tr ex_tr_page2 (Some (Eid 1 3 1)) [ex_e2; ex_e5; ex_e6; ex_e7; ex_e8] false.
Proof.
  split; [exact ex_run|]. split; [exact ex_run_page2|].
  replace ex_tr_page2 with ((ex_tr ++ [] ++ (OServer 0 ex_page1, Quiet) :: ex_during1 ++ [(ODeliver 0, ex_answer1)]) ++ [] ++
    (OServer 1 ex_page2, Quiet) :: ex_during2 ++ [(ODeliver 1, Answer (Some (QRes [ex_e6; ex_e7; ex_e8] false)))]) by (vm_compute; reflexivity).
  change [ex_e2; ex_e5; ex_e6; ex_e7; ex_e8] with (([] ++ [ex_e2; ex_e5]) ++ [ex_e6; ex_e7; ex_e8]).
  change (Some (Eid 1 3 1)) with (last_received (last_received None [ex_e2; ex_e5]) [ex_e6; ex_e7; ex_e8]).
  assert (Hq : forall tr, queries_of tr = [] -> forall q, ~ In q (queries_of tr)) by (intros tr -> q []).
  assert (Hn : forall tr, confs_of tr = [] -> no_reopen tr).
  { intros tr E c x Hin. assert (In c (confs_of tr)) by (apply in_flat_map; exists (OReopen c, x); split; [auto|now left]). rewrite E in *. auto. }
  apply (paging_page 1 false None ex_tr _ (last_received None [ex_e2; ex_e5]) ([] ++ [ex_e2; ex_e5]) [] 1%nat ex_page2 ex_during2 [ex_e6; ex_e7; ex_e8] false).
  - apply (paging_page 1 false None ex_tr ex_tr None [] [] 0%nat ex_page1 ex_during1 [ex_e2; ex_e5] true).
    + apply paging_start.
    + intros c x [].
    + apply Hn. vm_compute. reflexivity.
    + reflexivity.
    + reflexivity.
    + reflexivity.
    + vm_compute. discriminate.
    + apply Hq. vm_compute. reflexivity.
    + auto.
    + apply Hq. vm_compute. reflexivity.
  - intros c x [].
  - apply Hn. vm_compute. reflexivity.
  - reflexivity.
  - reflexivity.
  - reflexivity.
  - vm_compute. discriminate.
  - replace (queries_of _) with [0%nat] by (vm_compute; reflexivity). intros [H|[]]. discriminate.
  - auto.
  - apply Hq. vm_compute. reflexivity.
Qed.

(** Not so after other changes of conditions. *)
Theorem C20_refuted : exists O cf tr0 s0 tr last acc s, pick_ok O /\ execution O cf tr0 s0 /\
    paging 1 true None tr0 tr last acc false /\ execution O cf tr s /\ ~ NoDup acc.
Proof.
  set (e := ev 1 1 2 ["a"] 2 None).
  exists ex_oracle, ex_conf_all, ex_tr_hidden, ex_s_hidden, ex_tr_stale, (last_received None [e; e]), ([] ++ [e; e]), ex_s_stale.
  split; [exact ex_pick_ok|]. split; [exact ex_run_hidden|]. split; [|split; [exact ex_run_stale|]].
  - replace ex_tr_stale with (ex_tr_hidden ++ [] ++ (OServer 0 (QServer 1 true None None), Quiet) :: [(OWork, Quiet)] ++
      [(ODeliver 0, Answer (Some (QRes [e; e] false)))]) by (vm_compute; reflexivity).
    apply (paging_page 1 true None ex_tr_hidden ex_tr_hidden None [] [] 0%nat (QServer 1 true None None) [(OWork, Quiet)] [e; e] false).
    + apply paging_start.
    + intros c x [].
    + intros c x [[=]|[]].
    + reflexivity.
    + reflexivity.
    + reflexivity.
    + vm_compute. discriminate.
    + replace (queries_of ex_tr_hidden) with (@nil nat) by (vm_compute; reflexivity). auto.
    + auto.
    + auto.
  - intros H. inversion H as [|? ? Hn _]; subst. apply Hn. now left.
Qed.
Print Assumptions C20_refuted.

(** C26 (server queries).  A query does not return an event twice, and does not
    miss an event that was held before the query started and is held when it
    ends, unless the page was full.  Missing: changes of conditions as for
    C19. *)
Theorem C26_server_partial : forall O cf trA q p trB es more sA s,
    pick_ok O -> execution O cf trA sA ->
    execution O cf (trA ++ (OServer q p, Quiet) :: trB ++ [(ODeliver q, Answer (Some (QRes es more)))]) s ->
    conditions_kept (cf :: confs_of trA) -> ~ In q (queries_of trA) -> ~ In q (queries_of trB) ->
    by_id es /\
    forall e, eid_server (ev_id e) = qs_server p -> after (qs_last p) e ->
      held (qs_persisted p) (s_disk sA) (watch_run cf trA) e ->
      held (qs_persisted p) (s_disk s) (watch_run cf (trA ++ (OServer q p, Quiet) :: trB)) e ->
      In e es \/ (more = true /\ Z.of_nat (List.length es) = server_max p /\
                  forall x, In x es -> eid_ltb (ev_id x) (ev_id e) = true).
Proof. exact final_C26_server. Qed.
Print Assumptions C26_server_partial.

(** The event is pending when the query starts and on disk when it ends. *)
Example C26_server_example :
  execution ex_oracle ex_conf ex_tr_page1 ex_s_page1 /\
  execution ex_oracle ex_conf (ex_tr_page1 ++ (OServer 1 ex_page2, Quiet) :: ex_during2 ++
     [(ODeliver 1, Answer (Some (QRes [ex_e6; ex_e7; ex_e8] false)))]) ex_s_page2 /\
  held false (s_disk ex_s_page1) (watch_run ex_conf ex_tr_page1) ex_e8 /\ ~ stored_event (s_disk ex_s_page1) ex_e8 /\
  stored_event (s_disk ex_s_page2) ex_e8.
Proof.
  split; [exact ex_run_page1|]. split; [|split; [|split]].
  - replace (ex_tr_page1 ++ _) with ex_tr_page2 by (vm_compute; reflexivity). exact ex_run_page2.
  - right. split; auto. exists [], [Entry ex_conf ex_e8], [], (Entry ex_conf ex_e8).
    split; [vm_compute; reflexivity|]. split; [now left|]. split; auto. left. vm_compute. reflexivity.
  - intros [H|H]; vm_compute in H; intuition discriminate.
  - left. vm_compute. tauto.
Qed.
