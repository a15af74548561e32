(** Concrete executions of the LMDB backend with pages of timeseries queries,
    used by examples. *)
From Coq Require Import String Bool ZArith Lia List.
From Verif Require Import Base Kv Model_Types Model_Subscription Model_Codec Keys Spec_Subscription Model_Lmdb Model_LmdbSys Spec_Lmdb Spec_LmdbContent
  Spec_LmdbQuery Spec_LmdbTs Spec_LmdbPages Proof_Subscription2 Proof_Lmdb8 Ex_Lmdb Ex_LmdbTs.
Import ListNotations.
Open Scope string_scope.
Open Scope list_scope.
Open Scope Z_scope.

(** A partition with at most [m] entries after a cleanup. *)
Definition ex_conf_pg (m : Z) : conf :=
  mk_conf "0.9" None (fun _ => true) [] [(TIMESTAMP, [["*"]], Some (Limit None (Some m) None None))] 10.
Lemma ex_conf_pg_ok : forall m, conf_ok (ex_conf_pg m).
Proof. intros m. apply conf_ok_of; reflexivity. Qed.
Lemma ex_made_pg : forall m, made (ex_conf_pg m).
Proof. intros m. now apply made_of. Qed.

Definition ex_g (i : Z) : event := ev 1 1 i ["a"] i None.

(** Pages of two: another event is registered during the first query, entries
    are flushed and a cleanup removes the oldest ones before the second, and
    another event is registered before the third. *)
Definition ex_ops_pg0 : list op := [ORegister [ex_g 1; ex_g 2; ex_g 3]; OFlush; OWork; ORegister [ex_g 4]].
Definition ex_ops_pg1 := ex_ops_pg0 ++ [OTs 0 (ask_page ex_asc None (Some 2)); OWork; ORegister [ex_g 5]; ODeliver 0].
Definition ex_ops_pg2 := ex_ops_pg1 ++
  [OFlush; OWork; OCleanup (Ts 100 0); OWork; OTs 1 (ask_page ex_asc (Some (ev_id (ex_g 2))) (Some 2)); OWork; ODeliver 1].
Definition ex_ops_pg3 := ex_ops_pg2 ++ [ORegister [ex_g 6]; OTs 2 (ask_page ex_asc (Some (ev_id (ex_g 4))) (Some 2)); OWork; ODeliver 2].

(** Events of two servers, found when they are not flushed, with a flush
    between the pages. *)
Definition ex_ops_un0 : list op := [ORegister [ex_f1]; ORegister [ex_f2]; ORegister [ex_f3]].
Definition ex_ops_un (n : Z) (i : event) : list op :=
  ex_ops_un0 ++ [OTs 0 (ask_page ex_asc None (Some n)); OWork; ODeliver 0; OFlush; OWork;
                 OTs 1 (ask_page ex_asc (Some (ev_id i)) (Some 10)); OWork; ODeliver 1].

(** Checks of the side conditions of a page. *)
Definition calm_ops (tr : list (op * out)) : bool := forallb (fun x => match fst x with OReopen _ => false | _ => true end) tr.
Lemma calm_ops_ok : forall tr, calm_ops tr = true -> no_reopen tr.
Proof. unfold calm_ops. intros tr H cf x Hin. rewrite forallb_forall in H. specialize (H _ Hin). discriminate. Qed.
Definition unused (q : nat) (tr : list (op * out)) : bool := negb (existsb (Nat.eqb q) (queries_of tr)).
Lemma unused_ok : forall q tr, unused q tr = true -> ~ In q (queries_of tr).
Proof.
  unfold unused. intros q tr H Hin. enough (E : existsb (Nat.eqb q) (queries_of tr) = true) by (rewrite E in H; discriminate).
  apply existsb_exists. exists q. split; [auto|apply Nat.eqb_refl].
Qed.
Lemma page_ex : forall cf p tr0 tr last acc pgs trA q max trB es more,
    ts_pages cf p tr0 tr last acc true pgs ->
    calm_ops trA && calm_ops trB && (1 <=? ts_max (w_conf (watch_run cf tr0)) (ask_page p last max)) &&
    unused q tr && unused q trA && unused q trB = true ->
    ts_pages cf p tr0 (tr ++ trA ++ (OTs q (ask_page p last max), Quiet) :: trB ++ [(ODeliver q, Answer (Some (QRes es more)))])
      (last_received last es) (acc ++ es) more (pgs ++ [TsPage last (tr ++ trA) trB]).
Proof.
  intros cf p tr0 tr last acc pgs trA q max trB es more H B.
  apply andb_prop in B as [B B6]. apply andb_prop in B as [B B5]. apply andb_prop in B as [B B4].
  apply andb_prop in B as [B B3]. apply andb_prop in B as [B1 B2].
  apply ts_pages_later; auto using calm_ops_ok, unused_ok. now apply Z.leb_le.
Qed.

Notation ex_tr_of cf ops := (trace_of (plays ex_oracle cf ops)).
Notation ex_s_of cf ops := (end_of cf (plays ex_oracle cf ops)).
Lemma ex_pg_run : forall m ops, (if plays ex_oracle (ex_conf_pg m) ops then true else false) = true -> op_confs ops = [] ->
    forallb event_okb (op_events ops) = true ->
    execution ex_oracle (ex_conf_pg m) (ex_tr_of (ex_conf_pg m) ops) (ex_s_of (ex_conf_pg m) ops).
Proof. intros m ops A B C. apply played'; auto. rewrite B. apply Forall_cons; [apply ex_conf_pg_ok|apply Forall_nil]. Qed.
Lemma ex_un_run : forall ops, (if plays ex_oracle ex_conf_ts ops then true else false) = true -> op_confs ops = [] ->
    forallb event_okb (op_events ops) = true ->
    execution ex_oracle ex_conf_ts (ex_tr_of ex_conf_ts ops) (ex_s_of ex_conf_ts ops).
Proof. intros ops A B C. apply played'; auto. rewrite B. apply Forall_cons; [apply ex_conf_ts_ok|apply Forall_nil]. Qed.

(** The pages of the first execution. *)
Definition ex_tr_pg (m : Z) (ops : list op) := ex_tr_of (ex_conf_pg m) ops.
Definition ex_mid1 : list (op * out) := [(OWork, Quiet); (ORegister [ex_g 5], Quiet)].
Definition ex_mid2 (i : Z) : list (op * out) :=
  [(OFlush, Quiet); (OWork, Wrote); (OCleanup (Ts 100 0), Quiet); (OWork, Cleaned (map (fun i => (1, Ts i 0, Eid 1 1 i)) (if i =? 4 then [1] else [1; 2])))].
Definition ex_pages1 (m : Z) : list ts_page := [TsPage None (ex_tr_pg m ex_ops_pg0 ++ []) ex_mid1].
Definition ex_pages2 (m : Z) : list ts_page :=
  ex_pages1 m ++ [TsPage (Some (ev_id (ex_g 2))) (ex_tr_pg m ex_ops_pg1 ++ ex_mid2 m) [(OWork, Quiet)]].
Definition ex_page3 : ts_page :=
  TsPage (Some (ev_id (ex_g 4))) (ex_tr_pg 4 ex_ops_pg2 ++ [(ORegister [ex_g 6], Quiet)]) [(OWork, Quiet)].

Lemma ex_pg1 : forall m, m = 3 \/ m = 4 ->
    ts_pages (ex_conf_pg m) ex_asc (ex_tr_pg m ex_ops_pg0) (ex_tr_pg m ex_ops_pg1) (Some (ev_id (ex_g 2))) [ex_g 1; ex_g 2] true (ex_pages1 m).
Proof.
  intros m Hm.
  replace (ex_tr_pg m ex_ops_pg1) with (ex_tr_pg m ex_ops_pg0 ++ [] ++ (OTs 0 (ask_page ex_asc None (Some 2)), Quiet) :: ex_mid1 ++
    [(ODeliver 0, Answer (Some (QRes [ex_g 1; ex_g 2] true)))]) by (destruct Hm as [->| ->]; vm_compute; reflexivity).
  apply (page_ex (ex_conf_pg m) ex_asc _ (ex_tr_pg m ex_ops_pg0) None [] [] [] 0%nat (Some 2) ex_mid1 [ex_g 1; ex_g 2] true).
  - apply ts_pages_start.
  - destruct Hm as [->| ->]; vm_compute; reflexivity.
Qed.

(** The second page when only the oldest event, and when also the last one of
    the first page, were removed. *)
Lemma ex_pg2 : ts_pages (ex_conf_pg 4) ex_asc (ex_tr_pg 4 ex_ops_pg0) (ex_tr_pg 4 ex_ops_pg2) (Some (ev_id (ex_g 4)))
    [ex_g 1; ex_g 2; ex_g 3; ex_g 4] true (ex_pages2 4).
Proof.
  replace (ex_tr_pg 4 ex_ops_pg2) with (ex_tr_pg 4 ex_ops_pg1 ++ ex_mid2 4 ++
    (OTs 1 (ask_page ex_asc (Some (ev_id (ex_g 2))) (Some 2)), Quiet) :: [(OWork, Quiet)] ++
    [(ODeliver 1, Answer (Some (QRes [ex_g 3; ex_g 4] true)))]) by (vm_compute; reflexivity).
  apply (page_ex (ex_conf_pg 4) ex_asc _ (ex_tr_pg 4 ex_ops_pg1) (Some (ev_id (ex_g 2))) [ex_g 1; ex_g 2] (ex_pages1 4) (ex_mid2 4) 1%nat (Some 2)
    [(OWork, Quiet)] [ex_g 3; ex_g 4] true).
  - apply ex_pg1. now right.
  - vm_compute. reflexivity.
Qed.
Lemma ex_pg2_gone : ts_pages (ex_conf_pg 3) ex_asc (ex_tr_pg 3 ex_ops_pg0) (ex_tr_pg 3 ex_ops_pg2) (Some (ev_id (ex_g 2)))
    [ex_g 1; ex_g 2] false (ex_pages2 3).
Proof.
  replace (ex_tr_pg 3 ex_ops_pg2) with (ex_tr_pg 3 ex_ops_pg1 ++ ex_mid2 3 ++
    (OTs 1 (ask_page ex_asc (Some (ev_id (ex_g 2))) (Some 2)), Quiet) :: [(OWork, Quiet)] ++
    [(ODeliver 1, Answer (Some (QRes [] false)))]) by (vm_compute; reflexivity).
  apply (page_ex (ex_conf_pg 3) ex_asc _ (ex_tr_pg 3 ex_ops_pg1) (Some (ev_id (ex_g 2))) [ex_g 1; ex_g 2] (ex_pages1 3) (ex_mid2 3) 1%nat (Some 2)
    [(OWork, Quiet)] [] false).
  - apply ex_pg1. now left.
  - vm_compute. reflexivity.
Qed.
Lemma ex_pg3 : ts_pages (ex_conf_pg 4) ex_asc (ex_tr_pg 4 ex_ops_pg0) (ex_tr_pg 4 ex_ops_pg3) (Some (ev_id (ex_g 6)))
    [ex_g 1; ex_g 2; ex_g 3; ex_g 4; ex_g 5; ex_g 6] false (ex_pages2 4 ++ [ex_page3]).
Proof.
  replace (ex_tr_pg 4 ex_ops_pg3) with (ex_tr_pg 4 ex_ops_pg2 ++ [(ORegister [ex_g 6], Quiet)] ++
    (OTs 2 (ask_page ex_asc (Some (ev_id (ex_g 4))) (Some 2)), Quiet) :: [(OWork, Quiet)] ++
    [(ODeliver 2, Answer (Some (QRes [ex_g 5; ex_g 6] false)))]) by (vm_compute; reflexivity).
  apply (page_ex (ex_conf_pg 4) ex_asc _ (ex_tr_pg 4 ex_ops_pg2) (Some (ev_id (ex_g 4))) [ex_g 1; ex_g 2; ex_g 3; ex_g 4] (ex_pages2 4)
    [(ORegister [ex_g 6], Quiet)] 2%nat (Some 2) [(OWork, Quiet)] [ex_g 5; ex_g 6] false).
  - exact ex_pg2.
  - vm_compute. reflexivity.
Qed.

(** Pages of the second execution: an event is missed, or received twice. *)
Definition ex_un_pages (n : Z) (i : event) (es : list event) : list ts_page :=
  [TsPage None (ex_tr_of ex_conf_ts ex_ops_un0 ++ []) [(OWork, Quiet)];
   TsPage (Some (ev_id i)) ((ex_tr_of ex_conf_ts ex_ops_un0 ++ [] ++ (OTs 0 (ask_page ex_asc None (Some n)), Quiet) :: [(OWork, Quiet)] ++
     [(ODeliver 0, Answer (Some (QRes es true)))]) ++ [(OFlush, Quiet); (OWork, Wrote)]) [(OWork, Quiet)]].
Lemma ex_un_missed : ts_pages ex_conf_ts ex_asc (ex_tr_of ex_conf_ts ex_ops_un0) (ex_tr_of ex_conf_ts (ex_ops_un 1 ex_f1)) (Some (ev_id ex_f3))
    [ex_f1; ex_f3] false (ex_un_pages 1 ex_f1 [ex_f1]).
Proof.
  replace (ex_tr_of ex_conf_ts (ex_ops_un 1 ex_f1)) with
    ((ex_tr_of ex_conf_ts ex_ops_un0 ++ [] ++ (OTs 0 (ask_page ex_asc None (Some 1)), Quiet) :: [(OWork, Quiet)] ++
     [(ODeliver 0, Answer (Some (QRes [ex_f1] true)))]) ++ [(OFlush, Quiet); (OWork, Wrote)] ++
     (OTs 1 (ask_page ex_asc (Some (ev_id ex_f1)) (Some 10)), Quiet) :: [(OWork, Quiet)] ++
     [(ODeliver 1, Answer (Some (QRes [ex_f3] false)))]) by (vm_compute; reflexivity).
  apply (page_ex ex_conf_ts ex_asc _ _ (Some (ev_id ex_f1)) [ex_f1] [TsPage None (ex_tr_of ex_conf_ts ex_ops_un0 ++ []) [(OWork, Quiet)]]
    [(OFlush, Quiet); (OWork, Wrote)] 1%nat (Some 10) [(OWork, Quiet)] [ex_f3] false).
  - apply (page_ex ex_conf_ts ex_asc _ (ex_tr_of ex_conf_ts ex_ops_un0) None [] [] [] 0%nat (Some 1) [(OWork, Quiet)] [ex_f1] true).
    + apply ts_pages_start.
    + vm_compute. reflexivity.
  - vm_compute. reflexivity.
Qed.
Lemma ex_un_twice : ts_pages ex_conf_ts ex_asc (ex_tr_of ex_conf_ts ex_ops_un0) (ex_tr_of ex_conf_ts (ex_ops_un 2 ex_f2)) (Some (ev_id ex_f3))
    [ex_f1; ex_f2; ex_f1; ex_f3] false (ex_un_pages 2 ex_f2 [ex_f1; ex_f2]).
Proof.
  replace (ex_tr_of ex_conf_ts (ex_ops_un 2 ex_f2)) with
    ((ex_tr_of ex_conf_ts ex_ops_un0 ++ [] ++ (OTs 0 (ask_page ex_asc None (Some 2)), Quiet) :: [(OWork, Quiet)] ++
     [(ODeliver 0, Answer (Some (QRes [ex_f1; ex_f2] true)))]) ++ [(OFlush, Quiet); (OWork, Wrote)] ++
     (OTs 1 (ask_page ex_asc (Some (ev_id ex_f2)) (Some 10)), Quiet) :: [(OWork, Quiet)] ++
     [(ODeliver 1, Answer (Some (QRes [ex_f1; ex_f3] false)))]) by (vm_compute; reflexivity).
  apply (page_ex ex_conf_ts ex_asc _ _ (Some (ev_id ex_f2)) [ex_f1; ex_f2] [TsPage None (ex_tr_of ex_conf_ts ex_ops_un0 ++ []) [(OWork, Quiet)]]
    [(OFlush, Quiet); (OWork, Wrote)] 1%nat (Some 10) [(OWork, Quiet)] [ex_f1; ex_f3] false).
  - apply (page_ex ex_conf_ts ex_asc _ (ex_tr_of ex_conf_ts ex_ops_un0) None [] [] [] 0%nat (Some 2) [(OWork, Quiet)] [ex_f1; ex_f2] true).
    + apply ts_pages_start.
    + vm_compute. reflexivity.
  - vm_compute. reflexivity.
Qed.
