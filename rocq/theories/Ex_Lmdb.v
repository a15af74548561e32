(** Concrete executions of the LMDB backend, used by examples. *)
From Coq Require Import String Bool ZArith Lia List.
From Verif Require Import Base Kv Model_Types Model_Subscription Model_Codec Keys Model_Lmdb Model_LmdbSys Spec_Lmdb Spec_LmdbContent Proof_Lmdb8.
Import ListNotations.
Open Scope string_scope.
Open Scope list_scope.
Open Scope Z_scope.

(** Performs operations and notes what is seen. *)
Fixpoint play (O : oracle) (s : sys) (ops : list op) : option (list (op * out) * sys) :=
  match ops with
  | [] => Some ([], s)
  | o :: ops' =>
      match exec O s o with
      | None => None
      | Some (s1, x) =>
          match play O s1 ops' with
          | None => None
          | Some (tr, s2) => Some ((o, x) :: tr, s2)
          end
      end
  end.
Definition plays (O : oracle) (cf : conf) (ops : list op) : option (list (op * out) * sys) :=
  match start cf with None => None | Some s => play O s ops end.

Definition ts_okb (t : timestamp) : bool :=
  (- 2 ^ 63 <=? ts_s t) && (ts_s t <? 2 ^ 63) && (0 <=? ts_us t) && (ts_us t <? 1000000).
Definition u64b (z : Z) : bool := (0 <=? z) && (z <? 2 ^ 64).
Definition event_okb (e : event) : bool :=
  u64b (eid_server (ev_id e)) && u64b (eid_session (ev_id e)) && u64b (eid_instance (ev_id e)) &&
  negb (eid_eqb (ev_id e) (Eid (2 ^ 64 - 1) (2 ^ 64 - 1) (2 ^ 64 - 1))) && ts_okb (ev_ts e) &&
  match ev_src e with Some t => ts_okb t | None => true end.

Lemma ts_okb_ok : forall t, ts_okb t = true -> ts_ok t.
Proof. unfold ts_okb, ts_ok. intros t H. apply andb_prop in H as [H H4]. apply andb_prop in H as [H H3]. apply andb_prop in H as [H1 H2]. lia. Qed.

Lemma event_okb_ok : forall e, event_okb e = true -> event_ok e.
Proof.
  unfold event_okb, event_ok, u64b. intros e H.
  apply andb_prop in H as [H H6]. apply andb_prop in H as [H H5]. apply andb_prop in H as [H H4].
  apply andb_prop in H as [H H3]. apply andb_prop in H as [H1 H2].
  split; [lia|]. split.
  - intros E. rewrite E in H4. vm_compute in H4. discriminate.
  - split; [now apply ts_okb_ok|]. intros t Et. rewrite Et in H6. now apply ts_okb_ok.
Qed.

Definition op_confs (ops : list op) : list conf := flat_map (fun o => match o with OReopen cf => [cf] | _ => [] end) ops.
Definition op_events (ops : list op) : list event := flat_map (fun o => match o with ORegister es => es | _ => [] end) ops.

Lemma play_runs : forall O ops s tr s', play O s ops = Some (tr, s') ->
    runs O s tr s' /\ confs_of tr = op_confs ops /\ events_of tr = op_events ops.
Proof.
  intros O. induction ops as [|o ops IH]; intros s tr s' H; cbn [play] in H.
  - injection H as <- <-. split; [constructor|auto].
  - destruct (exec O s o) as [[s1 x]|] eqn:E; [|discriminate].
    destruct (play O s1 ops) as [[tr1 s2]|] eqn:E2; [|discriminate]. injection H as <- <-.
    destruct (IH _ _ _ E2) as (A & B & C). split; [econstructor; eauto|].
    unfold confs_of, events_of, op_confs, op_events in *. cbn [flat_map fst]. now rewrite B, C.
Qed.

Lemma played : forall O cf ops tr s, plays O cf ops = Some (tr, s) ->
    Forall conf_ok (cf :: op_confs ops) -> forallb event_okb (op_events ops) = true -> execution O cf tr s.
Proof.
  unfold plays. intros O cf ops tr s H Hc He. destruct (start cf) as [s0|] eqn:E; [|discriminate].
  apply play_runs in H as (A & B & C). exists s0. split; auto. split; auto. split; [now rewrite B|].
  rewrite C. apply Forall_forall. intros e Hin. apply event_okb_ok. rewrite forallb_forall in He. auto.
Qed.

Definition trace_of (r : option (list (op * out) * sys)) : list (op * out) := match r with Some (tr, _) => tr | None => [] end.
Definition end_of (cf : conf) (r : option (list (op * out) * sys)) : sys :=
  match r with Some (_, s) => s | None => Sys cf empty_db (Mem (SystemDb [] []) (LatestDb [] [] 0) [] []) [] no_changes [] [] end.

Lemma played' : forall O cf ops, (if plays O cf ops then true else false) = true ->
    Forall conf_ok (cf :: op_confs ops) -> forallb event_okb (op_events ops) = true ->
    execution O cf (trace_of (plays O cf ops)) (end_of cf (plays O cf ops)).
Proof.
  intros O cf ops H Hc He. destruct (plays O cf ops) as [[tr s]|] eqn:E; [|discriminate]. cbn [trace_of end_of]. eapply played; eauto.
Qed.

(** Subscriptions. *)
Definition sub_of (qs : list etype) : node := match py_create qs with Some n => n | None => Node false [] end.
Lemma sub_of_ok : forall qs, (if py_create qs then true else false) = true -> py_subscription (sub_of qs).
Proof. intros qs H. unfold sub_of. destruct (py_create qs) eqn:E; [|discriminate]. econstructor; eauto. Qed.

(** Makes the argument of [conf_ok] visible to computation. *)
Lemma conf_ok_of : forall v i c l ps m, (if py_create l then true else false) = true ->
    forallb (fun p => if py_create (snd (fst p)) then true else false) ps = true ->
    conf_ok (Conf v i c (sub_of l) (map (fun p : order_by * list etype * option limit => Partition (fst (fst p)) (sub_of (snd (fst p))) (snd p)) ps) m).
Proof.
  intros v i c l ps m Hl Hp. split; cbn [cf_latest cf_parts]; [now apply sub_of_ok|].
  apply Forall_forall. intros pt Hin. apply in_map_iff in Hin as (p & <- & Hin). cbn [pt_sub]. apply sub_of_ok.
  rewrite forallb_forall in Hp. exact (Hp _ Hin).
Qed.
Definition mk_conf (v : string) (i : option string) (c : event -> bool) (l : list etype)
  (ps : list (order_by * list etype * option limit)) (m : Z) : conf :=
  Conf v i c (sub_of l) (map (fun p => Partition (fst (fst p)) (sub_of (snd (fst p))) (snd p)) ps) m.

(** An oracle: disjointness as computed by the Python version, the first
    reference, no size limits. *)
Definition ex_oracle : oracle := Oracle node_isdisjoint (fun l => hd_error l) (fun _ _ => None).

Definition ev (s ss i : Z) (t : etype) (ts : Z) (src : option Z) : event :=
  Ev (Eid s ss i) t (Ts ts 0) (option_map (fun x => Ts x 0) src) None.

(** Two partitions, the first with at most two entries. *)
Definition ex_conf : conf :=
  mk_conf "0.9" (Some "id") (fun _ => true) [["a"; "*"]; ["b"]]
    [(TIMESTAMP, [["a"; "*"]], Some (Limit None (Some 2) None None)); (SOURCE_TIMESTAMP, [["*"]], None)] 10.
Lemma ex_conf_ok : conf_ok ex_conf.
Proof. apply conf_ok_of; reflexivity. Qed.

(** Events of two servers; the second of the first batch has an old id. *)
Definition ex_e1 := ev 1 1 1 ["a"; "x"] 1 None.
Definition ex_e2 := ev 1 1 2 ["b"] 2 (Some 5).
Definition ex_e4 := ev 2 1 1 ["a"; "x"] 1 None.
Definition ex_e5 := ev 1 2 1 ["a"; "y"] 3 (Some 4).
Definition ex_e6 := ev 1 2 2 ["a"; "x"] 4 None.
Definition ex_e7 := ev 1 2 3 ["a"; "x"] 4 (Some 1).

(** Registrations, a flush during which another batch arrives, a cleanup and a
    batch that is not flushed. *)
Definition ex_ops : list op :=
  [ORegister [ex_e1; ev 1 1 1 ["b"] 9 None; ex_e2]; ORegister [ex_e4]; OFlush; ORegister [ex_e5]; OWork;
   OFlush; OWork; OCleanup (Ts 100 0); OWork; ORegister [ex_e6]; ORegister [ev 7 0 0 ["zz"] 1 None]].
Definition ex_tr := trace_of (plays ex_oracle ex_conf ex_ops).
Definition ex_s := end_of ex_conf (plays ex_oracle ex_conf ex_ops).
Lemma ex_run : execution ex_oracle ex_conf ex_tr ex_s.
Proof.
  apply played'; [vm_compute; reflexivity| |vm_compute; reflexivity].
  apply Forall_cons; [apply ex_conf_ok|apply Forall_nil].
Qed.
Definition ex_evs (h : history) : list event := map en_ev h.

(** The same, then a crash and a restart. *)
Definition ex_ops_crash := ex_ops ++ [OReopen ex_conf].
Definition ex_tr_crash := trace_of (plays ex_oracle ex_conf ex_ops_crash).
Definition ex_s_crash := end_of ex_conf (plays ex_oracle ex_conf ex_ops_crash).
Lemma ex_run_crash : execution ex_oracle ex_conf ex_tr_crash ex_s_crash.
Proof.
  apply played'; [vm_compute; reflexivity| |vm_compute; reflexivity].
  apply Forall_cons; [apply ex_conf_ok|]. apply Forall_cons; [apply ex_conf_ok|apply Forall_nil].
Qed.

(** A restart with conditions which the stored event does not meet. *)
Definition ex_conf_all : conf := mk_conf "0.9" None (fun _ => true) [["*"]] [] 10.
Definition ex_conf_some : conf := mk_conf "0.9" None (fun e => 2 <=? eid_instance (ev_id e)) [["*"]] [] 10.
Definition ex_ops_hidden : list op :=
  [ORegister [ev 1 1 1 ["a"] 1 None]; OFlush; OWork; OReopen ex_conf_some; ORegister [ev 1 1 2 ["a"] 2 None]; OFlush; OWork].
Definition ex_tr_hidden := trace_of (plays ex_oracle ex_conf_all ex_ops_hidden).
Definition ex_s_hidden := end_of ex_conf_all (plays ex_oracle ex_conf_all ex_ops_hidden).
Lemma ex_run_hidden : execution ex_oracle ex_conf_all ex_tr_hidden ex_s_hidden.
Proof.
  apply played'; [vm_compute; reflexivity| |vm_compute; reflexivity].
  apply Forall_cons; [apply conf_ok_of; reflexivity|]. apply Forall_cons; [apply conf_ok_of; reflexivity|apply Forall_nil].
Qed.

(** A server query during which events are registered and flushed; then the
    next page of it, at the end of which everything was received. *)
Definition ex_e8 := ev 1 3 1 ["b"] 5 None.
Definition ex_page1 : query_server := QServer 1 false (Some 2) None.
Definition ex_page2 : query_server := QServer 1 false (Some 5) (Some (Eid 1 2 1)).
Definition ex_ops_page1 := ex_ops ++ [OServer 0 ex_page1; ORegister [ex_e7]; OFlush; OWork; ORegister [ex_e8]; OWork; ODeliver 0].
Definition ex_ops_page2 := ex_ops_page1 ++ [OServer 1 ex_page2; OFlush; OWork; OWork; ODeliver 1].
Definition ex_tr_page1 := trace_of (plays ex_oracle ex_conf ex_ops_page1).
Definition ex_tr_page2 := trace_of (plays ex_oracle ex_conf ex_ops_page2).
Definition ex_s_page1 := end_of ex_conf (plays ex_oracle ex_conf ex_ops_page1).
Definition ex_s_page2 := end_of ex_conf (plays ex_oracle ex_conf ex_ops_page2).
Lemma ex_run_page1 : execution ex_oracle ex_conf ex_tr_page1 ex_s_page1.
Proof.
  apply played'; [vm_compute; reflexivity| |vm_compute; reflexivity].
  apply Forall_cons; [apply ex_conf_ok|apply Forall_nil].
Qed.
Lemma ex_run_page2 : execution ex_oracle ex_conf ex_tr_page2 ex_s_page2.
Proof.
  apply played'; [vm_compute; reflexivity| |vm_compute; reflexivity].
  apply Forall_cons; [apply ex_conf_ok|apply Forall_nil].
Qed.

(** A server query after the conditions have changed. *)
Definition ex_ops_stale := ex_ops_hidden ++ [OServer 0 (QServer 1 true None None); OWork; ODeliver 0].
Definition ex_tr_stale := trace_of (plays ex_oracle ex_conf_all ex_ops_stale).
Definition ex_s_stale := end_of ex_conf_all (plays ex_oracle ex_conf_all ex_ops_stale).
Lemma ex_run_stale : execution ex_oracle ex_conf_all ex_tr_stale ex_s_stale.
Proof.
  apply played'; [vm_compute; reflexivity| |vm_compute; reflexivity].
  apply Forall_cons; [apply conf_ok_of; reflexivity|]. apply Forall_cons; [apply conf_ok_of; reflexivity|apply Forall_nil].
Qed.
