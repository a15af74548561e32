(** Property C27 (retention limits of the LMDB backend). *)
From Coq Require Import String Bool ZArith QArith Lia List.
From Verif Require Import Base Model_Types Model_Subscription Model_Codec Model_Time Model_Lmdb Model_LmdbSys Spec_Lmdb Spec_LmdbContent
  Spec_LmdbCleanup Model_LmdbCleanup Proof_Lmdb17 Proof_LmdbCleanup Ex_Lmdb.
Import ListNotations.
Open Scope string_scope.
Open Scope list_scope.
Open Scope Z_scope.

(** C27.  A cleanup, whenever it happens, removes at most 1024 entries; from
    each partition some of the oldest ones, as long as one of its limits is
    exceeded and not below its least number; everything else stays.  If it
    removes less than 1024 entries, then all limits are met. *)
Theorem C27_pass : forall O cf tr s s' ks,
    execution O cf tr s -> execution O cf (tr ++ [(OWork, Cleaned ks)]) s' ->
    exists now, hd_error (waiting tr) = Some (Some now) /\
      cleaned O (w_conf (watch_run cf tr)) now (s_disk s) (s_disk s') ks.
Proof. exact final_C27. Qed.
Print Assumptions C27_pass.

(** C27.  Repeating a cleanup as long as it removes 1024 entries comes to an
    end, whatever the clock shows, and then all limits are met. *)
Theorem C27_repeat : forall O cf tr s clock, execution O cf tr s -> waiting tr = [] ->
    exists l ks s', let now := clock (List.length l) in
      map fst l = map clock (seq 0 (List.length l)) /\
      (forall x, In x l -> 1024 <= count (snd x)) /\ count ks < 1024 /\
      1024 * count l <= count (db_ts (s_disk s)) /\
      execution O cf (tr ++ passes (l ++ [(now, ks)])) s' /\
      forall p lm, limit_in (w_conf (watch_run cf tr)) (s_disk s) p lm ->
        exists dm, between (s_disk s) dm (s_disk s') /\ meets O lm now dm (entries_of (s_disk s') p).
Proof. exact final_C27_repeat. Qed.
Print Assumptions C27_repeat.

(** C27.  The same of the cleanup loop: with nothing else going on it repeats
    the cleanup without pause until all limits are met, and only then sleeps. *)
Theorem C27_loop : forall O cf tr s clock, execution O cf tr s -> waiting tr = [] ->
    exists l ks s', let now := clock (List.length l) in
      map fst l = map clock (seq 0 (List.length l)) /\
      cl_run ClAsk (map Some (passes l)) = Some ClAsk /\
      cl_run ClAsk (map Some (passes (l ++ [(now, ks)]))) = Some ClSleep /\
      1024 * count l <= count (db_ts (s_disk s)) /\
      execution O cf (tr ++ passes (l ++ [(now, ks)])) s' /\
      forall p lm, limit_in (w_conf (watch_run cf tr)) (s_disk s) p lm ->
        exists dm, between (s_disk s) dm (s_disk s') /\ meets O lm now dm (entries_of (s_disk s') p).
Proof. exact final_C27_loop_ends. Qed.
Print Assumptions C27_loop.

(** C27.  Whatever else goes on meanwhile: when the cleanup loop sleeps, its
    last cleanup left all limits met. *)
Theorem C27_sleep : forall O cf l s, execution O cf (somes l) s -> cl_run ClAsk l = Some ClSleep ->
    exists a now ks b s1 s2, somes l = a ++ (OWork, Cleaned ks) :: b /\ Forall tame b /\ hd_error (waiting a) = Some (Some now) /\
      execution O cf a s1 /\ execution O cf (a ++ [(OWork, Cleaned ks)]) s2 /\
      forall p lm, limit_in (w_conf (watch_run cf a)) (s_disk s1) p lm ->
        exists dm, between (s_disk s1) dm (s_disk s2) /\ meets O lm now dm (entries_of (s_disk s2) p).
Proof. exact final_C27_sleep. Qed.
Print Assumptions C27_sleep.

(** At least one and at most three entries, not older than ten seconds. *)
Definition ex_limit : limit := Limit (Some 1) (Some 3) (Some 10%Q) None.
Definition ex_conf_limit : conf :=
  mk_conf "0.9" None (fun _ => true) [] [(TIMESTAMP, [["a"; "*"]], Some ex_limit); (TIMESTAMP, [["*"]], None)] 10.
Definition ex_ops_limit : list op :=
  [ORegister (map (fun i => ev 1 1 i ["a"; "x"] i None) [1; 2; 3; 4; 5]); OFlush; OWork; OCleanup (Ts 14 500000)].
Notation ex_run_limit ops := (plays ex_oracle ex_conf_limit (ex_ops_limit ++ ops)).
Lemma ex_limit_run : forall ops, (if ex_run_limit ops then true else false) = true ->
    Forall conf_ok (op_confs (ex_ops_limit ++ ops)) -> forallb event_okb (op_events (ex_ops_limit ++ ops)) = true ->
    execution ex_oracle ex_conf_limit (trace_of (ex_run_limit ops)) (end_of ex_conf_limit (ex_run_limit ops)).
Proof.
  intros ops H Hc He. apply (played' ex_oracle ex_conf_limit (ex_ops_limit ++ ops)); [exact H| |exact He].
  apply Forall_cons; [apply conf_ok_of; reflexivity|exact Hc].
Qed.

(** Four entries are removed, one stays; nothing is removed from the second
    partition.  A later cleanup removes nothing, although the last entry is too
    old. *)
Definition ex_key (p i : Z) : ts_key := (p, Ts i 0, Eid 1 1 i).
Example C27_example : exists tr s s' s'' tr2, let ks := map (ex_key 1) [1; 2; 3; 4] in
  execution ex_oracle ex_conf_limit tr s /\
  execution ex_oracle ex_conf_limit (tr ++ [(OWork, Cleaned ks)]) s' /\ hd_error (waiting tr) = Some (Some (Ts 14 500000)) /\
  entries_of (s_disk s) 1 = map (ex_key 1) [1; 2; 3; 4; 5] /\ entries_of (s_disk s') 1 = [ex_key 1 5] /\
  entries_of (s_disk s') 2 = map (ex_key 2) [1; 2; 3; 4; 5] /\
  limit_in (w_conf (watch_run ex_conf_limit tr)) (s_disk s) 1 ex_limit /\ waiting (tr ++ [(OWork, Cleaned ks)]) = [] /\
  execution ex_oracle ex_conf_limit (tr2 ++ [(OWork, Cleaned [])]) s'' /\ hd_error (waiting tr2) = Some (Some (Ts 100 0)).
Proof.
  exists (trace_of (ex_run_limit [])), (end_of ex_conf_limit (ex_run_limit [])), (end_of ex_conf_limit (ex_run_limit [OWork])),
    (end_of ex_conf_limit (ex_run_limit [OWork; OCleanup (Ts 100 0); OWork])), (trace_of (ex_run_limit [OWork; OCleanup (Ts 100 0)])).
  cbn zeta. split; [apply ex_limit_run; [vm_compute; reflexivity|apply Forall_nil|vm_compute; reflexivity]|]. split.
  { replace (trace_of (ex_run_limit []) ++ _) with (trace_of (ex_run_limit [OWork])) by (vm_compute; reflexivity).
    apply ex_limit_run; [vm_compute; reflexivity|apply Forall_nil|vm_compute; reflexivity]. }
  split; [vm_compute; reflexivity|]. split; [vm_compute; reflexivity|]. split; [vm_compute; reflexivity|].
  split; [vm_compute; reflexivity|]. split.
  { exists [], (Partition TIMESTAMP (sub_of [["a"; "*"]]) (Some ex_limit)), [Partition TIMESTAMP (sub_of [["*"]]) None].
    split; [vm_compute; reflexivity|]. split; [reflexivity|]. split; [vm_compute; auto|].
    intros pt [<-|[]] E. apply (f_equal pd_subs) in E. vm_compute in E. discriminate. }
  split; [vm_compute; reflexivity|]. split.
  { replace (trace_of (ex_run_limit _) ++ _) with (trace_of (ex_run_limit [OWork; OCleanup (Ts 100 0); OWork])) by (vm_compute; reflexivity).
    apply ex_limit_run; [vm_compute; reflexivity|apply Forall_nil|vm_compute; reflexivity]. }
  vm_compute. reflexivity.
Qed.

(** The cleanup loop after that cleanup; it goes on at once after a cleanup of
    1024 entries. *)
Example C27_loop_example : exists l, somes l = trace_of (ex_run_limit [OWork; OLatest (QLatest None); OCleanup (Ts 100 0); OWork]) /\
  cl_run ClAsk l = Some ClSleep /\
  cl_run ClAsk (map Some (passes [(Ts 14 0, repeat (ex_key 1 1) 1024)])) = Some ClAsk.
Proof.
  exists (map Some (trace_of (ex_run_limit [OWork; OLatest (QLatest None)])) ++
    None :: map Some (skipn 6 (trace_of (ex_run_limit [OWork; OLatest (QLatest None); OCleanup (Ts 100 0); OWork])))).
  split; [vm_compute; reflexivity|]. split; vm_compute; reflexivity.
Qed.
