(** C84: the bytes of the file that a running server writes and reads. *)
From Coq Require Import String Bool ZArith QArith Lia List.
From Verif Require Import Base Kv Model_Types Model_Time Model_Codec Spec_Codec Keys Model_Subscription Model_Order Model_Sbs Model_Lmdb Model_Copy Model_Convert Spec_Convert Model_ConvertBytes Spec_ConvertBytes
  Model_ConvertCut Model_CopyBytes Spec_CopyBytes Model_LmdbBytes Spec_LmdbBytes Proof_LmdbBytes Proof_LmdbBytes2 Proof_LmdbBytes3 Ex_ConvertBytes Ex_Lmdb Ex_LmdbBytes.
Import ListNotations.
Open Scope string_scope.
Open Scope list_scope.
Open Scope Z_scope.

(** C84.  A new file is good and nothing is read from it. *)
Theorem C84_created : forall C, file_ok (opened9 9) /\ read9 C (opened9 9) = Some empty_db.
Proof. exact final_C84_created. Qed.
Print Assumptions C84_created.

(** C84.  A server opens a good file: the partitions it gets, and what is read
    from the file then, are those of [open_db], the function on the decoded
    content with which the other claims are stated.  Missing for a full claim:
    numbers of partitions that do not fit in 64 bits; the codecs of the JSON and
    SBS libraries are assumed to give back what they encode. *)
Theorem C84_open_partial : forall C F, codecs_ok C F -> forall e d cf b,
    file_ok e -> read9 C e = Some d -> zlen (cf_parts cf) + 1 < 2 ^ 64 ->
    (forall p x, In (p, x) (db_parts d) -> p + zlen (cf_parts cf) + 1 < 2 ^ 64) ->
    open_db cf d = Some b ->
    exists e', raw_open C cf e = Some (e', m_parts (snd b)) /\ file_ok e' /\ read9 C e' = Some (fst b).
Proof. exact final_C84_open. Qed.
Print Assumptions C84_open_partial.

(** C84.  If the content is refused, so is the file. *)
Theorem C84_refused : forall C e d cf, read9 C e = Some d -> open_db cf d = None -> raw_open C cf e = None.
Proof. exact final_C84_refused. Qed.
Print Assumptions C84_refused.

(** C84.  A flush writes the changes: it does not fail, the file stays good, and
    what is read from it are the former content with the changes.  Missing:
    numbers that do not fit (for which see [C84_written_refuted]). *)
Theorem C84_flush_partial : forall C F, codecs_ok C F -> forall e d c,
    file_ok e -> read9 C e = Some d -> changes_fit F d c ->
    exists e', raw_flush C c e = Some e' /\ file_ok e' /\ read9 C e' = Some (flush_write d c).
Proof. exact final_C84_flush. Qed.
Print Assumptions C84_flush_partial.

(** C84.  A cleanup removes from the file what it removes from the content, and
    gives the same removed keys.  Missing: limits whose times do not
    fit; the size in statistics of LMDB is a given function of the content. *)
Theorem C84_cleanup_partial : forall C F, codecs_ok C F -> forall O size,
    (forall s e d, read9 C e = Some d -> size s e = or_size O s d) -> forall parts now e d,
    file_ok e -> read9 C e = Some d -> (forall p n, In (p, n) (db_counts d) -> u64 n) -> limits_fit now parts ->
    exists e', raw_cleanup C size parts now e = Some (e', snd (cleanup O parts now d)) /\ file_ok e' /\
               read9 C e' = Some (fst (cleanup O parts now d)).
Proof. exact final_C84_cleanup. Qed.
Print Assumptions C84_cleanup_partial.

(** C84.  Any sequence of such transactions, of any number of servers one after
    the other on one file. *)
Theorem C84_transactions_partial : forall C F, codecs_ok C F -> forall O size,
    (forall s e d, read9 C e = Some d -> size s e = or_size O s d) -> forall ts e d d',
    file_ok e -> read9 C e = Some d -> txns_fit F O d ts -> loop (content_txn O) ts d = Some d' ->
    exists e', loop (raw_txn C size) ts e = Some e' /\ file_ok e' /\ read9 C e' = Some d'.
Proof. exact final_C84_transactions. Qed.
Print Assumptions C84_transactions_partial.

(** C84.  Timeseries queries find in the bytes what they find in the content:
    cursors move over encoded keys, whose order is that of the keys. *)
Theorem C84_query_partial : forall C e d part tf tt o,
    file_ok e -> read9 C e = Some d -> u64 part ->
    (forall t, tf = Some t -> ts_fits t) -> (forall t, tt = Some t -> ts_fits t) ->
    raw_query_range C e part tf tt o = Some (query_range d part tf tt o).
Proof. exact final_C84_query. Qed.
Print Assumptions C84_query_partial.

(** C84.  The same for server queries. *)
Theorem C84_server_partial : forall C, decode_event C [] = None -> forall O e d server max last,
    file_ok e -> read9 C e = Some d -> (forall l r, or_pick O l = Some r -> In r l) ->
    u64 server -> u64 (server + 1) -> (forall i, last = Some i -> eid_fits i) ->
    raw_query_refs C O e server max last = Some (query_refs O d server max last).
Proof. exact final_C84_server. Qed.
Print Assumptions C84_server_partial.

(** C84, refuted: that what was registered can always be flushed.  If an event
    that is stored has a source timestamp that does not fit in eight bytes, and
    one partition that it belongs to is ordered by source timestamps, then the
    flush of the changes fails for any file, and with it all other events that
    were registered since the last flush are not written. *)
Theorem C84_written_refuted : forall C e cf m ch x m' ch' p pt t,
    register_event cf m ch x = Some (m', ch') ->
    eid_leb (ev_id x) (get_last_event_id (m_sys m) (eid_server (ev_id x))) = false ->
    ts_ltb (ev_ts x) (get_last_timestamp (m_sys m) (eid_server (ev_id x))) = false -> cf_cond cf x = true ->
    In (p, pt) (m_parts m) -> pt_order pt = SOURCE_TIMESTAMP -> node_matches (pt_sub pt) (ev_type x) = true ->
    ev_src x = Some t -> ~ ts_fits t -> raw_flush C ch' e = None.
Proof. exact final_C84_unfit. Qed.
Print Assumptions C84_written_refuted.

(** Example: a new file, two flushes, a cleanup, and the file opened again. *)
Example C84_ex_runs : loop (content_txn ex_oracle) lb_txns empty_db = Some lb_db.
Proof. vm_compute. reflexivity. Qed.
Example C84_ex_fits : txns_fit anyfloat ex_oracle empty_db lb_txns.
Proof. apply txns_b. vm_compute. reflexivity. Qed.
Example C84_ex_file : loop (raw_txn xc lb_size) lb_txns (opened9 9) = Some lb_file /\ file_ok lb_file /\ read9 xc lb_file = Some lb_db.
Proof.
  destruct (C84_transactions_partial xc anyfloat xc_ok ex_oracle lb_size (fun _ _ _ _ => eq_refl) lb_txns (opened9 9) empty_db lb_db
              (proj1 (C84_created xc)) (proj2 (C84_created xc)) C84_ex_fits C84_ex_runs) as (e' & L & K & R).
  assert (E : e' = lb_file) by (unfold lb_file; now rewrite L). subst e'. auto.
Qed.
(** Six events, of which the cleanup took the references of two; counters, and
    the number of stored entries. *)
Example C84_ex_content :
  map fst (db_ref lb_db) = [Eid 1 1 2; Eid 1 2 1; Eid 1 2 2; Eid 1 2 3] /\ db_counts lb_db = [(1, 2); (2, 3)] /\
  List.length (eitems "TIMESERIES_DATA" lb_file) = 5%nat.
Proof. split; [|split]; vm_compute; reflexivity. Qed.
Example C84_ex_query : raw_query_range xc lb_file 1 (Some (Ts 2 0)) None ASCENDING = Some [ex_e6; ex_e7] /\
                       raw_query_range xc lb_file 2 None (Some (Ts 4 0)) DESCENDING = Some [ex_e5; ex_e7].
Proof. split; vm_compute; reflexivity. Qed.
Example C84_ex_server : raw_query_refs xc ex_oracle lb_file 1 2 (Some (Eid 1 1 1)) = Some (Some [ex_e2; ex_e5]) /\ decode_event xc [] = None.
Proof. split; vm_compute; reflexivity. Qed.
(** A server with another identifier is refused. *)
Example C84_ex_refused :
  open_db (mk_conf "0.9" (Some "other") (fun _ => true) [] [] 10) lb_db = None /\
  raw_open xc (mk_conf "0.9" (Some "other") (fun _ => true) [] [] 10) lb_file = None.
Proof. split; vm_compute; reflexivity. Qed.
(** An event that is registered but can not be flushed. *)
Example C84_ex_unfit :
  let x := ev 3 1 1 ["b"] 9 (Some (2 ^ 63)) in
  let r := registered ex_conf (snd (opened ex_conf lb_db)) [ex_e1; x] in
  map fst (ch_ts (snd r)) = [2] /\ raw_flush xc (snd r) lb_file = None /\
  exists e', raw_flush xc (snd (registered ex_conf (snd (opened ex_conf lb_db)) [ev 3 1 1 ["b"] 9 (Some (2 ^ 63 - 1))])) lb_file = Some e'.
Proof. split; [vm_compute; reflexivity|]. split; [vm_compute; reflexivity|]. eexists. vm_compute. reflexivity. Qed.
