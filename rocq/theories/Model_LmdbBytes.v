(** The LMDB file of a running server, on the level of bytes.  Models
    environment.py:77-85, systemdb.py:68-75, latestdb.py:109-116,
    timeseriesdb.py:115-150,248-384, refdb.py:105-155 and backend.py:318-334 in
    src_py/hat/event/backends/lmdb with the keys and values that are encoded,
    looked up, compared, written and decoded.

    A result [None] is an exception (a number does not fit its encoding, bytes
    cannot be decoded); the transaction is aborted then, and the file is as
    before.  Entries of a database are ordered by the bytes of their keys.  LMDB's
    limits (size of map, length of keys) are not modelled. *)
From Coq Require Import String Bool ZArith QArith List.
From Verif Require Import Base Kv Model_Types Model_Time Model_Codec Keys Model_Sbs Model_Lmdb Model_Convert Model_ConvertBytes.
Import ListNotations.
Open Scope string_scope.
Open Scope list_scope.
Open Scope Z_scope.

Section Bytes.
  Variable C : codecs.

  (** [cursor.pop], [cursor.delete]: without the key. *)
  Definition edel (name : string) (k : bytes) (e : env) : env := dset String.eqb name (kdel bytesord k (eitems name e)) e.

  (** [x if encoded_value else y]: [None] and empty bytes are false. *)
  Definition truthy (v : option bytes) : option bytes := match v with Some [] => None | _ => v end.

  (** environment.py:77-85 [ext_write] *)
  Definition raw_write {K V} (name : string) (ek : K -> option bytes) (ev : V -> option bytes) (items : list (K * V)) (e : env) : option env :=
    loop (fun e kv => do k <- ek (fst kv); do v <- ev (snd kv); Some (eput name k v e)) items e.

  Definition enc_event (x : event) : option bytes := Some (encode_event C x).
  Definition enc_type (t : etype) : option bytes := Some (encode_json C (jtype t)).

  (** systemdb.py:68-75 [ext_write] *)
  Definition raw_system_write (c : system_changes) (e : env) : option env :=
    do e <- raw_write "SYSTEM_LAST_EVENT_ID" encode_uint encode_event_id (sc_ids c) e;
    raw_write "SYSTEM_LAST_TIMESTAMP" encode_uint encode_timestamp (sc_tss c) e.

  (** latestdb.py:109-116 [ext_write] *)
  Definition raw_latest_write (c : latest_changes) (e : env) : option env :=
    do e <- raw_write "LATEST_DATA" encode_uint enc_event (lc_data c) e;
    raw_write "LATEST_TYPE" encode_uint enc_type (lc_types c) e.

  (** timeseriesdb.py:294-301 [_ext_get_partition_count] *)
  Definition raw_count (e : env) (p : Z) : option Z :=
    do k <- encode_uint p;
    match truthy (eget "TIMESERIES_COUNT" k e) with Some b => decode_uint b | None => Some 0 end.

  (** timeseriesdb.py:308-320 [_ext_inc_partition_count] *)
  Definition raw_inc (e : env) (pl : Z * list (timestamp * event)) : option env :=
    do k <- encode_uint (fst pl);
    do n <- match truthy (eget "TIMESERIES_COUNT" k e) with Some b => decode_uint b | None => Some 0 end;
    do v <- encode_uint (n + zlen (snd pl));
    Some (eput "TIMESERIES_COUNT" k v e).

  (** timeseriesdb.py:115-125 [ext_write] *)
  Definition raw_ts_write (c : ts_changes) (e : env) : option env :=
    do e <- raw_write "TIMESERIES_DATA" encode_ts_key enc_event (ts_items c) e;
    loop raw_inc c e.

  (** refdb.py:129-133, 151-155 *)
  Definition raw_put_refs (k : bytes) (v : list event_ref) (e : env) : option env :=
    match v with
    | [] => Some e
    | _ => do b <- encode_event_refs (iter C v); Some (eput "REF" k b e)
    end.

  (** lmdb/common.py:106-107: [set] of the decoded references. *)
  Definition decode_refs (b : bytes) : option (list event_ref) := do rs <- decode_event_refs b; Some (sof reford rs).

  (** refdb.py:115-133: one event id. *)
  Definition raw_ref_write_id (sc : server_changes) (e : env) (i : event_id) : option env :=
    do k <- encode_event_id i;
    do v <- match truthy (eget "REF" k e) with Some b => decode_refs b | None => Some [] end;
    let v := match dget eid_eqb i (rc_added sc) with Some (_, rs) => sunion reford v rs | None => v end in
    let v := match dget eid_eqb i (rc_removed sc) with Some rs => sdiff reford v rs | None => v end in
    raw_put_refs k v (edel "REF" k e).

  (** refdb.py:105-133 [ext_write] *)
  Definition raw_ref_write (c : ref_changes) (e : env) : option env :=
    loop (fun e sc => loop (raw_ref_write_id sc) (sof eidord (keys (rc_added sc) ++ keys (rc_removed sc))) e) (vals c) e.

  (** backend.py:318-323 [_ext_flush] *)
  Definition raw_flush (c : changes) (e : env) : option env :=
    do e <- raw_system_write (ch_sys c) e;
    do e <- raw_latest_write (ch_latest c) e;
    do e <- raw_ts_write (ch_ts c) e;
    raw_ref_write (ch_ref c) e.

  (** timeseriesdb.py:248-291 [_ext_query_partition_events_range]: [set_range]
      finds the first entry that is not before a key; keys are compared as
      bytes. *)
  Definition raw_query_range (e : env) (part : Z) (t_from t_to : option timestamp) (o : order) : option (list event) :=
    do from_key <- encode_ts_key (part, match t_from with Some t => t | None => min_timestamp end, zero_id);
    do to_key <- encode_ts_key (part, match t_to with Some t => t | None => max_timestamp end, max_id);
    let items := eitems "TIMESERIES_DATA" e in
    traverse (fun kv => decode_event C (snd kv))
      match o with
      | DESCENDING => takewhile (fun kv => negb (bytes_ltb (fst kv) from_key)) (rev (takewhile (fun kv => bytes_ltb (fst kv) to_key) items))
      | ASCENDING => takewhile (fun kv => negb (bytes_ltb to_key (fst kv))) (dropwhile (fun kv => bytes_ltb (fst kv) from_key) items)
      end.

  (** systemdb.py:78-102 [_ext_validate_settings]: the settings that are written. *)
  Definition new_settings (stored : list (Z * string)) (version : string) (ident : option string) : option (list (Z * string)) :=
    do s <- match dget Z.eqb 0 stored with
            | None => Some (dset Z.eqb 0 version stored)
            | Some v => if negb (v =? version)%string then None else Some (ddel Z.eqb 0 stored)
            end;
    match ident with
    | None => Some (ddel Z.eqb 1 s)
    | Some i =>
        match dget Z.eqb 1 s with
        | None => Some (dset Z.eqb 1 i s)
        | Some j => if negb (j =? i)%string then None else Some (ddel Z.eqb 1 s)
        end
    end.

  Definition enc_str (s : string) : option bytes := Some (encode_json C (JStr s)).
  (** timeseriesdb.py:213-215 *)
  Definition enc_part (p : part_data) : option bytes :=
    Some (encode_json C (JObj [("order", JStr (pd_order p)); ("subscriptions", JArr (map jtype (pd_subs p)))])).

  (** timeseriesdb.py:212-226: one partition of the configuration. *)
  Definition raw_init_partition (st : list (part_data * Z) * Z * env * list (Z * partition)) (p : partition)
    : option (list (part_data * Z) * Z * env * list (Z * partition)) :=
    let '(cache, next, e, res) := st in
    let d := part_data_of p in
    match dget part_data_eqb d cache with
    | Some i => Some (cache, next, e, dset Z.eqb i p res)
    | None =>
        do e <- raw_write "TIMESERIES_PARTITION" encode_uint enc_part [(next, d)] e;
        Some (dset part_data_eqb d next cache, next + 1, e, dset Z.eqb next p res)
    end.

  (** backend.py:108-123 [_ext_create_dbs] with systemdb.py:14-31, latestdb.py:21-45
      and timeseriesdb.py:30-57,192-226: the transaction in which a server opens
      its file; new file, what was read of it, and partitions.  (All databases that
      are read are read first; no database is read after it is written.) *)
  Definition raw_open (cf : conf) (e : env) : option (env * list (Z * partition)) :=
    do d <- read9 C e;
    do s <- new_settings (db_settings d) (cf_version cf) (cf_ident cf);
    do e <- raw_write "SYSTEM_SETTINGS" encode_uint enc_str s e;
    let max_id := fold_left (fun m kv => if m <? fst kv then fst kv else m) (db_parts d) 0 in
    let cache := fold_left (fun c kv => dset part_data_eqb (snd kv) (fst kv) c) (db_parts d) [] in
    do r <- loop raw_init_partition (cf_parts cf) (cache, max_id + 1, e, []);
    let '(_, _, e, res) := r in Some (e, res).

  (** refdb.py:212-230 [_ext_get_event] *)
  Definition raw_get_event (e : env) (r : event_ref) : option (option event) :=
    match r with
    | LatestRef n => do k <- encode_uint n; match truthy (eget "LATEST_DATA" k e) with Some b => do x <- decode_event C b; Some (Some x) | None => Some None end
    | TimeseriesRef n => do k <- encode_ts_key n; match truthy (eget "TIMESERIES_DATA" k e) with Some b => do x <- decode_event C b; Some (Some x) | None => Some None end
    end.

  (** refdb.py:194-207; [Some None]: endless loop (line 200). *)
  Fixpoint raw_scan_refs (O : oracle) (e : env) (stop : bytes) (max : Z) (l : raw) : option (option (list event)) :=
    match l with
    | [] => Some (Some [])
    | (k, v) :: l' =>
        if max <=? 0 then Some (Some [])
        else if negb (bytes_ltb k stop) then Some (Some [])
        else
          do refs <- decode_refs v;
          match or_pick O refs with
          | None => Some None
          | Some r =>
              do x <- raw_get_event e r;
              match x with
              | Some x => do es <- raw_scan_refs O e stop (max - 1) l'; Some (match es with Some es => Some (x :: es) | None => None end)
              | None => raw_scan_refs O e stop max l'
              end
          end
    end.

  (** refdb.py:172-209 [_ext_query_events] *)
  Definition raw_query_refs (O : oracle) (e : env) (server max : Z) (last : option event_id) : option (option (list event)) :=
    do start <- encode_event_id (match last with Some i => i | None => Eid server 0 0 end);
    do stop <- encode_event_id (Eid (server + 1) 0 0);
    let l := dropwhile (fun kv => bytes_ltb (fst kv) start) (eitems "REF" e) in
    let l := match l with
             | (k, _) :: l' => if bytes_eqb k start then l' else l
             | [] => []
             end in
    raw_scan_refs O e stop max l.

  (** timeseriesdb.py:361-380: the entries that are deleted, with their decoded
      keys. *)
  Fixpoint raw_cleanup_loop (max_results max_entries : option Z) (min_entries : Z) (duration_key : option bytes)
      (stop : bytes) (entries n : Z) (l : raw) : option (list (bytes * ts_key)) :=
    match l with
    | [] => Some []
    | (k, _) :: l' =>
        if match max_results with Some m => m <=? n | None => false end then Some []
        else if entries - n <=? min_entries then Some []
        else if negb (bytes_ltb k stop) then Some []
        else if match max_entries with Some m => entries - n <=? m | None => true end
                && match duration_key with Some d => negb (bytes_ltb k d) | None => true end then Some []
        else
          do key <- decode_ts_key k;
          do r <- raw_cleanup_loop max_results max_entries min_entries duration_key stop entries (n + 1) l';
          Some ((k, key) :: r)
    end.

  (** Entries for a size limit (timeseriesdb.py:341-349), from statistics of LMDB. *)
  Variable size : Z -> env -> option Z.

  (** timeseriesdb.py:323-384 [_ext_cleanup_partition] *)
  Definition raw_cleanup_partition (now : timestamp) (e : env) (p : Z) (lm : limit) (max_results : option Z) : option (env * list ts_key) :=
    do start <- encode_ts_key (p, min_timestamp, zero_id);
    do stop <- encode_ts_key (p + 1, min_timestamp, zero_id);
    let max_entries := min_opt (match lm_size lm with Some s => size s e | None => None end) (lm_max lm) in
    do duration_key <- match lm_duration lm with
                       | Some d => do k <- encode_ts_key (p, ts_add now (- d)%Q, zero_id); Some (Some k)
                       | None => Some None
                       end;
    do entries <- raw_count e p;
    do removed <- raw_cleanup_loop max_results max_entries (match lm_min lm with Some n => n | None => 0 end) duration_key stop entries 0
                    (dropwhile (fun kv => bytes_ltb (fst kv) start) (eitems "TIMESERIES_DATA" e));
    let e := fold_left (fun e kk => edel "TIMESERIES_DATA" (fst kk) e) removed e in
    do e <- match removed with
            | [] => Some e
            | _ => raw_write "TIMESERIES_COUNT" encode_uint encode_uint [(p, entries - zlen removed)] e
            end;
    Some (e, map snd removed).

  (** timeseriesdb.py:127-150 [ext_cleanup] *)
  Fixpoint raw_cleanup_partitions (now : timestamp) (max_results : option Z) (e : env) (acc : list ts_key) (ps : list (Z * partition))
    : option (env * list ts_key) :=
    match ps with
    | [] => Some (e, acc)
    | (i, p) :: ps' =>
        match pt_limit p with
        | None => raw_cleanup_partitions now max_results e acc ps'
        | Some lm =>
            let left := match max_results with Some m => Some (m - zlen acc) | None => None end in
            if match left with Some m => m <? 1 | None => false end then Some (e, acc)
            else
              do r <- raw_cleanup_partition now e i lm left;
              raw_cleanup_partitions now max_results (fst r) (acc ++ snd r) ps'
        end
    end.

  (** refdb.py:142-155: one reference. *)
  Definition raw_ref_cleanup_one (e : env) (k : ts_key) : option env :=
    do b <- encode_event_id (snd k);
    let old := truthy (eget "REF" b e) in
    let e := edel "REF" b e in
    match old with
    | None => Some e
    | Some v => do rs <- decode_refs v; raw_put_refs b (sdel reford (TimeseriesRef k) rs) e
    end.

  (** backend.py:326-334 [_ext_cleanup] *)
  Definition raw_cleanup (parts : list (Z * partition)) (now : timestamp) (e : env) : option (env * list ts_key) :=
    do r <- raw_cleanup_partitions now (Some cleanup_max_results) e [] parts;
    match snd r with
    | [] => Some r
    | _ => do e <- loop raw_ref_cleanup_one (snd r) (fst r); Some (e, snd r)
    end.

  (** Write transactions of a server: opening (backend.py:92-97), flush
      (line 308), cleanup (line 278). *)
  Inductive txn :=
  | TOpen (cf : conf)
  | TFlush (c : changes)
  | TCleanup (parts : list (Z * partition)) (now : timestamp).
  Definition raw_txn (e : env) (t : txn) : option env :=
    match t with
    | TOpen cf => do r <- raw_open cf e; Some (fst r)
    | TFlush c => raw_flush c e
    | TCleanup parts now => do r <- raw_cleanup parts now e; Some (fst r)
    end.
End Bytes.

(** The same on the decoded content. *)
Definition content_txn (O : oracle) (d : ldb) (t : txn) : option ldb :=
  match t with
  | TOpen cf => do b <- open_db cf d; Some (fst b)
  | TFlush c => Some (flush_write d c)
  | TCleanup parts now => Some (fst (cleanup O parts now d))
  end.
