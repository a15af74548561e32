(** LMDB backend, data structures and functions.  Models
    src_py/hat/event/backends/lmdb/{systemdb,latestdb,refdb,timeseriesdb}.py
    and the database parts of backend.py.

    Databases are stores with decoded keys and values, sorted by key (C12 shows
    that this is the order of the encoded keys, C11 and C13 that values are read
    back as written).  Keys and values are assumed to be in the encodable range:
    [struct.error] of the encoders is not modelled here.  [None] stands for an
    exception (or, where said, for an endless loop). *)
From Coq Require Import String Bool ZArith QArith List.
From Verif Require Import Base Kv Model_Types Model_Subscription Model_Order Model_Codec Model_Time Keys.
Import ListNotations.
Open Scope string_scope.
Open Scope list_scope.
Open Scope Z_scope.

(** ** Databases *)

(** lmdb/common.py:30-39,90-143 [DbType], [db_defs]: content of all databases
    of the environment.  A set of references is a sorted list. *)
Record part_data := PartData { pd_order : string; pd_subs : list etype }.
Record ldb := Ldb {
  db_settings : list (Z * string);
  db_ids : list (Z * event_id);
  db_tss : list (Z * timestamp);
  db_ref : list (event_id * list event_ref);
  db_latest : list (Z * event);
  db_types : list (Z * etype);
  db_ts : list (ts_key * event);
  db_parts : list (Z * part_data);
  db_counts : list (Z * Z) }.

Definition empty_db : ldb := Ldb [] [] [] [] [] [] [] [] [].

(** ** Configuration *)

(** timeseriesdb.py:19-29 [Limit], [Partition]; a duration is a float. *)
Record limit := Limit {
  lm_min : option Z; lm_max : option Z; lm_duration : option Q; lm_size : option Z }.
Record partition := Partition {
  pt_order : order_by; pt_sub : node; pt_limit : option limit }.

(** backend.py:50-95: the parts of the configuration which matter for the
    content.  [cf_cond] is [Conditions.matches] (see Model_Conditions.v). *)
Record conf := Conf {
  cf_version : string;
  cf_ident : option string;
  cf_cond : event -> bool;
  cf_latest : node;
  cf_parts : list partition;
  cf_ts_max : Z }.

(** Behaviour that is not determined by the modelled code: which
    [isdisjoint] implementation is used, which element [util.first] takes from
    a set, and the number of entries that corresponds to a size limit
    (timeseriesdb.py:341-349, float arithmetic on LMDB statistics). *)
Record oracle := Oracle {
  or_disj : node -> node -> bool;
  or_pick : list event_ref -> option event_ref;
  or_size : Z -> ldb -> option Z }.

(** ** Changes kept in memory until the next flush *)

(** systemdb.py:9-11 *)
Record system_changes := SystemChanges { sc_ids : list (Z * event_id); sc_tss : list (Z * timestamp) }.
(** latestdb.py:11-13 *)
Record latest_changes := LatestChanges { lc_data : list (Z * event); lc_types : list (Z * etype) }.
(** timeseriesdb.py:14-16 *)
Definition ts_changes : Type := list (Z * list (timestamp * event)).
(** refdb.py:14-22 *)
Record server_changes := ServerChanges {
  rc_added : list (event_id * (event * list event_ref));
  rc_removed : list (event_id * list event_ref) }.
Definition ref_changes : Type := list (Z * server_changes).
(** backend.py:43-47 *)
Record changes := Changes {
  ch_sys : system_changes; ch_latest : latest_changes; ch_ts : ts_changes; ch_ref : ref_changes }.

Definition no_changes : changes := Changes (SystemChanges [] []) (LatestChanges [] []) [] [].

(** ** Other state in memory *)

(** systemdb.py:25-29 *)
Record system_db := SystemDb { sd_ids : list (Z * event_id); sd_tss : list (Z * timestamp) }.
(** latestdb.py:31-43 *)
Record latest_db := LatestDb {
  ld_refs : list (etype * Z); ld_events : list (etype * event); ld_next : Z }.
(** All of it; [m_ref_last] is refdb.py:32, [m_parts] timeseriesdb.py:47. *)
Record mem := Mem {
  m_sys : system_db; m_latest : latest_db; m_ref_last : list (Z * event_id);
  m_parts : list (Z * partition) }.

(** ** SystemDb *)

(** systemdb.py:36-44 [get_last_event_id] *)
Definition get_last_event_id (d : system_db) (s : Z) : event_id :=
  match dget Z.eqb s (sd_ids d) with Some i => i | None => Eid s 0 0 end.

(** systemdb.py:46-48 [set_last_event_id] *)
Definition set_last_event_id (d : system_db) (c : system_changes) (i : event_id) : system_db * system_changes :=
  (SystemDb (dset Z.eqb (eid_server i) i (sd_ids d)) (sd_tss d),
   SystemChanges (dset Z.eqb (eid_server i) i (sc_ids c)) (sc_tss c)).

(** systemdb.py:50-56 [get_last_timestamp] *)
Definition get_last_timestamp (d : system_db) (s : Z) : timestamp :=
  match dget Z.eqb s (sd_tss d) with Some t => t | None => min_timestamp end.

(** systemdb.py:58-62 [set_last_timestamp] *)
Definition set_last_timestamp (d : system_db) (c : system_changes) (s : Z) (t : timestamp) : system_db * system_changes :=
  (SystemDb (sd_ids d) (dset Z.eqb s t (sd_tss d)),
   SystemChanges (sc_ids c) (dset Z.eqb s t (sc_tss c))).

(** systemdb.py:78-102 [_ext_validate_settings]; keys 0 VERSION, 1 IDENTIFIER
    (common.py:74-76).  [None]: invalid version or identifier. *)
Definition validate_settings (stored : list (Z * string)) (version : string) (ident : option string)
  : option (list (Z * string)) :=
  let s1 :=
    match dget Z.eqb 0 stored with
    | None => Some (dset Z.eqb 0 version stored)
    | Some v => if negb (v =? version)%string then None else Some (ddel Z.eqb 0 stored)
    end in
  let s2 :=
    match s1 with
    | None => None
    | Some s1 =>
        match ident with
        | None => Some (ddel Z.eqb 1 s1)
        | Some i =>
            match dget Z.eqb 1 s1 with
            | None => Some (dset Z.eqb 1 i s1)
            | Some j => if negb (j =? i)%string then None else Some (ddel Z.eqb 1 s1)
            end
        end
    end in
  match s2 with
  | None => None
  | Some s2 => Some (kputs zord s2 stored)
  end.

(** ** LatestDb *)

(** latestdb.py:21-45 [ext_create] *)
Definition latest_open (cond : event -> bool) (sub : node) (db : ldb) : latest_db :=
  let refs := fold_left (fun d kv => dset etype_eqb (snd kv) (fst kv) d) (db_types db) [] in
  let ok (kv : Z * event) :=
    cond (snd kv) && node_matches sub (ev_type (snd kv))
    && match dget etype_eqb (ev_type (snd kv)) refs with Some r => r =? fst kv | None => false end in
  let events := fold_left (fun d kv => if ok kv then dset etype_eqb (ev_type (snd kv)) (snd kv) d else d)
                          (db_latest db) [] in
  LatestDb refs events (fold_left Z.max (vals refs) 0 + 1).

(** latestdb.py:50-75 [add] with its results [added_ref], [removed_ref].  (The
    default 0 of [max] changes nothing as references start from 1.) *)
Definition latest_add (sub : node) (d : latest_db) (c : latest_changes) (e : event)
  : latest_db * latest_changes * option event_ref * option (event_id * event_ref) :=
  if negb (node_matches sub (ev_type e)) then (d, c, None, None)
  else
    let prev := dget etype_eqb (ev_type e) (ld_events d) in
    if match prev with Some p => ev_gt p e | None => false end then (d, c, None, None)
    else
      let '(r, d1, c1) :=
        match dget etype_eqb (ev_type e) (ld_refs d) with
        | Some r => (r, d, c)
        | None =>
            let r := ld_next d in
            (r, LatestDb (dset etype_eqb (ev_type e) r (ld_refs d)) (ld_events d) (r + 1),
             LatestChanges (lc_data c) (dset Z.eqb r (ev_type e) (lc_types c)))
        end in
      (LatestDb (ld_refs d1) (dset etype_eqb (ev_type e) e (ld_events d1)) (ld_next d1),
       LatestChanges (dset Z.eqb r e (lc_data c1)) (lc_types c1),
       Some (LatestRef r),
       match prev with Some p => Some (ev_id p, LatestRef r) | None => None end).

(** [set(event_types)], in order of first occurrence (the order of a set has
    no meaning). *)
Fixpoint etypes_set (l : list etype) : list etype :=
  match l with
  | [] => []
  | t :: l' => t :: filter (fun u => negb (etype_eqb t u)) (etypes_set l')
  end.
Definition etypes_mem (t : etype) (l : list etype) : bool := existsb (etype_eqb t) l.

(** latestdb.py:77-103 [query]; [None]: [ValueError] of an invalid query type. *)
Definition latest_query (d : latest_db) (p : query_latest) : option query_result :=
  let all := vals (ld_events d) in
  let res :=
    match ql_types p with
    | None => Some all
    | Some ts =>
        let ts := etypes_set ts in
        if etypes_mem ["*"%string] ts then Some all
        else if existsb (fun t => existsb (fun s => (s =? "*") || (s =? "?"))%string t) ts then
          match py_create ts with
          | None => None
          | Some sub => Some (filter (fun e => node_matches sub (ev_type e)) all)
          end
        else if Nat.ltb (List.length ts) (List.length (ld_events d)) then
          Some (flat_map (fun t => match dget etype_eqb t (ld_events d) with Some e => [e] | None => [] end) ts)
        else Some (filter (fun e => etypes_mem (ev_type e) ts) all)
    end in
  match res with Some l => Some (QRes l false) | None => None end.

(** ** TimeseriesDb *)

(** timeseriesdb.py:68-78: the timestamp an event has in a partition. *)
Definition part_ts (p : partition) (e : event) : option timestamp :=
  match pt_order p with
  | TIMESTAMP => Some (ev_ts e)
  | SOURCE_TIMESTAMP => ev_src e
  end.

(** timeseriesdb.py:62-83 [add].  The collection of partitions (lines 49-55)
    returns the partitions whose subscription matches (C07); they are taken in
    configuration order here (the result of the lookup is a set, its order has
    no influence on the content). *)
Definition ts_add_event (parts : list (Z * partition)) (c : ts_changes) (e : event) : ts_changes * list event_ref :=
  fold_left
    (fun acc pp =>
       let '(c, refs) := acc in
       if node_matches (pt_sub (snd pp)) (ev_type e) then
         match part_ts (snd pp) e with
         | None => (c, refs)
         | Some t =>
             let old := match dget Z.eqb (fst pp) c with Some l => l | None => [] end in
             (dset Z.eqb (fst pp) (old ++ [(t, e)]) c,
              refs ++ [TimeseriesRef (fst pp, t, ev_id e)])
         end
       else (c, refs))
    parts (c, []).

(** common.py:72-74: [OrderBy.value]. *)
Definition order_by_value (o : order_by) : string :=
  match o with TIMESTAMP => "timestamp" | SOURCE_TIMESTAMP => "sourceTimestamp" end.

(** Comparison of Python tuples of strings, and [sorted]. *)
Fixpoint etype_leb (a b : etype) : bool :=
  match a, b with
  | [], _ => true
  | _ :: _, [] => false
  | x :: a', y :: b' => if (x =? y)%string then etype_leb a' b' else String.ltb x y
  end.
Fixpoint etype_insert (t : etype) (l : list etype) : list etype :=
  match l with
  | [] => [t]
  | u :: l' => if etype_leb t u then t :: l else u :: etype_insert t l'
  end.
Definition etype_sort (l : list etype) : list etype := fold_right etype_insert [] l.

(** timeseriesdb.py:213-217: the stored description of a partition, which is
    also the cache key (lines 194-197). *)
Definition part_data_of (p : partition) : part_data :=
  PartData (order_by_value (pt_order p)) (etype_sort (node_to_query_types (pt_sub p))).

Fixpoint etypes_eqb (a b : list etype) : bool :=
  match a, b with
  | [], [] => true
  | x :: a', y :: b' => etype_eqb x y && etypes_eqb a' b'
  | _, _ => false
  end.
Definition part_data_eqb (a b : part_data) : bool :=
  (pd_order a =? pd_order b)%string && etypes_eqb (pd_subs a) (pd_subs b).

(** timeseriesdb.py:192-226 [_ext_init_partitions] with the [dict] of line 47:
    the loop over configured partitions.  State: cache, next id, database of
    partitions, result. *)
Definition init_partition
  (st : list (part_data * Z) * Z * list (Z * part_data) * list (Z * partition)) (p : partition)
  : list (part_data * Z) * Z * list (Z * part_data) * list (Z * partition) :=
  let '(cache, next, db, res) := st in
  let d := part_data_of p in
  match dget part_data_eqb d cache with
  | Some i => (cache, next, db, dset Z.eqb i p res)
  | None => (dset part_data_eqb d next cache, next + 1, kput zord next d db, dset Z.eqb next p res)
  end.

Definition init_partitions (db : list (Z * part_data)) (ps : list partition)
  : list (Z * part_data) * list (Z * partition) :=
  let max_id := fold_left (fun m kv => if m <? fst kv then fst kv else m) db 0 in
  let cache := fold_left (fun c kv => dset part_data_eqb (snd kv) (fst kv) c) db [] in
  let '(_, _, db', res) := fold_left init_partition ps (cache, max_id + 1, db, []) in
  (db', res).

(** ** RefDb *)

Definition server_changes_of (c : ref_changes) (s : Z) : server_changes :=
  match dget Z.eqb s c with Some x => x | None => ServerChanges [] [] end.

(** refdb.py:35-45 [add]; [None]: event older than last. *)
Definition ref_add (last : list (Z * event_id)) (c : ref_changes) (e : event) (refs : list event_ref)
  : option (list (Z * event_id) * ref_changes) :=
  let s := eid_server (ev_id e) in
  if match dget Z.eqb s last with Some i => eid_ltb (ev_id e) i | None => false end then None
  else
    let sc := server_changes_of c s in
    Some (dset Z.eqb s (ev_id e) last,
          dset Z.eqb s (ServerChanges (dset eid_eqb (ev_id e) (e, sof reford refs) (rc_added sc)) (rc_removed sc)) c).

(** refdb.py:47-62 [remove] *)
Definition ref_remove (c : ref_changes) (i : event_id) (r : event_ref) : ref_changes :=
  let s := eid_server i in
  let sc := server_changes_of c s in
  let to_removed :=
    let old := match dget eid_eqb i (rc_removed sc) with Some l => l | None => [] end in
    dset Z.eqb s (ServerChanges (rc_added sc) (dset eid_eqb i (sadd reford r old) (rc_removed sc))) c in
  match dget eid_eqb i (rc_added sc) with
  | Some (e, refs) =>
      if shas reford r refs then
        let refs' := sdel reford r refs in
        let added := match refs' with
                     | [] => ddel eid_eqb i (rc_added sc)
                     | _ => dset eid_eqb i (e, refs') (rc_added sc)
                     end in
        dset Z.eqb s (ServerChanges added (rc_removed sc)) c
      else to_removed
  | None => to_removed
  end.

(** ** Registration *)

(** backend.py:146-183: loop body of [register]; [None]: exception. *)
Definition register_event (cf : conf) (m : mem) (ch : changes) (e : event) : option (mem * changes) :=
  let s := eid_server (ev_id e) in
  if eid_leb (ev_id e) (get_last_event_id (m_sys m) s) then Some (m, ch)
  else if ts_ltb (ev_ts e) (get_last_timestamp (m_sys m) s) then Some (m, ch)
  else if negb (cf_cond cf e) then Some (m, ch)
  else
    let '(ld, lc, added, removed) := latest_add (cf_latest cf) (m_latest m) (ch_latest ch) e in
    let rc := match removed with Some (i, r) => ref_remove (ch_ref ch) i r | None => ch_ref ch end in
    let '(tc, trefs) := ts_add_event (m_parts m) (ch_ts ch) e in
    let refs := match added with Some r => r :: trefs | None => trefs end in
    match refs with
    | [] => Some (Mem (m_sys m) ld (m_ref_last m) (m_parts m), Changes (ch_sys ch) lc tc rc)
    | _ =>
        match ref_add (m_ref_last m) rc e refs with
        | None => None
        | Some (last, rc) =>
            let '(sd, sc) := set_last_event_id (m_sys m) (ch_sys ch) (ev_id e) in
            let '(sd, sc) := set_last_timestamp sd sc s (ev_ts e) in
            Some (Mem sd ld last (m_parts m), Changes sc lc tc rc)
        end
    end.

(** backend.py:146-183: the loop. *)
Fixpoint register_events (cf : conf) (m : mem) (ch : changes) (es : list event) : option (mem * changes) :=
  match es with
  | [] => Some (m, ch)
  | e :: es' =>
      match register_event cf m ch e with
      | None => None
      | Some (m', ch') => register_events cf m' ch' es'
      end
  end.

(** ** Flush *)

(** systemdb.py:68-75 [ext_write] *)
Definition system_write (db : ldb) (c : system_changes) : ldb :=
  Ldb (db_settings db) (kputs zord (sc_ids c) (db_ids db)) (kputs zord (sc_tss c) (db_tss db))
      (db_ref db) (db_latest db) (db_types db) (db_ts db) (db_parts db) (db_counts db).

(** latestdb.py:109-116 [ext_write] *)
Definition latest_write (db : ldb) (c : latest_changes) : ldb :=
  Ldb (db_settings db) (db_ids db) (db_tss db) (db_ref db)
      (kputs zord (lc_data c) (db_latest db)) (kputs zord (lc_types c) (db_types db))
      (db_ts db) (db_parts db) (db_counts db).

Definition zlen {A} (l : list A) : Z := Z.of_nat (List.length l).

(** timeseriesdb.py:294-301 [_ext_get_partition_count] *)
Definition partition_count (counts : list (Z * Z)) (p : Z) : Z :=
  match kget zord p counts with Some n => n | None => 0 end.

(** timeseriesdb.py:115-125 [ext_write] with 308-320 [_ext_inc_partition_count] *)
Definition ts_items (c : ts_changes) : list (ts_key * event) :=
  flat_map (fun pl => map (fun te => ((fst pl, fst te, ev_id (snd te)), snd te)) (snd pl)) c.
Definition inc_counts (c : ts_changes) (counts : list (Z * Z)) : list (Z * Z) :=
  fold_left (fun m pl => kput zord (fst pl) (partition_count m (fst pl) + zlen (snd pl)) m) c counts.
Definition ts_write (db : ldb) (c : ts_changes) : ldb :=
  Ldb (db_settings db) (db_ids db) (db_tss db) (db_ref db) (db_latest db) (db_types db)
      (kputs keyord (ts_items c) (db_ts db)) (db_parts db) (inc_counts c (db_counts db)).

(** Put back a set of references unless it is empty (refdb.py:129-133,
    151-155); the key was popped before. *)
Definition put_refs (i : event_id) (v : list event_ref) (m : list (event_id * list event_ref))
  : list (event_id * list event_ref) :=
  match v with [] => m | _ => kput eidord i v m end.

(** refdb.py:115-133: one event id. *)
Definition ref_write_id (sc : server_changes) (m : list (event_id * list event_ref)) (i : event_id)
  : list (event_id * list event_ref) :=
  let v := match kget eidord i m with Some v => v | None => [] end in
  let v := match dget eid_eqb i (rc_added sc) with Some (_, rs) => sunion reford v rs | None => v end in
  let v := match dget eid_eqb i (rc_removed sc) with Some rs => sdiff reford v rs | None => v end in
  put_refs i v (kdel eidord i m).

(** refdb.py:105-133 [ext_write]; the ids of a server are taken in increasing
    order (the code takes them in the order of a set; each is handled once and
    independently of the others). *)
Definition ref_write (db : ldb) (c : ref_changes) : ldb :=
  Ldb (db_settings db) (db_ids db) (db_tss db)
      (fold_left (fun m sc => fold_left (ref_write_id sc) (sof eidord (keys (rc_added sc) ++ keys (rc_removed sc))) m)
                 (vals c) (db_ref db))
      (db_latest db) (db_types db) (db_ts db) (db_parts db) (db_counts db).

(** backend.py:318-323 [_ext_flush] *)
Definition flush_write (db : ldb) (c : changes) : ldb :=
  ref_write (ts_write (latest_write (system_write db (ch_sys c)) (ch_latest c)) (ch_ts c)) (ch_ref c).

(** ** Opening *)

(** backend.py:108-123 [_ext_create_dbs] with systemdb.py:14-31: one write
    transaction; [None]: exception, the transaction is aborted. *)
Definition open_db (cf : conf) (db : ldb) : option (ldb * mem) :=
  match validate_settings (db_settings db) (cf_version cf) (cf_ident cf) with
  | None => None
  | Some settings =>
      let '(parts_db, parts) := init_partitions (db_parts db) (cf_parts cf) in
      Some (Ldb settings (db_ids db) (db_tss db) (db_ref db) (db_latest db) (db_types db)
                (db_ts db) parts_db (db_counts db),
            Mem (SystemDb (fold_left (fun d kv => dset Z.eqb (fst kv) (snd kv) d) (db_ids db) [])
                          (fold_left (fun d kv => dset Z.eqb (fst kv) (snd kv) d) (db_tss db) []))
                (latest_open (cf_cond cf) (cf_latest cf) db) [] parts)
  end.

(** ** Cleanup *)

Fixpoint dropwhile {A} (f : A -> bool) (l : list A) : list A :=
  match l with [] => [] | x :: l' => if f x then dropwhile f l' else l end.
Fixpoint takewhile {A} (f : A -> bool) (l : list A) : list A :=
  match l with [] => [] | x :: l' => if f x then x :: takewhile f l' else [] end.

Definition zero_id : event_id := Eid 0 0 0.

(** timeseriesdb.py:366-389: the deleting loop, over the entries from the start
    key on; [n] is [result_count]. *)
Fixpoint cleanup_loop (max_results max_entries : option Z) (min_entries : Z) (duration_key : option ts_key)
    (stop : ts_key) (entries n : Z) (l : list (ts_key * event)) : list ts_key :=
  match l with
  | [] => []
  | (k, _) :: l' =>
      if match max_results with Some m => m <=? n | None => false end then []
      else if entries - n <=? min_entries then []
      else if negb (key_ltb k stop) then []
      else if match max_entries with Some m => entries - n <=? m | None => true end
              && match duration_key with Some d => negb (key_ltb k d) | None => true end then []
      else k :: cleanup_loop max_results max_entries min_entries duration_key stop entries (n + 1) l'
  end.

Definition min_opt (a b : option Z) : option Z :=
  match a, b with
  | Some x, Some y => Some (Z.min x y)
  | Some x, None => Some x
  | None, y => y
  end.

(** timeseriesdb.py:323-393 [_ext_cleanup_partition]: removed keys and the new
    database. *)
Definition cleanup_partition (O : oracle) (now : timestamp) (db : ldb) (p : Z) (lm : limit) (max_results : option Z)
  : ldb * list ts_key :=
  let max_entries := min_opt (match lm_size lm with Some s => or_size O s db | None => None end) (lm_max lm) in
  let duration_key := match lm_duration lm with
                      | Some d => Some (p, ts_add now (- d)%Q, zero_id)
                      | None => None
                      end in
  let entries := partition_count (db_counts db) p in
  let removed := cleanup_loop max_results max_entries
                   (match lm_min lm with Some n => n | None => 0 end) duration_key
                   (p + 1, min_timestamp, zero_id) entries 0
                   (dropwhile (fun kv => key_ltb (fst kv) (p, min_timestamp, zero_id)) (db_ts db)) in
  (Ldb (db_settings db) (db_ids db) (db_tss db) (db_ref db) (db_latest db) (db_types db)
       (fold_left (fun m k => kdel keyord k m) removed (db_ts db)) (db_parts db)
       (match removed with
        | [] => db_counts db
        | _ => kput zord p (entries - zlen removed) (db_counts db)
        end),
   removed).

(** timeseriesdb.py:127-148 [ext_cleanup] *)
Fixpoint cleanup_partitions (O : oracle) (now : timestamp) (max_results : option Z) (db : ldb) (acc : list ts_key)
    (ps : list (Z * partition)) : ldb * list ts_key :=
  match ps with
  | [] => (db, acc)
  | (i, p) :: ps' =>
      match pt_limit p with
      | None => cleanup_partitions O now max_results db acc ps'
      | Some lm =>
          let left := match max_results with Some m => Some (m - zlen acc) | None => None end in
          if match left with Some m => m <? 1 | None => false end then (db, acc)
          else
            let '(db', removed) := cleanup_partition O now db i lm left in
            cleanup_partitions O now max_results db' (acc ++ removed) ps'
      end
  end.

(** refdb.py:142-155: one reference. *)
Definition ref_cleanup_one (m : list (event_id * list event_ref)) (k : ts_key) : list (event_id * list event_ref) :=
  let i := snd k in
  match kget eidord i m with
  | None => m
  | Some v => put_refs i (sdel reford (TimeseriesRef k) v) (kdel eidord i m)
  end.

Definition cleanup_max_results : Z := 1024.

(** backend.py:326-334 [_ext_cleanup] with refdb.py:135-155 [ext_cleanup]: new
    database and removed keys. *)
Definition cleanup (O : oracle) (parts : list (Z * partition)) (now : timestamp) (db : ldb) : ldb * list ts_key :=
  let '(db', removed) := cleanup_partitions O now (Some cleanup_max_results) db [] parts in
  match removed with
  | [] => (db', [])
  | _ =>
      (Ldb (db_settings db') (db_ids db') (db_tss db')
           (fold_left ref_cleanup_one removed (db_ref db'))
           (db_latest db') (db_types db') (db_ts db') (db_parts db') (db_counts db'),
       removed)
  end.

(** backend.py:329-334: the result [repeat]. *)
Definition cleanup_repeat (removed : list ts_key) : bool :=
  match removed with [] => false | _ => cleanup_max_results <=? zlen removed end.

(** ** Server query *)

(** refdb.py:71-74, timeseriesdb.py:91-94: effective [max_results]. *)
Definition eff_max (requested : option Z) (configured : Z) : Z :=
  match requested with
  | Some m => if m <? configured then m else configured
  | None => configured
  end.

(** refdb.py:212-230 [_ext_get_event] *)
Definition get_event (db : ldb) (r : event_ref) : option event :=
  match r with
  | LatestRef k => kget zord k (db_latest db)
  | TimeseriesRef k => kget keyord k (db_ts db)
  end.

(** refdb.py:194-207: loop over REF; [None]: endless loop (line 200) *)
Fixpoint scan_refs (O : oracle) (db : ldb) (stop : event_id) (max : Z) (l : list (event_id * list event_ref))
  : option (list event) :=
  match l with
  | [] => Some []
  | (k, refs) :: l' =>
      if max <=? 0 then Some []
      else if negb (eid_ltb k stop) then Some []
      else
        match or_pick O refs with
        | None => None
        | Some r =>
            match get_event db r with
            | Some e => match scan_refs O db stop (max - 1) l' with Some es => Some (e :: es) | None => None end
            | None => scan_refs O db stop max l'
            end
        end
  end.

(** refdb.py:172-209 [_ext_query_events] *)
Definition query_refs (O : oracle) (db : ldb) (server : Z) (max : Z) (last : option event_id) : option (list event) :=
  let start := match last with Some i => i | None => Eid server 0 0 end in
  let l := dropwhile (fun kv => eid_ltb (fst kv) start) (db_ref db) in
  let l := match l with
           | (k, _) :: l' => if eid_eqb k start then l' else l
           | [] => []
           end in
  scan_refs O db (Eid (server + 1) 0 0) max l.

Definition take {A} (n : Z) (l : list A) : list A := firstn (Z.to_nat n) l.

(** refdb.py:158-169 [_query_changes] *)
Definition query_ref_changes (c : ref_changes) (server : Z) (max : Z) (last : option event_id) : list event :=
  let es := map (fun x => fst (snd x)) (rc_added (server_changes_of c server)) in
  let es := match last with
            | Some i => dropwhile (fun e => eid_leb (ev_id e) i) es
            | None => es
            end in
  take max es.

Definition ref_max_results : Z := 4096.

(** refdb.py:67-74: the checks before the database is read; [None]:
    [ValueError].  The result is [max_results]. *)
Definition server_query_start (p : query_server) : option Z :=
  if match qs_last p with Some i => negb (eid_server i =? qs_server p) | None => false end then None
  else Some (eff_max (qs_max p) ref_max_results).

Fixpoint last_opt {A} (l : list A) : option A :=
  match l with [] => None | [x] => Some x | _ :: l' => last_opt l' end.

(** refdb.py:81-98: after the database was read; [c] are the changes captured
    before ([None]: [ValueError] of [islice] for a negative number). *)
Definition server_query_finish (p : query_server) (max : Z) (es : list event) (c : ref_changes) : option query_result :=
  let es :=
    if negb (qs_persisted p) && (zlen es <=? max) then
      let last := match last_opt es with Some e => Some (ev_id e) | None => qs_last p end in
      es ++ query_ref_changes c (qs_server p) (max + 1 - zlen es) last
    else es in
  if max <? zlen es then
    if max <? 0 then None else Some (QRes (take max es) true)
  else Some (QRes es false).

(** ** Timeseries query *)

(** timeseriesdb.py:457-477 [_Filter]: the changing part. *)
Record filter_state := Flt { f_last : option event_id; f_left : Z }.

Definition opt_test {A} (o : option A) (f : A -> bool) : bool := match o with Some x => f x | None => false end.

(** timeseriesdb.py:490-508: the event passes. *)
Definition filter_test (p : query_timeseries) (sub : option node) (e : event) : bool :=
  negb (opt_test (qt_from p) (fun t => ts_ltb (ev_ts e) t))
  && negb (opt_test (qt_to p) (fun t => ts_ltb t (ev_ts e)))
  && negb (opt_test (qt_sfrom p) (fun t => match ev_src e with None => true | Some s => ts_ltb s t end))
  && negb (opt_test (qt_sto p) (fun t => match ev_src e with None => true | Some s => ts_ltb t s end))
  && match sub with Some n => node_matches n (ev_type e) | None => true end.

(** timeseriesdb.py:479-511 [process] *)
Fixpoint filter_process (p : query_timeseries) (sub : option node) (f : filter_state) (es : list event)
  : list event * filter_state :=
  match es with
  | [] => ([], f)
  | e :: es' =>
      if f_left f <? 1 then ([], f)
      else
        match f_last f with
        | Some i =>
            if eid_eqb (ev_id e) i then filter_process p sub (Flt None (f_left f)) es'
            else filter_process p sub f es'
        | None =>
            if filter_test p sub e then
              let '(r, f') := filter_process p sub (Flt None (f_left f - 1)) es' in (e :: r, f')
            else filter_process p sub f es'
        end
  end.

(** timeseriesdb.py:475-477 [done] *)
Definition filter_done (f : filter_state) : bool := f_left f <? 1.

Definition max_id : event_id := Eid (2 ^ 64 - 1) (2 ^ 64 - 1) (2 ^ 64 - 1).

(** timeseriesdb.py:248-291 [_ext_query_partition_events_range] *)
Definition query_range (db : ldb) (part : Z) (t_from t_to : option timestamp) (o : order) : list event :=
  let from_key := (part, match t_from with Some t => t | None => min_timestamp end, zero_id) in
  let to_key := (part, match t_to with Some t => t | None => max_timestamp end, max_id) in
  match o with
  | DESCENDING =>
      vals (takewhile (fun kv => negb (key_ltb (fst kv) from_key))
                      (rev (takewhile (fun kv => key_ltb (fst kv) to_key) (db_ts db))))
  | ASCENDING =>
      vals (takewhile (fun kv => negb (key_ltb to_key (fst kv)))
                      (dropwhile (fun kv => key_ltb (fst kv) from_key) (db_ts db)))
  end.

(** timeseriesdb.py:229-245 [_ext_query_partition_events] *)
Definition query_stored (cond : event -> bool) (db : ldb) (part : Z) (p : query_timeseries) (sub : option node)
    (f : filter_state) : list event * filter_state :=
  let es := match qt_order_by p with
            | TIMESTAMP => query_range db part (qt_from p) (qt_to p) (qt_order p)
            | SOURCE_TIMESTAMP => query_range db part (qt_sfrom p) (qt_sto p) (qt_order p)
            end in
  filter_process p sub f (filter cond es).

(** [i.source_timestamp] of an event in a source timestamp partition (always
    set, timeseriesdb.py:71-75). *)
Definition by_ts (o : order_by) (e : event) : timestamp :=
  match o with
  | TIMESTAMP => ev_ts e
  | SOURCE_TIMESTAMP => match ev_src e with Some t => t | None => min_timestamp end
  end.

(** timeseriesdb.py:396-454 [_query_partition_changes]; [l] are the pending
    entries of the partition. *)
Definition query_pending (l : list (timestamp * event)) (p : query_timeseries) (sub : option node)
    (f : filter_state) : list event * filter_state :=
  let t := by_ts (qt_order_by p) in
  let t_from := match qt_order_by p with TIMESTAMP => qt_from p | SOURCE_TIMESTAMP => qt_sfrom p end in
  let t_to := match qt_order_by p with TIMESTAMP => qt_to p | SOURCE_TIMESTAMP => qt_sto p end in
  let es :=
    match qt_order p with
    | DESCENDING =>
        let es := rev (map snd l) in
        let es := match t_to with Some x => dropwhile (fun e => ts_ltb x (t e)) es | None => es end in
        match t_from with Some x => takewhile (fun e => ts_leb x (t e)) es | None => es end
    | ASCENDING =>
        let es := map snd l in
        let es := match t_from with Some x => dropwhile (fun e => ts_ltb (t e) x) es | None => es end in
        match t_to with Some x => takewhile (fun e => ts_leb (t e) x) es | None => es end
    end in
  filter_process p sub f es.

Definition order_by_eqb (a b : order_by) : bool :=
  match a, b with
  | TIMESTAMP, TIMESTAMP => true
  | SOURCE_TIMESTAMP, SOURCE_TIMESTAMP => true
  | _, _ => false
  end.

(** timeseriesdb.py:96-105: choice of the partition. *)
Fixpoint choose_partition (O : oracle) (ps : list (Z * partition)) (ob : order_by) (sub : option node) : option Z :=
  match ps with
  | [] => None
  | (i, pt) :: ps' =>
      if negb (order_by_eqb (pt_order pt) ob) then choose_partition O ps' ob sub
      else if match sub with Some n => or_disj O n (pt_sub pt) | None => false end
      then choose_partition O ps' ob sub
      else Some i
  end.

(** timeseriesdb.py:88-105: everything before [_query_partition]: subscription,
    [max_results] and partition. [None]: [ValueError] of an invalid query
    type. *)
Definition ts_query_start (O : oracle) (cf : conf) (parts : list (Z * partition)) (p : query_timeseries)
  : option (option node * Z * option Z) :=
  match match qt_types p with
        | None => Some None
        | Some ts => match py_create ts with Some n => Some (Some n) | None => None end
        end with
  | None => None
  | Some sub => Some (sub, eff_max (qt_max p) (cf_ts_max cf), choose_partition O parts (qt_order_by p) sub)
  end.

Definition part_changes (c : ts_changes) (p : Z) : list (timestamp * event) :=
  match dget Z.eqb p c with Some l => l | None => [] end.

(** timeseriesdb.py:184-189: [None]: pop from an empty deque. *)
Definition ts_result (max : Z) (es : list event) : option query_result :=
  if max <? zlen es then
    if max <? 0 then None else Some (QRes (take max es) true)
  else Some (QRes es false).
