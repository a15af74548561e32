(** Printing the content of an LMDB database.  Models
    src_py/hat/event/backends/lmdb/manager/{query,common}.py.

    As in Model_Lmdb.v, databases are stores of decoded keys and values sorted by
    key, which a cursor goes through in that order; all databases are assumed to
    exist.  What is printed are JSON values, one for a line.  A Python set has no
    order: [it] is the order in which a set of references is gone through. *)
From Coq Require Import String Ascii Bool ZArith List.
From Verif Require Import Base Kv Model_Types Model_Subscription Model_Codec Model_Lmdb.
Import ListNotations.
Open Scope string_scope.
Open Scope list_scope.
Open Scope Z_scope.

(** ** Conversion to JSON *)

(** common.py:12-15 [event_id_to_json] *)
Definition event_id_to_json (i : event_id) : json :=
  JObj [("server", JInt (eid_server i)); ("session", JInt (eid_session i)); ("instance", JInt (eid_instance i))].

(** common.py:18-20 [timestamp_to_json] *)
Definition timestamp_to_json (t : timestamp) : json := JObj [("s", JInt (ts_s t)); ("us", JInt (ts_us t))].

(** [bytes.hex] *)
Definition hex_digit (n : Z) : ascii :=
  ascii_of_nat (Z.to_nat (if n <? 10 then n + 48 else n + 87)).
Fixpoint hex (l : list Z) : string :=
  match l with
  | [] => ""
  | b :: l' => String (hex_digit (b / 16)) (String (hex_digit (b mod 16)) (hex l'))
  end.

(** common.py:32-46 [_event_payload_to_json] *)
Definition payload_to_json (p : option payload) : json :=
  match p with
  | None => JNull
  | Some (PBinary ty data) => JObj [("type", JStr "BINARY"); ("subtype", JStr ty); ("data", JStr (hex data))]
  | Some (PJson j) => JObj [("type", JStr "JSON"); ("data", j)]
  end.

(** common.py:23-29 [event_to_json]; a timestamp is never false. *)
Definition event_to_json (e : event) : json :=
  JObj [("id", event_id_to_json (ev_id e)); ("type", JArr (map JStr (ev_type e)));
        ("timestamp", timestamp_to_json (ev_ts e));
        ("source_timestamp", match ev_src e with Some t => timestamp_to_json t | None => JNull end);
        ("payload", payload_to_json (ev_payload e))].

(** Data of partitions (timeseriesdb.py:214-215). *)
Definition part_to_json (p : part_data) : json :=
  JObj [("order", JStr (pd_order p)); ("subscriptions", JArr (map (fun t => JArr (map JStr t)) (pd_subs p)))].

(** [str.split('/')] *)
Fixpoint split_at (c : ascii) (s : string) : list string :=
  match s with
  | "" => [""]
  | String a s' =>
      if Ascii.eqb a c then "" :: split_at c s'
      else match split_at c s' with
           | [] => [String a ""]
           | x :: l => String a x :: l
           end
  end.
Definition split_slash (s : string) : list string := split_at "/" s.

(** ** Queries *)

(** Arguments (query.py:10-38). *)
Inductive tool_query :=
| TSettings
| TLastId (server : option Z)
| TLastTs (server : option Z)
| TRef (server : option Z)
| TLatest (types : option (list string))
| TPartition (part : option Z)
| TTimeseries (part server : option Z) (types : option (list string)).

Inductive tool_exc := TypeError | AttributeError | ValueError.

(** What is printed, and the exception if one is raised afterwards. *)
Definition tool_out : Type := list json * option tool_exc.

(** [x is not None and x != y] *)
Definition differs (x : option Z) (y : Z) : bool := match x with Some v => negb (v =? y) | None => false end.

(** query.py:88-98 [_query_settings]; [SettingsId] knows 0 and 1. *)
Fixpoint query_settings (l : list (Z * string)) : tool_out :=
  match l with
  | [] => ([], None)
  | (k, v) :: l' =>
      match (if k =? 0 then Some "VERSION" else if k =? 1 then Some "IDENTIFIER" else None) with
      | None => ([], Some ValueError)
      | Some name =>
          let '(out, x) := query_settings l' in
          (JObj [("settings_id", JStr name); ("data", JStr v)] :: out, x)
      end
  end.

(** query.py:101-112 [_query_last_event_id] *)
Definition query_last_event_id (l : list (Z * event_id)) (server : option Z) : tool_out :=
  (flat_map (fun kv => if differs server (fst kv) then [] else [event_id_to_json (snd kv)]) l, None).

(** query.py:115-126 [_query_last_timestamp] *)
Definition query_last_timestamp (l : list (Z * timestamp)) (server : option Z) : tool_out :=
  (flat_map (fun kv => if differs server (fst kv) then [] else [timestamp_to_json (snd kv)]) l, None).

(** query.py:143-160: one event's references.  Line 147 reads
    [encoded_key], which [DbDef] (lmdb/common.py:44-48, 57-61) does not have. *)
Fixpoint print_refs (i : event_id) (refs : list event_ref) : tool_out :=
  match refs with
  | [] => ([], None)
  | LatestRef _ :: _ => ([], Some AttributeError)
  | TimeseriesRef (p, t, _) :: refs' =>
      let '(out, x) := print_refs i refs' in
      (JObj [("event_id", event_id_to_json i); ("ref_type", JStr "timeseries");
             ("partition_id", JInt p); ("timestamp", timestamp_to_json t)] :: out, x)
  end.

(** query.py:129-160 [_query_ref].  The third argument is compared with
    [event_id.server] (line 140): it is [None] or not an integer at the only call
    that gets so far (line 66), and then it differs from every server. *)
Fixpoint query_ref (it : list event_ref -> list event_ref) (l : list (event_id * list event_ref)) (given : bool) : tool_out :=
  match l with
  | [] => ([], None)
  | (i, refs) :: l' =>
      if given then query_ref it l' given
      else match print_refs i (it refs) with
           | (out, Some x) => (out, Some x)
           | (out, None) => let '(out', x) := query_ref it l' given in (out ++ out', x)
           end
  end.

(** query.py:179-191 [_query_partition] *)
Definition query_partition (l : list (Z * part_data)) (part : option Z) : tool_out :=
  (flat_map (fun kv => if differs part (fst kv) then []
                       else [JObj [("partition_id", JInt (fst kv)); ("data", part_to_json (snd kv))]]) l, None).

(** query.py:194-215 [_query_timeseries] *)
Definition query_timeseries (l : list (ts_key * event)) (part server : option Z) (types : option (list etype)) : tool_out :=
  match py_create (match types with None => [["*"]] | Some ts => ts end) with
  | None => ([], Some ValueError)
  | Some sub =>
      (flat_map (fun kv =>
         let '((p, _, i), e) := kv in
         if differs part p then []
         else if differs server (eid_server i) then []
         else if negb (node_matches sub (ev_type e)) then []
         else [event_to_json e]) l, None)
  end.

(** query.py:41-81 [query].  Line 60 calls [_query_ref] without its third
    argument; line 66 calls it instead of [_query_latest]. *)
Definition tool_run (it : list event_ref -> list event_ref) (d : ldb) (q : tool_query) : tool_out :=
  match q with
  | TSettings => query_settings (db_settings d)
  | TLastId server => query_last_event_id (db_ids d) server
  | TLastTs server => query_last_timestamp (db_tss d) server
  | TRef _ => ([], Some TypeError)
  | TLatest types => query_ref it (db_ref d) (match types with Some _ => true | None => false end)
  | TPartition part => query_partition (db_parts d) part
  | TTimeseries part server types => query_timeseries (db_ts d) part server (option_map (map split_slash) types)
  end.
