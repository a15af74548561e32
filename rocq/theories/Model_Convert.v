(** Conversion of LMDB databases of former versions.  Models
    src_py/hat/event/backends/lmdb/convert/{convert_v06_to_v07,convert_v07_to_v09,main}.py
    and the data of v06.py and v07.py.

    Databases hold decoded keys and values; a cursor gives entries in the order
    of the list, [put] is [kput].  Integers are assumed to be in the range of the
    encodings of the new version ([struct.error] is not modelled); the new
    environments are assumed to be empty (main.py:71-72 removes a former
    intermediate file).  Transactions are not modelled: a conversion is complete
    or gives no result. *)
From Coq Require Import String Bool ZArith List.
From Verif Require Import Base Kv Model_Types Model_Codec Keys Model_Lmdb.
Import ListNotations.
Open Scope string_scope.
Open Scope list_scope.
Open Scope Z_scope.

(** ** Data of former versions *)

(** v06.py:16-35, v07.py:28-42 [EventPayloadType], [SbsData], [EventPayload] *)
Inductive payload7 :=
| P7Binary (data : list Z)
| P7Json (data : json)
| P7Sbs (module : option string) (ty : string) (data : list Z).

(** v06.py:22-24,43-48 [EventId], [Event] *)
Record event6 := Ev6 {
  e6_server : Z; e6_instance : Z; e6_type : etype; e6_ts : timestamp;
  e6_src : option timestamp; e6_payload : option payload7 }.

(** v07.py:56-61 [Event]; [EventId] is the same as in the new version. *)
Record event7 := Ev7 {
  e7_id : event_id; e7_type : etype; e7_ts : timestamp;
  e7_src : option timestamp; e7_payload : option payload7 }.

(** Data of a partition: the value of [OrderBy] (v07.py:14-16: 1 and 2) and the
    subscriptions; version 0.6 has the same. *)
Record part7 := Part7 { p7_order : Z; p7_subs : list etype }.

(** Content of a database of version 0.6: value of [server_id] in the system
    database; values of the latest database in the order of the cursor; ordered
    data by (partition, timestamp, number). *)
Record db6 := Db6 {
  d6_server : option Z;
  d6_latest : list event6;
  d6_data : list ((Z * timestamp * Z) * event6);
  d6_parts : list (Z * part7);
  d6_counts : list (Z * Z) }.

(** v07.py:64-108 [DbType]: content of a database of version 0.7.  References
    have the same form as in the new version. *)
Record db7 := Db7 {
  d7_system : list (Z * (event_id * timestamp));
  d7_ref : list (event_id * list event_ref);
  d7_latest : list (Z * event7);
  d7_types : list (Z * etype);
  d7_data : list (ts_key * event7);
  d7_parts : list (Z * part7);
  d7_counts : list (Z * Z) }.

(** ** From 0.6 to 0.7 *)

(** convert_v06_to_v07.py:198-202 [_convert_event_id] *)
Definition id_6_7 (server instance sid : Z) : event_id :=
  Eid (if 0 <? server then server else sid) instance instance.

(** convert_v06_to_v07.py:187-195 [_convert_event] with 205-213 *)
Definition event_6_7 (sid : Z) (e : event6) : event7 :=
  Ev7 (id_6_7 (e6_server e) (e6_instance e) sid) (e6_type e) (e6_ts e) (e6_src e) (e6_payload e).

(** convert_v06_to_v07.py:149-161 [_update_ref_db] *)
Definition update_ref (ref : list (event_id * list event_ref)) (i : event_id) (r : event_ref)
  : list (event_id * list event_ref) :=
  let old := match kget eidord i ref with Some l => l | None => [] end in
  kput eidord i (sadd reford r old) ref.

(** convert_v06_to_v07.py:164-178 [_update_system_db] *)
Definition update_system (system : list (Z * (event_id * timestamp))) (sid : Z) (e : event7)
  : list (Z * (event_id * timestamp)) :=
  let i := match kget zord sid system with Some (i, _) => i | None => Eid sid 0 0 end in
  if eid_ltb i (e7_id e) then kput zord sid (e7_id e, e7_ts e) system else system.

(** convert_v06_to_v07.py:48-49, 99-100: [latest_event] *)
Definition keep_greater (cur : option event7) (e : event7) : option event7 :=
  match cur with
  | Some c => if eid_ltb (e7_id c) (e7_id e) then Some e else cur
  | None => Some e
  end.

(** convert_v06_to_v07.py:43-70: one turn of the loop over the latest database.
    State: [latest_event], next reference, latest data, latest types, references. *)
Definition latest_turn (sid : Z)
  (st : option event7 * Z * list (Z * event7) * list (Z * etype) * list (event_id * list event_ref)) (e6 : event6)
  : option event7 * Z * list (Z * event7) * list (Z * etype) * list (event_id * list event_ref) :=
  let '(cur, next, latest, types, ref) := st in
  let e := event_6_7 sid e6 in
  (keep_greater cur e, next + 1, kput zord next e latest, kput zord next (e7_type e) types,
   update_ref ref (e7_id e) (LatestRef next)).

(** convert_v06_to_v07.py:91-114: one turn of the loop over ordered data.
    State: [latest_event], ordered data, references. *)
Definition ordered_turn (sid : Z)
  (st : option event7 * list (ts_key * event7) * list (event_id * list event_ref)) (kv : (Z * timestamp * Z) * event6)
  : option event7 * list (ts_key * event7) * list (event_id * list event_ref) :=
  let '(cur, data, ref) := st in
  let '((p, t, _), e6) := kv in
  let e := event_6_7 sid e6 in
  let key := (p, t, e7_id e) in
  (keep_greater cur e, kput keyord key e data, update_ref ref (e7_id e) (TimeseriesRef key)).

(** convert_v06_to_v07.py:72-76, 116-120 *)
Definition note_greatest (system : list (Z * (event_id * timestamp))) (sid : Z) (cur : option event7)
  : list (Z * (event_id * timestamp)) :=
  match cur with Some e => update_system system sid e | None => system end.

(** convert_v06_to_v07.py:8-31 [convert]; [None]: an exception, as there is no
    server id (line 184). *)
Definition convert_6_7 (d : db6) : option db7 :=
  match d6_server d with
  | None => None
  | Some stored =>
      let sid := if stored <? 1 then 1 else stored in
      let '(cur, _, latest, types, ref) := fold_left (latest_turn sid) (d6_latest d) (None, 1, [], [], []) in
      let system := note_greatest [] sid cur in
      let '(cur, data, ref) := fold_left (ordered_turn sid) (d6_data d) (None, [], ref) in
      let system := note_greatest system sid cur in
      Some (Db7 system ref latest types data (kputs zord (d6_parts d) []) (kputs zord (d6_counts d) []))
  end.

(** ** From 0.7 to 0.9 *)

(** convert_v07_to_v09.py:145-163 [_convert_payload] *)
Definition payload_7_9 (p : option payload7) : option payload :=
  match p with
  | None => None
  | Some (P7Binary b) => Some (PBinary "" b)
  | Some (P7Json j) => Some (PJson j)
  | Some (P7Sbs m t b) => Some (PBinary (match m with Some m => m ++ "." ++ t | None => t end) b)
  end.

(** convert_v07_to_v09.py:135-142 [_convert_event]; event ids and timestamps
    (lines 111-116) are the same. *)
Definition event_7_9 (e : event7) : event :=
  Ev (e7_id e) (e7_type e) (e7_ts e) (e7_src e) (payload_7_9 (e7_payload e)).

(** convert_v07_to_v09.py:119-132 [_convert_event_ref] *)
Definition ref_7_9 (r : event_ref) : event_ref :=
  match r with LatestRef k => LatestRef k | TimeseriesRef (p, t, i) => TimeseriesRef (p, t, i) end.

(** convert_v07_to_v09.py:166-175 [_convert_partition_data]; [None]: [ValueError]
    of [v07.OrderBy]. *)
Definition part_7_9 (p : part7) : option part_data :=
  if p7_order p =? 1 then Some (PartData (order_by_value TIMESTAMP) (p7_subs p))
  else if p7_order p =? 2 then Some (PartData (order_by_value SOURCE_TIMESTAMP) (p7_subs p))
  else None.

(** convert_v07_to_v09.py:91-100: the loop over partitions. *)
Definition parts_7_9 (l : list (Z * part7)) : option (list (Z * part_data)) :=
  fold_left (fun acc kv => match acc, part_7_9 (snd kv) with
                           | Some m, Some p => Some (kput zord (fst kv) p m)
                           | _, _ => None
                           end) l (Some []).

(** convert_v07_to_v09.py:7-21 [convert] with 24-108 *)
Definition convert_7_9 (d : db7) : option ldb :=
  match parts_7_9 (d7_parts d) with
  | None => None
  | Some parts =>
      Some (Ldb (kput zord 0 "0.9" [])
                (fold_left (fun m kv => kput zord (fst kv) (fst (snd kv)) m) (d7_system d) [])
                (fold_left (fun m kv => kput zord (fst kv) (snd (snd kv)) m) (d7_system d) [])
                (fold_left (fun m kv => kput eidord (fst kv) (sof reford (map ref_7_9 (snd kv))) m) (d7_ref d) [])
                (fold_left (fun m kv => kput zord (fst kv) (event_7_9 (snd kv)) m) (d7_latest d) [])
                (fold_left (fun m kv => kput zord (fst kv) (snd kv) m) (d7_types d) [])
                (fold_left (fun m kv => kput keyord (fst kv) (event_7_9 (snd kv)) m) (d7_data d) [])
                parts
                (fold_left (fun m kv => kput zord (fst kv) (snd kv) m) (d7_counts d) []))
  end.

(** ** Chain of conversions *)

(** version.py:26-57 [get_version] is taken to tell these apart. *)
Inductive any_db := V06 (d : db6) | V07 (d : db7) | V09 (d : ldb).

(** main.py:26-33 [conversions]; [None]: the conversion raises. *)
Definition conversion (d : any_db) : option (option any_db) :=
  match d with
  | V06 d => Some (option_map V07 (convert_6_7 d))
  | V07 d => Some (option_map V09 (convert_7_9 d))
  | V09 _ => None
  end.

(** main.py:52-83 [convert]: at most two turns of the loop.  [None]: an
    exception, also if there is nothing to convert. *)
Fixpoint convert_loop (fuel : nat) (d : any_db) : option ldb :=
  match d, fuel with
  | V09 d, _ => Some d
  | _, O => None
  | _, S n =>
      match conversion d with
      | Some (Some d') => convert_loop n d'
      | _ => None
      end
  end.
Definition convert (d : any_db) : option ldb :=
  match d with V09 _ => None | _ => convert_loop 2 d end.
