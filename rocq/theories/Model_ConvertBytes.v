(** Conversion of LMDB files of former versions, on the level of bytes.  Models
    src_py/hat/event/backends/lmdb/convert/{version,v06,v07,v09,convert_v06_to_v07,convert_v07_to_v09,main}.py.

    An environment has named databases; a database is a list of pairs of bytes,
    ordered by key.  A conversion is complete or raises ([None]); what a failed
    one leaves behind is arbitrary (see [run_conversion]).  The source has all
    databases its version has ([get_version] looks for them), so opening it
    creates none.  LMDB's limits (size of map, length of keys) are not
    modelled.  Files that are not LMDB environments are not modelled: opening
    them raises before anything is done. *)
From Coq Require Import String Ascii Bool ZArith Lia List.
From Verif Require Import Base Kv Model_Types Model_Codec Keys Model_Sbs Model_Lmdb Model_Convert.
Import ListNotations.
Open Scope string_scope.
Open Scope list_scope.
Open Scope Z_scope.

(** ** Outside of the repository *)

(** Text of JSON data and the data of a text (hat-json; [None] also for bytes
    that are not UTF-8), SBS encoding and decoding of data of a type
    (hat-sbs), and the order in which a set of references is iterated. *)
Record codecs := Codecs {
  jenc : json -> string;
  jdec : string -> option json;
  senc : sty -> sbs -> bytes;
  sdec : sty -> bytes -> option sbs;
  iter : list event_ref -> list event_ref }.

(** Bytes of a text: strings are kept as their UTF-8 bytes. *)
Fixpoint text (s : string) : bytes :=
  match s with
  | EmptyString => []
  | String a s' => Z.of_N (N_of_ascii a) :: text s'
  end.
Fixpoint untext (b : bytes) : string :=
  match b with
  | [] => EmptyString
  | x :: b' => String (ascii_of_N (Z.to_N x)) (untext b')
  end.

(** Bytewise order of keys in LMDB. *)
Fixpoint bytes_eqb (a b : bytes) : bool :=
  match a, b with
  | [], [] => true
  | x :: a', y :: b' => (x =? y) && bytes_eqb a' b'
  | _, _ => false
  end.
Fixpoint bytes_ltb (a b : bytes) : bool :=
  match a, b with
  | [], _ :: _ => true
  | x :: a', y :: b' => (x <? y) || ((x =? y) && bytes_ltb a' b')
  | _, _ => false
  end.
Lemma bytes_eqb_spec : forall a b, bytes_eqb a b = true <-> a = b.
Proof.
  induction a as [|x a IH]; intros [|y b]; cbn; [tauto|split; discriminate|split; discriminate|]. rewrite andb_true_iff, Z.eqb_eq, IH.
  split; [intros [-> ->]; auto|intros [= -> ->]; auto].
Qed.
Lemma bytes_ltb_irrefl : forall a, bytes_ltb a a = false.
Proof. induction a as [|x a IH]; cbn; auto. now rewrite Z.ltb_irrefl, Z.eqb_refl, IH. Qed.
Lemma bytes_ltb_trans : forall a b c, bytes_ltb a b = true -> bytes_ltb b c = true -> bytes_ltb a c = true.
Proof.
  induction a as [|x a IH]; intros [|y b] [|z c]; cbn; try discriminate; auto.
  rewrite !orb_true_iff, !andb_true_iff, !Z.ltb_lt, !Z.eqb_eq.
  intros [H|[-> H]] [H'|[-> H']]; [left; lia|left; lia|left; lia|right; split; eauto].
Qed.
Lemma bytes_ltb_total : forall a b, bytes_ltb a b = true \/ a = b \/ bytes_ltb b a = true.
Proof.
  induction a as [|x a IH]; intros [|y b]; cbn; auto. rewrite !orb_true_iff, !andb_true_iff, !Z.ltb_lt, !Z.eqb_eq.
  destruct (Z.lt_total x y) as [H|[->|H]]; [now left; left| |now right; right; left].
  destruct (IH b) as [H|[->|H]]; auto.
Qed.
Definition bytesord : ord bytes := Ord bytes_eqb bytes_ltb bytes_eqb_spec bytes_ltb_irrefl bytes_ltb_trans bytes_ltb_total.

(** ** Environments *)

Definition raw := list (bytes * bytes).
Definition env := list (string * raw).
(** [env.open_db(name, create=False)] *)
Definition ehas (name : string) (e : env) : bool := dmem String.eqb name e.
(** Entries in the order of a cursor. *)
Definition eitems (name : string) (e : env) : raw := match dget String.eqb name e with Some r => r | None => [] end.
Definition eget (name : string) (k : bytes) (e : env) : option bytes := kget bytesord k (eitems name e).
(** [txn.put] *)
Definition eput (name : string) (k v : bytes) (e : env) : env := dset String.eqb name (kput bytesord k v (eitems name e)) e.
(** [env.open_db(name)] *)
Definition eopen (name : string) (e : env) : env := if ehas name e then e else dset String.eqb name [] e.

(** A loop that may raise. *)
Fixpoint loop {A B} (f : B -> A -> option B) (l : list A) (b : B) : option B :=
  match l with
  | [] => Some b
  | x :: l' => do b' <- f b x; loop f l' b'
  end.

(** ** JSON values *)

(** [tuple(_decode_json(...))], [list(value)]: event types. *)
Definition jtype (t : etype) : json := JArr (map JStr t).
Definition of_jstr (j : json) : option string := match j with JStr s => Some s | _ => None end.
Definition of_jtype (j : json) : option etype := match j with JArr l => traverse of_jstr l | _ => None end.
Definition of_jtypes (j : json) : option (list etype) := match j with JArr l => traverse of_jtype l | _ => None end.
Definition of_jint (j : json) : option Z := match j with JInt z => Some z | _ => None end.
Definition jfield (k : string) (j : json) : option json := match j with JObj l => dget String.eqb k l | _ => None end.

(** ** Schemas of former versions *)

(** v06.py:108-146 and v07.py:280-319: [Timestamp], [EventType],
    [EventPayload] are the same in both; [EventId] differs. *)
Definition T_Payload7 : sty :=
  TChoice [("binary", TBytes); ("json", TStr); ("sbs", TRec [("module", TOpt TStr); ("type", TStr); ("data", TBytes)])].
Definition T_Event7 : sty :=
  TRec [("id", T_EventId); ("type", T_EventType); ("timestamp", T_Timestamp); ("sourceTimestamp", TOpt T_Timestamp); ("payload", TOpt T_Payload7)].
Definition T_EventId6 : sty := TRec [("server", TInt); ("instance", TInt)].
Definition T_Event6 : sty :=
  TRec [("id", T_EventId6); ("type", T_EventType); ("timestamp", T_Timestamp); ("sourceTimestamp", TOpt T_Timestamp); ("payload", TOpt T_Payload7)].

Section Conversion.
  Variable C : codecs.

  (** v07.py:476-477, lmdb/common.py:272-273 *)
  Definition encode_json (j : json) : bytes := text (jenc C j).
  (** v06.py:64-65, v07.py:480-481, version.py:62-63, lmdb/common.py:276-277 *)
  Definition decode_json (b : bytes) : option json := jdec C (untext b).

  (** v06.py:180-195,207-210, v07.py:397-412,421-424 *)
  Definition payload7_from_sbs (d : sbs) : option payload7 :=
    do c <- as_choice d;
    if (fst c =? "binary")%string then do b <- as_bytes (snd c); Some (P7Binary b)
    else if (fst c =? "json")%string then do s <- as_str (snd c); do j <- jdec C s; Some (P7Json j)
    else if (fst c =? "sbs")%string then
      do m <- (do x <- sfield (snd c) "module"; optional_from_sbs as_str x);
      do t <- (do x <- sfield (snd c) "type"; as_str x);
      do b <- (do x <- sfield (snd c) "data"; as_bytes x);
      Some (P7Sbs m t b)
    else None.
  (** v07.py:384-394,415-418 *)
  Definition payload7_to_sbs (p : payload7) : sbs :=
    match p with
    | P7Binary b => SChoice "binary" (SBytes b)
    | P7Json j => SChoice "json" (SStr (jenc C j))
    | P7Sbs m t b => SChoice "sbs" (SRec [("module", optional_to_sbs SStr m); ("type", SStr t); ("data", SBytes b)])
    end.

  (** ** v06.py *)

  (** v06.py:51-52 [decode_uint] *)
  Definition decode_uint6 (b : bytes) : option Z := unpack 8 b.
  (** v06.py:68-71 [decode_uint_timestamp_uint] *)
  Definition decode_key6 (b : bytes) : option (Z * timestamp * Z) :=
    if Nat.eqb (List.length b) 28 then
      do p <- unpack 8 (firstn 8 b);
      do s <- unpack 8 (firstn 8 (skipn 8 b));
      do us <- unpack 4 (firstn 4 (skipn 16 b));
      do n <- unpack 8 (skipn 20 b);
      Some (p, Ts (s - 2 ^ 63) us, n)
    else None.
  (** v06.py:74-76 [decode_event] with 170-178,198-216 *)
  Definition decode_event6 (b : bytes) : option event6 :=
    do d <- sdec C T_Event6 b;
    do i <- sfield d "id";
    do sv <- (do x <- sfield i "server"; as_int x);
    do n <- (do x <- sfield i "instance"; as_int x);
    do t <- (do x <- sfield d "type"; etype_from_sbs x);
    do ts <- (do x <- sfield d "timestamp"; timestamp_from_sbs x);
    do src <- (do x <- sfield d "sourceTimestamp"; optional_from_sbs timestamp_from_sbs x);
    do p <- (do x <- sfield d "payload"; optional_from_sbs payload7_from_sbs x);
    Some (Ev6 sv n t ts src p).

  (** ** v07.py *)

  (** v07.py:439-440 [_decode_uint]: the first 8 bytes, and the rest. *)
  Definition decode_uint7 (b : bytes) : option (Z * bytes) := do v <- unpack 8 (firstn 8 b); Some (v, skipn 8 b).
  (** v07.py:448-454 [_decode_event_id] *)
  Definition decode_eid7 (b : bytes) : option (event_id * bytes) := do i <- decode_event_id (firstn 24 b); Some (i, skipn 24 b).
  (** v07.py:461-463 [_decode_timestamp] *)
  Definition decode_ts7 (b : bytes) : option (timestamp * bytes) := do t <- decode_timestamp (firstn 12 b); Some (t, skipn 12 b).
  (** v07.py:115-117,135-137,152-154,191-193,209-211,218-220; the encoders of
      integers are those of the new version. *)
  Definition decode_key7 (b : bytes) : option Z := do x <- decode_uint7 b; Some (fst x).
  (** v07.py:120-128 [encode_system_db_value], [decode_system_db_value] *)
  Definition encode_system7 (v : event_id * timestamp) : option bytes :=
    do a <- encode_event_id (fst v); do b <- encode_timestamp (snd v); Some (a ++ b).
  Definition decode_system7 (b : bytes) : option (event_id * timestamp) :=
    do x <- decode_eid7 b; do y <- decode_ts7 (snd x); Some (fst x, fst y).
  (** v07.py:466-468 [_encode_event] with 344-351,364-367,376-377,427-428 *)
  Definition encode_event7 (e : event7) : bytes :=
    senc C T_Event7
      (SRec [("id", event_id_to_sbs (e7_id e)); ("type", etype_to_sbs (e7_type e)); ("timestamp", timestamp_to_sbs (e7_ts e));
             ("sourceTimestamp", optional_to_sbs timestamp_to_sbs (e7_src e)); ("payload", optional_to_sbs payload7_to_sbs (e7_payload e))]).
  (** v07.py:471-473 [_decode_event] with 354-361,370-373,380-381,431-432 *)
  Definition decode_event7 (b : bytes) : option event7 :=
    do d <- sdec C T_Event7 b;
    do i <- (do x <- sfield d "id"; event_id_from_sbs x);
    do t <- (do x <- sfield d "type"; etype_from_sbs x);
    do ts <- (do x <- sfield d "timestamp"; timestamp_from_sbs x);
    do src <- (do x <- sfield d "sourceTimestamp"; optional_from_sbs timestamp_from_sbs x);
    do p <- (do x <- sfield d "payload"; optional_from_sbs payload7_from_sbs x);
    Some (Ev7 i t ts src p).
  (** v07.py:161-162 [decode_latest_type_db_value] *)
  Definition decode_type7 (b : bytes) : option etype := do j <- decode_json b; of_jtype j.
  (** v07.py:172-176 [decode_ordered_data_db_key] *)
  Definition decode_data_key7 (b : bytes) : option ts_key :=
    do x <- decode_uint7 b; do y <- decode_ts7 (snd x); do z <- decode_eid7 (snd y); Some (fst x, fst y, fst z).
  (** v07.py:484-494 [_encode_event_ref]: the numbers of the databases are 1 and 3. *)
  Definition encode_ref7 (r : event_ref) : option bytes :=
    match r with
    | LatestRef k => do b <- encode_uint k; Some (1 :: b)
    | TimeseriesRef k => do b <- encode_ts_key k; Some (3 :: b)
    end.
  (** v07.py:232-234 [encode_ref_db_value] *)
  Fixpoint encode_refs7 (rs : list event_ref) : option bytes :=
    match rs with
    | [] => Some []
    | r :: rs' => do a <- encode_ref7 r; do b <- encode_refs7 rs'; Some (a ++ b)
    end.
  (** v07.py:497-508 [_decode_event_ref] *)
  Definition decode_ref7 (b : bytes) : option (event_ref * bytes) :=
    match b with
    | [] => None
    | d :: rest =>
        if d =? 1 then do k <- decode_key7 (firstn 8 rest); Some (LatestRef k, skipn 8 rest)
        else if d =? 3 then do k <- decode_data_key7 (firstn 44 rest); Some (TimeseriesRef k, skipn 44 rest)
        else None
    end.
  (** v07.py:237-242 [decode_ref_db_value]: each turn takes a byte at least. *)
  Fixpoint decode_refs7_loop (fuel : nat) (b : bytes) (rs : list event_ref) : option (list event_ref) :=
    match b, fuel with
    | [], _ => Some rs
    | _, O => None
    | _, S n => do x <- decode_ref7 b; decode_refs7_loop n (snd x) (sadd reford (fst x) rs)
    end.
  Definition decode_refs7 (b : bytes) : option (list event_ref) := decode_refs7_loop (List.length b) b [].

  (** ** From 0.6 to 0.7 *)

  (** convert_v06_to_v07.py:149-161 [_update_ref_db] *)
  Definition put_ref (i : event_id) (r : event_ref) (e : env) : option env :=
    do k <- encode_event_id i;
    do old <- match eget "REF" k e with Some (x :: v) => decode_refs7 (x :: v) | _ => Some [] end;
    do v <- encode_refs7 (iter C (sadd reford r old));
    Some (eput "REF" k v e).
  (** convert_v06_to_v07.py:164-178 [_update_system_db] *)
  Definition put_system (sid : Z) (x : event7) (e : env) : option env :=
    do k <- encode_uint sid;
    do i <- match eget "SYSTEM" k e with Some (y :: v) => do z <- decode_system7 (y :: v); Some (fst z) | _ => Some (Eid sid 0 0) end;
    if eid_ltb i (e7_id x) then do v <- encode_system7 (e7_id x, e7_ts x); Some (eput "SYSTEM" k v e) else Some e.
  (** convert_v06_to_v07.py:72-76,116-120 *)
  Definition put_greatest (sid : Z) (cur : option event7) (e : env) : option env :=
    match cur with Some x => put_system sid x e | None => Some e end.
  (** convert_v06_to_v07.py:43-70 *)
  Definition raw_latest_turn (sid : Z) (st : option event7 * Z * env) (kv : bytes * bytes) : option (option event7 * Z * env) :=
    let '(cur, next, e) := st in
    do x6 <- decode_event6 (snd kv);
    let x := event_6_7 sid x6 in
    do k <- encode_uint next;
    let e1 := eput "LATEST_DATA" k (encode_event7 x) e in
    let e2 := eput "LATEST_TYPE" k (encode_json (jtype (e7_type x))) e1 in
    do e3 <- put_ref (e7_id x) (LatestRef next) e2;
    Some (keep_greater cur x, next + 1, e3).
  (** convert_v06_to_v07.py:91-114 *)
  Definition raw_ordered_turn (sid : Z) (st : option event7 * env) (kv : bytes * bytes) : option (option event7 * env) :=
    let '(cur, e) := st in
    do key6 <- decode_key6 (fst kv);
    do x6 <- decode_event6 (snd kv);
    let '(p, t, _) := key6 in
    let x := event_6_7 sid x6 in
    let key := (p, t, e7_id x) in
    do k <- encode_ts_key key;
    do e2 <- put_ref (e7_id x) (TimeseriesRef key) (eput "ORDERED_DATA" k (encode_event7 x) e);
    Some (keep_greater cur x, e2).
  (** convert_v06_to_v07.py:122-134 *)
  Definition raw_part_turn (e : env) (kv : bytes * bytes) : option env :=
    do p <- decode_uint6 (fst kv);
    do j <- decode_json (snd kv);
    do k <- encode_uint p;
    Some (eput "ORDERED_PARTITION" k (encode_json j) e).
  (** convert_v06_to_v07.py:136-148 *)
  Definition raw_count_turn (e : env) (kv : bytes * bytes) : option env :=
    do p <- decode_uint6 (fst kv);
    do n <- (do j <- decode_json (snd kv); of_jint j);
    do k <- encode_uint p;
    do v <- encode_uint n;
    Some (eput "ORDERED_COUNT" k v e).

  (** convert_v06_to_v07.py:8-31 [convert] *)
  Definition raw_6_7 (src : env) : option env :=
    do stored <- (do b <- eget "system" (text "server_id") src; decode_uint6 b);
    let sid := if stored <? 1 then 1 else stored in
    let e := eopen "LATEST_TYPE" (eopen "LATEST_DATA" (eopen "REF" (eopen "SYSTEM" []))) in
    do st <- loop (raw_latest_turn sid) (eitems "latest" src) (None, 1, e);
    let '(cur, _, e) := st in
    do e <- put_greatest sid cur e;
    let e := eopen "ORDERED_COUNT" (eopen "ORDERED_PARTITION" (eopen "ORDERED_DATA" e)) in
    do st <- loop (raw_ordered_turn sid) (eitems "ordered_data" src) (None, e);
    let '(cur, e) := st in
    do e <- put_greatest sid cur e;
    do e <- loop raw_part_turn (eitems "ordered_partition" src) e;
    loop raw_count_turn (eitems "ordered_count" src) e.

  (** ** From 0.7 to 0.9 *)

  (** lmdb/common.py:256-258 [_encode_event] *)
  Definition encode_event (x : event) : bytes := senc C T_Event (event_to_sbs (jenc C) x).
  (** lmdb/common.py:261-269 [_decode_event] *)
  Definition decode_event (b : bytes) : option event := do d <- sdec C T_Event b; event_from_sbs (jdec C) d.

  (** convert_v07_to_v09.py:24-40 *)
  Definition raw_system (e : env) (kv : bytes * bytes) : option env :=
    do s <- decode_key7 (fst kv);
    do x <- decode_system7 (snd kv);
    do k <- encode_uint s;
    do a <- encode_event_id (fst x);
    do b <- encode_timestamp (snd x);
    Some (eput "SYSTEM_LAST_TIMESTAMP" k b (eput "SYSTEM_LAST_EVENT_ID" k a e)).
  (** convert_v07_to_v09.py:43-54 *)
  Definition raw_ref (e : env) (kv : bytes * bytes) : option env :=
    do x <- decode_eid7 (fst kv);
    do rs <- decode_refs7 (snd kv);
    do k <- encode_event_id (fst x);
    do v <- encode_event_refs (iter C (sof reford (map ref_7_9 rs)));
    Some (eput "REF" k v e).
  (** convert_v07_to_v09.py:57-66 *)
  Definition raw_latest (e : env) (kv : bytes * bytes) : option env :=
    do r <- decode_key7 (fst kv);
    do x <- decode_event7 (snd kv);
    do k <- encode_uint r;
    Some (eput "LATEST_DATA" k (encode_event (event_7_9 x)) e).
  (** convert_v07_to_v09.py:68-74 *)
  Definition raw_type (e : env) (kv : bytes * bytes) : option env :=
    do r <- decode_key7 (fst kv);
    do t <- decode_type7 (snd kv);
    do k <- encode_uint r;
    Some (eput "LATEST_TYPE" k (encode_json (jtype t)) e).
  (** convert_v07_to_v09.py:77-89 *)
  Definition raw_data (e : env) (kv : bytes * bytes) : option env :=
    do key <- decode_data_key7 (fst kv);
    do x <- decode_event7 (snd kv);
    do k <- encode_ts_key key;
    Some (eput "TIMESERIES_DATA" k (encode_event (event_7_9 x)) e).
  (** convert_v07_to_v09.py:91-100 with 166-175 *)
  Definition raw_part (e : env) (kv : bytes * bytes) : option env :=
    do p <- decode_key7 (fst kv);
    do j <- decode_json (snd kv);
    do o <- (do x <- jfield "order" j; of_jint x);
    do subs <- jfield "subscriptions" j;
    do o' <- (if o =? 1 then Some (order_by_value TIMESTAMP) else if o =? 2 then Some (order_by_value SOURCE_TIMESTAMP) else None);
    do k <- encode_uint p;
    Some (eput "TIMESERIES_PARTITION" k (encode_json (JObj [("order", JStr o'); ("subscriptions", subs)])) e).
  (** convert_v07_to_v09.py:102-108 *)
  Definition raw_count (e : env) (kv : bytes * bytes) : option env :=
    do p <- decode_key7 (fst kv);
    do n <- decode_key7 (snd kv);
    do k <- encode_uint p;
    do v <- encode_uint n;
    Some (eput "TIMESERIES_COUNT" k v e).

  (** lmdb/common.py:30-39 [DbType]: names of databases. *)
  Definition names9 : list string :=
    ["SYSTEM_SETTINGS"; "SYSTEM_LAST_EVENT_ID"; "SYSTEM_LAST_TIMESTAMP"; "REF"; "LATEST_DATA"; "LATEST_TYPE"; "TIMESERIES_DATA";
     "TIMESERIES_PARTITION"; "TIMESERIES_COUNT"].

  (** convert_v07_to_v09.py:7-21 [convert] *)
  Definition raw_7_9 (src : env) : option env :=
    let e := fold_left (fun e n => eopen n e) names9 [] in
    do k <- encode_uint 0;
    let e := eput "SYSTEM_SETTINGS" k (encode_json (JStr "0.9")) e in
    do e <- loop raw_system (eitems "SYSTEM" src) e;
    do e <- loop raw_ref (eitems "REF" src) e;
    do e <- loop raw_latest (eitems "LATEST_DATA" src) e;
    do e <- loop raw_type (eitems "LATEST_TYPE" src) e;
    do e <- loop raw_data (eitems "ORDERED_DATA" src) e;
    do e <- loop raw_part (eitems "ORDERED_PARTITION" src) e;
    loop raw_count (eitems "ORDERED_COUNT" src) e.

  (** ** Reading of the new version *)

  (** v09.py:30-39 [read] of a database, with the decoders of lmdb/common.py:90-143 *)
  Definition read_db {K V} (dk : bytes -> option K) (dv : bytes -> option V) (r : raw) : option (list (K * V)) :=
    traverse (fun kv => do k <- dk (fst kv); do v <- dv (snd kv); Some (k, v)) r.
  (** The fields of a partition's data that timeseriesdb.py reads. *)
  Definition decode_part (b : bytes) : option part_data :=
    do j <- decode_json b;
    do o <- (do x <- jfield "order" j; of_jstr x);
    do s <- (do x <- jfield "subscriptions" j; of_jtypes x);
    Some (PartData o s).
  Definition read9 (e : env) : option ldb :=
    do settings <- read_db decode_uint (fun b => do j <- decode_json b; of_jstr j) (eitems "SYSTEM_SETTINGS" e);
    do ids <- read_db decode_uint decode_event_id (eitems "SYSTEM_LAST_EVENT_ID" e);
    do tss <- read_db decode_uint decode_timestamp (eitems "SYSTEM_LAST_TIMESTAMP" e);
    do ref <- read_db decode_event_id (fun b => do rs <- decode_event_refs b; Some (sof reford rs)) (eitems "REF" e);
    do latest <- read_db decode_uint decode_event (eitems "LATEST_DATA" e);
    do types <- read_db decode_uint (fun b => do j <- decode_json b; of_jtype j) (eitems "LATEST_TYPE" e);
    do ts <- read_db decode_ts_key decode_event (eitems "TIMESERIES_DATA" e);
    do parts <- read_db decode_uint decode_part (eitems "TIMESERIES_PARTITION" e);
    do counts <- read_db decode_uint decode_uint (eitems "TIMESERIES_COUNT" e);
    Some (Ldb settings ids tss ref latest types ts parts counts).

  (** ** Versions and files *)

  (** version.py:20-23 [Version] *)
  Inductive version := V6 | V7 | V9.
  Definition version_of (s : string) : option version :=
    if (s =? "0.6")%string then Some V6 else if (s =? "0.7")%string then Some V7 else if (s =? "0.9")%string then Some V9 else None.

  (** version.py:26-57 [get_version] *)
  Definition get_version (e : env) : option version :=
    let setting :=
      if ehas "SYSTEM_SETTINGS" e then
        do k <- encode_uint 0; do b <- eget "SYSTEM_SETTINGS" k e; do j <- decode_json b; do s <- of_jstr j; version_of s
      else None in
    match setting with
    | Some v => Some v
    | None =>
        if forallb (fun n => ehas n e) ["SYSTEM"; "LATEST_DATA"; "LATEST_TYPE"; "ORDERED_DATA"; "ORDERED_PARTITION"; "ORDERED_COUNT"; "REF"] then Some V7
        else if forallb (fun n => ehas n e) ["system"; "latest"; "ordered_data"; "ordered_partition"; "ordered_count"] then Some V6
        else None
    end.

  (** Files by path. *)
  Definition files := list (string * env).

  (** main.py:26-33 [conversions]: the next version, and how to convert. *)
  Definition next_version (v : version) : option (version * (env -> option env)) :=
    match v with V6 => Some (V7, raw_6_7) | V7 => Some (V9, raw_7_9) | V9 => None end.
  (** [dst_path.with_suffix(...)] with [conversion.dst_version.name] (main.py:68-69) *)
  Definition suffix (v : version) : string := match v with V6 => ".v06" | V7 => ".v07" | V9 => ".v09" end.
  Definition is_v9 (v : version) : bool := match v with V9 => true | _ => false end.

  (** A conversion opens the source, which creates it if there is none, and writes
      the destination; [left] is what it leaves there if it raises. *)
  Definition run_conversion (f : env -> option env) (left : option env) (src dst : string) (fs : files) : files * bool :=
    match f (match dget String.eqb src fs with Some e => e | None => [] end) with
    | Some e => (dset String.eqb dst e fs, true)
    | None =>
        let fs := if dmem String.eqb src fs then fs else dset String.eqb src [] fs in
        (match left with Some e => dset String.eqb dst e fs | None => fs end, false)
    end.

  (** main.py:58-83: the loop of [convert]; it turns at most twice.  [false]: an
      exception. *)
  Fixpoint convert_turns (fuel : nat) (left : option env) (v : version) (src0 src dst : string) (fs : files) : files * bool :=
    if is_v9 v then (fs, true) else
    match fuel, next_version v with
    | S n, Some (v', f) =>
        let tmp := if is_v9 v' then dst else (dst ++ suffix v')%string in
        let fs := ddel String.eqb tmp fs in
        match run_conversion f left src tmp fs with
        | (fs, false) => (fs, false)
        | (fs, true) =>
            let fs := if (src =? src0)%string then fs else ddel String.eqb src fs in
            convert_turns n left v' src0 tmp dst fs
        end
    | _, _ => (fs, false)
    end.

  (** main.py:52-57 [convert]; 36-50 [main]: paths are checked first. *)
  Definition convert_files (left : option env) (src dst : string) (fs : files) : files * bool :=
    match dget String.eqb src fs with
    | None => (fs, false)
    | Some e =>
        if dmem String.eqb dst fs then (fs, false) else
        match get_version e with
        | None | Some V9 => (fs, false)
        | Some v => convert_turns 2 left v src src dst fs
        end
    end.
End Conversion.
