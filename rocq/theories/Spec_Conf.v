(** What is expected of configurations: their documented form, and what is read
    from them. *)
From Coq Require Import String Bool ZArith QArith List.
From Verif Require Import Base Model_Types Model_Subscription Spec_Subscription Spec_Creation Model_Conditions Model_Lmdb Model_Conf.
Import ListNotations.
Open Scope string_scope.
Open Scope list_scope.
Open Scope Z_scope.

(** Members of objects: [j] has one named [k] with the property; if it has one
    it has the property; there is none. *)
Definition member (j : json) (k : string) (v : json) : Prop := exists o, j = JObj o /\ dget String.eqb k o = Some v.
Definition has (j : json) (k : string) (P : json -> Prop) : Prop := exists v, member j k v /\ P v.
Definition may (j : json) (k : string) (P : json -> Prop) : Prop := forall v, member j k v -> P v.
Definition absent (j : json) (k : string) : Prop := forall v, ~ member j k v.

(** Kinds of values.  A float without fraction is an integer. *)
Definition is_object (j : json) : Prop := exists o, j = JObj o.
Definition is_string (j : json) : Prop := exists s, j = JStr s.
Definition string_or_null (j : json) : Prop := is_string j \/ j = JNull.
Definition number (j : json) (q : Q) : Prop :=
  (exists z, j = JInt z /\ q == inject_Z z) \/ (exists m e, j = JFloat m e /\ q == inject_Z m * Qpower 2 e)%Q.
Definition is_number (j : json) : Prop := exists q, number j q.
Definition whole (j : json) (z : Z) : Prop := number j (inject_Z z).
Definition is_integer (j : json) : Prop := exists z, whole j z.
Definition list_of (P : json -> Prop) (j : json) : Prop := exists l, j = JArr l /\ Forall P l.

(** ** Configuration of the server *)

Definition address (j : json) : Prop := is_object j /\ has j "host" is_string /\ has j "port" is_integer.
Definition module_conf (j : json) : Prop := is_object j /\ has j "module" is_string.

Definition server_form (log_ok : json -> bool) (j : json) : Prop :=
  is_object j /\
  (has j "name" is_string /\ has j "server_id" is_integer /\ has j "backend" module_conf /\ has j "modules" (list_of module_conf) /\
   has j "eventer_server" address) /\
  (may j "type" (fun v => v = JStr "event") /\ may j "version" is_string /\ may j "log" (fun v => log_ok v = true) /\
   may j "server_token" string_or_null /\ may j "adminer_server" address /\
   may j "monitor_component" (fun v => address v /\ has v "group" is_string)).

(** What is read. *)
Definition at_address (j : json) (h : string) (p : json) : Prop := member j "host" (JStr h) /\ member j "port" p.
Definition server_read (j : json) (c : server_conf) : Prop :=
  member j "name" (JStr (sv_name c)) /\
  (member j "server_id" (sv_id c) /\ is_integer (sv_id c)) /\
  (forall t, sv_token c = Some t <-> member j "server_token" (JStr t)) /\
  (member j "backend" (sv_backend c) /\ member (sv_backend c) "module" (JStr (sv_module c))) /\
  (exists l, member j "modules" (JArr l) /\ Forall2 (fun m p => m = snd p /\ member m "module" (JStr (fst p))) l (sv_modules c)) /\
  ((exists a, member j "eventer_server" a /\ at_address a (sv_host c) (sv_port c)) /\ is_integer (sv_port c)) /\
  match sv_adminer c with
  | Some (h, p) => is_integer p /\ exists a, member j "adminer_server" a /\ at_address a h p
  | None => absent j "adminer_server"
  end /\
  match sv_monitor c with
  | Some (h, p, g) => is_integer p /\ exists a, member j "monitor_component" a /\ at_address a h p /\ member a "group" (JStr g)
  | None => absent j "monitor_component"
  end /\
  match sv_log c with Some v => member j "log" v | None => absent j "log" end.

(** ** Configuration of the LMDB backend *)

Definition types_form : json -> Prop := list_of (list_of is_string).
Definition limit_form (j : json) : Prop :=
  is_object j /\ may j "min_entries" is_number /\ may j "max_entries" is_number /\ may j "duration" is_number /\ may j "size" is_number.

(** Paths to data: a name, a position, a list of paths. *)
Inductive path_form : json -> Prop :=
| path_name : forall s, path_form (JStr s)
| path_index : forall j, is_integer j -> path_form j
| path_list : forall l, (forall j, In j l -> path_form j) -> path_form (JArr l).

Definition type_names : list string := ["null"; "boolean"; "string"; "number"; "array"; "object"].

(** Conditions: all of a list, any of a list, a test of the payload. *)
Inductive cond_form : json -> Prop :=
| form_all : forall j l, member j "type" (JStr "all") -> member j "conditions" (JArr l) -> (forall c, In c l -> cond_form c) -> cond_form j
| form_any : forall j l, member j "type" (JStr "any") -> member j "conditions" (JArr l) -> (forall c, In c l -> cond_form c) -> cond_form j
| form_json : forall j, member j "type" (JStr "json") -> may j "data_path" path_form ->
    may j "data_type" (fun v => exists s, v = JStr s /\ In s type_names) -> cond_form j.

Definition order_form (j : json) : Prop := j = JStr "TIMESTAMP" \/ j = JStr "SOURCE_TIMESTAMP".

Definition lmdb_form (j : json) : Prop :=
  is_object j /\
  (has j "db_path" is_string /\ has j "identifier" string_or_null /\ has j "flush_period" is_number /\ has j "cleanup_period" is_number /\
   has j "conditions" (list_of (fun i => is_object i /\ has i "subscriptions" types_form /\ has i "condition" cond_form)) /\
   has j "latest" (fun l => is_object l /\ has l "subscriptions" types_form) /\
   has j "timeseries" (list_of (fun p => is_object p /\ has p "order_by" order_form /\ has p "subscriptions" types_form /\ may p "limit" limit_form))) /\
  may j "timeseries_max_results" is_integer /\ may j "timeseries_event_type_cache_size" is_integer.

(** The condition that is meant. *)
Inductive cond_of : json -> condition -> Prop :=
| of_all : forall j l cs, member j "type" (JStr "all") -> member j "conditions" (JArr l) -> conds_of l cs -> cond_of j (CAll cs)
| of_any : forall j l cs, member j "type" (JStr "any") -> member j "conditions" (JArr l) -> conds_of l cs -> cond_of j (CAny cs)
| of_json : forall j p t v, member j "type" (JStr "json") ->
    match p with Some x => member j "data_path" x | None => absent j "data_path" end ->
    match t with Some x => member j "data_type" (JStr x) | None => absent j "data_type" end ->
    match v with Some x => member j "data_value" x | None => absent j "data_value" end ->
    cond_of j (CJson p t v)
with conds_of : list json -> list condition -> Prop :=
| of_nil : conds_of [] []
| of_cons : forall j l c cs, cond_of j c -> conds_of l cs -> conds_of (j :: l) (c :: cs).

(** Event types that are listed. *)
Definition lists (j : json) (qs : list etype) : Prop := j = JArr (map (fun t => JArr (map JStr t)) qs).
Definition subscribes (j : json) (n : node) : Prop :=
  exists x qs, member j "subscriptions" x /\ lists x qs /\ forall t, node_matches n t = true <-> selects qs t.

(** The greatest integer that is not greater. *)
Definition floor_of (q : Q) (n : Z) : Prop := (inject_Z n <= q)%Q /\ (q < inject_Z (n + 1))%Q.
Definition entry {A} (j : json) (k : string) (R : Q -> A -> Prop) (o : option A) : Prop :=
  match o with Some a => exists v q, member j k v /\ number v q /\ R q a | None => absent j k end.

Definition limit_read (j : json) (l : limit) : Prop :=
  entry j "min_entries" floor_of (lm_min l) /\ entry j "max_entries" floor_of (lm_max l) /\
  entry j "duration" (fun q d => (d == q)%Q) (lm_duration l) /\ entry j "size" floor_of (lm_size l).

Definition part_read (j : json) (p : partition) : Prop :=
  member j "order_by" (JStr (match pt_order p with TIMESTAMP => "TIMESTAMP" | SOURCE_TIMESTAMP => "SOURCE_TIMESTAMP" end)) /\
  subscribes j (pt_sub p) /\
  match pt_limit p with Some l => exists x, member j "limit" x /\ limit_read x l | None => absent j "limit" end.

(** What is read. *)
Definition lmdb_read (j : json) (c : lmdb_conf) : Prop :=
  member j "db_path" (JStr (lc_path c)) /\
  member j "identifier" (match lc_ident c with Some s => JStr s | None => JNull end) /\
  (exists l, member j "conditions" (JArr l) /\
     Forall2 (fun i x => exists s d, member i "subscriptions" s /\ lists s (fst x) /\ member i "condition" d /\ cond_of d (snd x)) l (lc_conds c)) /\
  (exists l, member j "latest" l /\ subscribes l (lc_latest c)) /\
  (exists l, member j "timeseries" (JArr l) /\ Forall2 part_read l (lc_parts c)) /\
  ((exists v, member j "timeseries_max_results" v /\ whole v (lc_max c)) \/ absent j "timeseries_max_results" /\ lc_max c = 4096) /\
  (member j "timeseries_event_type_cache_size" (JInt (lc_cache c)) \/
   absent j "timeseries_event_type_cache_size" /\ lc_cache c = 262144) /\
  (exists v, member j "flush_period" v /\ number v (lc_flush c)) /\
  (exists v, member j "cleanup_period" v /\ number v (lc_cleanup c)).

(** Lists of query types in the configuration. *)
Definition listed (j : json) (qs : list etype) : Prop :=
  exists i s, (member j "latest" i \/ exists k l, (k = "conditions" \/ k = "timeseries") /\ member j k (JArr l) /\ In i l) /\
    member i "subscriptions" s /\ lists s qs.
(** A list of query types of which a subscription can be created (see C01). *)
Definition accepted (qs : list etype) : Prop := forall a q b, qs = a ++ q :: b -> valid_query q \/ shadowed a q.

(** Configurations that are not refused when the backend is created. *)
Definition usable (j : json) : Prop :=
  (forall qs, listed j qs -> accepted qs) /\ may j "timeseries_event_type_cache_size" (fun v => exists z, v = JInt z).
