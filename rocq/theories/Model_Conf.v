(** Reading of configuration.  Models src_py/hat/event/server/main.py:44-67,
    what src_py/hat/event/server/main_runner.py, engine_runner.py, engine.py and
    eventer_client_runner.py take from the configuration of the server, and
    src_py/hat/event/backends/lmdb/backend.py:50-104 with conditions.py:5-57,
    what the LMDB backend takes from its own.  [None] is an exception.

    Where the code uses a value without looking at its type, a value of a type
    for which it isn't meant is taken as an exception, except for numbers. *)
From Coq Require Import String Ascii Bool ZArith QArith Qround List.
From Verif Require Import Base Model_Types Model_Subscription Model_Codec Model_Sbs Model_Conditions Model_Monitor Model_Lmdb Model_Schema.
Import ListNotations.
Open Scope string_scope.
Open Scope list_scope.
Open Scope Z_scope.

(** ** Access to JSON data *)

(** [conf[k]] *)
Definition getitem (k : string) (j : json) : option json := match j with JObj o => dget String.eqb k o | _ => None end.
(** [conf.get(k)], without and with that key; [k in conf] *)
Definition getopt (k : string) (j : json) : option (option json) := match j with JObj o => Some (dget String.eqb k o) | _ => None end.
(** Iteration over a list, over the keys of a dictionary or over the
    characters (here bytes) of a string. *)
Definition items_of (j : json) : option (list json) :=
  match j with
  | JArr l => Some l
  | JObj o => Some (map (fun x => JStr (fst x)) o)
  | JStr s => Some (map (fun c => JStr (String c "")) (list_ascii_of_string s))
  | _ => None
  end.

(** Numbers. *)
Definition float_value (m e : Z) : Q := if 0 <=? e then inject_Z (m * 2 ^ e) else m # Z.to_pos (2 ^ (- e)).
Definition as_num (j : json) : option Q :=
  match j with
  | JInt z => Some (inject_Z z)
  | JFloat m e => Some (float_value m e)
  | _ => None
  end.
(** A number that is only compared with integers: for an integer [n], [n <= x]
    is [n <= floor x]. *)
Definition as_count (j : json) : option Z := option_map Qfloor (as_num j).

Definition opt_read {A} (f : json -> option A) (o : option json) : option (option A) :=
  match o with None => Some None | Some j => do x <- f j; Some (Some x) end.

(** ** The server *)

(** What the parts of the server take: main_runner.py:79-144,
    eventer_client_runner.py:65-91, engine_runner.py:77-78, engine.py:47-48.
    The server id and ports are used as they are. *)
Record server_conf := ServerConf {
  sv_name : string; sv_id : json; sv_token : option string; sv_module : string; sv_backend : json; sv_modules : list (string * json);
  sv_host : string; sv_port : json; sv_adminer : option (string * json); sv_monitor : option (string * json * string); sv_log : option json }.

Definition read_server (conf : json) : option server_conf :=
  do backend <- getitem "backend" conf;                                 (* main_runner.py:81 *)
  do module <- (do m <- getitem "module" backend; as_str m);            (* main_runner.py:82 *)
  do es <- getitem "eventer_server" conf;                               (* main_runner.py:91-92 *)
  do host <- (do x <- getitem "host" es; as_str x);
  do port <- getitem "port" es;
  do id <- getitem "server_id" conf;                                    (* main_runner.py:94 *)
  do token <- (do x <- getopt "server_token" conf;                      (* main_runner.py:95 *)
               match x with Some t => as_token t | None => Some None end);
  do log <- getopt "log" conf;                                          (* main.py:62, main_runner.py:103 *)
  do adminer <- (do x <- getopt "adminer_server" conf;                  (* main_runner.py:98-102 *)
                 opt_read (fun a => do h <- (do x <- getitem "host" a; as_str x); do p <- getitem "port" a; Some (h, p)) x);
  do name <- (do x <- getitem "name" conf; as_str x);                   (* main_runner.py:123, eventer_client_runner.py:87 *)
  do monitor <- (do x <- getopt "monitor_component" conf;               (* main_runner.py:106,121-124 *)
                 opt_read (fun m => do h <- (do x <- getitem "host" m; as_str x); do p <- getitem "port" m;
                                    do g <- (do x <- getitem "group" m; as_str x); Some (h, p, g)) x);
  do ms <- getitem "modules" conf;                                      (* engine_runner.py:77 *)
  do l <- items_of ms;
  do modules <- traverse (fun m => do n <- (do x <- getitem "module" m; as_str x); Some (n, m)) l;   (* engine.py:47-48 *)
  Some (ServerConf name id token module backend modules host port adminer monitor log).

(** main_runner.py:126-128: data published by the monitor *)
Definition monitor_data (c : server_conf) (es : json) : json :=
  JObj [("server_id", sv_id c); ("eventer_server", es); ("server_token", match sv_token c with Some t => JStr t | None => JNull end)].

(** main.py:44-67 [sync_main]: the server is run.  [backends] and [modules] say
    what importing gives: an exception, or information with or without a schema,
    which is known by what it accepts; [dict_ok] tells whether
    [logging.config.dictConfig] returns. *)
Definition info_ok (i : option (option (json -> bool))) (conf : json) : bool :=
  match i with None => false | Some None => true | Some (Some f) => f conf end.
Definition truthy (j : json) : bool :=
  match j with
  | JNull => false
  | JBool b => b
  | JInt z => negb (z =? 0)
  | JFloat m _ => negb (m =? 0)
  | JStr s => negb (String.eqb s "")
  | JArr l => match l with [] => false | _ => true end
  | JObj l => match l with [] => false | _ => true end
  end.
Definition sync_main (log_ok dict_ok : json -> bool) (backends modules : string -> option (option (json -> bool))) (conf : json) : bool :=
  validates log_ok server_yaml conf &&
  match (do b <- getitem "backend" conf;
         do m <- (do x <- getitem "module" b; as_str x);
         do l <- (do x <- getitem "modules" conf; items_of x);
         do r <- traverse (fun c => do n <- (do x <- getitem "module" c; as_str x); Some (info_ok (modules n) c)) l;
         do log <- getopt "log" conf;
         Some (info_ok (backends m) b && forallb (fun x => x) r &&
               match log with Some x => if truthy x then dict_ok x else true | None => true end)) with
  | Some b => b
  | None => false
  end.

(** backends/lmdb/__init__.py:7-9: information of the LMDB backend *)
Definition lmdb_info (log_ok : json -> bool) : option (option (json -> bool)) := Some (Some (validates log_ok lmdb_yaml)).

(** ** The LMDB backend *)

(** [tuple(i) for i in conf]: event types *)
Definition read_types (j : json) : option (list etype) :=
  do l <- items_of j; traverse (fun i => do s <- items_of i; traverse as_str s) l.

(** conditions.py:23-57 [_create_condition]; [n] bounds the recursion. *)
Fixpoint read_cond (n : nat) (j : json) : option condition :=
  match n with
  | O => None
  | S n' =>
      do t <- (do x <- getitem "type" j; as_str x);
      if (t =? "all")%string then do l <- (do x <- getitem "conditions" j; items_of x); do cs <- traverse (read_cond n') l; Some (CAll cs)
      else if (t =? "any")%string then do l <- (do x <- getitem "conditions" j; items_of x); do cs <- traverse (read_cond n') l; Some (CAny cs)
      else if (t =? "json")%string then
        do p <- getopt "data_path" j;
        do ty <- (do x <- getopt "data_type" j; opt_read as_str x);
        do v <- getopt "data_value" j;
        Some (CJson p ty v)
      else None
  end.

(** conditions.py:8-13, without creation of the collection (see
    Model_Conditions.v) *)
Definition read_conds (j : json) : option (list (list etype * condition)) :=
  do l <- items_of j;
  traverse (fun i =>
    do s <- (do x <- getitem "subscriptions" i; read_types x);
    do _n <- py_create s;
    do c <- (do x <- getitem "condition" i; read_cond (S (jdepth x)) x);
    Some (s, c)) l.

(** backend.py:77-83.  A size with a fraction is taken without it. *)
Definition read_limit (j : json) : option limit :=
  do a <- (do x <- getopt "min_entries" j; opt_read as_count x);
  do b <- (do x <- getopt "max_entries" j; opt_read as_count x);
  do c <- (do x <- getopt "duration" j; opt_read as_num x);
  do d <- (do x <- getopt "size" j; opt_read as_count x);
  Some (Limit a b c d).

(** backend.py:72-84, [common.OrderBy[...]] *)
Definition read_order (j : json) : option order_by :=
  do s <- as_str j;
  if (s =? "TIMESTAMP")%string then Some TIMESTAMP else if (s =? "SOURCE_TIMESTAMP")%string then Some SOURCE_TIMESTAMP else None.
Definition read_part (j : json) : option partition :=
  do o <- (do x <- getitem "order_by" j; read_order x);
  do s <- (do x <- getitem "subscriptions" j; do s <- read_types x; py_create s);
  do l <- (do x <- getopt "limit" j; opt_read read_limit x);
  Some (Partition o s l).

(** backend.py:29-31 *)
Definition default_timeseries_max_results : Z := 4096.
Definition default_timeseries_event_type_cache_size : Z := 256 * 1024.

Record lmdb_conf := LmdbConf {
  lc_path : string; lc_ident : option string; lc_conds : list (list etype * condition); lc_latest : node; lc_parts : list partition;
  lc_max : Z; lc_cache : Z; lc_flush : Q; lc_cleanup : Q }.

(** backend.py:50-99.  [functools.lru_cache] (timeseriesdb.py:53-54) raises
    [TypeError] for a size which isn't an integer. *)
Definition read_lmdb (conf : json) : option lmdb_conf :=
  do conds <- (do x <- getitem "conditions" conf; read_conds x);                      (* 57 *)
  do path <- (do x <- getitem "db_path" conf; as_str x);                              (* 64 *)
  do latest <- (do x <- getitem "latest" conf; do y <- getitem "subscriptions" x;     (* 69-70 *)
                do s <- read_types y; py_create s);
  do parts <- (do x <- getitem "timeseries" conf; do l <- items_of x; traverse read_part l);   (* 72-84 *)
  do max <- (do x <- getopt "timeseries_max_results" conf; opt_read as_count x);      (* 86-87 *)
  do cache <- (do x <- getopt "timeseries_event_type_cache_size" conf; opt_read as_int x);     (* 88-90 *)
  do ident <- (do x <- getitem "identifier" conf; as_token x);                        (* 93 *)
  do flush <- (do x <- getitem "flush_period" conf; as_num x);                        (* 97 *)
  do cleanup <- (do x <- getitem "cleanup_period" conf; as_num x);                    (* 98-99 *)
  Some (LmdbConf path ident conds latest parts
          (match max with Some n => n | None => default_timeseries_max_results end)
          (match cache with Some n => n | None => default_timeseries_event_type_cache_size end) flush cleanup).

(** backend.py:57,92-95: the configuration as it is used by Model_Lmdb.v;
    [jget] is [hat.json.get].  The C collection of event types is used. *)
Definition conf_of (jget : json -> json -> json) (version : string) (c : lmdb_conf) : option conf :=
  do f <- conditions_c jget (lc_conds c);
  Some (Conf version (lc_ident c) f (lc_latest c) (lc_parts c) (lc_max c)).

(** ** Server id *)

(** [struct.pack] of an id of an event with the configured server id
    (lmdb/common.py:172-174): a float is refused. *)
Definition encode_id (id : json) (session instance : Z) : option bytes :=
  do n <- as_int id; encode_event_id (Eid n session instance).
