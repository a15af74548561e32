(** JSON schemas of the repository (schemas_json/) and their validation.

    [hat.json.DefaultSchemaValidator] (another package) is taken to validate
    according to JSON schema draft 2020-12, as the package [jsonschema] does:
    of its keywords those are modelled that occur in these schemas.  Keywords
    without influence on validation (title, description, default) are left
    out. *)
From Coq Require Import String Bool ZArith List.
From Verif Require Import Base Model_Types.
Import ListNotations.
Open Scope string_scope.
Open Scope list_scope.

(** A schema is a list of keywords: [type] (one name or several), [required],
    [properties], [items], [enum] and [const] (only of strings), [oneOf],
    [$ref]. *)
Inductive schema := Sch (l : list keyword)
with keyword :=
| KType (ts : list string)
| KRequired (ks : list string)
| KProps (ps : list (string * schema))
| KItems (s : schema)
| KEnum (vs : list string)
| KOneOf (ss : list schema)
| KRef (r : string).

Definition keywords (s : schema) : list keyword := let 'Sch l := s in l.

(** Types of values: a float without fraction is an integer, a boolean is not a
    number. *)
Definition float_is_int (m e : Z) : bool := ((0 <=? e) || (m mod 2 ^ (- e) =? 0))%Z.
Definition has_type (j : json) (t : string) : bool :=
  match j with
  | JNull => t =? "null"
  | JBool _ => t =? "boolean"
  | JInt _ => (t =? "integer") || (t =? "number")
  | JFloat m e => (t =? "number") || ((t =? "integer") && float_is_int m e)
  | JStr _ => t =? "string"
  | JArr _ => t =? "array"
  | JObj _ => t =? "object"
  end.

(** All results are there and are [true]. *)
Definition all_opt (l : list (option bool)) : option bool :=
  fold_right (fun (x r : option bool) => match x, r with Some a, Some b => Some (a && b) | _, _ => None end) (Some true) l.
(** The number of results that are [true]. *)
Definition count_opt (l : list (option bool)) : option nat :=
  fold_right (fun (x : option bool) (r : option nat) =>
    match x, r with Some a, Some b => Some ((if a then 1 else 0) + b)%nat | _, _ => None end) (Some 0%nat) l.

(** One keyword; [v] validates by another schema, [env] are the schemas that
    can be referred to, [ext] validates by schemas of other packages. *)
Definition keyword_ok (env : string -> option schema) (ext : string -> json -> bool) (v : schema -> json -> option bool) (j : json) (k : keyword) : option bool :=
  match k with
  | KType ts => Some (existsb (has_type j) ts)
  | KRequired ks => Some (match j with JObj o => forallb (fun x => dmem String.eqb x o) ks | _ => true end)
  | KProps ps =>
      match j with
      | JObj o => all_opt (map (fun p => match dget String.eqb (fst p) o with Some x => v (snd p) x | None => Some true end) ps)
      | _ => Some true
      end
  | KItems s => match j with JArr l => all_opt (map (v s) l) | _ => Some true end
  | KEnum vs => Some (match j with JStr x => existsb (String.eqb x) vs | _ => false end)
  | KOneOf ss =>
      match count_opt (map (fun s => v s j) ss) with
      | Some n => Some (Nat.eqb n 1)
      | None => None
      end
  | KRef r => match env r with Some s => v s j | None => Some (ext r j) end
  end.

(** Validation by a schema, of depth at most [n]; [None]: not enough. *)
Fixpoint valid (env : string -> option schema) (ext : string -> json -> bool) (n : nat) (s : schema) (j : json) : option bool :=
  match n with
  | O => None
  | S n' => all_opt (map (keyword_ok env ext (valid env ext n') j) (keywords s))
  end.

(** ** schemas_json/server.yaml *)

(** Some common forms. *)
Definition typed (t : string) : schema := Sch [KType [t]].
Definition const (s : string) : schema := Sch [KEnum [s]].
Definition object (required : list string) (ps : list (string * schema)) : schema :=
  Sch [KType ["object"]; KRequired required; KProps ps].
Definition array (s : schema) : schema := Sch [KType ["array"]; KItems s].
Definition ref (r : string) : schema := Sch [KRef r].

(** schemas_json/server.yaml:1-76 *)
Definition server_yaml : schema :=
  object ["name"; "server_id"; "backend"; "modules"; "eventer_server"]
    [("type", const "event");
     ("version", typed "string");
     ("log", ref "hat-json://logging.yaml");
     ("name", typed "string");
     ("server_id", typed "integer");
     ("server_token", Sch [KType ["string"; "null"]]);
     ("backend", ref "hat-event://server.yaml#/$defs/backend");
     ("modules", array (ref "hat-event://server.yaml#/$defs/module"));
     ("eventer_server", object ["host"; "port"] [("host", typed "string"); ("port", typed "integer")]);
     ("adminer_server", object ["host"; "port"] [("host", typed "string"); ("port", typed "integer")]);
     ("monitor_component", object ["host"; "port"; "group"] [("host", typed "string"); ("port", typed "integer"); ("group", typed "string")])].

(** ** schemas_json/backends/lmdb.yaml *)

(** schemas_json/backends/lmdb.yaml:1-64 *)
Definition lmdb_yaml : schema :=
  object ["db_path"; "identifier"; "flush_period"; "cleanup_period"; "conditions"; "latest"; "timeseries"]
    [("db_path", typed "string");
     ("identifier", Sch [KType ["null"; "string"]]);
     ("flush_period", typed "number");
     ("cleanup_period", typed "number");
     ("conditions", array (object ["subscriptions"; "condition"]
        [("subscriptions", ref "hat-event://backends/lmdb.yaml#/$defs/event_types");
         ("condition", ref "hat-event://backends/lmdb.yaml#/$defs/condition")]));
     ("latest", object ["subscriptions"] [("subscriptions", ref "hat-event://backends/lmdb.yaml#/$defs/event_types")]);
     ("timeseries", array (object ["order_by"; "subscriptions"]
        [("order_by", Sch [KEnum ["TIMESTAMP"; "SOURCE_TIMESTAMP"]]);
         ("subscriptions", ref "hat-event://backends/lmdb.yaml#/$defs/event_types");
         ("limit", ref "hat-event://backends/lmdb.yaml#/$defs/limit")]));
     ("timeseries_max_results", typed "integer");
     ("timeseries_event_type_cache_size", typed "integer")].

(** ** schemas_json/events.yaml, schemas_json/monitor_data.yaml *)

(** schemas_json/events.yaml:5-12 *)
Definition events_engine : schema := Sch [KEnum ["STARTED"; "STOPPED"]].
Definition events_eventer : schema := Sch [KEnum ["CONNECTED"; "DISCONNECTED"]].
(** schemas_json/events.yaml:13-37 *)
Definition events_synced : schema :=
  Sch [KOneOf
    [object ["state"] [("state", const "CONNECTED")];
     object ["state"] [("state", const "SYNCING")];
     object ["state"; "count"] [("state", const "SYNCED"); ("count", Sch [KType ["integer"; "null"]])]]].

(** schemas_json/monitor_data.yaml:1-26 *)
Definition monitor_data_yaml : schema :=
  object ["server_id"; "eventer_server"; "server_token"]
    [("server_id", typed "integer");
     ("eventer_server", object ["host"; "port"] [("host", typed "string"); ("port", typed "integer")]);
     ("server_token", Sch [KType ["string"; "null"]])].

(** Schemas that are referred to; hat-json://logging.yaml is that of another
    package. *)
Definition repo (r : string) : option schema :=
  if r =? "hat-event://server.yaml#/$defs/backend" then Some (object ["module"] [("module", typed "string")])       (* server.yaml:78-87 *)
  else if r =? "hat-event://server.yaml#/$defs/module" then Some (object ["module"] [("module", typed "string")])   (* server.yaml:88-97 *)
  else if r =? "hat-event://backends/lmdb.yaml#/$defs/event_types" then Some (array (array (typed "string")))       (* lmdb.yaml:66-71 *)
  else if r =? "hat-event://backends/lmdb.yaml#/$defs/limit" then                                                   (* lmdb.yaml:72-92 *)
    Some (Sch [KType ["object"];
               KProps [("min_entries", typed "number"); ("max_entries", typed "number"); ("duration", typed "number"); ("size", typed "number")]])
  else if r =? "hat-event://backends/lmdb.yaml#/$defs/condition" then                                               (* lmdb.yaml:93-97 *)
    Some (Sch [KOneOf [ref "hat-event://backends/lmdb.yaml#/$defs/conditions/all";
                       ref "hat-event://backends/lmdb.yaml#/$defs/conditions/any";
                       ref "hat-event://backends/lmdb.yaml#/$defs/conditions/json"]])
  else if r =? "hat-event://backends/lmdb.yaml#/$defs/conditions/all" then                                          (* lmdb.yaml:99-110 *)
    Some (object ["type"; "conditions"] [("type", const "all"); ("conditions", array (ref "hat-event://backends/lmdb.yaml#/$defs/condition"))])
  else if r =? "hat-event://backends/lmdb.yaml#/$defs/conditions/any" then                                          (* lmdb.yaml:111-122 *)
    Some (object ["type"; "conditions"] [("type", const "any"); ("conditions", array (ref "hat-event://backends/lmdb.yaml#/$defs/condition"))])
  else if r =? "hat-event://backends/lmdb.yaml#/$defs/conditions/json" then                                         (* lmdb.yaml:123-140 *)
    Some (object ["type"]
            [("type", const "json");
             ("data_path", ref "hat-event://backends/lmdb.yaml#/$defs/path");
             ("data_type", Sch [KEnum ["null"; "boolean"; "string"; "number"; "array"; "object"]]);
             ("data_value", Sch [])])
  else if r =? "hat-event://backends/lmdb.yaml#/$defs/path" then                                                    (* lmdb.yaml:141-147 *)
    Some (Sch [KOneOf [typed "string"; typed "integer"; array (ref "hat-event://backends/lmdb.yaml#/$defs/path")]])
  else None.

(** ** Validation *)

(** A depth that is enough. *)
Fixpoint jdepth (j : json) : nat :=
  match j with
  | JArr l => S (fold_right (fun x n => Nat.max (jdepth x) n) 0%nat l)
  | JObj l => S (fold_right (fun x n => Nat.max (jdepth (snd x)) n) 0%nat l)
  | _ => O
  end.

(** [validator.validate(id, data)] does not raise; [log_ok] tells what is
    accepted by hat-json://logging.yaml. *)
Definition validation (log_ok : json -> bool) (s : schema) (j : json) : option bool :=
  valid repo (fun _ => log_ok) (3 * jdepth j + 8) s j.
Definition validates (log_ok : json -> bool) (s : schema) (j : json) : bool :=
  match validation log_ok s j with Some b => b | None => false end.
