(** The event manager tool.  Models src_py/hat/event/manager/{main,common}.py.

    A command line is given by the texts of its options, each at most once
    (argparse itself splits the line; what is modelled of it are the conversions
    by [type], the check of [choices] and the defaults).  Everything outside of
    the tool is a record [world] of oracles: the standard conversions [float] and
    [int], the clock, files and the standard input, and the event server as seen
    through an eventer client. *)
From Coq Require Import String Ascii Bool ZArith QArith List.
From Verif Require Import Base Model_Types Model_Time Model_DbTool.
Import ListNotations.
Open Scope string_scope.
Open Scope list_scope.
Open Scope Z_scope.

(** ** Conversion to JSON *)

(** common.py:38-48 [_event_payload_to_json] *)
Definition mpayload_to_json (p : payload) : json :=
  match p with
  | PBinary ty data => JObj [("data_type", JStr "binary"); ("binary_type", JStr ty); ("data", JStr (hex data))]
  | PJson j => JObj [("data_type", JStr "json"); ("data", j)]
  end.

(** common.py:11-19 [event_to_json]; 27-30 [_event_id_to_json] and 33-35
    [_timestamp_to_json] are the same as those of lmdb/manager/common.py.  Named
    tuples are never false. *)
Definition mevent_to_json (e : event) : json :=
  JObj [("id", event_id_to_json (ev_id e)); ("type", JArr (map JStr (ev_type e)));
        ("timestamp", timestamp_to_json (ev_ts e));
        ("source_timestamp", match ev_src e with Some t => timestamp_to_json t | None => JNull end);
        ("payload", match ev_payload e with Some p => mpayload_to_json p | None => JNull end)].

(** common.py:22-24 [query_result_to_json] *)
Definition result_to_json (r : query_result) : json :=
  JObj [("events", JArr (map mevent_to_json (qr_events r))); ("more_follows", JBool (qr_more r))].

(** ** The outside *)

(** [hat.json.Format] as far as it is used *)
Inductive format := FJson | FYaml | FToml.

(** Result of [float(text)]. *)
Inductive pyfloat := FNum (q : Q) | FInf | FNan.

Record world := W {
  w_float : string -> option pyfloat;             (* None: ValueError *)
  w_int : string -> option Z;                     (* None: ValueError *)
  w_now : string -> timestamp;                    (* the clock, when the option is converted *)
  w_format : string -> option format;             (* json.get_file_format; None: ValueError *)
  w_stdin : format -> option json;                (* json.decode_stream of stdin; None: raises *)
  w_stdin_bytes : list Z;
  w_file : string -> format -> option json;       (* json.decode_file; None: raises *)
  w_file_bytes : string -> option (list Z);       (* Path.read_bytes; None: raises *)
  w_connect : bool;                               (* false: eventer.connect raises *)
  w_send : bool;                                  (* false: sending a request raises *)
  w_register : option (option (list event));      (* response to a registration; None: raises *)
  w_query : option query_result;                  (* response to a query; None: raises *)
  w_events : list (list event) }.                 (* events of the notifications until the client is closed *)

(** Arguments of [eventer.connect] (client.py:31-42). *)
Record conn_req := Conn { cr_name : string; cr_token : option string; cr_subs : list etype;
                          cr_server : option Z; cr_persisted : bool }.

(** What the tool does. *)
Inductive effect :=
| EConnect (r : conn_req)
| ERegister (es : list reg_event)
| EQuery (p : query_params)
| EPrint (j : json)
| EClose.

(** How it ends: a usage error of argparse (status 2), an uncaught exception
    (status 1), or the status returned by [main]. *)
Inductive ending := Usage | Raised | Status (n : Z).
Definition exit_status (x : ending) : Z := match x with Usage => 2 | Raised => 1 | Status n => n end.

(** Conversion of an argument. *)
Inductive conv (A : Type) := Conv (a : A) | BadUsage | BadRaise.
Arguments Conv {A} a. Arguments BadUsage {A}. Arguments BadRaise {A}.
Definition cbind {A B} (c : conv A) (f : A -> conv B) : conv B :=
  match c with Conv a => f a | BadUsage => BadUsage | BadRaise => BadRaise end.
Notation "'read' x <- c ; e" := (cbind c (fun x => e)) (at level 60, x name, right associativity).

Definition coption {A} (f : string -> conv A) (o : option string) : conv (option A) :=
  match o with None => Conv None | Some s => read a <- f s; Conv (Some a) end.

(** ** Conversions *)

(** main.py:296-300 [_parse_timestamp].  argparse turns [ValueError] into a
    usage error; [int(inf)] raises [OverflowError]. *)
Definition parse_timestamp (w : world) (opt : string) (s : string) : conv timestamp :=
  if String.eqb s "now" then Conv (w_now w opt)
  else match w_float w s with
       | None | Some FNan => BadUsage
       | Some FInf => BadRaise
       | Some (FNum q) => Conv (timestamp_from_float q)
       end.

(** main.py:303-304 [_parse_event_type] *)
Definition parse_event_type (s : string) : etype := split_slash s.

(** main.py:307-308 [_parse_event_id]: [EventId] is called with one argument,
    which raises [TypeError]. *)
Definition parse_event_id (s : string) : conv event_id := BadUsage.

(** [type=int] *)
Definition parse_int (w : world) (s : string) : conv Z := match w_int w s with Some n => Conv n | None => BadUsage end.

(** main.py:311-312 [_parse_order] and 86-89: looking up an unknown name raises
    [KeyError]; of a known name the member is then looked for among the names. *)
Definition parse_order (s : string) : conv order :=
  if String.eqb s "DESCENDING" then BadUsage else if String.eqb s "ASCENDING" then BadUsage else BadRaise.

(** main.py:315-316 [_parse_order_by] and 90-94: in the same way. *)
Definition parse_order_by (s : string) : conv order_by :=
  if String.eqb s "TIMESTAMP" then BadUsage else if String.eqb s "SOURCE_TIMESTAMP" then BadUsage else BadRaise.

(** main.py:40-44 [--payload-type] with its choices. *)
Inductive ptype := PtJson | PtYaml | PtToml | PtBinary | PtNone.
Definition parse_ptype (s : string) : conv ptype :=
  if String.eqb s "json" then Conv PtJson else if String.eqb s "yaml" then Conv PtYaml
  else if String.eqb s "toml" then Conv PtToml else if String.eqb s "binary" then Conv PtBinary
  else if String.eqb s "none" then Conv PtNone else BadUsage.

Definition or_raise {A B} (f : A -> B) (o : option A) : conv B := match o with Some a => Conv (f a) | None => BadRaise end.

(** main.py:319-382 [_read_payload] *)
Definition read_payload (w : world) (pt : option ptype) (btype path : string) : conv (option payload) :=
  match pt with
  | Some PtNone => Conv None
  | _ =>
    if String.eqb path "-" then
      match pt with
      | None | Some PtJson => or_raise (fun j => Some (PJson j)) (w_stdin w FJson)
      | Some PtYaml => or_raise (fun j => Some (PJson j)) (w_stdin w FYaml)
      | Some PtToml => or_raise (fun j => Some (PJson j)) (w_stdin w FToml)
      | _ => Conv (Some (PBinary btype (w_stdin_bytes w)))
      end
    else
      let fmt := match pt with
                 | None => w_format w path
                 | Some PtJson => Some FJson
                 | Some PtYaml => Some FYaml
                 | Some PtToml => Some FToml
                 | _ => None
                 end in
      match fmt with
      | Some f => or_raise (fun j => Some (PJson j)) (w_file w path f)
      | None => or_raise (fun b => Some (PBinary btype b)) (w_file_bytes w path)
      end
  end.

(** ** Command lines *)

(** main.py:33-141: the actions with the texts of their arguments. *)
Inductive action :=
| DoRegister (src ptype btype path : option string) (type : string)
| DoLatest (types : option (list string))
| DoTimeseries (types : option (list string)) (t_from t_to s_from s_to order order_by max_results last : option string)
| DoServerQuery (persisted : bool) (max_results last : option string) (server : string)
| DoSubscribe (server : option string) (persisted : bool) (types : list string)
| DoServer (server : option string) (persisted : bool) (types : list string).

(** Converted arguments. *)
Inductive parsed :=
| PRegister (src : option timestamp) (pt : option ptype) (btype path : string) (type : etype)
| PQuery (p : query_params)
| PServerQuery (persisted : bool) (max_results : option Z) (last : option event_id) (server : Z)
| PSubscribe (server : option Z) (persisted : bool) (types : list etype)
| PServer (server : option Z) (persisted : bool) (types : list etype).

Definition text_or (d : string) (o : option string) : string := match o with Some s => s | None => d end.
Definition or_default {A} (d : A) (o : option A) : A := match o with Some a => a | None => d end.

(** main.py:16-143 [create_argument_parser], as used in line 148; the query
    parameters of lines 166-180. *)
Definition parse_args (w : world) (a : action) : conv parsed :=
  match a with
  | DoRegister src pt btype path type =>
      read src <- coption (parse_timestamp w "source-timestamp") src;
      read pt <- coption parse_ptype pt;
      Conv (PRegister src pt (text_or "" btype) (text_or "-" path) (parse_event_type type))
  | DoLatest types => Conv (PQuery (QPLatest (QLatest (option_map (map parse_event_type) types))))
  | DoTimeseries types t_from t_to s_from s_to order order_by max_results last =>
      read t_from <- coption (parse_timestamp w "t-from") t_from;
      read t_to <- coption (parse_timestamp w "t-to") t_to;
      read s_from <- coption (parse_timestamp w "source-t-from") s_from;
      read s_to <- coption (parse_timestamp w "source-t-to") s_to;
      read order <- coption parse_order order;
      read order_by <- coption parse_order_by order_by;
      read max_results <- coption (parse_int w) max_results;
      read last <- coption parse_event_id last;
      Conv (PQuery (QPTimeseries (QTimeseries (option_map (map parse_event_type) types) t_from t_to s_from s_to
                                    (or_default DESCENDING order) (or_default TIMESTAMP order_by) max_results last)))
  | DoServerQuery persisted max_results last server =>
      read max_results <- coption (parse_int w) max_results;
      read last <- coption parse_event_id last;
      read server <- parse_int w server;
      Conv (PServerQuery persisted max_results last server)
  | DoSubscribe server persisted types =>
      read server <- coption (parse_int w) server;
      Conv (PSubscribe server persisted (map parse_event_type types))
  | DoServer server persisted types =>
      read server <- coption (parse_int w) server;
      Conv (PServer server persisted (map parse_event_type types))
  end.

(** ** Actions *)

(** eventer/client.py:129-146 [Client.register]: without [with_response] the
    request is only sent. *)
Definition client_register (w : world) (with_response : bool) : option (option (list event)) :=
  if with_response then w_register w else if w_send w then Some None else None.

(** main.py:225-240 [register] *)
Definition run_register (w : world) (name : string) (token : option string) (e : reg_event) : list effect * ending :=
  let c := EConnect (Conn name token [] None false) in
  if w_connect w then
    match client_register w false with
    | None => ([c; ERegister [e]; EClose], Raised)
    | Some None => ([c; ERegister [e]; EClose], Status 1)
    | Some (Some _) => ([c; ERegister [e]; EClose], Status 0)
    end
  else ([c], Raised).

(** main.py:243-258 [query] *)
Definition run_query (w : world) (name : string) (token : option string) (p : query_params) : list effect * ending :=
  let c := EConnect (Conn name token [] None false) in
  if w_connect w then
    match w_query w with
    | None => ([c; EQuery p; EClose], Raised)
    | Some r => ([c; EQuery p; EPrint (result_to_json r); EClose], Status 0)
    end
  else ([c], Raised).

(** main.py:261-284 [subscribe] *)
Definition run_subscribe (w : world) (name : string) (token : option string) (subs : list etype) (server : option Z)
    (persisted : bool) : list effect * ending :=
  let c := EConnect (Conn name token subs server persisted) in
  if w_connect w then
    (c :: map (fun es => EPrint (JArr (map mevent_to_json es))) (w_events w) ++ [EClose], Status 0)
  else ([c], Raised).

(** [args.event_types or [('*', )]] *)
Definition or_all (types : list etype) : list etype := match types with [] => [["*"]] | _ => types end.

(** main.py:146-222 [main].  Lines 183-187 call [QueryTimeseriesParams] with
    arguments it does not have; lines 287-293 [server] raises. *)
Definition manager_main (w : world) (name : option string) (token : option string) (a : action) : list effect * ending :=
  let name := text_or "manager" name in
  match parse_args w a with
  | BadUsage => ([], Usage)
  | BadRaise => ([], Raised)
  | Conv (PRegister src pt btype path type) =>
      match read_payload w pt btype path with
      | Conv p => run_register w name token (RegEv type src p)
      | _ => ([], Raised)
      end
  | Conv (PQuery p) => run_query w name token p
  | Conv (PServerQuery _ _ _ _) => ([], Raised)
  | Conv (PSubscribe server persisted types) => run_subscribe w name token (or_all types) server persisted
  | Conv (PServer _ _ _) => ([], Raised)
  end.
