(** A server process: engine, LMDB backend and eventer server, joined as in
    src_py/hat/event/server/main_runner.py:80-145 and engine_runner.py.  The
    engine gives batches to the backend (src_py/hat/event/server/engine.py:125,
    153), and the eventer server passes requests of clients to the engine and
    queries to the backend (src_py/hat/event/server/eventer_server.py:80-108).

    A coroutine runs without a pause from [await] of a call into the called
    coroutine up to its first [await] that has to wait: what the caller and the
    called one do until then is one step here.  Anything else in the process is
    arbitrary: modules, clients, other callers of the engine, flushes, cleanups,
    other queries, and registration of events of other servers by
    src_py/hat/event/server/eventer_client.py.  Notifications of events
    (backend.py:186-188, see C67) are steps of the server. *)
From Coq Require Import String Bool ZArith Arith List.
From Verif Require Import Base Model_Types Model_Subscription Model_Codec Model_Lmdb Model_LmdbSys Spec_Lmdb Spec_LmdbQuery Model_Engine Spec_Engine Model_Eventer.
Import ListNotations.
Open Scope list_scope.
Open Scope nat_scope.

(** Steps: of the engine; of the engine and the backend (a batch is given); of
    the backend; of the eventer server; of the server and the engine (a request
    is passed on); of the server and the backend (a query is passed on). *)
Inductive pstep :=
| SEngine (i : eitem)
| SBatch (i : eitem) (x : op * out)
| SBackend (x : op * out)
| SServer (i : vitem)
| SRegister (i : vitem) (j : eitem)
| SQuery (i : vitem) (x : op * out).

Definition engine_part (tr : list pstep) : list eitem :=
  flat_map (fun y => match y with SEngine i | SBatch i _ | SRegister _ i => [i] | _ => [] end) tr.
Definition backend_part (tr : list pstep) : list (op * out) :=
  flat_map (fun y => match y with SBatch _ x | SBackend x | SQuery _ x => [x] | _ => [] end) tr.
Definition server_part (tr : list pstep) : list vitem :=
  flat_map (fun y => match y with SServer i | SRegister i _ | SQuery i _ => [i] | _ => [] end) tr.

(** What the loop of a connection awaits: the future of a request to the engine,
    a query of the backend, or the query has returned or raised ([None]). *)
Inductive call := Registering (n : nat) | Querying (q : nat) | Found (a : option query_result).

Definition engine_calls (l : list vout) : list (nat * list reg_event) :=
  flat_map (fun x => match x with EngineCall c rs => [(c, rs)] | _ => [] end) l.
Definition query_calls (l : list vout) : list (nat * query_params) :=
  flat_map (fun x => match x with QueryCall c p => [(c, p)] | _ => [] end) l.

(** backend.py:196-211: the query of the backend. *)
Definition query_op (p : query_params) (q : nat) : op :=
  match p with QPLatest p => OLatest p | QPTimeseries p => OTs q p | QPServer p => OServer q p end.
Definition outcome (q : nat) (x : out) : call := match x with Answer a => Found a | _ => Querying q end.

(** A query returns to the connections that await it. *)
Definition settle (o : op) (x : out) (w : list (nat * call)) : list (nat * call) :=
  match o, x with
  | ODeliver q, Answer a => map (fun y => (fst y, match snd y with Querying k => if Nat.eqb k q then Found a else snd y | z => z end)) w
  | _, _ => w
  end.

(** Other use of the backend: events are of other servers; [used] are the
    numbers of queries so far. *)
Definition elsewhere (srv : Z) (used : list nat) (o : op) : Prop :=
  match o with
  | ORegister es => Forall (fun e => eid_server (ev_id e) <> srv) es
  | OServer q _ | OTs q _ => ~ In q used
  | OReopen _ => False
  | _ => True
  end.

(** The server goes on with what the engine or the backend answered; calls made
    before the engine was created are not known. *)
Definition fits (etr : list eitem) (w : list (nat * call)) (o : vop) : Prop :=
  match o with
  | VRegistered c r =>
      match nget c w with
      | Some (Registering n) => exists a, In (Reply n a) (outs_of etr) /\ match a with Events es => r = Some es | NoEvents => r = None | Failed => False end
      | Some _ => False
      | None => True
      end
  | VQueried c r =>
      match nget c w with
      | Some (Found a) => a = Some r
      | Some _ => False
      | None => True
      end
  | _ => True
  end.

(** A process since the creation of an engine, after [tr0] happened to the
    backend.  The flag tells that the backend was closed when it was given a
    batch: [register] raises (backend.py:146-147), so it does not return to the
    engine.  Otherwise it returns the events (backend.py:194). *)
Inductive process (srv : Z) (tr0 : list (op * out)) : list pstep -> list (nat * call) -> bool -> Prop :=
| process_start : process srv tr0 [] [] false
| process_engine : forall tr w b o l, process srv tr0 tr w b -> handed_in l = [] ->
    (forall ok, o = ERegistered ok -> ok = true /\ b = false) -> process srv tr0 (tr ++ [SEngine (o, l)]) w b
| process_batch : forall tr w b o l es x, process srv tr0 tr w b -> handed_in l = [es] ->
    process srv tr0 (tr ++ [SBatch (o, l) (ORegister es, x)]) w b
| process_refused : forall tr w b o l es, process srv tr0 tr w b -> handed_in l = [es] -> process srv tr0 (tr ++ [SEngine (o, l)]) w true
| process_backend : forall tr w b o x, process srv tr0 tr w b -> elsewhere srv (queries_of (tr0 ++ backend_part tr)) o ->
    process srv tr0 (tr ++ [SBackend (o, x)]) (settle o x w) b
| process_server : forall tr w b o l, process srv tr0 tr w b -> engine_calls l = [] -> query_calls l = [] -> fits (engine_part tr) w o ->
    process srv tr0 (tr ++ [SServer (o, l)]) w b
| process_register : forall tr w b o l c rs n k, process srv tr0 tr w b -> engine_calls l = [(c, rs)] ->
    process srv tr0 (tr ++ [SRegister (o, l) (ERegister (Request n (Source EVENTER (Z.of_nat c)) rs), k)]) (nset c (Registering n) w) b
| process_query : forall tr w b o l c p q x, process srv tr0 tr w b -> query_calls l = [(c, p)] -> ~ In q (queries_of (tr0 ++ backend_part tr)) ->
    process srv tr0 (tr ++ [SQuery (o, l) (query_op p q, x)]) (nset c (outcome q x) w) b
| process_query_refused : forall tr w b o l c p, process srv tr0 tr w b -> query_calls l = [(c, p)] ->
    process srv tr0 (tr ++ [SServer (o, l)]) (nset c (Found None) w) b.
