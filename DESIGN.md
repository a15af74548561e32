# Design of the formal model of hat-event

Prover: Coq 8.16.1, standard library only. Sources under `rocq/theories`.
`/repo` is read as text only; line references in comments are to the pinned
commit.

## Method

* The model is written function by function as small total Gallina functions.
  Python exceptions are values (`option`, or a result type where the kind of
  failure matters).  `dict` is an insertion ordered association list, an LMDB
  database is a key-sorted association list, a transaction is a pure function
  from database to database (all or nothing), the asyncio event loop is a
  transition system whose steps are the code segments between two `await`s.
* `theories/Model_*.v` hold the model, each definition with a comment that
  cites the lines it models and says what was simplified.
  `theories/Spec_*.v` hold the specifications, which do not use model
  functions.  `theories/Proof_*.v` hold lemmas.  `theories/Prop_*.v` hold only
  the property theorems, each closed by `exact`, with `Print Assumptions` and
  a concrete `Example` that meets the hypotheses.
* If the full claim is false for the faithful model, a theorem
  `..._refuted` exhibits the counterexample, and the part which holds is
  proved under the name `..._partial`.

## Properties

One row per property: what is modelled, how the theorems are proved, and what
does not hold.  Theorems are named `Cxx_*` in `Prop_*.v`; the complete list is in
`MANIFEST.json`.  "TS" stands for a transition system whose executions are all
covered by an invariant.

| id | modelled | how proved | what fails |
|----|----------|------------|------------|
| C01 | subscription tree, `_add_query_type`, `_matches`, `matches_query_type` | induction over query types and tree paths | |
| C02 | `node_to_query_types` | induction on the tree, with the C01 denotation | |
| C03 | `union` (Python and C class) | induction on trees | |
| C04 | `intersection` | soundness by induction; two ways of matching (by a '*', otherwise) which union and intersection respect; places of the tree against the list of query types (`Proof_Overlap`) | `('*',)` with `()` loses `()` |
| C05 | `_isdisjoint` | induction on trees without dead nodes, constructing a common event type; union makes no dead nodes | trees made by `intersection`: sound only |
| C06 | the C node tree and its four functions | simulation between C tree and Python tree; pairs of compatible places at which `isdisjoint` stops, translated to query types (`Proof_Overlap2`) | `isdisjoint` of C; segments with NUL |
| C07 | three collections with add/remove/get | invariant over operation lists | `PyTree` with repeated additions |
| C08 | `Event.__lt__`, `__gt__` | lexicographic orders | |
| C09 | timestamp bytes | big endian codec library | |
| C10 | `Timestamp.add`, datetime conversions | exact rounding on rationals | datetimes before the epoch, far datetimes |
| C11 | all `*_to_sbs`, `*_from_sbs` | structural, and every encoded value conforms to the schema `eventer.sbs` | |
| C12 | key encoders/decoders | big endian codec library, order of concatenations | |
| C13 | reference list codec | induction | |
| C14 | `LmdbBackend.register`, `SystemDb` | TS with flush, crash, cleanup, reopening | |
| C15 | `LatestDb` | TS, relating memory and database to the accepted history | |
| C16 | flush and restart | refinement of an abstract history | |
| C17 | `TimeseriesDb.query` and helpers | functional correctness against a specification by filter, order and prefix | order with pending events of two servers |
| C18 | repeated query | induction on pages | |
| C19 | `RefDb.query` and helpers | functional correctness | after changes of conditions |
| C20 | repeated query | induction on pages | same |
| C21 | REF, LATEST, TIMESERIES databases | TS | stale references after changes of conditions |
| C22 | TIMESERIES_COUNT | TS | |
| C23 | crash as return to the last committed database | refinement | |
| C24 | flush queue and loop | TS; answers proved, and that the loop can always answer | |
| C25 | registered queue, flushed callback | TS | raising callback |
| C26 | queries concurrent with flush and cleanup | TS of event loop and worker | stale references; out of order pending entries |
| C27 | `_ext_cleanup_partition`, `ext_cleanup`, loop | induction; the size limit is an oracle number of entries | |
| C28 | `_ext_init_partitions` | invariant over openings | |
| C29 | conditions | induction on condition trees | JSON equality (`true == 1`) |
| C30 | `_ext_validate_settings` | induction over openings | |
| C31, C32, C33 | engine sessions and processing | TS, modules are arbitrary | |
| C34 | engine life cycle | TS | requests before a failed creation |
| C35 | engine and backend over restarts | composition of both systems | unselected events; crash |
| C36 | `notify_events` | functional | |
| C37 | server and client status | TS of server and client | given up call |
| C38 | connection loop admission | TS | covered query types; raising engine |
| C39 | acknowledgements | TS | another connection ending |
| C40 | client conversations | TS, alone and together with the server | closing before the first step of the receive loop |
| C41 | synchronization client with a remote | TS | a batch may be given twice (but is stored once) |
| C42 | batching of `_synchronize` | induction over pages | |
| C43 | `EventerClientRunner` | TS | |
| C44 | `EngineRunner` | TS | cycle at the end; remote active after STARTING |
| C45, C57 | `Component` | TS | |
| C46 | both conversions, on decoded databases | functional | |
| C47 | database copy | functional | |
| C48 | memory backend | functional, invariant over registrations | all but latest queries |
| C49 | timestamp as float | exact rounding on rationals | |
| C50 | closing of the backend | TS of C24 | |
| C51 | failing write | TS of C24 | later changes are written |
| C52 | answers of the eventer server | TS of C38 | |
| C53 | notifications at the client | TS of C40 | |
| C54 | reported synchronization states | TS of C41 | |
| C55, C56 | component's runner and reconnection | TS of C45 | runner returned just before a cancellation; loss while the callback runs |
| C58 | a converted database behind the engine | composition of conversion, backend and engine ids | events of another server |
| C59, C60 | `MainRunner` | TS, with the ability to end | client runner closed before its user; lost reset |
| C61 | printing tool of LMDB databases | functional | references, latest events |
| C62 | adminer clients and server | TS; linearizability by commit points | |
| C63 | same | TS | late response of a given up call |
| C64 | manager tool | functional, over an arbitrary outside | some options, server queries, exit status |
| C65 | memory of the C collection | explicit heap; separation invariant with ghost tree; every pattern of failing allocations | |
| C66 | memory and references of the C subscription | explicit heap and object store; accounting of all references; every pattern of failing calls | a lost reference to `"*"`; `NULL` used if one tuple cannot be made |
| C67 | engine, flush loop, eventer server and client together | composition of C25, C31, C36, C53 along joint executions | engine interrupted while clients are told of a batch |
| C68 | conversion of files, byte for byte | refinement of the conversion of C46 over arbitrary JSON and SBS codecs | source named as the intermediate file |
| C69 | JSON schemas, `sync_main`, reading of configuration | validation decides an independent inductive form; what is read is compared with the members of the object | subscriptions and cache sizes that are accepted and can't be used, server ids that can't be stored |
| C70 | events and monitor data of the server | invariant on the origin of events; validation by the schemas | `server_id` 1.0 is published and ignored |
| C71 | paging through timeseries queries while events are registered, flushed and removed | invariant over pages: what precedes the last id has been received; order of keys | the last event of a page is removed before the next page; pending events of two servers |
| C72 | engine, eventer server and LMDB backend in one process: acknowledged events are found | projection of joint executions onto the components; requests in flight; what a batch becomes in the backend (C15, C16, C17) | the clock goes back |
| C73 | a server with the LMDB backend following a remote one over any number of connections, crashes and restarts of both: no gaps | the trace is seen as one connection to a remote without former clients; joint invariant of what was given (C41) and accepted (C14, C15) | the clock of the remote goes back; the remote is restarted after it notified an event it does not store (its id is used again) |
| C74 | two servers with the LMDB backend, one following the other one: what is in the database of the first one comes to the second one | refinement: every execution of the two is one of C73, where the abstract remote stores what a write transaction adds and removes what a flush or cleanup removes; the pages are those of the database (C20) | the clock of the first one goes back; it is restarted after it notified an event it does not store |
| C75 | what a server has acknowledged to a client and flushed comes to the server that follows it and is found there | composition: the backend of the process of C72 is the first server of C74, so the written event is in its database and comes to the second one; there C15 and C26 give the queries | killed before the flush |
| C76 | two servers that are left alone come to rest after a bounded number of steps; then the follower is synchronized and has everything | a measure of what is left to do (registered batches, jobs, messages, the phase of the client, events above the last id) that each step makes smaller; an invariant of the phase of the client with which in every state that is not the final one some step is possible; C74 for what the follower has | the clock goes back |
| C77 | acknowledged events come to the following server when both are left alone | C72: when the client has its answer, the events are among those the backend has accepted, and stay there as long as it is not restarted; C76 | the first server is killed before it has written |
| C78 | the dummy backend: each batch passed on once, nothing kept, ids repeated | invariant: what is seen of a call is a beginning of the whole one, up to the callback it waits for; engine of C17 for the ids | overlapping registrations: flushed callbacks in another order; ids across restarts; calls after closing |
| C79 | the process ends: all that was acknowledged is written, and it does end | invariant joining `async_main`, main runner and flush loop: the backend is closed last and only when its loop is done; then C50, C72, C15; liveness by composing C60 and C24 | a write transaction raises |
| C80 | an interrupted conversion: source kept, destination empty or complete, can be repeated | all states in which the loop of `convert` may stop, by cases of the two conversions; then C68 for the second attempt | source named as the intermediate file; running again without removing the destination; a server does not notice an empty destination |
| C81 | a server goes on from a converted database | every consistent database stands for a history of accepted events, ordered by id; the invariant of C14-C28 starts from there instead of from the empty database | events of version 0.6 the server's own; queries with the limits of C17 and C19 |
| C82 | databases over any number of server processes and copies | copies and servers keep databases consistent, by induction on what is done; the content of a run (C15, C21, C22) shows its database to be consistent, with the events removed so far as witnesses of last ids; then C47, C81 | configurations that stop accepting an event |
| C83 | copies of files: complete or empty, source kept, can be made again | bytes of each database follow its decoded entries through the copy (keys keep their order when encoded, C12); the states in which `copy` may stop by cases; then C47 | repeating without removing the destination, noticing a stopped copy: both refuted |
| C84 | bytes of the file through openings, flushes, cleanups; queries over encoded keys | refinement: each operation on bytes gives a file from which the result of the operation on decoded entries is read; encoded keys keep their order (C12), so cursors move alike | numbers that do not fit (a flush fails then, refuted); codecs of libraries, statistics of LMDB assumed |
| C85 | the backend on the bytes of its file gives the same answers as on decoded entries | simulation: each step of `Model_LmdbSys` is one of `Model_LmdbFile`, by C84; steps on files are functions of the operation, so nothing else can be seen; from new and from existing files | numbers that do not fit; assumptions of C84 |

## Trusted base

1. Coq's kernel (8.16.1) and the build tools.
2. Axioms: none.  `Print Assumptions` below every theorem of `Prop_*.v` says
   "Closed under the global context".
3. The faithfulness of the model: every `Definition` of `Model_*.v` cites the
   lines it stands for, and the header of each file says what is left out.
4. The meaning of the statements: `Spec_*.v`, and the parts of `Model_*.v`
   which statements mention (data types, and the function that runs the model).
5. The assumptions about everything outside of the repository, listed next.

### Assumptions about other packages

* **LMDB**: transactions are atomic and durable; keys are ordered bytewise.  Keys
  and values in `Model_Lmdb.v` are decoded; C11 to C13 justify this.
* **SBS, JSON text**: decoding inverts encoding.
* **hat.drivers.chatter**: `send` raises `ConnectionError` once the connection is
  closed and otherwise hands the message over before it gives up control;
  messages of one direction keep their order; conversations of a connection are
  distinct; `receive` raises once the connection is closed.
* **asyncio**: code between two `await`s is not interrupted; a task cancelled
  before its first step does nothing.
* **hat.aio**: `Queue` is first in first out, `put` waits while it is full and
  raises once it is closed, items can still be taken from a closed queue;
  closing a group cancels its tasks, and a closed group starts none;
  `uncancellable` runs to its end; `Executor(1)` runs functions one after
  another in the order of the calls.
* **hat.monitor**: the component sets its state and calls its callback in one go,
  runs one runner at a time and none after closing; of its records only what is
  used is modelled.
* **hat.json.get** is a parameter of C29 and of the monitor model; **dictConfig**
  raises or not (partial application is not modelled).
* **floats**: 53 significant bits, rounding to nearest even, unbounded exponent.

### Assumptions about the use of the code

* *Database* (C14 to C30, C47, C61): integers are in the range of the encodings;
  the configuration has distinct partition definitions and valid query types
  (`conf_ok`), events have valid payloads (`event_ok`); how many entries a size
  limit removes is an oracle.  LMDB's map is never full except where a write is
  allowed to raise (C24, C25, C50, C51).
* *Flush loop* (C24, C25, C50, C51): the environment is open during a flush;
  `register`'s wake up of the loop may happen at any time (over-approximation);
  the configuration without flushed callback is not modelled.
* *Engine* (C31 to C35): the register loop is not cancelled before it ran at all
  and not a second time during the registration of the STOPPED event; integers
  are unbounded; the backend answers with the given events or `None`.
* *Synchronization* (C41, C42, C54): only this client writes events of the
  remote; the remote is seen through C14, C19, C25, C30 and C36; nothing follows
  the closing of the connection.
* *Following a remote* (C73): one client at a time writes events of the remote
  to the local backend; a batch is registered in the step in which it is given
  (`register` of the LMDB backend does not pause); the local server is restarted
  when it has no connection; the remote is that of C41; when it is restarted it
  keeps what it committed, forgets what it did not notify, and takes ids above
  the last stored one.
* *Two servers* (C74): as for C73, but the remote is the LMDB backend with its
  flush loop (C25, C20); ids its engine gives grow (C30); queries have distinct
  numbers; the connection keeps the order of messages and one query is asked at
  a time; a query that raises gets no answer; the client subscribes to all types
  of the remote's server.
* *Acknowledged events at a follower* (C75): the assumptions of C72 for the first
  server's process and those of C74 for the two.
* *Two servers left alone* (C76): those of C74; a round of the flush loop begins
  when there is something to flush or somebody waits for it (in the code also
  periodically, with nothing to do); the number of steps is bounded, real time
  is not considered.
* *Acknowledged events and two servers left alone* (C77): those of C72 and C76.
* *End of the process* (C79): a signal cancels `async_main`; `aio.uncancellable`
  is not cancelled by a second one; `async_close` of the backend returns once its
  flush loop has ended; nobody but the main runner closes the backend.
* *Dummy backend* (C78): `aio.call` calls its callback at once and ends when the
  callback does; a call is the body of the method up to its next `await`.
* *Remote activity* (C43): callbacks do not raise; there is no `await` between
  the initial response and the first report of the client's status.
* *Engine runner* (C44): calls that are waited for may return or raise at any
  time, a restart may be asked for at any time, the flag of remotes is arbitrary.
* *Component* (C45, C55 to C57): its queue is unbounded (1024 in the code),
  cancellation is applied when it is requested, the callback does not swallow
  it, closing of runner and client does not raise.
* *Conversion* (C46, C58): `get_version` tells versions apart, a conversion is
  complete or gives no result, numbers of ordered keys are event instances,
  server numbers are not negative.
* *Interrupted conversion* (C80): a write transaction of LMDB is written as a
  whole or not at all; opening a database is one, the conversion to 0.9 is one;
  what is written to the intermediate file before its conversion ends is arbitrary.
* *Copies of files* (C83): as for C80, a write transaction is written as a whole or
  not at all, and opening a database is one; an environment opened for reading
  only is not created; keys of a database are bytes in increasing order
  (`file_ok`); files of locks and LMDB's limits of size are not modelled.
* *Files of a running server* (C84): a file is a list of databases with keys and
  values as bytes, in the order of the bytes of keys (LMDB's default order);
  a transaction is one function from file to file; the JSON and SBS libraries are
  the functions `codecs`, of which `codecs_ok` is assumed, and for server queries
  that an empty value is not a valid event; the size that a cleanup gets from
  LMDB's statistics is a given function that depends only on the content;
  after the last entry is deleted the cursor is at the end, as in `Model_LmdbCleanup`.
  Limits of the size of keys (511 bytes) and of the file are not modelled.
* *Going on from a converted database* (C81): databases of former versions are
  assumed to be consistent as stated by `sound7`, `sound6` (`Spec_Resume`): among
  others, the definitions of partitions are subscriptions of the present form.
* *Conversion of files* (C68): `Spec_ConvertBytes.v` gives the formats; a path is
  one file and is compared as text; a conversion that raises leaves anything in
  its destination; LMDB's limits of size, and files that are not LMDB
  environments, are not modelled.  What the libraries have to do is the
  hypothesis `codecs_ok`, which `Ex_ConvertBytes.v` shows can be met.
* *Memory backend* (C48): callbacks do not raise; generators are lazy.
* *Main runner* (C59, C60): a failed or cancelled creation leaves nothing;
  closing does not raise.
* *Adminer* (C62, C63): each side may notice the closing of a connection at any
  time.
* *Manager tool* (C64): argparse splits the line; each option is given at most
  once.
* *C collection* (C65): an allocation gives memory that is not in use, or fails;
  `hat_ht` of hat-core is a correct table whose creation and insertion may fail;
  segments can be encoded as UTF-8; code of the values run by `PySet_Add` and
  `Py_DECREF` does not use the collection; `PySet_Add`, `deque.append` do not fail.
* *C subscription* (C66): the same about allocations and `hat_ht`; query types are
  tuples of strings or of other objects without items; iterators over them do not
  raise; the references to types, `None` and the class of the deque are not
  modelled; no other thread and no destructor changes the objects in use.

* *Configurations* (C69, C70): validation is that of draft 2020-12 for the
  keywords which the schemas use; a boolean is no number, a float without
  fraction is an integer; what hat-json://logging.yaml accepts and whether
  `dictConfig` returns is arbitrary, and so is what importing of a backend or a
  module gives.  Members of objects are distinct or the first one counts.
  Where the code uses a value of a wrong type, which an accepted configuration
  doesn't have, reading fails.  Limits are compared with integers, so they are
  rounded down.  `functools.lru_cache` and `struct.pack` refuse floats.  The
  monitor transports data unchanged.
* *Delivery* (C67): `Spec_Delivery2.v` and `Spec_Delivery3.v` say how the parts
  are joined: `register` of the backend awaits `notify_events` for its batch
  (`main_runner.py:187-191`, `backend.py:191-192`, `dummy.py`), and so does the
  flush loop (`backend.py:313-315`).  One life of an engine is followed; other
  batches, such as those of remote servers, are notified at the same time and
  have no events of this engine's server (of C41: a server's events are
  registered by its own engine).  When the loop of the engine is interrupted,
  its call of `register` may have got anywhere.

### What is modelled of the repository

| source (under `src_py/hat/event`) | model |
|-----------------------------------|-------|
| `common/common.py` | `Model_Types`, `Model_Order`, `Model_Time` |
| `common/encoder.py`, `schemas_sbs/eventer.sbs` | `Model_Codec`, `Model_Sbs`, `Model_Time` |
| `common/matches.py`, `common/subscription/*`, `src_c/py/subscription/_csubscription.c` | `Model_Subscription`, `Model_SHeap` |
| `common/collection/*`, `src_c/py/collection/_ctree.c` | `Model_Collection`, `Model_CHeap` |
| `backends/lmdb/common.py` | `Model_Codec` |
| `backends/lmdb/{systemdb,latestdb,refdb,timeseriesdb}.py` | `Model_Lmdb` (decoded entries), `Model_LmdbBytes` (files) |
| `backends/lmdb/conditions.py` | `Model_Conditions` |
| `backends/lmdb/{backend,environment}.py` | `Model_Lmdb`, `Model_LmdbSys`, `Model_LmdbFile` (files), `Model_LmdbFlush`, `Model_LmdbCleanup` |
| `backends/lmdb/convert/*` | `Model_Convert` (decoded entries), `Model_ConvertBytes` (files), `Model_ConvertCut` (interrupted) |
| `backends/lmdb/manager/{copy,query,common}.py` | `Model_Copy`, `Model_CopyBytes` (files), `Model_DbTool` |
| `backends/memory.py` | `Model_Memory` |
| `backends/dummy.py` | `Model_Dummy` |
| `server/engine.py` | `Model_Engine` |
| `server/engine_runner.py` | `Model_Runner` |
| `server/eventer_server.py`, `eventer/server.py` | `Model_Eventer`, `Model_Runner` |
| `eventer/client.py` | `Model_Client` |
| `server/eventer_client.py` | `Model_Sync` |
| `server/eventer_client.py:121,126-127,161,164,173` (use of the backend), `eventer_client_runner.py:76-105` (new clients), `engine.py:39,202-210` (ids after a restart) | `Model_Replica` |
| `server/main_runner.py:187-191` (flushed events are notified), `eventer/server.py:96-125` (to the client), `server/eventer_server.py:107-108` (queries of the client), with `Model_LmdbFlush` as the remote | `Model_Pair` |
| `server/eventer_client_runner.py` | `Model_Remote`, `Model_Monitor` |
| `server/main_runner.py` | `Model_Main` |
| `server/main.py:66-82` (`async_main`) | `Model_Exit` |
| `component.py` | `Model_Component`, `Model_Monitor` |
| `adminer/*`, `server/adminer_server.py` | `Model_Adminer` |
| `manager/*` | `Model_Manager` |
| `schemas_json/*` | `Model_Schema` |
| `server/main.py:44-67`, reading of configuration in `server/*` and `backends/lmdb/{backend,conditions}.py` | `Model_Conf` |
| `server/engine_runner.py:42-60` (event), data of the monitor | `Model_Published`, `Model_Conf` |
| `server/main_runner.py:80-145`, `eventer_server.py:80-108`, `engine.py:125,153` (how components call each other) | `Model_Service` |

Not modelled: command lines and files of configuration (`main.py`),
importing of modules, logging, and everything outside of
the repository.

## Mutation testing

`seeded/LOG.jsonl` has one line for each deliberate error put into a copy of the
model: the definition, the edit, the claim it breaks, the theorems whose proof
failed, and the theorems that were tightened because nothing failed.
