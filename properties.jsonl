{"id": "C01", "title": "Subscription matching agrees with query type matching", "statement": "A subscription created from a collection of valid query event types matches an event type exactly when at least one of those query event types matches it by the documented rules ('?' one subtype, '*' any remaining subtypes, otherwise equality). Creating a subscription from a collection with a misplaced '*' either fails or yields that same answer for the query types it accepted.", "quantifier": "every collection of query event types (any number, any length, any order, repetitions) and every event type", "why_tests_cant": "the tree built depends on the order, overlap and absorption of unboundedly many query types; tests sample a handful of sets", "anchors": ["src_py/hat/event/common/subscription/common.py: node_from_query_types, _add_query_type", "src_py/hat/event/common/subscription/pysubscription.py: _matches", "src_py/hat/event/common/matches.py: matches_query_type"]}
{"id": "C02", "title": "Listing a subscription's query types loses nothing", "statement": "The query types listed by a subscription are themselves valid, and a subscription created from that list matches exactly the same event types as the original.", "quantifier": "every collection of valid query event types and every event type", "why_tests_cant": "absorption by '*' and merging of prefixes rewrites the collection; equality of the denoted infinite sets cannot be enumerated", "anchors": ["src_py/hat/event/common/subscription/common.py: node_to_query_types", "src_c/py/subscription/_csubscription.c: get_query_types"]}
{"id": "C03", "title": "Subscription union is set union", "statement": "The union of any subscriptions matches an event type exactly when one of the united subscriptions matches it.", "quantifier": "every finite list of subscriptions and every event type", "why_tests_cant": "quantifies over infinite sets of event types and all tree shapes", "anchors": ["src_py/hat/event/common/subscription/common.py: union", "src_py/hat/event/common/subscription/pysubscription.py: PySubscription.union", "src_py/hat/event/common/subscription/csubscription.py: CSubscription.union"]}
{"id": "C04", "title": "Subscription intersection is set intersection", "statement": "The intersection of subscriptions matches an event type exactly when all of them match it.", "quantifier": "every list of subscriptions and every event type", "why_tests_cant": "the failing combinations ('*' against a type that ends at the same place) are not in the test tables; the sound direction ranges over infinite sets", "anchors": ["src_py/hat/event/common/subscription/common.py: intersection", "src_py/hat/event/common/subscription/pysubscription.py: PySubscription.intersection"]}
{"id": "C05", "title": "Subscription disjointness is exact (Python)", "statement": "isdisjoint answers true exactly when no event type is matched by both subscriptions.", "quantifier": "every pair of subscriptions created from query types, every event type as a possible common element", "why_tests_cant": "absence of a common element is a claim about infinitely many event types", "anchors": ["src_py/hat/event/common/subscription/pysubscription.py: _isdisjoint"]}
{"id": "C06", "title": "C and Python subscriptions are interchangeable", "statement": "For the same query types the C and the Python subscription give the same answer to matches and isdisjoint, and list the same query types up to order.", "quantifier": "every collection of query types without NUL characters, every event type, every pair of subscriptions", "why_tests_cant": "the two implementations have different tree representations; the disagreeing pairs are absent from the shared test tables", "anchors": ["src_c/py/subscription/_csubscription.c: add_query_type, get_query_types, matches, isdisjoint", "src_py/hat/event/common/subscription/csubscription.py"]}
{"id": "C07", "title": "Event type collection lookup", "statement": "After any sequence of add and remove calls, looking up an event type returns exactly the values for which some subscription added since the value's last removal matches the event type. This holds for each available collection implementation.", "quantifier": "every sequence of add/remove operations, every event type, each of the three implementations", "why_tests_cant": "depends on the whole history of additions (repeated values, overlapping subscriptions)", "anchors": ["src_py/hat/event/common/collection/pylist.py", "src_py/hat/event/common/collection/pytree.py", "src_py/hat/event/common/collection/ctree.py", "src_c/py/collection/_ctree.c"]}
{"id": "C08", "title": "Natural order of events", "statement": "When every server's events have ids and timestamps that grow together, the 'older than' relation between events of distinct instants is a strict order: irreflexive, transitive, asymmetric, total, and 'newer than' is its converse. For events of different servers with equal timestamps the earlier operand counts as older.", "quantifier": "all triples of events from any number of servers", "why_tests_cant": "transitivity needs all triples across servers; tests compare a few pairs", "anchors": ["src_py/hat/event/common/common.py: Event.__lt__, Event.__gt__"]}
{"id": "C09", "title": "Timestamp byte form", "statement": "Encoding a byte serializable timestamp gives 12 bytes, decoding them returns the timestamp, different timestamps give different bytes and comparing the bytes lexicographically orders timestamps chronologically. Timestamps out of range are rejected.", "quantifier": "every timestamp value", "why_tests_cant": "2^64 * 10^6 values; boundaries at sign change and carries between bytes", "anchors": ["src_py/hat/event/common/encoder.py: timestamp_to_bytes, timestamp_from_bytes"]}
{"id": "C10", "title": "Timestamp arithmetic and datetime conversion", "statement": "Adding a duration keeps the timestamp normalized and moves it by exactly that many microseconds; converting a timestamp to a UTC datetime and back returns the original timestamp.", "quantifier": "every normalized timestamp and every duration, negative ones included", "why_tests_cant": "negative values with zero microseconds are a boundary that tests do not cover", "anchors": ["src_py/hat/event/common/common.py: Timestamp.add", "src_py/hat/event/common/encoder.py: timestamp_to_datetime, timestamp_from_datetime"]}
{"id": "C11", "title": "Wire form of events and queries", "statement": "Converting events, register events, query parameters, query results and statuses to their transfer form and back is the identity, for every combination of optional fields.", "quantifier": "every event, register event, query parameter set, query result and status", "why_tests_cant": "combinatorial number of optional fields and unbounded lists", "anchors": ["src_py/hat/event/common/encoder.py: event_to_sbs .. query_result_from_sbs", "schemas_sbs/eventer.sbs"]}
{"id": "C12", "title": "Storage keys preserve order and identity", "statement": "Database keys have fixed length, decode to what was encoded, are distinct for distinct keys and are ordered bytewise exactly as (partition, timestamp, event id) respectively (server, session, instance) are ordered.", "quantifier": "every event id and timeseries key within 64 bit ranges; out of range values are rejected", "why_tests_cant": "range scans rely on this for all pairs of keys", "anchors": ["src_py/hat/event/backends/lmdb/common.py: _encode_event_id, _encode_timeseries_key, _encode_uint, _encode_timestamp"]}
{"id": "C13", "title": "Stored event references round trip", "statement": "Any set of references to stored events, written as one database value and read back, is the same set.", "quantifier": "every finite collection of latest and timeseries references", "why_tests_cant": "concatenated variable-tag records of unbounded number", "anchors": ["src_py/hat/event/backends/lmdb/common.py: _encode_event_refs, _decode_event_refs, _encode_event_ref, _decode_event_ref"]}
{"id": "C14", "title": "Accepted events are ordered per server", "statement": "The events which the LMDB backend accepts have, for each originating server, strictly increasing ids and non-decreasing timestamps in registration order; other events are never stored. The last event id reported for a server is the id of the last event accepted from it; it decreases only by a crash, and then not below the last event that was flushed.", "quantifier": "every sequence of register, flush, cleanup, restart and crash operations with arbitrary events", "why_tests_cant": "needs all histories including duplicates, reordered and crash-interrupted ones", "anchors": ["src_py/hat/event/backends/lmdb/backend.py: LmdbBackend.register, get_last_event_id", "src_py/hat/event/backends/lmdb/systemdb.py"]}
{"id": "C15", "title": "Latest query returns the newest accepted event of each type", "statement": "A latest query returns, for each event type covered by the latest subscription and by the query, exactly one event: the newest one accepted for that type; nothing else is returned, whichever lookup strategy (wildcards, explicit types, all) is taken.", "quantifier": "every history of registrations, flushes, restarts and crashes followed by every latest query", "why_tests_cant": "the answer depends on whole histories and on four different lookup branches", "anchors": ["src_py/hat/event/backends/lmdb/latestdb.py: LatestDb.add, LatestDb.query, ext_create"]}
{"id": "C16", "title": "Latest state survives flush and restart", "statement": "After a flush and a restart with the same configuration, latest queries give the same answers as before; after a crash they give the answers as of the last completed flush.", "quantifier": "every history and every crash point", "why_tests_cant": "crash points cannot be enumerated by tests", "anchors": ["src_py/hat/event/backends/lmdb/latestdb.py: ext_create, ext_write", "src_py/hat/event/backends/lmdb/backend.py: _flush, _ext_flush"]}
{"id": "C17", "title": "Timeseries query result", "statement": "A timeseries query returns the events of the first configured partition with the requested ordering whose subscription is not disjoint from the query, restricted to the requested event types, time ranges and to what follows the given last event, sorted in the requested order, limited to the smaller of the requested and configured maximum, with more_follows telling exactly whether matching events were left out.", "quantifier": "every stored and pending set of events, every partition configuration, every combination of query parameters", "why_tests_cant": "the product of filters, limits, orders and pending/persisted splits is unbounded", "anchors": ["src_py/hat/event/backends/lmdb/timeseriesdb.py: TimeseriesDb.query, _query_partition, _ext_query_partition_events_range, _query_partition_changes, _Filter"]}
{"id": "C18", "title": "Paging through a timeseries query", "statement": "Repeating a timeseries query with last event id set to the last received event, until more_follows is false, yields exactly the events of the unlimited query, each once and in the same order.", "quantifier": "every stored set of events, every page size of at least one, every filter", "why_tests_cant": "number of pages unbounded", "anchors": ["src_py/hat/event/backends/lmdb/timeseriesdb.py: _Filter.process, _query_partition"]}
{"id": "C19", "title": "Server query result", "statement": "A server query returns the events originating from the given server that are still stored (also those not yet flushed unless only persisted ones are requested) with ids greater than the given last id, in increasing id order without repetition, limited to the maximum, with more_follows telling exactly whether more exist.", "quantifier": "every history of register, flush, cleanup and restart and every query", "why_tests_cant": "depends on the combination of persisted and pending state for all histories", "anchors": ["src_py/hat/event/backends/lmdb/refdb.py: RefDb.query, _ext_query_events, _query_changes"]}
{"id": "C20", "title": "Paging through a server query", "statement": "Repeating a server query from the last received id until more_follows is false yields each stored event of that server exactly once, in increasing id order.", "quantifier": "every stored state and every page size of at least one", "why_tests_cant": "number of pages unbounded", "anchors": ["src_py/hat/event/backends/lmdb/refdb.py: RefDb.query", "src_py/hat/event/server/eventer_client.py: _synchronize"]}
{"id": "C21", "title": "Reference index consistency", "statement": "In the database, the reference index lists for each event id exactly the places (latest and timeseries) where an event with that id is stored, never an empty list.", "quantifier": "every reachable database state: any history of register, flush, cleanup, restart, crash at any point", "why_tests_cant": "invariant over all histories and crash points", "anchors": ["src_py/hat/event/backends/lmdb/refdb.py: ext_write, ext_cleanup", "src_py/hat/event/backends/lmdb/latestdb.py", "src_py/hat/event/backends/lmdb/timeseriesdb.py: ext_write, ext_cleanup"]}
{"id": "C22", "title": "Partition entry counters are exact", "statement": "The stored entry counter of each timeseries partition equals the number of events stored in that partition.", "quantifier": "every reachable database state", "why_tests_cant": "invariant over all histories and crash points", "anchors": ["src_py/hat/event/backends/lmdb/timeseriesdb.py: _ext_inc_partition_count, _ext_set_partition_count, _ext_cleanup_partition"]}
{"id": "C23", "title": "Crash loses only what was not flushed, as a whole", "statement": "After a crash at any point the reopened database holds exactly the events stored by the flushes that completed before the crash: the stored content is that of a prefix of the registration history, never a part of a flush.", "quantifier": "every history and every crash point, also in the middle of a flush or cleanup", "why_tests_cant": "crash points cannot be enumerated", "anchors": ["src_py/hat/event/backends/lmdb/backend.py: _flush, _ext_flush, _ext_cleanup", "src_py/hat/event/backends/lmdb/environment.py"]}
{"id": "C24", "title": "Flush returns only after everything registered is on disk", "statement": "When a flush call returns normally, every event whose registration finished before the call is in the database; every flush call is eventually answered, either normally or with a closed error, once the flush loop runs or the backend closes.", "quantifier": "every interleaving of register, flush calls, periodic flushes, and close", "why_tests_cant": "schedules", "anchors": ["src_py/hat/event/backends/lmdb/backend.py: flush, _flush_loop, _flush"]}
{"id": "C25", "title": "Flushed notifications", "statement": "The flushed callback gets each registered batch exactly once, in registration order, and only after the batch is in the database.", "quantifier": "every interleaving of register and flush", "why_tests_cant": "schedules", "anchors": ["src_py/hat/event/backends/lmdb/backend.py: _flush, register"]}
{"id": "C26", "title": "Queries concurrent with flushes neither lose nor repeat events", "statement": "A server or timeseries query that runs concurrently with registrations, flushes and cleanups never returns the same event twice and does not miss an event that was registered before the query started and remains stored until it ends.", "quantifier": "every interleaving of queries, registrations, flushes and cleanups", "why_tests_cant": "races between the event loop and the database thread", "anchors": ["src_py/hat/event/backends/lmdb/refdb.py: RefDb.query, create_changes", "src_py/hat/event/backends/lmdb/timeseriesdb.py: _query_partition, create_changes", "src_py/hat/event/backends/lmdb/environment.py: execute", "src_py/hat/event/backends/lmdb/backend.py: _flush"]}
{"id": "C27", "title": "Retention limits", "statement": "Cleanup removes only oldest entries of a partition with a limit, never takes a partition below its minimum number of entries, removes no more than the allowed number per pass, and after repeating it until no work remains no partition holds more than its maximum number of entries nor entries older than its duration beyond its minimum.", "quantifier": "every database content, every limit configuration and every current time", "why_tests_cant": "boundaries of three interacting limits over arbitrary contents", "anchors": ["src_py/hat/event/backends/lmdb/timeseriesdb.py: ext_cleanup, _ext_cleanup_partition", "src_py/hat/event/backends/lmdb/backend.py: _cleanup_loop, _ext_cleanup"]}
{"id": "C28", "title": "Partition identity is stable", "statement": "A partition configuration keeps its stored partition across restarts and configuration changes, different configurations (order or set of event types) never share one, and ids of existing partitions never change.", "quantifier": "every sequence of restarts with arbitrary partition configurations", "why_tests_cant": "histories of configurations", "anchors": ["src_py/hat/event/backends/lmdb/timeseriesdb.py: _ext_init_partitions"]}
{"id": "C29", "title": "Storage conditions", "statement": "An event is stored exactly if all conditions whose subscription matches its type hold; 'all' holds if every sub-condition holds, 'any' if at least one does, 'json' exactly for JSON payloads whose selected value has the configured type and value.", "quantifier": "every condition tree and every event", "why_tests_cant": "recursive conditions of any depth", "anchors": ["src_py/hat/event/backends/lmdb/conditions.py: Conditions.matches, _AllCondition, _AnyCondition, _JsonCondition"]}
{"id": "C30", "title": "Database settings validation", "statement": "Opening a database created with another version or another identifier fails and changes nothing; otherwise opening succeeds, and the version and identifier stay as first set.", "quantifier": "every stored settings content and every configuration, every sequence of openings", "why_tests_cant": "sequences of openings with different configurations", "anchors": ["src_py/hat/event/backends/lmdb/systemdb.py: _ext_validate_settings", "src_py/hat/event/backends/lmdb/backend.py: create, _ext_create_dbs"]}
{"id": "C31", "title": "Event ids given by the engine", "statement": "Events of one registration session share the session number, which is one more than the previous session's, and have instance numbers 1, 2, 3, ... in registration order; all events of a session have the same timestamp; ids given by an engine are strictly increasing and greater than the last id known to the backend.", "quantifier": "every sequence of register requests, module behaviours and engine restarts", "why_tests_cant": "modules may add arbitrarily many events in arbitrarily many rounds", "anchors": ["src_py/hat/event/server/engine.py: _create_session, _create_event, _process_sessions, create_engine"]}
{"id": "C32", "title": "Result of engine registration", "statement": "A register request is answered with events that correspond one to one, in order, to the requested events (same type, source timestamp and payload), whatever modules add; an empty request is answered with an empty list and no session.", "quantifier": "every request, every module behaviour, every schedule of concurrent requests", "why_tests_cant": "arbitrary module behaviour", "anchors": ["src_py/hat/event/server/engine.py: register, _register_loop, _process_sessions"]}
{"id": "C33", "title": "Module processing", "statement": "In a session each module is given exactly the session's events that its subscription matches, once each, in order of event ids, together with the right source; each event a module produces is registered in the same session with that module as source; modules are told of session start before and of session stop after any processing of that session, and sessions do not overlap.", "quantifier": "every set of modules, subscriptions and (terminating) module behaviours", "why_tests_cant": "unbounded rounds of feedback between modules", "anchors": ["src_py/hat/event/server/engine.py: _process_sessions"]}
{"id": "C34", "title": "Engine life cycle", "statement": "The first event an engine registers is its STARTED event, the last one is its STOPPED event; requests are processed in the order they were queued; when the engine closes, every waiting request is answered with an error and later requests fail.", "quantifier": "every schedule of requests and every point of closing", "why_tests_cant": "schedules", "anchors": ["src_py/hat/event/server/engine.py: create_engine, _register_loop"]}
{"id": "C35", "title": "Event identity across restarts", "statement": "No two different events ever get the same id, also across engine and server restarts.", "quantifier": "every history with restarts and crashes", "why_tests_cant": "crash points; events not selected for storage", "anchors": ["src_py/hat/event/server/engine.py: create_engine", "src_py/hat/event/backends/lmdb/backend.py: register", "src_py/hat/event/backends/lmdb/systemdb.py"]}
{"id": "C36", "title": "Notification filtering", "statement": "Notifying events sends each connected client exactly the events that its subscription matches and that come from the server it asked for, in order, in one message, and only if the client asked for that kind (persisted or not) of notification; clients without matching events get no message.", "quantifier": "every set of connections and every batch of events", "why_tests_cant": "arbitrary connection sets and subscriptions", "anchors": ["src_py/hat/event/eventer/server.py: notify_events"]}
{"id": "C37", "title": "Client sees server status", "statement": "A client that has received all messages sent to it reports the server's current status, whatever changes happened before, during and after its connection was initialized.", "quantifier": "every interleaving of status changes and connections", "why_tests_cant": "schedules", "anchors": ["src_py/hat/event/eventer/server.py: set_status, _connection_loop, _notify_status", "src_py/hat/event/eventer/client.py: connect, _process_msg_status_notify"]}
{"id": "C38", "title": "Connection admission", "statement": "A connection is accepted if and only if the client gave no token or the server's token, and its subscriptions are valid; a refused client never receives notifications nor can it register or query; connection ids are never reused.", "quantifier": "every sequence of connection attempts and messages", "why_tests_cant": "sequences of attempts with arbitrary tokens", "anchors": ["src_py/hat/event/server/eventer_server.py: _on_connected", "src_py/hat/event/eventer/server.py: _connection_loop"]}
{"id": "C39", "title": "Notification with acknowledgement", "statement": "Notifying with acknowledgement finishes only when each notified client has acknowledged or disconnected.", "quantifier": "every interleaving of notifications, acknowledgements and disconnections", "why_tests_cant": "schedules with several clients", "anchors": ["src_py/hat/event/eventer/server.py: notify_events, _notify_events, _connection_loop"]}
{"id": "C40", "title": "Client requests get their own responses", "statement": "Each client register or query request is completed only by the server's response to that very request; requests pending when the connection closes end with a connection error, and late or unknown responses are ignored.", "quantifier": "every interleaving of requests and responses", "why_tests_cant": "schedules of many pending requests", "anchors": ["src_py/hat/event/eventer/client.py: _wait_conv_res, _process_msg_register_res, _process_msg_query_res, _receive_loop"]}
{"id": "C41", "title": "Synchronization between servers is complete and exactly once", "statement": "When synchronization with a remote server finishes, the local backend was given every event that the remote had persisted with id above the locally known one, each once, in increasing id order, and afterwards it is given every further persisted event once; nothing between the query phase and notifications is lost.", "quantifier": "every interleaving of remote flushes, notifications, query pages and local processing; every page size", "why_tests_cant": "races between query and notification", "anchors": ["src_py/hat/event/server/eventer_client.py: _synchronize, _on_events"]}
{"id": "C42", "title": "Sessions arrive whole during synchronization", "statement": "During synchronization no local registration during the query phase contains events of two sessions and a session is split only if it is split by the remote's storage; the concatenation of registered batches is the concatenation of received pages.", "quantifier": "every page split of every event list", "why_tests_cant": "all ways pages may cut sessions", "anchors": ["src_py/hat/event/server/eventer_client.py: _synchronize"]}
{"id": "C43", "title": "Remote activity tracking", "statement": "The runner reports a remote as active exactly if some known remote connection is established with a status other than STANDBY, and tells listeners exactly on changes.", "quantifier": "every sequence of connection, status and monitor updates", "why_tests_cant": "histories over many remotes", "anchors": ["src_py/hat/event/server/eventer_client_runner.py: _set_client_status, _client_loop, set_monitor_state"]}
{"id": "C44", "title": "Engine runs only when allowed", "statement": "The server is OPERATIONAL only while an engine is set, statuses follow the cycle STARTING, OPERATIONAL, STOPPING, STANDBY, an engine is created only at a moment when no remote is active, a new engine is created only after the previous was closed and the backend flushed.", "quantifier": "every schedule of engine closings, restarts, remote activity changes and shutdown", "why_tests_cant": "schedules", "anchors": ["src_py/hat/event/server/engine_runner.py: _run, _close, _wait_while_remote_active", "src_py/hat/event/server/eventer_server.py: set_status"]}
{"id": "C45", "title": "Component follows the active server", "statement": "The component's client is connected to the first component in the server group whose blessing request and response tokens agree and are set, with valid data and (if required) matching token; when that choice changes, the component moves to the newest choice.", "quantifier": "every sequence of monitor states", "why_tests_cant": "histories of monitor states", "anchors": ["src_py/hat/event/component.py: _get_active_server_data, _active_server_filter, _on_state, _server_data_loop"]}
{"id": "C46", "title": "Database conversion keeps events", "statement": "Converting a database from version 0.6 or 0.7 keeps every event (type, timestamps, payload), keeps the relative order of ids of each server, keeps partition contents, and yields a database satisfying the reference and counter invariants of the new version.", "quantifier": "every valid database of the older version", "why_tests_cant": "arbitrary database contents", "anchors": ["src_py/hat/event/backends/lmdb/convert/convert_v06_to_v07.py", "src_py/hat/event/backends/lmdb/convert/convert_v07_to_v09.py"]}
{"id": "C47", "title": "Database copy", "statement": "Copying a database yields identical contents; when the latest or timeseries data is skipped, the rest is identical and the reference index lists exactly the remaining places.", "quantifier": "every database content and every combination of skip options", "why_tests_cant": "arbitrary contents", "anchors": ["src_py/hat/event/backends/lmdb/manager/copy.py"]}
{"id": "C48", "title": "Memory backend answers queries as specified", "statement": "The in-memory backend's latest, timeseries and server queries return what the corresponding specification says for the events registered so far, and its last event id is that of the last event registered for the server.", "quantifier": "every sequence of registrations and every query", "why_tests_cant": "histories", "anchors": ["src_py/hat/event/backends/memory.py"]}
{"id": "C49", "title": "Timestamp float round trip", "statement": "Converting a timestamp to a floating point number of seconds and back returns the original timestamp, for all timestamps within 2^33 seconds of 1970 (years 1697 to 2242), before and after the epoch.", "quantifier": "every normalized timestamp in the stated range, with IEEE double rounding", "why_tests_cant": "there are about 10^16 timestamps in range and failures of rounding would show only at few of them", "anchors": ["src_py/hat/event/common/encoder.py: timestamp_to_float, timestamp_from_float"]}
{"id": "C50", "title": "Closing the backend writes everything", "statement": "When the LMDB backend has been closed and no write raised, every event that was accepted is in the database, whatever was in progress when it was closed.", "quantifier": "every interleaving of register, flush, close, queries and cleanup", "why_tests_cant": "schedules", "anchors": ["src_py/hat/event/backends/lmdb/backend.py: _flush_loop (finally), _flush"]}
{"id": "C51", "title": "A failing write does not tear the history", "statement": "If a write transaction of a flush raises, the database still holds a prefix of the accepted history: no later event of a server without its earlier ones.", "quantifier": "every interleaving of register, flush and a failing write", "why_tests_cant": "needs a failing write while events arrive", "anchors": ["src_py/hat/event/backends/lmdb/backend.py: _flush_loop (finally), _flush"]}
{"id": "C52", "title": "Answers of the eventer server", "statement": "Register and query requests of a client are answered in order, each at most once and with the conversation of the request, with what the engine or backend answered to exactly that request; requests sent without wanting an answer get none; register requests without an engine are answered with a failure.", "quantifier": "every interleaving of requests of several clients, answers and disconnections", "why_tests_cant": "interleavings of several clients", "anchors": ["src_py/hat/event/eventer/server.py: _connection_loop, _process_msg_register, _process_msg_query", "src_py/hat/event/server/eventer_server.py: _on_register, _on_query"]}
{"id": "C53", "title": "Client processes notifications in order and acknowledges afterwards", "statement": "The client calls its status and events callbacks for exactly the notifications received after the init response, in order and never two at a time; a notification that wants an acknowledgement is acknowledged once, in order, and only after the callback for it has ended normally.", "quantifier": "every interleaving of messages, callbacks, requests and disconnections", "why_tests_cant": "interleavings", "anchors": ["src_py/hat/event/eventer/client.py: _receive_loop, _process_msg_status_notify, _process_msg_events_notify"]}
{"id": "C54", "title": "Reported synchronization states", "statement": "A client synchronizing with a remote server reports that it is connected, then, if the query brings events, that it is synchronizing, then that it is synchronized with the number of events the query brought, each once; events are given to the backend by query only between the latter two reports, and upon notification only after the last one.", "quantifier": "every interleaving of remote flushes, notifications, query pages and local processing; every page size", "why_tests_cant": "interleavings", "anchors": ["src_py/hat/event/server/eventer_client.py: _synchronize, _set_synced"]}
{"id": "C55", "title": "Runners are closed with their connection", "statement": "Every runner returned by the component's runner callback is closed by the component before the client it was made for is closed, when the connection is lost, another server is chosen or the component is closed.", "quantifier": "every interleaving of monitor states, connections, callbacks and closings", "why_tests_cant": "interleavings", "anchors": ["src_py/hat/event/component.py: _client_loop"]}
{"id": "C56", "title": "A component reconnects", "statement": "As long as the component is open and the same server is chosen, a lost or failed connection to it is followed by another attempt to connect.", "quantifier": "every interleaving of monitor states, connections, callbacks and closings", "why_tests_cant": "depends on when the connection is lost", "anchors": ["src_py/hat/event/component.py: _client_loop, _server_data_loop"]}
{"id": "C57", "title": "A component closes with its runner", "statement": "The component closes itself only if its runner callback raises or its runner ends; it does so if the runner ends while the connection is not lost, and, when a callback raised, once the client is closed unless another server is chosen meanwhile.", "quantifier": "every interleaving of monitor states, connections, callbacks and closings", "why_tests_cant": "interleavings", "anchors": ["src_py/hat/event/component.py: _client_loop"]}
{"id": "C58", "title": "A converted database continues the server's ids", "statement": "After converting a database from version 0.6, distinct events have distinct ids, and the last id and timestamp recorded for each server are those of the server's event with the greatest id, so that the server's further events are registered.", "quantifier": "every valid database of version 0.6", "why_tests_cant": "depends on the servers and numbers of all events of the database", "anchors": ["src_py/hat/event/backends/lmdb/convert/convert_v06_to_v07.py: _convert_event_id, _update_system_db", "src_py/hat/event/backends/lmdb/backend.py: register"]}
{"id": "C59", "title": "The main runner starts and stops everything in order", "statement": "The server's main runner creates the backend, the eventer server, the adminer server if configured, and the client runner with the monitor component or the engine runner, one after another; when a creation fails, when one of them closes by itself or when the runner is closed, everything created so far is closed exactly once, users before what they use, with the backend flushed right before the eventer server is closed; nothing is closed without such a reason and nothing is created or declared ready after it.", "quantifier": "every configuration and every interleaving of creations, failures, closings, cancellations and requests of the monitor component", "why_tests_cant": "a failure or cancellation may come at any of the points where the runner waits, with any part of the resources created", "anchors": ["src_py/hat/event/server/main_runner.py: _run, _start, _stop, _bind_resource, _create_monitor_runner"]}
{"id": "C60", "title": "Readiness towards the monitor server", "statement": "A server with a monitor component declares itself ready only after everything is created; each reset request makes it withdraw readiness, which it declares again only after the monitor server has taken away the blessing token or the timeout passed; readiness is never withdrawn without a request.", "quantifier": "every interleaving of reset requests, monitor states, timeouts and calls of the monitor component", "why_tests_cant": "depends on the moment of the request relative to calls which are being waited for", "anchors": ["src_py/hat/event/server/main_runner.py: _run, _wait_while_monitor_blessing_res_token"]}
{"id": "C61", "title": "The LMDB tool prints the content of the database", "statement": "Querying an LMDB database with the manager tool prints, for each kind of content, exactly the stored items that match the given partition, server and event types, each of them once and such that the item can be told from what is printed.", "quantifier": "every content of the database and all combinations of filters", "why_tests_cant": "depends on all stored items and all subscriptions to types", "anchors": ["src_py/hat/event/backends/lmdb/manager/query.py", "src_py/hat/event/backends/lmdb/manager/common.py"]}
{"id": "C62", "title": "The log configuration is an atomic register", "statement": "For all calls that any number of adminer clients make to an adminer server there is an order of the calls, consistent with which call ended before which one began, in which doing them one after another gives the results they had: getting the configuration gives the one that was last set successfully, setting it succeeds exactly if the configuration can be applied and otherwise reports the reason and changes nothing; calls that lost their connection may or may not have been done; no call ends twice.", "quantifier": "any number of clients and calls, every interleaving, every loss of connections and every cancellation of callers", "why_tests_cant": "depends on interleavings of several clients with losses of connections", "anchors": ["src_py/hat/event/adminer/client.py", "src_py/hat/event/adminer/server.py", "src_py/hat/event/server/adminer_server.py"]}
{"id": "C63", "title": "Calls of an adminer client are answered", "statement": "While the connection and the server are there, each call of an adminer client can be answered and no call ends with ConnectionError, whatever other callers do.", "quantifier": "any number of clients and calls, every interleaving", "why_tests_cant": "depends on the moment when callers give up relative to responses", "anchors": ["src_py/hat/event/adminer/client.py: _send, _receive_loop", "src_py/hat/event/adminer/server.py: _connection_loop"]}
{"id": "C64", "title": "The manager tool does what its command line asks for", "statement": "Registering an event sends the event of the given type, source timestamp and payload, and the exit status tells whether the event was registered; querying sends the query of the given parameters and prints its whole result; subscribing prints all notified events of the given types in order; the connection is closed whatever happens.", "quantifier": "every command line, every content of files and every behavior of the server", "why_tests_cant": "options are combined freely and each has its own conversion", "anchors": ["src_py/hat/event/manager/main.py", "src_py/hat/event/manager/common.py"]}
{"id": "C65", "title": "The C event type collection manages its memory correctly", "statement": "Adding, removing and looking up values in the C collection never reads, writes or frees memory that is not its own, whichever allocations fail; the references it holds to values are released with the value's removal; freeing the collection leaves no memory and no references; failed additions do not affect other values and lookups stay exact for the additions that returned.", "quantifier": "every sequence of operations and every pattern of failing allocations", "why_tests_cant": "failing allocations are not exercised by tests and use of freed memory need not be visible", "anchors": ["src_c/py/collection/_ctree.c", "src_py/hat/event/common/collection/ctree.py"]}
{"id": "C66", "title": "The C subscription manages its memory and references correctly", "statement": "Creating, using and dropping subscriptions implemented in C never uses memory or objects that do not exist, whichever allocations fail; each call answers exactly or raises for a reason; no memory is left when the last subscription is dropped; the objects passed to a subscription have the same number of references as before.", "quantifier": "every sequence of calls, all objects passed (well typed or not) and every pattern of failing allocations", "why_tests_cant": "failing allocations and reference counts are not exercised by tests, and use of freed memory need not be visible", "anchors": ["src_c/py/subscription/_csubscription.c", "src_py/hat/event/common/subscription/csubscription.py"]}
{"id": "C67", "title": "Connected clients get each registered event once and in order, from end to end", "statement": "The events callback of a connected client is called with every event it subscribed to of the batches that the engine hands to its backend after the client was accepted, once, in the order of registration and with increasing ids; a client that asked for persisted events gets the events of the flushed batches instead, once, in the order of registration, and every event it gets is on disk. Clients miss no event in between, whatever the server does at the same time with other clients and other notifications.", "quantifier": "all joint executions of engine (or flush loop of the database), eventer server and client, any number of clients, concurrent notifications, subscriptions", "why_tests_cant": "tests exercise each part with the others replaced by stubs; orders of concurrent notifications, slow and leaving clients, and closing of the engine at any await cannot be enumerated", "anchors": ["src_py/hat/event/server/main_runner.py:84-86,187-191", "src_py/hat/event/backends/lmdb/backend.py:143-194,295-320", "src_py/hat/event/server/engine.py", "src_py/hat/event/server/eventer_server.py", "src_py/hat/event/eventer/server.py", "src_py/hat/event/eventer/client.py"]}
{"id": "C68", "title": "Database files of former versions are recognised, converted and read back completely", "statement": "hat-event-lmdb-convert recognises a database file of version 0.6 or 0.7, and creates a file that is recognised as version 0.9 and from which every event, event type, partition, counter, last event id, timestamp and event reference of the old file is decoded by the new version's decoders, whatever order sets are iterated in. It changes no file besides the destination and its intermediate file, which it removes. The source is never changed. Nothing at all changes if the source is missing, up to date or unknown, or if the destination exists.", "quantifier": "all files of the formats of versions 0.6 and 0.7, all JSON and SBS codecs that invert, all paths and other files, all failures of a conversion", "why_tests_cant": "there are no tests of the conversion; files are unbounded, keys must be re-encoded so that LMDB's bytewise order and uniqueness are kept, and names of paths interact with the intermediate file", "anchors": ["src_py/hat/event/backends/lmdb/convert/main.py", "src_py/hat/event/backends/lmdb/convert/version.py", "src_py/hat/event/backends/lmdb/convert/v06.py", "src_py/hat/event/backends/lmdb/convert/v07.py", "src_py/hat/event/backends/lmdb/convert/v09.py", "src_py/hat/event/backends/lmdb/convert/convert_v06_to_v07.py", "src_py/hat/event/backends/lmdb/convert/convert_v07_to_v09.py", "src_py/hat/event/backends/lmdb/common.py"]}
{"id": "C69", "title": "Configurations are accepted exactly if they have the documented form, and accepted ones can be used", "statement": "Validation of a configuration of the event server or of the LMDB backend always ends, and accepts exactly the configurations of the documented form (members, types, nested conditions, paths, limits). hat-event-server runs iff its configuration, those of its backend and its modules are accepted and logging can be set up. Everything that the server and the backend take from an accepted configuration is there, and is exactly what is written: name, tokens, addresses, subscriptions, conditions, partitions with limits, defaults. An accepted configuration can be used: the backend is created, ids of events with the server id can be stored.", "quantifier": "all JSON values as configurations, conditions and paths of any depth, all backends, modules and logging configurations", "why_tests_cant": "configurations are unbounded recursive data; tests use a few of them, and those which validation accepts by mistake are not thought of", "anchors": ["schemas_json/server.yaml", "schemas_json/backends/lmdb.yaml", "src_py/hat/event/server/main.py:44-67", "src_py/hat/event/server/main_runner.py:79-144", "src_py/hat/event/backends/lmdb/backend.py:50-105", "src_py/hat/event/backends/lmdb/conditions.py"]}
{"id": "C70", "title": "Events and data by which a server tells about itself conform to their schemas", "statement": "Every event that the engine hands to its backend was asked for by a caller of register or by a module, or is of type event/<server_id>/engine and accepted by the schema of these events. Every event that the eventer server registers was asked for by a client, or is of type event/<server_id>/eventer/<name> and accepted by the schema. Events about synchronization are accepted by their schema. The data of the monitor component are accepted by their schema whenever the configuration was accepted, and other servers of the group with the same token take from them exactly the configured server id and address.", "quantifier": "all executions of engine and eventer server, all modules and clients, all accepted configurations, all states of the monitor", "why_tests_cant": "tests compare a few events with constants; that no other event is ever registered on the server's behalf is a statement about all executions", "anchors": ["schemas_json/events.yaml", "schemas_json/monitor_data.yaml", "src_py/hat/event/server/engine.py", "src_py/hat/event/server/engine_runner.py:42-60", "src_py/hat/event/server/eventer_server.py", "src_py/hat/event/server/main_runner.py:120-130", "src_py/hat/event/server/eventer_client_runner.py:136-160"]}
{"id": "C71", "title": "Paging through a timeseries query while events are registered, flushed and removed", "statement": "A client asks the LMDB backend for pages of a timeseries query one after another, each with the id of the last event it received, until more_follows is false, while events are registered, flushed and cleaned up during and between the queries. Then the events of all pages together are strictly in the requested order, none twice, each of them registered and wanted; and every wanted event which was registered before the first page was asked for (in ascending order of timestamps: before the last page was asked for) and has not been removed is among them.", "quantifier": "all executions without a restart, all configurations, all queries, all sizes of pages, any number of pages, all interleavings of queries with registration, flush and cleanup", "why_tests_cant": "tests page through a database which does not change; pages are made from the database at one point and from pending entries of up to two batches at another one, and what changes between pages can be anything", "anchors": ["src_py/hat/event/backends/lmdb/timeseriesdb.py:85-190", "src_py/hat/event/backends/lmdb/timeseriesdb.py:229-292", "src_py/hat/event/backends/lmdb/timeseriesdb.py:396-500", "src_py/hat/event/backends/lmdb/backend.py"]}
{"id": "C72", "title": "What a server process acknowledged is found by queries", "statement": "When a server process with the LMDB backend answers a request of a client for registration of events, the answer has the requested events, and each of them which meets the conditions and belongs to some partition has been accepted for storage. Any query by any client made after the answer finds it: a query for latest events finds it or one of its type which is not older; a server query and a timeseries query find it, unless it has been removed by a cleanup or the page is full. A client finds what it registered on its own connection even if it did not ask for the answer. Once a flush which began after the answer is done, the event is in the database after any crash or restart, until it is removed by a cleanup. This needs the clock not to go back: otherwise an acknowledged event may be lost.", "quantifier": "all executions of the process from any reachable state of the database: any number of clients and modules, any interleaving of their requests with sessions of the engine, flushes, cleanups, other queries and synchronization of events of other servers", "why_tests_cant": "the path from a request to its answer crosses three components, each with its own queue or executor, and a query may run at any point of sessions, flushes and cleanups; tests run components alone or with mocks", "anchors": ["src_py/hat/event/server/main_runner.py:80-145", "src_py/hat/event/server/engine.py:102-200", "src_py/hat/event/server/eventer_server.py:80-108", "src_py/hat/event/eventer/server.py", "src_py/hat/event/backends/lmdb/backend.py:120-260"]}
{"id": "C73", "title": "A server that follows a remote one has no gaps, over lost connections, crashes and restarts of both", "statement": "A server with the LMDB backend synchronizes with a remote server over any number of connections; connections are lost at any time and both servers are restarted, after a crash or not, any number of times. At any time it has every event that the remote has stored (and not removed) up to the last id it has of the remote, if its conditions and partitions take the event; the same is true of what is written to its database. When SYNCED was told in the current connection it has all such events of the remote but those not yet notified or received. What it has of the remote are events of the remote, each once and in their order. This needs the clock of the remote not to go back, and the last event the remote registered before a restart to be stored: otherwise a stored event may be refused for good, in the second case because its id was used before for another event.", "quantifier": "all executions: any interleaving of the remote's commits, removals, notifications and answers (any page size) with the steps of the client, registrations of other events, flushes, cleanups and queries of the local backend, lost connections, restarts of the remote and restarts of the local server, also with changed configurations", "why_tests_cant": "a gap needs a connection lost between a page and a notification, or a crash between a registration and its flush; tests run one client against mocks of the backend and of the remote", "anchors": ["src_py/hat/event/server/eventer_client.py:32-205", "src_py/hat/event/server/eventer_client_runner.py:76-105", "src_py/hat/event/backends/lmdb/backend.py:114-190", "src_py/hat/event/backends/lmdb/systemdb.py", "src_py/hat/event/server/engine.py:39,202-210"]}
{"id": "C74", "title": "Two LMDB servers, one following the other: the follower has what is in the other's database", "statement": "Two servers with the LMDB backend run, each with its configuration, and the second one synchronizes with the first one over any number of connections: the first one registers events, flushes them with its flush loop, notifies them after they are written, removes old ones and answers the queries of the client from its database; connections are lost and both servers are restarted, after a crash or not, at any time. When SYNCED was told in the current connection, every event of the first server that is in its database was accepted by the second one, if its configurations take the event, but events to be notified or on their way. At any time the second server has every such event up to the last id it has of the first one, and the same is true of what it has written. What it has of the first server are flushed events, each once and in order. This needs the clock of the first server not to go back, and its last flushed event to be stored when it is restarted: otherwise a stored event may be refused for good.", "quantifier": "all executions of the two servers: any interleaving of registrations, flush calls, writes, notifications, cleanups, queries and other readers in the first one with the steps of the client, the connection and the second one's backend, any configurations (conditions of the first one are not made stricter), any number of lost connections, crashes and restarts of both", "why_tests_cant": "a gap needs a page of the query to be computed between the write transaction and its notification, or a crash of one server between two particular steps of the other; tests run the client against a mock of the remote and a mock of the backend", "anchors": ["src_py/hat/event/backends/lmdb/backend.py:100-320", "src_py/hat/event/server/eventer_client.py:32-205", "src_py/hat/event/server/main_runner.py:187-191", "src_py/hat/event/eventer/server.py:96-125", "src_py/hat/event/server/eventer_server.py:107-108"]}
{"id": "C75", "title": "An event acknowledged by one server is found at the server that follows it", "statement": "A client requests the registration of events and gets the answer. If a flush begins afterwards and is done, then whatever happens to that server later - it may be killed before it notifies anybody and be restarted - a second server that follows it and is told SYNCED has accepted each of the events which the client was answered with, provided that both configurations take the event, the first server has not removed it and has not to notify it yet. Queries at the second server find it: a query for latest events gives it or one of its type with a timestamp that is not less, and a query for the events of the first server gives it unless the page is full of earlier ones. Without the flush this is not true: when the first server is killed after the answer, no server has the event.", "quantifier": "all executions of a server process (clients, server, engine with any modules, backend) from any state of its database up to the answer, composed with all executions of the two servers (lost connections, crashes and restarts of both at any time) of which the first one's backend begins that way", "why_tests_cant": "the path goes through the client's connection, the engine, the backend, the flush loop, the notification or the answer of the following server's query, its client, and its backend and its database; a test covers a part of it with mocks of the others, and one interleaving", "anchors": ["src_py/hat/event/eventer/server.py:96-125", "src_py/hat/event/eventer/server.py:213-248", "src_py/hat/event/server/engine.py:80-219", "src_py/hat/event/backends/lmdb/backend.py:100-320", "src_py/hat/event/server/eventer_client.py:32-205", "src_py/hat/event/server/main_runner.py:187-191"]}
{"id": "C76", "title": "Two servers that are left alone come to rest, and then the follower has everything", "statement": "Take two servers, one of which follows the other one, at any time: connections were lost, servers crashed, queries and notifications are under way, events are registered and not written. If from now on nobody registers events, nothing crashes and no connection is lost, then there is a bound for the number of steps that the flush loop, the worker thread, the connection and the following client do until none of them can go on; at that point the client has told SYNCED in the current connection, no notification is left, the first server has written everything it has accepted, and the second one has accepted each event of the first one which that one keeps and which the second one's configuration takes. None of them stops before, so that point is always reached. Without the clock of the first server going forward the last part is not true.", "quantifier": "all histories of the two servers (events, queries, cleanups, lost connections, crashes and restarts of both at any time), and all orders of the steps after it", "why_tests_cant": "progress from every reachable state: a test can not show that there is no interleaving of the flush loop, a query, notifications and the client after which the synchronization stops for good or goes on forever", "anchors": ["src_py/hat/event/backends/lmdb/backend.py:224-320", "src_py/hat/event/backends/lmdb/refdb.py:60-100", "src_py/hat/event/server/eventer_client.py:32-205", "src_py/hat/event/eventer/server.py:96-125"]}
{"id": "C77", "title": "An acknowledged event comes to the following server, without anybody asking for a flush", "statement": "A client of a server has requested the registration of events and got the answer. Another server follows the former one, in any state: not connected, synchronizing, with messages on their way. If from then on the two servers are left alone (nobody registers events, nothing crashes, no connection is lost), they come to rest after finitely many steps, and then each of the acknowledged events which the first server's configuration stores and which it has not removed is in its database and was accepted by the second server, if that one's configuration takes it; a query for latest events at the second server finds it or one of its type that is not older. If the first server is killed instead, the events may be lost at both.", "quantifier": "all histories of the server process up to the answer (engine, modules, other clients), all histories of the two servers, and all orders of the steps after the answer", "why_tests_cant": "a liveness claim from end to end, over the engine, the backend's flush loop, notifications and synchronization of another process, for all interleavings", "anchors": ["src_py/hat/event/server/engine.py:102-160", "src_py/hat/event/server/eventer_server.py:80-108", "src_py/hat/event/backends/lmdb/backend.py:143-320", "src_py/hat/event/server/eventer_client.py:32-205"]}
{"id": "C78", "title": "The dummy backend passes every batch on, once, and keeps nothing", "statement": "Of each registration at the dummy backend one sees the registered callback, then the flushed callback, then the answer, each once and with the given events, or a beginning of that if the callback raised or the caller was cancelled; registered callbacks are called in the order of the registrations, flushed ones too if registrations do not overlap. Queries find nothing, and the last event id is the first one, whatever was registered. So engines that use it give the same event ids again after each restart.", "quantifier": "all interleavings of calls of the backend's methods, all points at which callbacks return, raise or callers are cancelled, with or without each callback, all event batches", "why_tests_cant": "tests call register once with callbacks that return at once; overlapping calls, callbacks that raise and engine restarts are not tried", "anchors": ["src_py/hat/event/backends/dummy.py:18-50", "src_py/hat/event/server/engine.py:49-51"]}
{"id": "C79", "title": "An orderly end of the server process loses nothing that was acknowledged, and the process ends when asked to", "statement": "When the server process ends without being killed, the main runner is closed and the LMDB backend, if it was created, has written everything it accepted; so the events a client was answered with are in the database, stay there until they are cleaned up, and a query of latest events to the next process (same configuration) finds them or later events of their types; engines of later processes give greater ids than those of the server's accepted events, even if they are killed. Once the process got a signal, or something failed in the main runner, its own steps bring it to that end from every state; a second signal does not cut it short. If a write transaction fails at that time, the process ends in the same way and acknowledged events are lost.", "quantifier": "all interleavings of the steps of async_main, main runner, backend flush loop, worker thread, clients and signals; all points at which creations fail or resources close by themselves; all configurations of adminer and monitor component; all event batches", "why_tests_cant": "no test runs the process; ending it while a batch is being written, while it is still starting, or with a second signal during cleanup, and then looking at the database, takes chosen interleavings of loop and thread", "anchors": ["src_py/hat/event/server/main.py:66-82", "src_py/hat/event/server/main_runner.py:74-77,146-166", "src_py/hat/event/backends/lmdb/backend.py:223-271"]}
{"id": "C80", "title": "A conversion of a database that was interrupted can be repeated, and never leaves half of the events", "statement": "When the conversion tool is killed or fails at any point, the source file and all files other than the destination and the intermediate file are as they were; the destination does not exist, has no entries, or holds everything; once it is removed (or if it does not exist) running the tool again succeeds and everything is read from the result, whatever was left in the intermediate file. Simply running the tool again is not enough, since the destination may exist already; and a server given such a destination opens it as a database without events.", "quantifier": "all points at which the conversion stops; all sources of versions 0.6 and 0.7, all other files, all JSON and SBS codecs, all contents an unfinished intermediate file may have", "why_tests_cant": "the repository has no test of the conversion tool; stopping it at each point of each transaction, and looking at all files after that, is not done by tests", "anchors": ["src_py/hat/event/backends/lmdb/convert/main.py:36-83", "src_py/hat/event/backends/lmdb/convert/convert_v07_to_v09.py:7-21", "src_py/hat/event/backends/lmdb/systemdb.py:78-102"]}
{"id": "C81", "title": "A server started on a converted database goes on from it", "statement": "A server with any configuration can be started on a converted database. Its first latest queries are answered by the former latest events that the configuration shows; entries of former partitions stay until a cleanup removes them; every event stored later has a greater id than all former events of its server and a timestamp that is not smaller; timeseries and server queries find the former events that the configuration accepts beside the new ones; the last id it reports is never smaller than a former one; and everything later, over restarts and cleanups, is as if the database had been made by accepting its events one after another.", "quantifier": "all consistent databases (as converted from versions 0.6 and 0.7), all configurations, all runs of any length with restarts, crashes, flushes and cleanups", "why_tests_cant": "the repository has no test of the conversion tool, and none that starts a server on a database it has not made; the property is about all later runs on all databases", "anchors": ["src_py/hat/event/backends/lmdb/backend.py:50-130", "src_py/hat/event/backends/lmdb/latestdb.py:21-45", "src_py/hat/event/backends/lmdb/timeseriesdb.py:32-58", "src_py/hat/event/backends/lmdb/convert/convert_v07_to_v09.py:7-21", "src_py/hat/event/backends/lmdb/convert/convert_v06_to_v07.py:8-181", "src_py/hat/event/backends/lmdb/backend.py:196-211", "src_py/hat/event/backends/lmdb/timeseriesdb.py:85-292"]}
{"id": "C82", "title": "A database stays good over any number of server processes and copies", "statement": "A server can be started on a copy of a database whenever it can be started on the original, whatever the copy skips, and goes on from it as from a database of its own. Over any sequence of server processes and copies, starting from a new or a converted database, ids of events are never used again, not even those of events that were removed or skipped; entries of partitions stay unless a copy skips them or a cleanup removes them; and types keep a latest event that never becomes older, unless a copy skips latest events.", "quantifier": "all databases created by a server or converted, all sequences of copies (with any skipping) and runs of any length with restarts, crashes, flushes and cleanups, all configurations that do not stop accepting what was accepted before", "why_tests_cant": "the repository has no test of the copying tool; the property is about all sequences of runs and copies, whose effects on ids and the reference index only show after events were removed", "anchors": ["src_py/hat/event/backends/lmdb/manager/copy.py:16-92", "src_py/hat/event/backends/lmdb/environment.py:92-100", "src_py/hat/event/backends/lmdb/backend.py:50-130", "src_py/hat/event/backends/lmdb/systemdb.py:14-102", "src_py/hat/event/backends/lmdb/refdb.py:35-156"]}
{"id": "C83", "title": "Copies of database files are complete or empty, and can be made again", "statement": "Copying a database file gives a file from which the same content is read, without the parts that were to be skipped and without references to them; if nothing is skipped every database is the same byte for byte. Wherever the copying tool is stopped or fails, all other files are as before, and the destination does not exist, has no entries, or is the whole copy. After the destination is removed, a second attempt gives the same files as a copy that was not stopped. (Refuted: that a stopped copy can just be repeated, and that a stopped copy is always noticed by a server started on its destination. A copy of a file of a former version fails, and no server starts on what it leaves.)", "quantifier": "all files with the databases of version 0.9, all moments at which the tool may stop, both options in all combinations, all other files on the disk", "why_tests_cant": "the repository has no test of the copying tool; a test would have to stop it at each moment, and compare files for all contents", "anchors": ["src_py/hat/event/backends/lmdb/manager/copy.py:16-92", "src_py/hat/event/backends/lmdb/common.py:146-161", "src_py/hat/event/backends/lmdb/common.py:193-253"]}
{"id": "C84", "title": "The bytes in the database file are the events that were flushed, through restarts and cleanups", "statement": "What can be read from the database file after any sequence of openings, flushes and cleanups, by any number of servers one after the other, is exactly the content which these operations give on decoded entries: no flush fails, no entry is lost or changed by its encoding, counters of partitions agree, and the file stays one that a server can open. Timeseries and server queries, whose cursors move over encoded keys, return the events that are in the ranges asked for. This holds for numbers that fit the encodings. (Refuted: that everything which was registered can be flushed: one event with a source timestamp that does not fit makes the flush of all events registered since the last one fail.)", "quantifier": "all files with the databases of version 0.9, all configurations, all sequences of openings, flushes and cleanups, all ranges, orders, servers and last ids of queries; all codecs of JSON and SBS that give back what they encode", "why_tests_cant": "tests use few events with small numbers; order of encoded keys, cursors at the ends of databases, and cleanup of some of the references matter only for particular contents", "anchors": ["src_py/hat/event/backends/lmdb/environment.py:77-100", "src_py/hat/event/backends/lmdb/systemdb.py:68-102", "src_py/hat/event/backends/lmdb/latestdb.py:109-116", "src_py/hat/event/backends/lmdb/timeseriesdb.py:115-148", "src_py/hat/event/backends/lmdb/timeseriesdb.py:192-226", "src_py/hat/event/backends/lmdb/timeseriesdb.py:248-393", "src_py/hat/event/backends/lmdb/refdb.py:105-230", "src_py/hat/event/backends/lmdb/backend.py:108-123", "src_py/hat/event/backends/lmdb/backend.py:318-334", "src_py/hat/event/backends/lmdb/common.py:90-143"]}
{"id": "C85", "title": "A backend working on the bytes of its file gives the answers it would give on the stored events", "statement": "Registrations, flushes, cleanups, all kinds of queries and restarts, in any order and with queries that are answered while others are waiting, give on the bytes of a database file exactly the answers which they give on decoded entries; what is read from the file at any moment are the entries that were written, and the state in memory after a restart is the same. The same holds for a server that goes on from an existing file, such as a converted or copied one. This holds for numbers that fit the encodings.", "quantifier": "all configurations, all interleavings of operations of a server with its worker thread, any number of restarts or crashes, all events", "why_tests_cant": "tests see some interleavings on small databases; that no encoding, order of bytes or cursor changes any answer needs all keys and values", "anchors": ["src_py/hat/event/backends/lmdb/backend.py:108-211", "src_py/hat/event/backends/lmdb/backend.py:273-334", "src_py/hat/event/backends/lmdb/refdb.py:64-230", "src_py/hat/event/backends/lmdb/timeseriesdb.py:85-393", "src_py/hat/event/backends/lmdb/systemdb.py:14-102", "src_py/hat/event/backends/lmdb/latestdb.py:21-116", "src_py/hat/event/backends/lmdb/environment.py:40-100"]}
