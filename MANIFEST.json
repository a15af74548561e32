{"claims": [
 {"property": "C01", "status": "proved", "theorems": ["C01_matching", "C01_query_rules", "C01_creation"], "note": ""},
 {"property": "C02", "status": "proved", "theorems": ["C02_listing"], "note": ""},
 {"property": "C03", "status": "proved", "theorems": ["C03_union", "C03_union_c"], "note": ""},
 {"property": "C04", "status": "partial", "theorems": ["C04_intersection_refuted", "C04_intersection_partial", "C04_intersection_exact_partial", "C04_intersection_c_partial", "C04_intersection_c_exact_partial", "C04_intersection_all_partial", "C04_algebra_partial", "C04_intersection_c_all_partial"], "note": "full claim refuted: ('*',) with () loses (); proved instead: the exact set of event types matched by an intersection, for all Python and C subscriptions (a '*' which stands for nothing meets only another '*'), soundness, and that it is set intersection if every [p + '*'] is preceded by [p]"},
 {"property": "C05", "status": "partial", "theorems": ["C05_isdisjoint", "C05_isdisjoint_unions", "C05_isdisjoint_sound", "C05_isdisjoint_intersection_refuted"], "note": "exact for subscriptions created from query types and for unions of them; for subscriptions produced by intersection only soundness holds (refuted otherwise)"},
 {"property": "C06", "status": "partial", "theorems": ["C06_interchangeable_partial", "C06_isdisjoint_refuted", "C06_isdisjoint_partial", "C06_isdisjoint_all_partial", "C06_isdisjoint_stars_partial", "C06_nul_refuted"], "note": "matches and listing agree; isdisjoint of the C version differs (refuted); exactly when it answers false is proved in terms of the query types"},
 {"property": "C07", "status": "partial", "theorems": ["C07_pylist", "C07_ctree", "C07_pytree_refuted", "C07_pytree_partial", "C07_pytree_sound_partial"], "note": "PyList and CTree exact; PyTree refuted for repeated addition, exact otherwise"},
 {"property": "C08", "status": "proved", "theorems": ["C08_strict_order", "C08_older", "C08_ties", "C08_newer"], "note": ""},
 {"property": "C09", "status": "proved", "theorems": ["C09_timestamp_bytes", "C09_every_bytes"], "note": ""},
 {"property": "C10", "status": "partial", "theorems": ["C10_add", "C10_add_any", "C10_add_half", "C10_datetime_refuted", "C10_datetime_far_refuted", "C10_datetime_partial"], "note": "conversion to datetime truncates/loses far values (refuted); exact in the stated range"},
 {"property": "C11", "status": "proved", "theorems": ["C11_status", "C11_query_params", "C11_event", "C11_register_event", "C11_query_result", "C11_schema"], "note": ""},
 {"property": "C12", "status": "proved", "theorems": ["C12_uint_key", "C12_event_id_key", "C12_timeseries_key"], "note": ""},
 {"property": "C13", "status": "proved", "theorems": ["C13_refs_round_trip"], "note": ""},
 {"property": "C14", "status": "proved", "theorems": ["C14_order", "C14_last_id"], "note": ""},
 {"property": "C15", "status": "proved", "theorems": ["C15_latest", "C15_newest"], "note": ""},
 {"property": "C16", "status": "proved", "theorems": ["C16_restart", "C16_flush"], "note": ""},
 {"property": "C17", "status": "partial", "theorems": ["C17_timeseries_partial", "C17_flushed", "C17_one_server", "C17_at_once_partial", "C17_negative", "C17_sorted_refuted"], "note": "exact result characterised for all executions; complete and sorted as claimed when nothing is pending, or when all events are of one server and ordered by timestamp; pending entries are looked at in order of registration, so sorting is refuted by a witness for pending events of two servers"},
 {"property": "C18", "status": "proved", "theorems": ["C18_paging", "C18_same", "C18_prefix"], "note": ""},
 {"property": "C19", "status": "partial", "theorems": ["C19_server_partial", "C19_refused", "C19_negative", "C19_refuted"], "note": "does not hold after configuration changes under which events that met former conditions do not meet the new ones (a stale reference yields an event twice; refuted by a witness); proved otherwise"},
 {"property": "C20", "status": "partial", "theorems": ["C20_paging_partial", "C20_refuted"], "note": "does not hold after configuration changes under which events that met former conditions do not meet the new ones (a stale reference yields an event twice; refuted by a witness); proved otherwise"},
 {"property": "C21", "status": "partial", "theorems": ["C21_complete", "C21_exact_partial", "C21_refuted"], "note": "every stored place is indexed, no empty lists: proved for all histories. Exactness proved when conditions that were met stay met across configuration changes, refuted otherwise (stale reference stays)"},
 {"property": "C22", "status": "proved", "theorems": ["C22_counters"], "note": ""},
 {"property": "C23", "status": "proved", "theorems": ["C23_crash"], "note": ""},
 {"property": "C24", "status": "proved", "theorems": ["C24_flush", "C24_once", "C24_rounds", "C24_ended", "C24_answer"], "note": "Proved for the flush loop over the transition system of the database: a normal answer means that everything accepted before the call is written; each call is answered once; after two turns of the loop at most; and the loop's own steps always lead to the answer (no step is blocked). Assumes hat.aio Queue, uncancellable and a FIFO executor."},
 {"property": "C25", "status": "partial", "theorems": ["C25_once", "C25_all_partial", "C25_rounds", "C25_written", "C25_refuted"], "note": "No batch twice or out of order, and only after it is written; without gaps as long as no callback and no write raises. Refuted otherwise: a raising callback loses the notifications of the other batches of that flush."},
 {"property": "C26", "status": "partial", "theorems": ["C26_server_partial", "C26_timeseries_partial", "C26_timeseries_entries_partial", "C26_timeseries_refuted"], "note": "server queries: does not hold after configuration changes under which events that met former conditions do not meet the new ones (a stale reference yields an event twice; refuted by a witness); proved otherwise. Timeseries queries: no repetition proved always; completeness proved unless pending entries are out of order and the query has a range, in which case it is refuted by a witness (a pending event registered after one behind the range is missed)"},
 {"property": "C27", "status": "proved", "theorems": ["C27_pass", "C27_repeat", "C27_loop", "C27_sleep"], "note": ""},
 {"property": "C28", "status": "proved", "theorems": ["C28_partitions", "C28_stable", "C28_distinct", "C28_same"], "note": ""},
 {"property": "C29", "status": "partial", "theorems": ["C29_conditions", "C29_json_partial", "C29_json_refuted", "C29_accepted", "C29_stored"], "note": "Proved for both implementations of event type collections and all condition trees, with Python's equality of values (True == 1); hat.json.get is a parameter. Refuted for JSON equality of values (a condition on 1 holds for true), with the exact claim for conditions that cannot mix them."},
 {"property": "C30", "status": "proved", "theorems": ["C30_open", "C30_openings"], "note": ""},
 {"property": "C31", "status": "proved", "theorems": ["C31_increasing", "C31_session"], "note": ""},
 {"property": "C32", "status": "proved", "theorems": ["C32_answer", "C32_served", "C32_once", "C32_empty"], "note": ""},
 {"property": "C33", "status": "proved", "theorems": ["C33_session", "C33_serial"], "note": ""},
 {"property": "C34", "status": "partial", "theorems": ["C34_first", "C34_last", "C34_order", "C34_ended_partial", "C34_later", "C34_closes", "C34_refuted"], "note": "C34_first, C34_last, C34_order, C34_later, C34_closes proved; requests queued before a failed creation stay unanswered (C34_refuted), the rest is C34_ended_partial"},
 {"property": "C35", "status": "partial", "theorems": ["C35_stored_partial", "C35_restart_partial", "C35_refuted", "C35_crash_refuted"], "note": "False: events not selected for storage (C35_refuted) and events lost by a crash (C35_crash_refuted) get their ids given again; proved for accepted events that are not lost and for restarts after which the last event given was accepted"},
 {"property": "C36", "status": "proved", "theorems": ["C36_message", "C36_all", "C36_only"], "note": ""},
 {"property": "C37", "status": "partial", "theorems": ["C37_client", "C37_together_partial", "C37_server_partial", "C37_given_up_refuted"], "note": "client and server together: C37_together_partial (client has received all messages; the last call that changed the status has returned); a call given up by its caller is never made up for (C37_given_up_refuted)"},
 {"property": "C38", "status": "partial", "theorems": ["C38_accepted_partial", "C38_refused_partial", "C38_answer", "C38_engine", "C38_messages", "C38_query", "C38_register", "C38_ids", "C38_covered_refuted", "C38_engine_refuted"], "note": "proved but for two gaps: query types covered by an earlier one are not checked (C38_covered_refuted), and a client is refused if the engine raises (C38_engine_refuted)"},
 {"property": "C39", "status": "partial", "theorems": ["C39_acknowledged_partial", "C39_refuted"], "note": "when any connection ends, all waiting calls finish (server.py:205-207): C39_refuted; otherwise C39_acknowledged_partial"},
 {"property": "C40", "status": "partial", "theorems": ["C40_own", "C40_once", "C40_convs", "C40_served", "C40_sent", "C40_error", "C40_after", "C40_closed_partial", "C40_refuted", "C40_ignored"], "note": "proved, also together with the server (C40_served); if the connection is closed before the receive loop's first step, pending calls never end (C40_refuted), otherwise they end (C40_closed_partial)"},
 {"property": "C41", "status": "partial", "theorems": ["C41_synced", "C41_all", "C41_after", "C41_only", "C41_order", "C41_once_partial", "C41_refuted", "C41_accepted", "C41_stored_once", "C41_can_finish"], "note": "completeness, order, progress and storing exactly once proved; given exactly once only if all batches committed before the last page were notified by then (C41_once_partial), otherwise a batch may be given again (C41_refuted), which the backend refuses (C41_accepted); the remote is seen through what C14, C19, C25, C30 and C36 say of it"},
 {"property": "C42", "status": "proved", "theorems": ["C42_one", "C42_apart", "C42_pages", "C42_finished"], "note": ""},
 {"property": "C43", "status": "proved", "theorems": ["C43_active", "C43_when", "C43_told", "C43_loops", "C43_tries", "C43_ended", "C43_can_end"], "note": ""},
 {"property": "C44", "status": "partial", "theorems": ["C44_operational", "C44_cycle_partial", "C44_cycle_refuted", "C44_allowed_partial", "C44_allowed_refuted", "C44_after", "C44_single", "C44_served", "C44_passed", "C44_finished", "C44_raise", "C44_gone", "C44_restart", "C44_can_stop"], "note": "Engine given exactly while OPERATIONAL, one engine at a time, closed and flushed before the next, requests, restart and end proved. Statuses follow the cycle until the runner closes (C44_cycle_partial); then STOPPING may follow any status (C44_cycle_refuted). No remote is active when STARTING is set (C44_allowed_partial), one may become active before the engine is created (C44_allowed_refuted)"},
 {"property": "C45", "status": "proved", "theorems": ["C45_choice", "C45_one", "C45_dial", "C45_call", "C45_settled", "C45_none", "C45_moves"], "note": ""},
 {"property": "C46", "status": "proved", "theorems": ["C46_v07", "C46_v07_same", "C46_v07_invariants", "C46_v07_open", "C46_v06", "C46_v06_latest", "C46_v06_data", "C46_v06_partitions", "C46_v06_refs", "C46_v06_counters", "C46_v06_order", "C46_v06_open"], "note": ""},
 {"property": "C47", "status": "proved", "theorems": ["C47_same", "C47_skip", "C47_exact", "C47_lists", "C47_counters", "C47_backend", "C47_refused"], "note": ""},
 {"property": "C48", "status": "partial", "theorems": ["C48_latest", "C48_newest", "C48_register", "C48_id_raises", "C48_timeseries_raises", "C48_server_raises", "C48_refuted"], "note": "latest queries and registration proved; as the code reads attributes that events do not have (and a name without value), the last event id, timeseries and server queries raise: exact characterisation proved, the claim refuted for them"},
 {"property": "C49", "status": "proved", "theorems": ["C49_float_round_trip", "C49_range_needed"], "note": ""},
 {"property": "C50", "status": "proved", "theorems": ["C50_close"], "note": "Everything accepted is written when the backend was closed and no write raised."},
 {"property": "C51", "status": "partial", "theorems": ["C51_refuted", "C51_prefix_partial"], "note": "Refuted: after a raising write transaction the failed changes are dropped, but the final flush writes what was registered meanwhile. Partial: holds as long as no write raises."},
 {"property": "C52", "status": "proved", "theorems": ["C52_order", "C52_register", "C52_query", "C52_handed"], "note": ""},
 {"property": "C53", "status": "proved", "theorems": ["C53_callbacks", "C53_serial", "C53_acks", "C53_after"], "note": ""},
 {"property": "C54", "status": "proved", "theorems": ["C54_told", "C54_finished", "C54_when"], "note": ""},
 {"property": "C55", "status": "partial", "theorems": ["C55_partial", "C55_refuted"], "note": "refuted: a runner returned by the callback just before another server is chosen (or the component closed) is never closed, as the cancelled loop does not get the result (C55_refuted); proved in all other cases (C55_partial)"},
 {"property": "C56", "status": "partial", "theorems": ["C56_partial", "C56_refuted"], "note": "refuted: if the connection is lost while the runner callback is running, the client loop is cancelled and nothing connects until another server is chosen (C56_refuted); proved otherwise (C56_partial)"},
 {"property": "C57", "status": "proved", "theorems": ["C57_only", "C57_when", "C57_again", "C57_raise"], "note": ""},
 {"property": "C58", "status": "partial", "theorems": ["C58_last", "C58_last_partial", "C58_ids_partial", "C58_refused_refuted", "C58_last_refuted", "C58_ids_refuted"], "note": "the recorded last id is characterised exactly; the claim is proved if all events belong to the server itself and refuted otherwise: with an event of a server with a greater number, no event of the server itself is ever registered again (proved for every such database); ids stay distinct unless events of server 0 meet events with the server's own number (refuted then)"},
 {"property": "C59", "status": "partial", "theorems": ["C59_start", "C59_needs", "C59_all", "C59_engine", "C59_order", "C59_uses_partial", "C59_client_refuted", "C59_flush", "C59_quiet", "C59_reason", "C59_ends"], "note": "proved for every configuration and interleaving of the modelled runner, including the order of closing, flushing, reasons and the ability to end; the order 'users before what they use' fails for one pair: the eventer client runner is closed before the monitor component whose engine runner was given it (C59_client_refuted)"},
 {"property": "C60", "status": "partial", "theorems": ["C60_cycle", "C60_false", "C60_true", "C60_reset_partial", "C60_reset_refuted"], "note": "the cycle and its reasons are proved; a reset request is proved to be served if it comes once set_ready(True) has returned and refuted if it comes while set_ready(True) is waited for: the flag is cleared and the request lost"},
 {"property": "C61", "status": "partial", "theorems": ["C61_settings", "C61_last_ids", "C61_last_timestamps", "C61_partitions", "C61_timeseries", "C61_names", "C61_json", "C61_ref_refuted", "C61_latest_refuted"], "note": "settings, last ids, last timestamps, partitions and timeseries are proved; printing references always raises, printing latest events prints nothing with types and raises without types as soon as there is a latest event (refuted); the order of printed lines of sets is arbitrary"},
 {"property": "C62", "status": "proved", "theorems": ["C62", "C62_once"], "note": "proved as linearizability of the history of all clients of one server, for every execution; dictConfig is an oracle which raises or not"},
 {"property": "C63", "status": "partial", "theorems": ["C63_partial", "C63_answered_partial", "C63_refuted"], "note": "proved for connections which nothing disturbs (other connections may be lost and their callers cancelled); refuted in general: the response of a call which was given up closes the client and all its other calls end with ConnectionError"},
 {"property": "C64", "status": "partial", "theorems": ["C64_query_partial", "C64_result", "C64_lines", "C64_register", "C64_subscribe", "C64_closed", "C64_options_refuted", "C64_exit_refuted"], "note": "registration requests, subscriptions, latest and timeseries queries and their printing proved; queries with --order, --order-by, --last-event-id and server queries never reach the server, and a registration always ends with a failure status (refuted)"},
 {"property": "C65", "status": "proved", "theorems": ["C65_memory", "C65_references", "C65_content", "C65_exact"], "note": "heap-level model of _ctree.c with failing allocations; values whose own code uses the collection again are not modelled"},
 {"property": "C66", "status": "partial", "theorems": ["C66_memory_partial", "C66_memory_refuted", "C66_answers", "C66_exact", "C66_matches", "C66_references_partial", "C66_references_refuted"], "note": "heap-level model of _csubscription.c with failing calls and reference counts; safe but for the tuple made for a query type ending with \"*\", whose failure leads to the use of NULL (refuted); exact but for one reference to \"*\" that each such query type loses when a subscription is made (refuted)"},
 {"property": "C67", "status": "partial", "theorems": ["C67_server", "C67_client", "C67_engine_partial", "C67_increasing_partial", "C67_refuted", "C67_persisted_partial"], "note": "server and client: proved for all executions, for notifications made one after another. Engine: proved if the loop of the engine is not interrupted while clients are told of a batch, refuted otherwise (the connected client misses the events of that batch and gets later ones). Flush loop: proved if writing and the flushed callback do not raise"},
 {"property": "C68", "status": "partial", "theorems": ["C68_v07", "C68_v06_partial", "C68_others", "C68_source_partial", "C68_nothing", "C68_refuted"], "note": "version 0.7: proved. Version 0.6 and the source: proved unless the source has the name of the intermediate file (destination with suffix .v07), refuted then: the source is deleted before it is read"},
 {"property": "C69", "status": "partial", "theorems": ["C69_server_form", "C69_lmdb_form", "C69_server", "C69_lmdb_partial", "C69_main", "C69_server_id_partial", "C69_refuted", "C69_server_id_refuted"], "note": "forms, what is read and when the server is run proved; that accepted configurations can be used is refuted: subscriptions such as ['*','a'] and a cache size 4096.0 are accepted but the backend can't be created, server ids -1 and 1.0 are accepted but no event id can be stored; proved exactly when they can be used"},
 {"property": "C70", "status": "partial", "theorems": ["C70_engine", "C70_eventer", "C70_synced", "C70_monitor_data", "C70_peers_partial", "C70_refuted"], "note": "events and monitor data proved to conform; that other servers use the data is refuted for server_id 1.0, which conforms but is ignored; proved exactly when it is used"},
 {"property": "C71", "status": "partial", "theorems": ["C71_paging_partial", "C71_growing_partial", "C71_removed_refuted", "C71_missed_refuted", "C71_twice_refuted"], "note": "proved for events of one server ordered by timestamp, and for queries which find no pending entries, as long as the last received event is not removed before the next page; refuted otherwise: when the last received event is cleaned up the next page is empty with more_follows false and the rest is lost, and pending events of two servers that are flushed between pages may be missed or received twice"},
 {"property": "C72", "status": "partial", "theorems": ["C72_acknowledged", "C72_latest", "C72_own_writes", "C72_server_partial", "C72_timeseries_partial", "C72_written", "C72_clock_refuted"], "note": "acknowledged events, queries for latest events, own writes and flushed events proved in full when the clock goes forward (refuted otherwise: acknowledged events are dropped); server queries proved when conditions were not changed before (with persisted=true once the events are flushed), timeseries queries for the first page, with a range of the ordering timestamp only when all events are of one server and ordered by timestamp"},
 {"property": "C73", "status": "partial", "theorems": ["C73_behind", "C73_disk", "C73_synced", "C73_all", "C73_only", "C73_clock_refuted", "C73_restart_refuted"], "note": "proved in full when the clock of the remote goes forward and the remote has stored its last event whenever it is restarted, for events that all configurations of the local server take and that have a place in a partition of it; refuted for a clock going back: after an event the remote does not store but notifies, the local server refuses a stored one with an earlier timestamp; refuted for a remote restarted after it notified an event it does not store: the id is used again and the local server refuses the stored event; the remote is that of C41 (abstract)"},
 {"property": "C74", "status": "partial", "theorems": ["C74_all", "C74_behind", "C74_disk", "C74_only", "C74_clock_refuted", "C74_restart_refuted"], "note": "proved in full when the clock of the first server goes forward and its last flushed event is stored whenever it is restarted, for events that all configurations of the second server take and that have a place in a partition of it, and when no write transaction and no callback of the first one raises; refuted for a clock going back and for a restart after an event was notified that is not stored (its id is used again); growing ids of the first server are taken from C30"},
 {"property": "C75", "status": "partial", "theorems": ["C75_reaches", "C75_latest", "C75_server", "C75_unflushed_refuted"], "note": "composition of C72 and C74, under their hypotheses: both clocks of the first server's processes go forward, the last flushed event is stored when it is restarted; latest queries for one configuration of the second server, server queries with persisted=false and no restart between the synchronization and the answer; refuted without the flush"},
 {"property": "C76", "status": "partial", "theorems": ["C76_ends", "C76_rests", "C76_can", "C76_converges", "C76_clock_refuted"], "note": "termination, absence of premature stops and the state at rest proved in full when the last flushed event is stored whenever the first server is restarted; what the follower has then, when the clock of the first server goes forward (refuted otherwise); write transactions do not fail and the notification callback does not raise; every step that is possible is done eventually (the event loops and the network are fair)"},
 {"property": "C77", "status": "partial", "theorems": ["C77_comes", "C77_ends", "C77_latest", "C77_killed_refuted"], "note": "composition of C72 and C76, under their hypotheses: the clock of the first server goes forward, the last flushed event is stored whenever it was restarted before, write transactions do not fail; refuted if the first server is killed before it has written the events"},
 {"property": "C78", "status": "partial", "theorems": ["C78_call", "C78_goes_on", "C78_registered", "C78_flushed_partial", "C78_flushed_refuted", "C78_answers", "C78_ids", "C78_ids_refuted", "C78_closed_refuted"], "note": "order of flushed callbacks only for registrations that do not overlap, refuted otherwise; distinct ids across restarts refuted; a closed backend still serves (refuted that it refuses)"},
 {"property": "C79", "status": "partial", "theorems": ["C79_order", "C79_written", "C79_acknowledged", "C79_latest", "C79_ids", "C79_ends", "C79_failed_write_refuted"], "note": "proved as long as no write transaction raises; refuted otherwise: the process ends normally and acknowledged events are not in the database"},
 {"property": "C80", "status": "partial", "theorems": ["C80_source_partial", "C80_atomic_partial", "C80_again_partial", "C80_complete", "C80_repeat_refuted", "C80_noticed_refuted"], "note": "proved unless the source has the name of the intermediate file (see C68_refuted); that it is enough to run the tool again is refuted, and so is that a server notices a destination that was left without entries"},
 {"property": "C81", "status": "partial", "theorems": ["C81_starts_partial", "C81_latest", "C81_kept", "C81_ids", "C81_history", "C81_former", "C81_timeseries_partial", "C81_at_once_partial", "C81_server_partial"], "note": "proved for databases of version 0.7 whose reference index and counters are exact (events may have been removed), and for those of version 0.6 with events of the server itself only (for others see C58); server queries for configurations whose conditions accept the former latest events and are not made stricter later (C19), timeseries queries over events that wait to be written with the limits of C17; without new events and cleanups timeseries answers are exact (C81_former)"},
 {"property": "C82", "status": "partial", "theorems": ["C82_consistent_partial", "C82_copy", "C82_starts", "C82_ids_partial", "C82_kept_partial", "C82_latest_partial", "C82_stricter_refuted"], "note": "sequences of servers provided that no configuration stops accepting what was accepted before (refuted otherwise: C82_stricter_refuted); copies without that condition"},
 {"property": "C83", "status": "partial", "theorems": ["C83_copy_partial", "C83_same_partial", "C83_source_partial", "C83_atomic_partial", "C83_ends", "C83_failed_partial", "C83_again_partial", "C83_repeat_refuted", "C83_noticed_refuted", "C83_former"], "note": "repeating a stopped copy without removing its destination, and noticing a stopped copy by a server, are refuted (C83_repeat_refuted, C83_noticed_refuted); the rest holds for all files, with LMDB's transactions taken as atomic"},
 {"property": "C84", "status": "partial", "theorems": ["C84_created", "C84_open_partial", "C84_refused", "C84_flush_partial", "C84_cleanup_partial", "C84_transactions_partial", "C84_query_partial", "C84_server_partial", "C84_written_refuted"], "note": "for numbers that fit the encodings (64 bits), with the JSON and SBS libraries as codecs that give back what they encode and LMDB's statistics as a function of the content; that everything registered can be flushed is refuted (C84_written_refuted)"},
 {"property": "C85", "status": "partial", "theorems": ["C85_execution_partial", "C85_fits", "C85_seen_partial", "C85_from_partial"], "note": "for executions whose events, queries, number of partitions and times of cleanups fit the encodings (trace_fits; on existing files trace_fits_from and content_fits); C85_fits shows that all numbers the server makes fit then; codecs and statistics of LMDB as in C84"}
]}
