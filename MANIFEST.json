{"claims": [
 {"property": "C01", "status": "proved", "theorems": ["C01_routing_is_total", "C01_empty_ring_panics"], "note": ""},
 {"property": "C02", "status": "partial", "theorems": ["C02_ownership_partial", "C02_ownership_refuted"], "note": "False as written for keys whose CRC-32 equals a ring point (C02_ownership_refuted, a real key on real SHA-1 points); proved for every other key."},
 {"property": "C03", "status": "proved", "theorems": ["C03_order_does_not_matter"], "note": ""},
 {"property": "C04", "status": "partial", "theorems": ["C04_minimal_disruption_partial", "C04_minimal_disruption_refuted"], "note": "Same exact-hit defect as C02 (C04_minimal_disruption_refuted); proved for all keys whose hash is on no ring point."},
 {"property": "C05", "status": "proved", "theorems": ["C05_pool_of_text_servers_is_one_cache", "C05_pool_of_conforming_servers_is_one_cache", "C05_only_the_owner_is_touched"], "note": ""},
 {"property": "C06", "status": "proved", "theorems": ["C06_getmulti_asks_each_owner_once", "C06_getmulti_returns", "C06_getmulti_of_text_servers", "C06_same_names_refuted"], "note": "The statement is about servers with distinct names and is proved for them; C06_same_names_refuted shows that the condition is needed."},
 {"property": "C07", "status": "proved", "theorems": ["C07_flush_covers_every_server", "C07_close_covers_every_server", "C07_version_covers_every_server", "C07_same_names_refuted", "C07_flush_stops_at_the_first_failure", "C07_version_returns_what_it_has_on_failure"], "note": "The statement is about servers with distinct names and is proved for them; C07_same_names_refuted shows that the condition is needed."},
 {"property": "C08", "status": "partial", "theorems": ["C08_ring_close_closes_all", "C08_pool_close_refuted", "C08_pool_close_partial"], "note": "Ring.Close has the property; SinglePool.Close stops at the first failure (C08_pool_close_refuted), proved when no close fails."},
 {"property": "C09", "status": "proved", "theorems": ["C09_text_client_is_faithful"], "note": ""},
 {"property": "C10", "status": "partial", "theorems": ["C10_meta_client_is_faithful_partial", "C10_meta_client_refuted"], "note": "False as written: C10_meta_client_refuted. Proved for all histories in which each call is one of meta_safe (Guard.v): no Touch, Delete only of present keys, GetMulti only of present keys."},
 {"property": "C11", "status": "partial", "theorems": ["C11_binary_client_is_faithful_partial", "C11_binary_client_refuted"], "note": "False as written: C11_binary_client_refuted. Proved for all histories of bin_safe calls (Guard.v): Set/Add/Touch that the server accepts, counters not preceded by a Set with a cas number."},
 {"property": "C12", "status": "proved", "theorems": ["C12_values_are_binary_safe"], "note": ""},
 {"property": "C13", "status": "partial", "theorems": ["C13_text_flags_round_trip", "C13_binary_flags_round_trip", "C13_meta_flags_round_trip_partial", "C13_meta_flags_refuted"], "note": "Text and binary proved for all flags; meta proved below 2^31, refuted above."},
 {"property": "C14", "status": "partial", "theorems": ["C14_exactly_the_intended_commands", "C14_key_injection_refuted", "C14_binary_get_is_harmless_partial"], "note": "Proved for all legal keys; refuted for keys containing CRLF (text, meta); binary Get proved harmless for every key."},
 {"property": "C15", "status": "partial", "theorems": ["C15_text_getmulti_is_exact", "C15_binary_getmulti_is_exact", "C15_meta_getmulti_is_exact_partial", "C15_meta_getmulti_stops_at_first_miss", "C15_meta_getmulti_refuted"], "note": "Text and binary proved; meta refuted (it stops at the first miss: C15_meta_getmulti_stops_at_first_miss says exactly what it returns), proved when all keys are present."},
 {"property": "C16", "status": "partial", "theorems": ["C16_text_reply_consumed", "C16_meta_line_consumed_partial", "C16_meta_get_consumed_partial", "C16_meta_refuted", "C16_binary_packet_consumed_partial", "C16_binary_refuted", "C16_binary_wrong_reply_refuted"], "note": "Text proved for every reply; meta single-line and get replies and binary calls that read the body proved; meta GetMulti with a miss and binary Set/Add/Touch error bodies refuted."},
 {"property": "C17", "status": "proved", "theorems": ["C17_cut_reply_is_an_error_or_complete", "C17_every_cut_is_an_error", "C17_cut_daemon_reply_is_an_error", "C17_text_reads_to_the_terminator"], "note": ""},
 {"property": "C18", "status": "partial", "theorems": ["C18_stale_reply", "C18_late_reply_refuted", "C18_right_until_a_timeout_partial", "C18_reconnect_repairs_partial"], "note": "Refuted for all three protocols; C18_stale_reply says what the later call returns instead; proved until the first time-out and again after a Reconnect."},
 {"property": "C19", "status": "proved", "theorems": ["C19_calls_are_atomic", "C19_concurrent_calls_are_faithful", "C19_one_at_a_time", "C19_calls_can_complete"], "note": ""},
 {"property": "C20", "status": "partial", "theorems": ["C20_no_reply_panics_partial", "C20_no_reply_panics_refuted", "C20_refuted", "C20_conforming_server_never_panics"], "note": "Exactly characterised: C20_no_reply_panics_partial covers the operations that cannot panic, C20_no_reply_panics_refuted gives a panicking reply for every other one; a conforming server never causes a panic."},
 {"property": "C21", "status": "partial", "theorems": ["C21_text_misses_and_conflicts", "C21_meta_misses_and_conflicts_partial", "C21_binary_misses_and_conflicts_partial", "C21_meta_refuted", "C21_meta_touch_refuted", "C21_binary_refuted", "C21_binary_touch_refuted"], "note": "Text proved; meta Delete/Touch and binary counters/Touch refuted, the rest proved."},
 {"property": "C22", "status": "partial", "theorems": ["C22_only_if_confirmed_partial", "C22_success_exactly", "C22_only_if_confirmed_refuted"], "note": "Exactly characterised: proved for the operations in confirmed_only, refuted for each of the others."},
 {"property": "C23", "status": "partial", "theorems": ["C23_counters_are_exact_partial", "C23_counters_refuted"], "note": "Proved for counters below 2^63 with all protocols; refuted from 2^63 on (int64 result)."},
 {"property": "C24", "status": "partial", "theorems": ["C24_request_depends_on_arguments_partial", "C24_request_refuted", "C24_stale_cas_breaks_increment_refuted"], "note": "Proved for all operations but Increment/Decrement, and for those if the pooled header's cas is 0; refuted otherwise."},
 {"property": "C25", "status": "partial", "theorems": ["C25_length_fields_partial", "C25_length_fields_refuted"], "note": "Proved for keys and bodies that fit the fields; refuted for a key of 65536 bytes or more."},
 {"property": "C26", "status": "proved", "theorems": ["C26_header_round_trip", "C26_wrong_magic_rejected", "C26_wrong_magic_rejected_by_every_call"], "note": ""},
 {"property": "C27", "status": "partial", "theorems": ["C27_value_and_crlf_are_sent", "C27_every_store_sends_the_value_once", "C27_memory_unchanged_partial", "C27_what_set_overwrites", "C27_memory_overwritten_refuted"], "note": "Refuted with spare capacity (C27_what_set_overwrites says which two bytes change); proved without, and for all other calls."},
 {"property": "C28", "status": "proved", "theorems": ["C28_every_read", "C28_every_reply", "C28_every_server_connection", "C28_every_history", "C28_cuts_do_not_matter"], "note": ""},
 {"property": "C29", "status": "partial", "theorems": ["C29_close_is_final_partial", "C29_meta_and_binary_close_is_final", "C29_close_hangs_up", "C29_close_and_reconnect_never_panic", "C29_text_close_after_reconnect_refuted"], "note": "Meta and binary proved; text proved unless the object was reconnected after a Close (refuted)."},
 {"property": "C30", "status": "proved", "theorems": ["C30_reconnected_is_fresh", "C30_reconnected_calls_are_faithful"], "note": ""},
 {"property": "C31", "status": "partial", "theorems": ["C31_one_failure_is_for_ever", "C31_retry_refuted", "C31_no_reconnect_after_close", "C31_first_attempt_partial", "C31_text_retry_after_close_partial"], "note": "Refuted for all protocols (C31_one_failure_is_for_ever); proved for the first attempt and, text only, after a Close."},
 {"property": "C32", "status": "partial", "theorems": ["C32_at_most_one_check", "C32_heartbeat_stops_refuted", "C32_first_interval_is_checked_partial"], "note": "Refuted: at most one check is ever made (C32_at_most_one_check); the first interval is checked."},
 {"property": "C33", "status": "partial", "theorems": ["C33_meta_and_binary_never_panic", "C33_text_close_during_operation_refuted", "C33_text_two_closes_refuted", "C33_text_close_during_reconnect_refuted", "C33_text_one_closer_partial", "C33_text_no_close_partial"], "note": "Meta and binary proved for every schedule; text refuted in three ways, proved without Close, and with a single closer and no Timeout and no Reconnect."},
 {"property": "C34", "status": "partial", "theorems": ["C34_request_is_delivered_partial", "C34_unsupported_text_is_refused", "C34_request_is_delivered_refuted"], "note": "Proved for every supported operation; refuted for text cas, meta counters etc. (see the theorem) which the server rejects or delivers without the cas number."},
 {"property": "C35", "status": "proved", "theorems": ["C35_pipelined_requests_in_order", "C35_only_requests_of_the_stream", "C35_client_calls_in_order"], "note": ""},
 {"property": "C36", "status": "partial", "theorems": ["C36_only_hostile_requests_crash_partial", "C36_no_hostile_request_no_crash_partial", "C36_no_request_crashes_refuted"], "note": "Refuted by seven families of requests; proved that only the requests described by hostile (ServerSpec.v: negative lengths, empty ms tokens, binary headers with too few extras or too small a body) crash the process when the handler is polite."},
 {"property": "C37", "status": "partial", "theorems": ["C37_request_is_answered_partial", "C37_request_is_answered_refuted"], "note": "Proved for handlers whose answers carry no error and are not empty; refuted otherwise."},
 {"property": "C38", "status": "partial", "theorems": ["C38_get_answer_partial", "C38_miss", "C38_text_getmulti_answer", "C38_binary_getmulti_answer", "C38_acknowledgement_partial", "C38_counter_answer", "C38_version_answer", "C38_replies_decode_refuted"], "note": "Proved per operation; refuted for meta get (flags, cas and lifetime never arrive) and binary set with a key in the answer."},
 {"property": "C39", "status": "proved", "theorems": ["C39_protocol_is_fixed_by_the_first_byte", "C39_protocol_stays"], "note": ""},
 {"property": "C40", "status": "partial", "theorems": ["C40_malformed_request_is_refused_partial", "C40_malformed_request_is_refused_refuted"], "note": "Proved except for flush_all/version/gets, whose extra fields are not checked (refuted)."},
 {"property": "C41", "status": "proved", "theorems": ["C41_meta_get_options", "C41_order_and_repetition_do_not_matter"], "note": ""},
 {"property": "C42", "status": "proved", "theorems": ["C42_get_reads_only_the_primary", "C42_getmulti_reads_only_the_primary"], "note": ""},
 {"property": "C43", "status": "proved", "theorems": ["C43_primary_first_then_secondary", "C43_runs_are_behaviours"], "note": ""},
 {"property": "C44", "status": "partial", "theorems": ["C44_replicas_agree_partial", "C44_counter_without_expiry_refuted"], "note": "Proved for histories whose counters are on items expiring within 30 days; refuted for counters without expiry."},
 {"property": "C45", "status": "partial", "theorems": ["C45_counters_replicated_partial", "C45_no_expiry_refuted", "C45_long_expiry_refuted"], "note": "Same guard as C44; refuted without expiry and with an expiry beyond 30 days."},
 {"property": "C46", "status": "partial", "theorems": ["C46_concurrent_writers_partial", "C46_set_set_refuted", "C46_incr_incr_refuted"], "note": "Proved when no two goroutines write the same key; refuted for Set/Set and Increment/Increment on one key."},
 {"property": "C47", "status": "partial", "theorems": ["C47_cas_through_the_pool_partial", "C47_different_rings_refuted", "C47_cas_exactly", "C47_retry_never_succeeds"], "note": "Proved for mirrored rings with equal cas counters; refuted otherwise. C47_cas_exactly says when it succeeds for all rings and worlds (the number must be the current one on the primary and on the secondary) and what a failure leaves behind; C47_retry_never_succeeds: with different numbers the usual get-and-retry loop never succeeds, and every attempt replaces the value on the primary while reporting an error."},
 {"property": "C48", "status": "partial", "theorems": ["C48_hit_partial", "C48_text_hit_partial", "C48_every_miss_looks_like_an_empty_hit", "C48_miss_refuted", "C48_text_client_refuted"], "note": "Hits proved; every miss is answered as an empty hit (refuted); the text client's gets asks for the empty key (refuted)."},
 {"property": "C49", "status": "partial", "theorems": ["C49_flags_reach_both_replicas_partial", "C49_get_never_returns_flags", "C49_flags_lost_refuted"], "note": "Flags reach both replicas, but no get ever returns them (C49_get_never_returns_flags, refuted)."},
 {"property": "C50", "status": "partial", "theorems": ["C50_positive_answer_means_stored_partial", "C50_set_accepted", "C50_refused_set_gets_no_reply", "C50_outdated_cas_gets_no_reply", "C50_refusal_refuted"], "note": "Positive answers proved; a refused set gets no reply at all (refuted)."},
 {"property": "C51", "status": "proved", "theorems": ["C51_unsupported_requests_end_the_connection", "C51_other_calls_fail_without_effect"], "note": ""},
 {"property": "C52", "status": "partial", "theorems": ["C52_one_key_partial", "C52_get_of_several_keys_is_rejected", "C52_gets_ignores_the_keys", "C52_multi_get_refuted"], "note": "One key proved; several keys rejected or ignored (refuted)."},
 {"property": "C53", "status": "partial", "theorems": ["C53_meta_returns_the_key", "C53_binary_returns_the_key", "C53_text_returns_the_key_partial", "C53_text_keys_are_utf8", "C53_text_exactly", "C53_text_wrong_item_refuted", "C53_text_refuted"], "note": "Meta and binary proved for every key. Text: proved for exactly the keys that are UTF-8 without white space (C53_text_exactly), refuted for the others (0xFF comes back as U+FFFD; with a U+00A0 in the key another item is returned without an error)."},
 {"property": "C54", "status": "partial", "theorems": ["C54_ascii_negative_expires", "C54_binary_refuted"], "note": "Text and meta proved; binary refuted (-1 becomes 2^32-1)."},
 {"property": "C55", "status": "partial", "theorems": ["C55_ascii_blame_partial", "C55_binary_blame", "C55_ascii_blame_refuted"], "note": "Binary proved; text and meta proved when the value fits, refuted when it is too large."},
 {"property": "C56", "status": "partial", "theorems": ["C56_meta_getmulti_cas", "C56_getmulti_cas_refuted"], "note": "Meta proved; text and binary GetMulti return cas 0 (refuted)."},
 {"property": "C57", "status": "partial", "theorems": ["C57_request_panics_exactly", "C57_no_argument_panics_partial", "C57_no_argument_panics_refuted"], "note": "Exactly characterised by C57_request_panics_exactly; refuted with flags of fewer than four bytes."},
 {"property": "C58", "status": "partial", "theorems": ["C58_request_is_sent_whole_or_the_call_fails_partial", "C58_calls_send_their_requests_partial", "C58_recovered_panic_refuted"], "note": "Proved for calls that do not panic; refuted when a caller recovers from the panic of a binary store with short flags."},
 {"property": "C59", "status": "proved", "theorems": ["C59_nothing_is_sent_after_a_failed_write", "C59_peer_sees_a_prefix"], "note": ""},
 {"property": "C60", "status": "partial", "theorems": ["C60_text_close_ends_the_heartbeat", "C60_heartbeat_leaks_refuted", "C60_leak_is_for_ever"], "note": "Text proved; meta and binary refuted (the goroutine stays for ever)."},
 {"property": "C61", "status": "proved", "theorems": ["C61_replies_that_fit_arrive", "C61_failed_reply_ends_the_connection", "C61_effect_is_the_requests_given"], "note": ""},
 {"property": "C62", "status": "proved", "theorems": ["C62_one_sequence_of_requests", "C62_a_connection_is_served_as_if_alone"], "note": ""},
 {"property": "C63", "status": "partial", "theorems": ["C63_no_connection_ends_another_partial", "C63_one_client_ends_the_server", "C63_no_connection_ends_another_refuted", "C63_only_a_fatal_request_ends_the_process", "C63_a_fatal_request_ends_the_process", "C63_process_can_end_exactly"], "note": "False as written: any client that sends a fatal request (C68) ends the process and with it every connection (C63_one_client_ends_the_server, for every handler). C63_process_can_end_exactly says exactly when: with a handler that answers every request, the process can end if and only if some client sends complete requests followed by a fatal one; such a client needs no help from the others (C63_a_fatal_request_ends_the_process), and for any handler that does its part only such a client can (C63_only_a_fatal_request_ends_the_process)."},
 {"property": "C64", "status": "proved", "theorems": ["C64_a_connection_waits_for_no_other"], "note": ""},
 {"property": "C65", "status": "proved", "theorems": ["C65_pool_calls_are_calls_in_sequence", "C65_shared_pool_is_one_cache"], "note": "Time passes while no call is under way (as in C19); C98 lets it pass at any moment. Routing panics (no servers) end the goroutine."},
 {"property": "C66", "status": "proved", "theorems": ["C66_flush_calls_every_server", "C66_flush_clears_a_shared_pool"], "note": "For the meta and binary clients the history on the key's server has to be one in which the client is faithful (safe_run)."},
 {"property": "C67", "status": "partial", "theorems": ["C67_flush_is_atomic_refuted", "C67_flush_is_atomic_partial"], "note": "False for two servers (C67_flush_is_atomic_refuted); proved for one server. The clock stands still during the run."},
 {"property": "C68", "status": "proved", "theorems": ["C68_fatal_requests_exactly", "C68_process_ends_exactly", "C68_fatal_requests_are_hostile"], "note": ""},
 {"property": "C69", "status": "proved", "theorems": ["C69_meta_client_exactly"], "note": "complete over the modelled client and daemon; the condition on renewing the connection is necessary (C22)"},
 {"property": "C70", "status": "proved", "theorems": ["C70_binary_client_exactly"], "note": "complete over the modelled client and daemon; one header reused by all calls (sync.Pool with one goroutine), as in C11"},
 {"property": "C71", "status": "partial", "theorems": ["C71_getmulti_asks_each_server", "C71_one_moment_per_server", "C71_getmulti_is_a_snapshot_partial", "C71_getmulti_is_a_snapshot_refuted"], "note": "one moment per server is proved; one moment for all servers holds when all keys have one server (C71_getmulti_is_a_snapshot_partial) and is refuted across servers (C71_getmulti_is_a_snapshot_refuted): a newer value can be returned and an older one missed"},
 {"property": "C72", "status": "partial", "theorems": ["C72_returned_items_share_nothing", "C72_returned_items_keep_their_contents", "C72_value_and_flags_are_independent_partial", "C72_value_and_flags_are_independent_refuted", "C72_calls_change_no_item_refuted"], "note": "disjointness and preservation are proved for all clients; independence of Value and Flags is proved for text and meta and refuted for binary, whose Flags have the Value behind them on one array (append to Flags overwrites Value); that no call changes a returned item is refuted: Set of value[:2] overwrites the two bytes behind it"},
 {"property": "C73", "status": "partial", "theorems": ["C73_calls_send_the_contents_partial", "C73_histories_partial", "C73_calls_send_the_contents_refuted", "C73_binary_sends_bytes_behind_the_flags"], "note": "proved for text and meta, and for binary when the flags have at least four bytes or no room for four; refuted for binary otherwise: flags of two bytes with capacity four are sent with the two bytes behind them (C73_binary_sends_bytes_behind_the_flags)"},
 {"property": "C74", "status": "partial", "theorems": ["C74_update_exactly", "C74_update_keeps_the_item_partial", "C74_meta_update_loses_an_item_without_expiry", "C74_text_and_binary_updates_lose_the_expiry", "C74_update_keeps_the_item_refuted"], "note": "C74_update_exactly says exactly what is stored. The expiry is kept by meta for items that expire within 30 days and by text and binary for items that never expire; refuted otherwise: meta makes an item without expiry vanish while Set reports success (Get returns -1, which Set sends back), text and binary make an expiring item permanent"},
 {"property": "C75", "status": "partial", "theorems": ["C75_exact_hits", "C75_exact_hits_reach_the_owner_iff", "C75_the_middle_point_goes_to_the_last", "C75_every_key", "C75_order_does_not_matter_for_keys_with_a_sole_owner", "C75_removal_keeps_keys_with_a_sole_owner", "C75_order_never_matters_refuted"], "note": "exact hits characterised for rings with distinct points; order independence proved for keys with a sole owner and refuted in general: servers ml and rc have a common point, so the server of key 59 depends on how the unstable sort leaves it"},
 {"property": "C76", "status": "proved", "theorems": ["C76_requests_take_effect_once", "C76_backends_execute_one_call_at_a_time", "C76_clients_get_their_answers", "C76_no_other_calls", "C76_alone_it_is_the_proxy"], "note": "all clauses"},
 {"property": "C77", "status": "proved", "theorems": ["C77_linearizable", "C77_answers_are_answers", "C77_acknowledged_sets_are_seen", "C77_last_set_is_seen"], "note": "under the stated conditions on sets; with cas numbers or refused secondaries the answers differ (C47, C50)"},
 {"property": "C78", "status": "partial", "theorems": ["C78_replicas_agree_several_writers_partial", "C78_replicas_agree_partial", "C78_concurrent_writers_refuted", "C78_expiring_items_refuted"], "note": "proved for one writing connection and no expiration (C78_replicas_agree_partial), and for any number of writing connections whose sets of the key do not overlap, expirations allowed if no time passes during such a set (C78_replicas_agree_several_writers_partial, through C87 and C83); refuted when sets overlap and when time passes during a set with an expiration"},
 {"property": "C79", "status": "proved", "theorems": ["C79_meta_set_options", "C79_only_the_last_of_each_letter_matters", "C79_unreadable_options_are_refused"], "note": "all clauses; empty tokens end the process, C68"},
 {"property": "C80", "status": "partial", "theorems": ["C80_connections_stay_in_sync_partial", "C80_line_feed_in_key_refuted", "C80_answers_reach_the_wrong_client_refuted", "C80_gets_change_nothing_refuted", "C80_printable_lines_deliver_words"], "note": "proved when every get has a legal key and every set is legal, without a cas number and small enough; text lines of printable characters deliver keys without spaces or control characters. Refuted in general: a line ended by a bare line feed puts the line feed into the key, so the backend answers twice and from then on clients are given each other's answers (the value of x for a get of y); a binary get whose key holds a line end makes the backend run a command of the client's choice"},
 {"property": "C81", "status": "partial", "theorems": ["C81_a_lost_connection_stays_lost", "C81_its_keys_are_lost_for_ever", "C81_a_failed_request_ends_the_connection", "C81_other_backends_work_on_partial", "C81_sets_are_done_by_half", "C81_a_set_cut_off", "C81_the_secondary_takes_over_refuted"], "note": "the last clause is proved (C81_other_backends_work_on_partial); the others are refuted for every run: from the loss on, every get and set of the backend's primary keys fails and ends its client's connection for ever, no set with that secondary is answered positively, and such sets are done by half: stored on the primary, not on the secondary, the client told nothing. The set during which the primary is lost is stored completely or not at all, its client cannot tell which, and the secondary does not get it (C81_a_set_cut_off)"},
 {"property": "C82", "status": "partial", "theorems": ["C82_linearizable_partial", "C82_linearizable_unless_a_counter_vanishes", "C82_every_increment_counts", "C82_counter_vanishes_refuted"], "note": "proved for arguments without cas numbers and secondaries that take values as large as the primaries; the full statement is refuted: an Increment that counted returns ItemNotFound when the key is deleted before the pool reads it back (C82_counter_vanishes_refuted), and C82_linearizable_partial proves that this is the only exception"},
 {"property": "C83", "status": "partial", "theorems": ["C83_secondary_follows_partial", "C83_failover_reads_the_same_partial", "C83_overlapping_writes_refuted", "C83_secondary_follows_refuted", "C83_time_during_a_write_refuted", "C83_counter_out_of_range_refuted", "C83_counter_without_expiry_refuted", "C83_value_too_large_refuted"], "note": "proved when writes of the key do not overlap and carry no cas number, no time passes during a write with an expiration, a counted key always expires within 30 days and stays below 2^63, and the values of Sets fit; secondaries take values as large as the primaries. Each of these conditions (cas numbers aside, see C47) is shown to be needed by a refutation of the statement without it"},
 {"property": "C84", "status": "partial", "theorems": ["C84_meta_get_metadata_partial", "C84_meta_get_without_value", "C84_meta_get_metadata_refuted"], "note": "proved when v is among the letters; without v the server announces the size of a value it does not send, so a reader loses its place (C84_meta_get_without_value says always, unless the value is empty; C84_meta_get_metadata_refuted)"},
 {"property": "C85", "status": "partial", "theorems": ["C85_no_call_outlasts_its_timeout", "C85_a_closed_connection_ends_the_call", "C85_waiting_calls", "C85_an_answer_in_time_is_returned", "C85_returns_what_arrived_in_time", "C85_without_timeout", "C85_timeout_zero_keeps_the_old_deadline", "C85_old_deadline_ends_the_connection", "C85_zero_means_no_timeout_refuted", "C85_negative_timeout", "C85_reconnect_clears_the_deadline", "C85_waiting_is_bounded_refuted"], "note": "the bound, the queue and the answer in time are proved for all; Timeout 0 is proved on connections that never had a deadline and refuted after a Timeout was in use: the old deadline is never cleared (C85_timeout_zero_keeps_the_old_deadline, C85_old_deadline_ends_the_connection: exactly what happens); waiting behind a Reconnect is not bounded (C85_waiting_is_bounded_refuted); negative Timeouts fail at once except meta Version (C85_negative_timeout)"},
 {"property": "C86", "status": "partial", "theorems": ["C86_only_a_fatal_request_ends_the_router", "C86_router_survives_plain_requests_partial", "C86_router_survives_refuted", "C86_no_primary", "C86_no_secondary", "C86_a_fatal_request_ends_the_router"], "note": "proved: with servers in both rings the process ends only through a fatal request as long as every backend call returns (any backends), and with conforming memcacheds and plain requests always; a fatal request does end it. Refuted in general: a binary get whose key holds line ends makes a backend send stored bytes as if they were answers, and a later get then panics the router (C86_router_survives_refuted). With an empty primary list the first get or set ends it, with an empty secondary list the first accepted set, after the primary stored it. A failed Accept also ends it: C93."},
 {"property": "C87", "status": "proved", "theorems": ["C87_the_clients_share_one_pool"], "note": "a simulation of every router run by a run of the shared ReplicaPool of C82/C83, for backends of any behaviour"},
 {"property": "C88", "status": "proved", "theorems": ["C88_locks_change_nothing", "C88_waits_for_ever", "C88_its_keys_are_never_answered", "C88_others_are_served"], "note": "the waiting is without limit because cmd/router sets no Timeout; a set whose secondary is silent has already been stored on the primary"},
 {"property": "C89", "status": "partial", "theorems": ["C89_no_refusal_can_be_told", "C89_refusals_can_be_told_exactly", "C89_refusals_can_be_told_refuted"], "note": "exactly characterised (C89_refusals_can_be_told_exactly): a miss of text and meta Get can be told, and, by putting the protocol's words into Response.Value, of text and meta counters; every other refusal cannot be told by any handler (C89_no_refusal_can_be_told): the call succeeds, or the server writes nothing and the client waits"},
 {"property": "C90", "status": "partial", "theorems": ["C90_live_is_serve_conn", "C90_pieces", "C90_connection_reuse", "C90_reuse_with_something_unread_refuted", "C90_one_connection_for_all", "C90_end_to_end_partial", "C90_no_handler_suffices", "C90_end_to_end_refuted"], "note": "C90_end_to_end_partial holds for every history the server supports (C34) and the cache does not refuse, up to what the server cannot transmit (cas numbers; with meta also flags and lifetime). The full property is refuted for every handler (C90_no_handler_suffices). Handler-independent: C90_connection_reuse, C90_one_connection_for_all, C90_pieces, C90_live_is_serve_conn."},
 {"property": "C91", "status": "partial", "theorems": ["C91_clients_at_once", "C91_binary_getmulti_is_atomic_refuted"], "note": "C91_clients_at_once holds at every moment of every run, for the calls that are one request (all but GetMulti of the binary client) and that the server supports (C34); what the clients read as long as the cache refuses nothing (C89). For the binary GetMulti the property is false (C91_binary_getmulti_is_atomic_refuted): each key is its own request and other clients' calls come between."},
 {"property": "C92", "status": "partial", "theorems": ["C92_starts_exactly", "C92_ends_at_the_first_failure", "C92_bare_ipv6_never_starts", "C92_reachable_backends_suffice_refuted", "C92_reachable_backends_suffice_partial", "C92_no_backends"], "note": "exactly characterised (C92_starts_exactly, C92_ends_at_the_first_failure): the property holds for hosts written without colons and brackets (C92_reachable_backends_suffice_partial) and for IPv6 addresses in brackets; refuted for IPv6 addresses written as such: host and port are joined with a colon only, so the router never starts, whatever the network does (C92_bare_ipv6_never_starts, C92_reachable_backends_suffice_refuted). Without primaries it starts, and the first get or set ends it (C92_no_backends)."},
 {"property": "C93", "status": "partial", "theorems": ["C93_nobody_after_a_failed_accept", "C93_the_others_are_served_on", "C93_the_server_goes_on_accepting_refuted", "C93_router_ends_with_accept", "C93_too_many_clients_end_the_router"], "note": "the first clause is proved (C93_the_others_are_served_on); the others are false for every handler: Serve returns on the first error, so nobody is accepted any more (C93_nobody_after_a_failed_accept, C93_the_server_goes_on_accepting_refuted), and cmd/router calls log.Fatal, which ends every connection (C93_router_ends_with_accept). With any limit on open connections, clients that only connect end the router (C93_too_many_clients_end_the_router)."},
 {"property": "C94", "status": "partial", "theorems": ["C94_answers_lag", "C94_get_returns_another_keys_value", "C94_getmulti_returns", "C94_getmulti_is_the_gets_partial", "C94_getmulti_is_the_gets_refuted"], "note": "GetMulti's result is exactly characterised (C94_getmulti_returns) and the property holds when every requested key is present (C94_getmulti_is_the_gets_partial). Refuted with an absent key (C94_getmulti_is_the_gets_refuted): keys behind it are dropped, and every later Get of a key of that server is given the answer to an earlier question under its own key's name, for ever (C94_answers_lag; C94_get_returns_another_keys_value: Get y returns x's value)."},
 {"property": "C95", "status": "partial", "theorems": ["C95_exactly", "C95_without_cas_numbers_the_pool_does_not_matter", "C95_the_pool_decides_refuted"], "note": "What may happen is characterised exactly, in both directions (C95_exactly), and for histories without cas numbers there is one possibility, the one C70 gives (C95_without_cas_numbers_the_pool_does_not_matter). The unqualified statement, that the pool never matters, is refuted (C95_the_pool_decides_refuted): after a compare-and-swap of one item the Increment of another returns 6 or an error as the pool pleases. Histories are those in which the connection is renewed after a call that leaves part of a reply unread (tidy)."},
 {"property": "C96", "status": "partial", "theorems": ["C96_a_lost_server_costs_its_own_keys", "C96_the_rest_is_one_cache", "C96_what_a_lost_server_has_done", "C96_getmulti_with_a_lost_key_fails", "C96_flush_with_a_lost_server", "C96_getmulti_of_the_others", "C96_getmulti_returns_what_is_left_refuted", "C96_flush_reaches_what_is_left_refuted"], "note": "Proved for single-key calls, exactly (C96_a_lost_server_costs_its_own_keys, C96_the_rest_is_one_cache), and for GetMulti of keys of the remaining servers. Refuted for the rest: GetMulti with one key of a lost server returns nothing (C96_getmulti_with_a_lost_key_fails); Flush reports an error and may have reached any subset of the remaining servers (C96_flush_with_a_lost_server, exactly)."},
 {"property": "C97", "status": "partial", "theorems": ["C97_calls_take_effect_at_one_moment_partial", "C97_text_calls_take_effect_at_one_moment", "C97_calls_take_effect_at_one_moment_refuted"], "note": "Proved for all calls that put one command on the wire, under the conditions of C10/C11 in every order in question (none for text, C97_text_calls_take_effect_at_one_moment, GetMulti included). Refuted for GetMulti of the binary client, which sends one request for each key: of two items that expire together it can return one (C97_calls_take_effect_at_one_moment_refuted)."},
 {"property": "C98", "status": "proved", "theorems": ["C98_server_calls_take_effect_at_one_moment", "C98_shared_pool_is_one_cache_while_time_passes", "C98_server_calls_of_any_protocol_take_effect_at_one_moment", "C98_shared_pool_of_any_protocol_is_one_cache"], "note": ""},
 {"property": "C99", "status": "proved", "theorems": ["C99_many_clients_with_lost_connections_are_one_cache", "C99_a_set_that_failed_can_appear_later", "C99_one_compare_and_swap_wins"], "note": ""},
 {"property": "C100", "status": "proved", "theorems": ["C100_getmulti_of_the_meta_and_the_binary_client_is_no_one_moment", "C100_clients_of_any_protocol_are_one_cache", "C100_without_meta_delete_and_touch_the_plain_cache", "C100_one_compare_and_swap_wins_across_protocols"], "note": ""},
 {"property": "C101", "status": "proved", "theorems": ["C101_every_call_can_return", "C101_every_goroutine_can_finish"], "note": ""},
 {"property": "C102", "status": "proved", "theorems": ["C102_every_goroutine_of_a_pool_can_finish"], "note": ""}
]}
