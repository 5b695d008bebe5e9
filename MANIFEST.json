{
 "claims": [
  {
   "property": "C01",
   "status": "proved",
   "theorems": [
    "C01_frame_roundtrip",
    "C01_encoding_prefix_free",
    "C01_unrestricted_refuted"
   ],
   "note": "Also: the encoding is prefix free; the well-formedness restrictions are shown to be needed (C01_unrestricted_refuted)."
  },
  {
   "property": "C02",
   "status": "proved",
   "theorems": [
    "C02_segmentation_invisible",
    "C02_buffered_bytes"
   ],
   "note": "Any two segmentations of the same bytes; also from any buffer state."
  },
  {
   "property": "C03",
   "status": "proved",
   "theorems": [
    "C03_prefix_incomplete",
    "C03_decided_stays_decided",
    "C03_fuel_irrelevant"
   ],
   "note": "Also that the recursion bound of the model parser is irrelevant."
  },
  {
   "property": "C04",
   "status": "proved",
   "theorems": [
    "C04_pipeline",
    "C04_cut_pipeline"
   ],
   "note": "Also for a pipeline cut in the middle of a frame."
  },
  {
   "property": "C05",
   "status": "proved",
   "theorems": [
    "C05_integer_text_round_trip"
   ],
   "note": "atoi of the printed integer followed by anything that is not a digit"
  },
  {
   "property": "C06",
   "status": "partial",
   "theorems": [
    "C06_replies_partial",
    "C06_single_reply_partial",
    "C06_members_refuted",
    "C06_zrange_refuted",
    "C06_unknown_command_refuted"
   ],
   "note": "Proved for all requests except member listings, unknown commands and RESTORE of texts with line breaks; refuted for SMEMBERS, ZRANGE and unknown commands."
  },
  {
   "property": "C07",
   "status": "proved",
   "theorems": [
    "C07_slot_in_range",
    "C07_same_tag_same_slot"
   ],
   "note": ""
  },
  {
   "property": "C08",
   "status": "partial",
   "theorems": [
    "C08_every_key",
    "C08_slot_is_redis_slot_partial",
    "C08_redis_slot_unique",
    "C08_slot_is_redis_slot_refuted"
   ],
   "note": "proved for every key whose first brace pair is not empty; refuted for the others Every key is covered by C08_every_key: an empty first pair always gives slot 0."
  },
  {
   "property": "C09",
   "status": "proved",
   "theorems": [
    "C09_sharding_invisible",
    "C09_sharding_invisible_from_empty"
   ],
   "note": ""
  },
  {
   "property": "C10",
   "status": "proved",
   "theorems": [
    "C10_read_latest_write"
   ],
   "note": "dictionary requests; the command layer maps SET/GET to them"
  },
  {
   "property": "C11",
   "status": "partial",
   "theorems": [
    "C11_read_before_deadline",
    "C11_read_after_deadline_partial",
    "C11_write_after_deadline",
    "C11_object_sees_expired_refuted"
   ],
   "note": "refuted for OBJECT FREQ/IDLETIME, which see expired keys; proved for all other reads and writes"
  },
  {
   "property": "C12",
   "status": "proved",
   "theorems": [
    "C12_set_request",
    "C12_set_options"
   ],
   "note": "Dictionary command, and the whole request with options in any order and spelling (deadline below 2^64)."
  },
  {
   "property": "C13",
   "status": "partial",
   "theorems": [
    "C13_set_always_ok",
    "C13_nx_reply_refuted",
    "C13_nx_get_partial"
   ],
   "note": "Refuted as expected: without GET the answer is always OK. With NX and GET the answer does tell."
  },
  {
   "property": "C14",
   "status": "partial",
   "theorems": [
    "C14_expired_not_revealed_partial",
    "C14_set_get_refuted",
    "C14_del_refuted"
   ],
   "note": "refuted for the fast path of SET .. GET and for the DEL count (and OBJECT); proved for all other commands"
  },
  {
   "property": "C15",
   "status": "partial",
   "theorems": [
    "C15_every_option",
    "C15_table_differs",
    "C15_expire_options_partial",
    "C15_xx_lt_refuted"
   ],
   "note": "refuted for XX LT on a key without deadline; NX combined with GT/LT answers 0 instead of an error C15_every_option gives the complete table of the code, C15_table_differs the only deviations."
  },
  {
   "property": "C16",
   "status": "partial",
   "theorems": [
    "C16_expire_request_partial",
    "C16_expire_negative",
    "C16_overflow_refuted",
    "C16_negative_instant_refuted",
    "C16_deadline_is_effective_partial",
    "C16_deadline_zero_refuted"
   ],
   "note": "Dictionary command and whole requests (also negative seconds); refuted at deadline 0, for numbers whose milliseconds overflow and for negative instants."
  },
  {
   "property": "C17",
   "status": "proved",
   "theorems": [
    "C17_ttl_request",
    "C17_ttl_agrees_with_visibility"
   ],
   "note": "Dictionary command and the numbers answered by TTL and PTTL."
  },
  {
   "property": "C18",
   "status": "partial",
   "theorems": [
    "C18_every_integer",
    "C18_incr_partial",
    "C18_incr_overflow_refuted"
   ],
   "note": "refuted on 64-bit overflow (wraps) C18_every_integer: the sum is taken modulo 2^64 for all integers."
  },
  {
   "property": "C19",
   "status": "partial",
   "theorems": [
    "C19_every_text",
    "C19_incr_refuses_text_partial",
    "C19_only_integers_refuted"
   ],
   "note": "refuted: text with a numeric prefix is accepted; text without one is refused C19_every_text decides every text: optional sign, longest run of digits, rest ignored."
  },
  {
   "property": "C20",
   "status": "proved",
   "theorems": [
    "C20_counters_lose_no_update"
   ],
   "note": ""
  },
  {
   "property": "C21",
   "status": "proved",
   "theorems": [
    "C21_wrong_type_no_effect",
    "C21_wrong_type_read",
    "C21_errors_no_effect",
    "C21_no_spurious_type_error"
   ],
   "note": ""
  },
  {
   "property": "C22",
   "status": "proved",
   "theorems": [
    "C22_reads_change_nothing"
   ],
   "note": ""
  },
  {
   "property": "C23",
   "status": "proved",
   "theorems": [
    "C23_keys_do_not_interfere",
    "C23_keys_do_not_interfere_history"
   ],
   "note": ""
  },
  {
   "property": "C24",
   "status": "proved",
   "theorems": [
    "C24_lists_are_sequences"
   ],
   "note": "every history on one key, before its deadline"
  },
  {
   "property": "C25",
   "status": "proved",
   "theorems": [
    "C25_lrange",
    "C25_slice_elements"
   ],
   "note": ""
  },
  {
   "property": "C26",
   "status": "proved",
   "theorems": [
    "C26_fifo",
    "C26_lifo",
    "C26_pop_count"
   ],
   "note": ""
  },
  {
   "property": "C27",
   "status": "partial",
   "theorems": [
    "C27_empty_collections_disappear_refuted",
    "C27_empty_reads_like_absent_partial"
   ],
   "note": "refuted: the empty collection keeps its key and type; proved that its own reads see it as absent"
  },
  {
   "property": "C28",
   "status": "proved",
   "theorems": [
    "C28_hashes_are_maps",
    "C28_hset_lookup"
   ],
   "note": "HINCRBY reads numeric prefixes, see C19"
  },
  {
   "property": "C29",
   "status": "proved",
   "theorems": [
    "C29_hsetnx"
   ],
   "note": ""
  },
  {
   "property": "C30",
   "status": "proved",
   "theorems": [
    "C30_sets_are_sets"
   ],
   "note": ""
  },
  {
   "property": "C31",
   "status": "partial",
   "theorems": [
    "C31_any_history",
    "C31_members_listed",
    "C31_panic_leaves_unlisted_refuted",
    "C31_indexes_agree",
    "C31_zadd_incr_ghost_refuted"
   ],
   "note": "holds for all histories without ZADD INCR, NaN and RESTORE; refuted with ZADD INCR (ghost members). For every history without exception: the tree stays ordered (C31_any_history); without panics every member has a node in it (C31_members_listed); a panic leaves an unlisted member (refuted)."
  },
  {
   "property": "C32",
   "status": "partial",
   "theorems": [
    "C32_every_option",
    "C32_table_differs",
    "C32_zadd_partial",
    "C32_zadd_member",
    "C32_gt_prevents_adding_refuted",
    "C32_xx_creates_key_refuted"
   ],
   "note": "proved for all option sets except GT/LT without XX, where the code deviates (refuted) C32_every_option gives the complete table, C32_table_differs the only deviations."
  },
  {
   "property": "C33",
   "status": "proved",
   "theorems": [
    "C33_requests",
    "C33_listing",
    "C33_sorted_sets_are_score_maps",
    "C33_zrange",
    "C33_zrank"
   ],
   "note": "histories without INCR/NaN/RESTORE on the key"
  },
  {
   "property": "C34",
   "status": "partial",
   "theorems": [
    "C34_all_ranges",
    "C34_all_removals",
    "C34_moderate_exact",
    "C34_immoderate_refuted",
    "C34_request_bounds",
    "C34_requests",
    "C34_removal_requests",
    "C34_zrangebyscore_partial",
    "C34_absorbed_bound_refuted"
   ],
   "note": "The claim is false for upper bounds below -2^50 or from 2^50 on: every member scored exactly at such a bound is lost unless its name is empty (refuted for all such bounds and sets), and intervals reversed by more than 0.1 panic. Proved: the exact reply and effect for every interval with numbers as bounds (C34_all_ranges, C34_all_removals), the interval itself between -2^50 and 2^50 (C34_moderate_exact), and that bounds read from a request are binary64 numbers. These five use the axioms of the reals, see DESIGN section 5."
  },
  {
   "property": "C35",
   "status": "partial",
   "theorems": [
    "C35_exactly_with_root",
    "C35_exactly_when",
    "C35_request_partial",
    "C35_simple_requests",
    "C35_connection_panics_refuted",
    "C35_no_panic_partial",
    "C35_panics_refuted"
   ],
   "note": "Panics exhibited byte for byte (reversed ranges, NaN, bounds that split a character); proved panic-free otherwise, per command and per request, also next to other connections; the panicking commands are characterised exactly (C35_exactly_when)."
  },
  {
   "property": "C36",
   "status": "proved",
   "theorems": [
    "C36_requests",
    "C36_zrangebylex",
    "C36_by_lex"
   ],
   "note": "bounds not reversed, as the property says"
  },
  {
   "property": "C37",
   "status": "proved",
   "theorems": [
    "C37_zremrange"
   ],
   "note": ""
  },
  {
   "property": "C38",
   "status": "proved",
   "theorems": [
    "C38_limit"
   ],
   "note": "offset at least 0"
  },
  {
   "property": "C39",
   "status": "proved",
   "theorems": [
    "C39_dump_restore",
    "C39_dump_absent"
   ],
   "note": "For every value the encoding can hold (data_fits) and every hash iteration order; the nesting of collections inside collections is not modelled."
  },
  {
   "property": "C40",
   "status": "proved",
   "theorems": [
    "C40_busy_key",
    "C40_malformed_payload",
    "C40_truncated_payload",
    "C40_panicking_payload_refuted",
    "C40_inconsistent_zset_refuted"
   ],
   "note": "A payload that makes the decoder panic also changes nothing but kills the connection (C40_panicking_payload_refuted); a decodable payload with inconsistent indexes is accepted (C40_inconsistent_zset_refuted)."
  },
  {
   "property": "C41",
   "status": "partial",
   "theorems": [
    "C41_last_access",
    "C41_freq_bounded",
    "C41_object_and_ttl_are_silent",
    "C41_restore_freq_spills_refuted",
    "C41_idletime_request"
   ],
   "note": "OBJECT IDLETIME as answered. Recorded access time, bound of the frequency, silence of OBJECT and TTL. RESTORE FREQ above 65535 corrupts the access time (refuted)."
  },
  {
   "property": "C42",
   "status": "partial",
   "theorems": [
    "C42_any_instants",
    "C42_frequency_decay_partial",
    "C42_wrap_resets_refuted",
    "C42_era_skips_decay_refuted"
   ],
   "note": "Within one era of the 16-bit minute counter; across a wrap the claim is refuted twice. C42_any_instants gives the frequency for all instants."
  },
  {
   "property": "C43",
   "status": "partial",
   "theorems": [
    "C43_forward_clock_partial",
    "C43_any_clock",
    "C43_clock_back_refuted",
    "C43_statistics_refuted"
   ],
   "note": "Proved for all schedules with a clock that never steps back (no background step changes any data or deadline), and for all clocks that only keys whose deadline the clock had reached are removed. False as stated: a clock that steps back lets the purge remove a live key, and a stale entry makes the purge change the access statistics of a live key (both refuted with witnesses)."
  },
  {
   "property": "C44",
   "status": "partial",
   "theorems": [
    "C44_nothing_is_purged",
    "C44_eventually_purged_refuted"
   ],
   "note": "The claim is false. Proved: no execution of the background tasks removes any stored key; refuted with an execution after which no continuation removes the expired key."
  },
  {
   "property": "C45",
   "status": "proved",
   "theorems": [
    "C45_deadlines_tracked",
    "C45_scan"
   ],
   "note": "All executions (commands, forwarded commands, snapshots, flushes, scans, purges, any clock) with in-order delivery; \"later than the last purge\" is read as later than every instant at which the purge or the FLUSHALL scan read the clock."
  },
  {
   "property": "C46",
   "status": "proved",
   "theorems": [
    "C46_sleep",
    "C46_sleep_in_order"
   ],
   "note": "All executions at the granularity of critical sections; tokio Notify is modelled as one stored permit."
  },
  {
   "property": "C47",
   "status": "partial",
   "theorems": [
    "C47_racing_writers_refuted",
    "C47_racing_snapshot_refuted"
   ],
   "note": "The claim is false: refuted for two racing writers and for a snapshot racing with a writer. The in-order case is C45."
  },
  {
   "property": "C48",
   "status": "partial",
   "theorems": [
    "C48_prefix_partial",
    "C48_client_writes_refuted"
   ],
   "note": "Proved for all histories without FLUSHALL, all losses, duplications, reorderings and snapshot installations: the follower is where a leader would be after the first write_id writes, executed once each and in order, at the follower clock. Assumes snapshots arrive as sent (C53 refutes that) and that no client writes to the follower (refuted otherwise). Equality of the data itself needs clocks that agree (C52)."
  },
  {
   "property": "C49",
   "status": "partial",
   "theorems": [
    "C49_gap_detected",
    "C49_in_sequence",
    "C49_gap_requests_snapshot_partial",
    "C49_installs",
    "C49_failed_transfer_refuted",
    "C49_after_snapshot_refuted",
    "C49_failed_for_every_leader"
   ],
   "note": "Proved: a gap is reported, leaves the slot alone and makes the task request a snapshot of that slot. False as stated: after a failed transfer nothing is ever requested again, and after a successful one the sequence number is 2^48 times too large (both refuted for all continuations)."
  },
  {
   "property": "C50",
   "status": "partial",
   "theorems": [
    "C50_later_writes_ignored",
    "C50_flushall_refuted"
   ],
   "note": "The claim is false: refuted with a history, and proved in general that after a flush all writes up to the old sequence number are ignored."
  },
  {
   "property": "C51",
   "status": "partial",
   "theorems": [
    "C51_restore_is_forwarded_as_nothing",
    "C51_next_write_is_a_gap",
    "C51_restore_refuted"
   ],
   "note": "The claim is false: refuted with a history; proved in general that the forwarded message changes nothing and that the next write is then seen as a gap."
  },
  {
   "property": "C52",
   "status": "partial",
   "theorems": [
    "C52_same_side_partial",
    "C52_same_writes_partial",
    "C52_clock_skew_refuted"
   ],
   "note": "Proved when the instants of leader and follower are on the same side of every deadline that occurs, for all histories without FLUSHALL and RESTORE; refuted otherwise."
  },
  {
   "property": "C53",
   "status": "partial",
   "theorems": [
    "C53_snapshot_misread",
    "C53_full_snapshot_misread",
    "C53_refuted"
   ],
   "note": "The claim is false: proved in general what the follower reads instead (wrong sequence number, or failure; no slot but the first), and refuted with a database."
  },
  {
   "property": "C54",
   "status": "partial",
   "theorems": [
    "C54_others_stay_locked",
    "C54_single_slot_stream",
    "C54_stall_refuted"
   ],
   "note": "The claim is false: proved in general that all other slots stay locked, refuted with an execution after which no continuation without a new leader makes progress."
  },
  {
   "property": "C55",
   "status": "proved",
   "theorems": [
    "C55_message_roundtrip",
    "C55_stream_roundtrip",
    "C55_truncated_stream",
    "C55_length_prefixed_roundtrip"
   ],
   "note": "Message and stream round trip, truncated streams, and the unused length-prefixed variant."
  },
  {
   "property": "C56",
   "status": "proved",
   "theorems": [
    "C56_fan_out",
    "C56_failed_prefix",
    "C56_bytes",
    "C56_joined"
   ],
   "note": "All interleavings of joins, messages, writes, pings and failures; select! is taken to be free of loss when the other branch wins."
  },
  {
   "property": "C57",
   "status": "proved",
   "theorems": [
    "C57_one_leader"
   ],
   "note": "All histories of group creations, joins, heartbeats, lost answers and survival checks, with any clock readings."
  },
  {
   "property": "C58",
   "status": "proved",
   "theorems": [
    "C58_groups",
    "C58_group_ids",
    "C58_server_ids",
    "C58_never_reused"
   ],
   "note": "Group ids, and server ids within a group, are never handed out twice over a whole history."
  },
  {
   "property": "C59",
   "status": "proved",
   "theorems": [
    "C59_check",
    "C59_failover"
   ],
   "note": "All group states with at most one leader (C57) and all clock readings; the exact successor is characterised."
  },
  {
   "property": "C60",
   "status": "partial",
   "theorems": [
    "C60_first_leader_never_learns",
    "C60_refuted",
    "C60_settled_partial",
    "C60_heartbeat_settles",
    "C60_others_stay_settled"
   ],
   "note": "The claim is false: refuted with a schedule, and proved in general that the first leader never learns its id. What is proved instead: among servers that have processed an answer since the last change at the driver, at most one believes to be leader."
  },
  {
   "property": "C61",
   "status": "proved",
   "theorems": [
    "C61_converges",
    "C61_unchanged_is_silent",
    "C61_failed_update",
    "C61_demoted_leader_refuted"
   ],
   "note": "Processed means that update_status returned Ok; what happens when it fails is C61_failed_update, and that a demoted leader without successor ignores the answer is C61_demoted_leader_refuted."
  },
  {
   "property": "C62",
   "status": "proved",
   "theorems": [
    "C62_limit",
    "C62_conserved",
    "C62_end_frees",
    "C62_waits"
   ],
   "note": "All schedules of acquire, accept, failures, shutdown and endings of handlers; the semaphore is a counter."
  },
  {
   "property": "C63",
   "status": "partial",
   "theorems": [
    "C63_command_case",
    "C63_arity",
    "C63_arity_complete",
    "C63_hset_pairs",
    "C63_rejected_without_effect",
    "C63_set_surplus",
    "C63_surplus_refuted"
   ],
   "note": "Case-insensitive names, arities of all commands, HSET pairs, rejection without effect are proved; refuted: one surplus frame after trailing options is dropped silently."
  },
  {
   "property": "C64",
   "status": "proved",
   "theorems": [
    "C64_set_options",
    "C64_set_order",
    "C64_last_wins",
    "C64_expire_options",
    "C64_zrange_options"
   ],
   "note": "SET, EXPIRE family and ZRANGE options; order, repetition and conflicts."
  },
  {
   "property": "C65",
   "status": "proved",
   "theorems": [
    "C65_connection_is_a_session",
    "C65_session_deterministic",
    "C65_segmentation",
    "C65_nothing_after_syntax_error",
    "C65_nothing_after_protocol_error"
   ],
   "note": "For every interleaving with other connections; writing to the socket is assumed to succeed."
  },
  {
   "property": "C66",
   "status": "proved",
   "theorems": [
    "C66_no_deadlock",
    "C66_exclusive",
    "C66_progress",
    "C66_all_finish",
    "C66_any_schedule",
    "C66_bounded"
   ],
   "note": "Slot, expiry-queue and child-table locks; any number of tasks of every kind in any interleaving: no deadlock, mutual exclusion, progress, and every maximal run ends with all tasks finished. The lock sequences of the tasks are the model of the code."
  },
  {
   "property": "C67",
   "status": "proved",
   "theorems": [
    "C67_flushall_empties"
   ],
   "note": ""
  },
  {
   "property": "C68",
   "status": "partial",
   "theorems": [
    "C68_hincrby_partial",
    "C68_hincrby_overflow_refuted",
    "C68_every_field"
   ],
   "note": "refuted on 64-bit overflow (wraps) C68_every_field decides every stored field."
  },
  {
   "property": "C69",
   "status": "proved",
   "theorems": [
    "C69_del",
    "C69_exists",
    "C69_deterministic"
   ],
   "note": "The clock and the other connections may act between any two keys."
  },
  {
   "property": "C70",
   "status": "partial",
   "theorems": [
    "C70_sequence_gap_free",
    "C70_panic_leaves_gap_refuted",
    "C70_any_history"
   ],
   "note": "refuted for commands that panic (number consumed, nothing forwarded); proved for histories without panic C70_any_history covers panics: each write takes a number, those that panic send nothing."
  },
  {
   "property": "C71",
   "status": "partial",
   "theorems": [
    "C71_each_once_partial",
    "C71_one_leader_partial",
    "C71_follower_partial",
    "C71_overtaken_refuted"
   ],
   "note": "The claim is false: refuted after a change of leader. Proved: every message is finished once, held or queued (all executions); in order while only one leader was followed; and such a server refines Follower.v."
  },
  {
   "property": "C72",
   "status": "partial",
   "theorems": [
    "C72_one_leader_partial",
    "C72_unwoken_refuted"
   ],
   "note": "The claim is false after a change of leader (refuted, for every continuation until another transfer connects). Proved for one leader and transfers that do not fail."
  },
  {
   "property": "C73",
   "status": "partial",
   "theorems": [
    "C73_promoted_partial",
    "C73_old_leader_partial",
    "C73_late_message_refuted",
    "C73_late_after_change_refuted"
   ],
   "note": "The claim is false (refuted for promotion and for a change of leader). Proved: at most one more message per task, and none by a task that was not waiting on the old channel."
  },
  {
   "property": "C74",
   "status": "partial",
   "theorems": [
    "C74_comes_to_rest_partial",
    "C74_spins_refuted"
   ],
   "note": "The claim is false once the connection to the leader has ended (refuted). Proved with an explicit bound on the number of steps while it is up."
  },
  {
   "property": "C75",
   "status": "partial",
   "theorems": [
    "C75_single_requests",
    "C75_one_at_a_time_partial",
    "C75_exists_torn_refuted",
    "C75_del_torn_refuted",
    "C75_flushall_torn_refuted",
    "C75_parts"
   ],
   "note": "Proved for all executions whose requests are all single-slot (everything but multi-key EXISTS/DEL and FLUSHALL): one growing serial order explains database, replies and clock readings at every moment. False otherwise: refuted for EXISTS, DEL and FLUSHALL, against every serial order and all clock readings. C75_parts: requests about several keys are the requests for the single keys, one after the other, in some execution with the same database, messages and clock, the reply being the sum (so all requests but FLUSHALL are serializable key by key; C111 adds FLUSHALL, slot by slot)."
  },
  {
   "property": "C76",
   "status": "partial",
   "theorems": [
    "C76_nothing_lost_partial",
    "C76_one_connection_partial",
    "C76_reordered_refuted"
   ],
   "note": "Proved: nothing is lost or duplicated and the numbers have no gap, for all executions without FLUSHALL; in order with one connection. The order is false with two connections: refuted, with the refusal by the follower."
  },
  {
   "property": "C77",
   "status": "partial",
   "theorems": [
    "C77_heartbeat",
    "C77_join_partial",
    "C77_driver_fits",
    "C77_scope_refuted"
   ],
   "note": "Heartbeats without restriction, requests to join but for IPv6 flow label and scope id (refuted: they are lost); C77_driver_fits discharges the hypothesis on the driver for every state reached from the start."
  },
  {
   "property": "C78",
   "status": "proved",
   "theorems": [
    "C78_any_input",
    "C78_meaningless",
    "C78_every_array_answered"
   ],
   "note": "Arbitrary frames from arbitrary connections; the text of error replies is a parameter."
  },
  {
   "property": "C79",
   "status": "partial",
   "theorems": [
    "C79_all_forgotten_refuted",
    "C79_roles_kept_partial",
    "C79_two_leaders_refuted"
   ],
   "note": "The claim is false of every execution in which no server is started after the restart (C79_all_forgotten_refuted, universal), and of one with a start (two servers with the same ids lead). Proved: the running servers keep their roles."
  },
  {
   "property": "C80",
   "status": "partial",
   "theorems": [
    "C80_prefix_partial",
    "C80_small_arrives_partial",
    "C80_large_cut_refuted",
    "C80_cut_is_noticed"
   ],
   "note": "The claim is false: every stream larger than the buffer is cut when the network does not drain it in time (refuted for all sizes and divisions). Proved: what arrives is a prefix, the whole of it iff the process saw no error; what fits arrives; a cut stream is never taken for a complete one that is different."
  },
  {
   "property": "C81",
   "status": "partial",
   "theorems": [
    "C81_table_exact_partial",
    "C81_entered_too_late_refuted",
    "C81_killed_refuted",
    "C81_one_per_turn"
   ],
   "note": "Proved for executions in which no process is killed or waited for before it is entered; refuted otherwise, for every continuation until the pid is reused. Also proved: one process per turn of the loop."
  },
  {
   "property": "C82",
   "status": "proved",
   "theorems": [
    "C34_all_ranges",
    "C34_all_removals",
    "C34_moderate_exact",
    "C34_request_bounds"
   ],
   "note": "Every interval whose bounds are binary64 numbers; for the bounds a request can carry see C34_request_bounds."
  },
  {
   "property": "C83",
   "status": "proved",
   "theorems": [
    "C31_any_history",
    "C31_members_listed"
   ],
   "note": "C31_any_history has no hypothesis on the history; C31_members_listed needs one without panics and RESTORE (a panic leaves a member unlisted: C31_panic_leaves_unlisted_refuted)."
  },
  {
   "property": "C84",
   "status": "proved",
   "theorems": [
    "C35_exactly_when",
    "C35_exactly_with_root"
   ],
   "note": "After every history without ZADD INCR, NaN scores and RESTORE; the command itself may be any but ZADD INCR and RESTORE. NaN bounds: bt_range takes every search with one to panic on a non-empty tree (simplification stated there); C35_exactly_with_root includes the root that the tree of an emptied set keeps."
  },
  {
   "property": "C85",
   "status": "proved",
   "theorems": [
    "C08_every_key"
   ],
   "note": "Every key."
  },
  {
   "property": "C86",
   "status": "proved",
   "theorems": [
    "C15_every_option",
    "C15_table_differs"
   ],
   "note": "Every combination of options, every deadline."
  },
  {
   "property": "C87",
   "status": "proved",
   "theorems": [
    "C18_every_integer",
    "C19_every_text",
    "C68_every_field"
   ],
   "note": "Every text and every stored type; reads_as is a specification by decomposition of the text."
  },
  {
   "property": "C88",
   "status": "proved",
   "theorems": [
    "C32_every_option",
    "C32_table_differs"
   ],
   "note": "Every combination of options and list of pairs without NaN; NaN is in C84."
  },
  {
   "property": "C89",
   "status": "proved",
   "theorems": [
    "C42_any_instants"
   ],
   "note": "Any two instants, any requests to other keys in between."
  },
  {
   "property": "C90",
   "status": "proved",
   "theorems": [
    "C70_any_history"
   ],
   "note": "Every history of commands, panicking ones included, with wrap-around of the counter."
  },
  {
   "property": "C91",
   "status": "partial",
   "theorems": [
    "C91_root_refines_partial",
    "C91_exactly_when",
    "C91_same_data_other_answer_refuted"
   ],
   "note": "The claim is false: two databases with the same contents under every key, one panics (refuted). Proved: the hidden root changes nothing else (refinement, all histories), and exactly when it shows (C91_exactly_when)."
  },
  {
   "property": "C92",
   "status": "proved",
   "theorems": [
    "C92_plain_lines",
    "C92_all_commands",
    "C92_unknown",
    "C92_spellings",
    "C92_ping",
    "C92_requests_are_arrays",
    "C92_zadd_line",
    "C92_zrangebyscore_line",
    "C92_zrangebylex_line",
    "C92_zrevrange_line",
    "C92_restore_line",
    "C92_flushall_line"
   ],
   "note": "Both directions for the commands without options (table of 45 shapes); for the commands with options every legal spelling is read as the request it denotes."
  },
  {
   "property": "C93",
   "status": "proved",
   "theorems": [
    "C93_lists"
   ],
   "note": "All eight requests, whole server layer, other connections active."
  },
  {
   "property": "C94",
   "status": "proved",
   "theorems": [
    "C94_hashes"
   ],
   "note": "All eight requests; the reading of texts as integers is C87."
  },
  {
   "property": "C95",
   "status": "proved",
   "theorems": [
    "C95_sets"
   ],
   "note": "All five requests."
  },
  {
   "property": "C96",
   "status": "proved",
   "theorems": [
    "C96_queries",
    "C96_lex_queries",
    "C96_removals",
    "C96_lex_removals",
    "C96_zrem",
    "C96_zrank",
    "C96_zadd"
   ],
   "note": "Within its quantifier (scores without NaN, regular intervals, ZADD without INCR, queries by name over equal scores). What happens outside of it is C109."
  },
  {
   "property": "C97",
   "status": "proved",
   "theorems": [
    "C97_get",
    "C97_setex",
    "C97_counter_new",
    "C97_counter",
    "C97_counter_text",
    "C97_expire"
   ],
   "note": "SET is in C12/C13, TTL and PTTL in C17."
  },
  {
   "property": "C98",
   "status": "proved",
   "theorems": [
    "C98_wrong_type"
   ],
   "note": "Every typed request against every stored type."
  },
  {
   "property": "C99",
   "status": "proved",
   "theorems": [
    "C99_no_database",
    "C99_exists",
    "C99_del",
    "C99_debug",
    "C99_flushall",
    "C99_dump",
    "C99_restore",
    "C99_restore_busy",
    "C99_restore_malformed"
   ],
   "note": "OBJECT is in C41; DEL and EXISTS of several keys in C69."
  },
  {
   "property": "C100",
   "status": "proved",
   "theorems": [
    "C100_read",
    "C100_wait",
    "C100_refuse",
    "C100_connection"
   ],
   "note": "Both directions of each of the three answers of the reader, and the whole stream of a connection."
  },
  {
   "property": "C101",
   "status": "proved",
   "theorems": [
    "C101_utf8"
   ],
   "note": "Both directions, by decomposition into scalar values."
  },
  {
   "property": "C102",
   "status": "proved",
   "theorems": [
    "C102_float_text",
    "C102_nearest",
    "C102_integer"
   ],
   "note": "Both directions; the rounding is stated over the real numbers (Flocq), so these theorems use the axioms of the reals."
  },
  {
   "property": "C103",
   "status": "proved",
   "theorems": [
    "C103_never_spins",
    "C103_drains"
   ],
   "note": "C103_never_spins from any state in which the scan after FLUSHALL does not hold the queue; C103_drains for every execution with a forward clock."
  },
  {
   "property": "C104",
   "status": "proved",
   "theorems": [
    "C104_slots",
    "C104_stream_is_faithful"
   ],
   "note": "The receiving side cannot read the stream (C53); the transport can cut it (C80)."
  },
  {
   "property": "C105",
   "status": "proved",
   "theorems": [
    "C105_silent_for_good",
    "C105_lost",
    "C105_deposed",
    "C105_first_leader_deposed"
   ],
   "note": "The three seconds are those of server_survival_check; C105_first_leader_deposed is the consequence of C60."
  },
  {
   "property": "C106",
   "status": "proved",
   "theorems": [
    "C106_backoff",
    "C106_gives_up",
    "C106_connections_kept"
   ],
   "note": "The comment above Listener::accept (six attempts) is wrong: seven waits, eighth failure."
  },
  {
   "property": "C107",
   "status": "proved",
   "theorems": [
    "C107_clients_parts",
    "C107_bytes_parts",
    "C107_key",
    "C107_conversation",
    "C107_everyday",
    "C107_bytes",
    "C107_clients"
   ],
   "note": "The store machine is SpecTalk.v; it is nondeterministic where the order of a hash table, the access log or an expired but not yet purged key shows (HGETALL, SMEMBERS, OBJECT, DEL, SET GET). C107_everyday: which requests are explained in every state. C107_bytes_parts, C107_clients_parts: EXISTS and DEL of several keys, as the requests for the single keys."
  },
  {
   "property": "C108",
   "status": "proved",
   "theorems": [
    "C108_other_slots",
    "C108_nothing_arrives"
   ],
   "note": "For all executions of Tasks.v in which the first request to a leader is for a snapshot (mod.rs:92-95) and every answer is a beginning of what a leader with fewer than 65536 writes and keys in slot 0 sends. The case shows that a write to slot 0 does arrive if no leader had written there before."
  },
  {
   "property": "C109",
   "status": "proved",
   "theorems": [
    "C109_runs",
    "C109_reachable",
    "C109_own_names",
    "C109_own_names_refuted",
    "C109_requests",
    "C109_agreeing",
    "C109_negative_offset"
   ],
   "note": "Without the conditions of C33 and C96. C109_reachable: there are no others. C109_own_names_refuted: a forged RESTORE payload records the node of another member (the machine covers that). An upside-down interval over a set that was emptied by removals also kills the handler: that is C91 (Btree.v), not in this model of the tree. The size of the books is below 2^63 in the Rust code; C109_negative_offset says when the wrap-around of a negative LIMIT offset cannot show."
  },
  {
   "property": "C110",
   "status": "proved",
   "theorems": [
    "C110_key",
    "C110_conversation",
    "C110_bytes",
    "C110_clients"
   ],
   "note": "Extends C107 to all requests and states: no condition that the conversation be covered. Excluded is FLUSHALL among concurrent clients (it is not atomic; see C111). The machine leaves open what DEL and OBJECT say about a key whose deadline has passed, and the previous value SET GET reports for such a key."
  },
  {
   "property": "C111",
   "status": "proved",
   "theorems": [
    "C111_one_at_a_time",
    "C111_clients",
    "C111_flushall"
   ],
   "note": "C75 and C110 with FLUSHALL (which is not atomic: C75_flushall_torn_refuted). The expiry scan that follows FLUSHALL is in Expire.v, not part of these executions."
  },
  {
   "property": "C112",
   "status": "proved",
   "theorems": [
    "C112_one_more_client",
    "C112_clients",
    "C112_flushall",
    "C112_statistics_refuted"
   ],
   "note": "C112_one_more_client has no condition on requests; C112_clients and C112_flushall are C111 for the whole server. C112_statistics_refuted: OBJECT IDLETIME depends on the purge task (an entry left behind by SET touches its key). In the model the connection that sent FLUSHALL SYNC may be answered before the scan it asked for (more executions than in the code)."
  },
  {
   "property": "C113",
   "status": "proved",
   "theorems": [
    "C113_bytes",
    "C113_progress",
    "C113_limit"
   ],
   "note": "Composition of C02-C04, C62, C65, C112 in one model of the process. C113_bytes: safety; C113_progress: no handler can be blocked by the rest of the process; C113_limit: handlers at work. Simplified: the bytes of a reply leave in one step (or a prefix, if writing fails). What is sent on a socket after SYNCSNAPSHOT is in C53/C104."
  },
  {
   "property": "C114",
   "status": "proved",
   "theorems": [
    "C114_only_restore",
    "C114_shown",
    "C114_hget",
    "C114_accepted_payloads",
    "C114_deep_payload"
   ],
   "note": "Whole connections, requests and payloads of any depth. That the real decoder recurses on a bounded stack is outside the model; C114_deep_payload says how deep a payload of given length makes it go."
  },
  {
   "property": "C115",
   "status": "proved",
   "theorems": [
    "C115_same_world",
    "C115_sleep",
    "C115_any_clock",
    "C115_background_keeps",
    "C115_tracked",
    "C115_one_client",
    "C115_scans",
    "C115_process",
    "C115_two_clients_refuted"
   ],
   "note": "C115_same_world is the simulation by Expire.v; the others carry C43, C45 and C46 over to executions with connections. The last sentence of the claim is C115_two_clients_refuted, a witness with two connections (C47 in the whole server)."
  },
  {
   "property": "C116",
   "status": "proved",
   "theorems": [
    "C116_last_access",
    "C116_created",
    "C116_set",
    "C116_counts"
   ],
   "note": "RESTORE brings its own statistics (C41_restore_freq_spills_refuted)."
  },
  {
   "property": "C117",
   "status": "proved",
   "theorems": [
    "C117_bytes",
    "C117_clients",
    "C117_one_more_client",
    "C117_server",
    "C117_comes_back"
   ],
   "note": "C111_clients, C112_clients and C113_bytes without their condition on the clock. Which keys the DELs of the background concern is C115_any_clock: their deadline lies ahead but an earlier reading had reached it."
  },
  {
   "property": "C118",
   "status": "proved",
   "theorems": [
    "C118_alone",
    "C118_server",
    "C118_bytes"
   ],
   "note": "Which requests only look is the table SpecAlone.looks; C118_disturbed_case shows that the condition on the others is needed."
  },
  {
   "property": "C119",
   "status": "proved",
   "theorems": [
    "C119_queue",
    "C119_fifo"
   ],
   "note": "While the clock does not step back; a request that is being executed may have its pop done and not yet answered, so the count is of moments at which all clients are idle, the order of all moments."
  },
  {
   "property": "C120",
   "status": "proved",
   "theorems": [
    "C120_lock"
   ],
   "note": "While the clock does not step back, at moments at which all clients are idle."
  }
 ]
}