{
 "claims": [
  {
   "property": "C01",
   "status": "proved",
   "theorems": [
    "C01_request",
    "C01_injective"
   ],
   "note": "C01_request, C01_injective; C01_demo shows a binary request meeting the hypotheses."
  },
  {
   "property": "C02",
   "status": "proved",
   "theorems": [
    "C02_reply",
    "C02_injective"
   ],
   "note": "The reader read_reply is a separate specification (SpecResp.v)."
  },
  {
   "property": "C03",
   "status": "partial",
   "theorems": [
    "C03_no_panic_partial",
    "C03_no_cr_refuted"
   ],
   "note": "False of the code: C03_no_cr_refuted (every first line that is a '$' or '*' header without CR panics). Proved: no panic on every input all of whose length headers are well formed (C03_no_panic_partial); C44 gives the exact cause of every panic."
  },
  {
   "property": "C04",
   "status": "partial",
   "theorems": [
    "C04_refused_partial",
    "C04_refuted"
   ],
   "note": "False of the code: C04_refuted (a cut inside the last argument is padded with NULs and accepted). Proved for every cut before the last argument's bytes (C04_refused_partial); C45 says exactly what happens at every cut."
  },
  {
   "property": "C05",
   "status": "proved",
   "theorems": [
    "C05_total",
    "C05_local",
    "C05_nested"
   ],
   "note": ""
  },
  {
   "property": "C06",
   "status": "partial",
   "theorems": [
    "C06_single_partial",
    "C06_refuted",
    "C06_demo"
   ],
   "note": "False of the code: C06_refuted (everything after the first request of a frame is dropped). Proved for frames with exactly one request (C06_single_partial); see C46 for what happens to the rest."
  },
  {
   "property": "C07",
   "status": "proved",
   "theorems": [
    "C07_serial",
    "C07_exclusive",
    "C07_demo"
   ],
   "note": ""
  },
  {
   "property": "C08",
   "status": "proved",
   "theorems": [
    "C08_real_time",
    "C08_replied_executed"
   ],
   "note": ""
  },
  {
   "property": "C09",
   "status": "partial",
   "theorems": [
    "C09_at_most_once_partial",
    "C09_refuted",
    "C09_demo"
   ],
   "note": "False of the code: C09_refuted. Proved: such a request runs at most once (C09_at_most_once_partial); by C47 it does run."
  },
  {
   "property": "C10",
   "status": "proved",
   "theorems": [
    "C10_no_panic",
    "C10_stop_returns",
    "C10_nothing_after",
    "C10_executed_answered",
    "C10_demo"
   ],
   "note": "The panic of AddEvent on the closed channel is recovered by the goroutine pool (ants) and is in the model as a lost request. What can kill the process is named: a command that panics, or a frame that announces an argument longer than itself and exhausts memory."
  },
  {
   "property": "C11",
   "status": "proved",
   "theorems": [
    "C11_map",
    "C11_lookup"
   ],
   "note": ""
  },
  {
   "property": "C12",
   "status": "proved",
   "theorems": [
    "C12_type_error",
    "C12_set_algebra",
    "C12_set_algebra_store",
    "C12_exceptions",
    "C12_no_type_error_refuted",
    "C19_mget_mixed"
   ],
   "note": ""
  },
  {
   "property": "C13",
   "status": "proved",
   "theorems": [
    "C13_frame",
    "C13_frame_linked",
    "C13_frame_nonset",
    "C13_reads_change_nothing",
    "C13_alias_refuted"
   ],
   "note": "C13_frame_linked is the general theorem (linked: SpecCmd.v); C13_frame and C13_frame_nonset are simpler cases. Without the exception the property is false: C13_alias_refuted."
  },
  {
   "property": "C14",
   "status": "proved",
   "theorems": [
    "C14_present",
    "C14_type",
    "C14_type_meaning",
    "C14_keys",
    "C14_del",
    "C14_bad_pattern_refuted"
   ],
   "note": "The glob library is a parameter of the model (compile: pattern -> option matcher). The type texts are those of the code ('setIfNotExists' for sets). DEL and EXISTS look at their first argument only."
  },
  {
   "property": "C15",
   "status": "proved",
   "theorems": [
    "C15_unknown",
    "C15_too_few",
    "C15_not_integer",
    "C15_not_float",
    "C15_case_insensitive",
    "C15_mset_one",
    "C15_mset_refuted"
   ],
   "note": ""
  },
  {
   "property": "C16",
   "status": "proved",
   "theorems": [
    "C16_get_after_set",
    "C16_string_variable",
    "C16_string_variable_served"
   ],
   "note": ""
  },
  {
   "property": "C17",
   "status": "proved",
   "theorems": [
    "C17_wraps",
    "C17_exact",
    "C17_not_integer",
    "C17_overflow_refuted"
   ],
   "note": "'An out-of-range result is refused rather than stored' (Redis) is false: C17_overflow_refuted."
  },
  {
   "property": "C18",
   "status": "proved",
   "theorems": [
    "C18_append"
   ],
   "note": ""
  },
  {
   "property": "C19",
   "status": "proved",
   "theorems": [
    "C19_mget_mixed",
    "C19_mset",
    "C19_mget",
    "C19_mget_no_reply_refuted"
   ],
   "note": "'MGET always gets a reply' is false: C19_mget_no_reply_refuted, and in general C19_mget_mixed."
  },
  {
   "property": "C20",
   "status": "proved",
   "theorems": [
    "C20_start",
    "C20_sequence",
    "C20_served",
    "C20_shown"
   ],
   "note": "The condition is the step function list_step of SpecKey.v being defined ('within')."
  },
  {
   "property": "C21",
   "status": "proved",
   "theorems": [
    "C21_lrem_result",
    "C21_lrem",
    "C21_lrem_missing",
    "C21_min_count",
    "C21_min_count_refuted"
   ],
   "note": ""
  },
  {
   "property": "C22",
   "status": "partial",
   "theorems": [
    "C22_empty_partial",
    "C22_pop_all",
    "C22_refuted"
   ],
   "note": "False of the code: C22_refuted (RPUSH after LREM 0 emptied the list is invisible, the next LREM crashes). Proved: reads, pops, DEL and pushes at the other end work (C22_empty_partial); popping everything loses nothing (C22_pop_all)."
  },
  {
   "property": "C23",
   "status": "proved",
   "theorems": [
    "C23_window",
    "C23_lrange",
    "C23_lset"
   ],
   "note": ""
  },
  {
   "property": "C24",
   "status": "proved",
   "theorems": [
    "C24_sadd",
    "C24_sadd_fresh",
    "C24_srem",
    "C24_srem_missing",
    "C24_smembers",
    "C24_history",
    "C24_history_served"
   ],
   "note": ""
  },
  {
   "property": "C25",
   "status": "partial",
   "theorems": [
    "C25_at_least",
    "C25_scard_partial",
    "C25_missing",
    "C25_refuted"
   ],
   "note": "False of the code after SPOP or SMOVE: C25_refuted. Proved: exact in every history without them (C25_scard_partial), never too small in any (C25_at_least); C62 says exactly what it counts."
  },
  {
   "property": "C26",
   "status": "proved",
   "theorems": [
    "C26_algebra",
    "C26_store",
    "C26_missing_refuted"
   ],
   "note": "A missing key does not count as the empty set in this code: C26_missing_refuted."
  },
  {
   "property": "C27",
   "status": "proved",
   "theorems": [
    "C27_copy",
    "C27_sources",
    "C27_single_source",
    "C27_one_set",
    "C27_refuted"
   ],
   "note": "The Redis claim that a stored result is always an independent copy is false: C27_refuted."
  },
  {
   "property": "C28",
   "status": "proved",
   "theorems": [
    "C28_spop",
    "C28_smove",
    "C28_smove_absent",
    "C28_spop_default",
    "C28_smove_lost",
    "C28_smove_self",
    "C28_refuted"
   ],
   "note": "C28_refuted: the Redis claims 'SPOP k pops one member' and 'if SMOVE fails nothing is lost' are false."
  },
  {
   "property": "C29",
   "status": "proved",
   "theorems": [
    "C29_start",
    "C29_history",
    "C29_served",
    "C29_sorted",
    "C29_shown",
    "C29_zrange",
    "C29_zrange_all",
    "C29_high_tower_refuted"
   ],
   "note": "A tower of height 32 (probability 4^-31 per insertion) makes the next insertion crash: C29_high_tower_refuted."
  },
  {
   "property": "C30",
   "status": "proved",
   "theorems": [
    "C30_zscore",
    "C30_zadd",
    "C30_zincr"
   ],
   "note": ""
  },
  {
   "property": "C31",
   "status": "proved",
   "theorems": [
    "C31_zrank",
    "C31_missing"
   ],
   "note": ""
  },
  {
   "property": "C32",
   "status": "partial",
   "theorems": [
    "C32_zrem_partial",
    "C32_missing",
    "C32_refuted"
   ],
   "note": "False of the code for members beyond the two lowest: C32_refuted. Proved for the two lowest (C32_zrem_partial) and for names that are not members (C32_missing)."
  },
  {
   "property": "C33",
   "status": "partial",
   "theorems": [
    "C33_zpopmin_partial",
    "C33_zpopmax_partial",
    "C33_refuted"
   ],
   "note": "False of the code: C33_refuted (popped members keep their score and cannot be added again; ZPOPMAX of three or more pops nothing). Proved: ZPOPMIN for every set and count as far as ranges and counts are concerned; ZPOPMAX for at most two members. C61 says exactly what becomes of a popped member."
  },
  {
   "property": "C34",
   "status": "partial",
   "theorems": [
    "C34_zcount_partial",
    "C34_zrangebyscore_partial",
    "C34_all",
    "C34_from_member",
    "C34_refuted"
   ],
   "note": "False of the code: C34_refuted. Proved for the intervals characterised by count_specified / select_specified (SpecZSet.v); C54 says exactly what the code answers on every other interval. E.g. it is right on -inf..+inf and closed intervals starting at the score of exactly one member."
  },
  {
   "property": "C35",
   "status": "proved",
   "theorems": [
    "C35_zrevrange"
   ],
   "note": ""
  },
  {
   "property": "C36",
   "status": "proved",
   "theorems": [
    "C36_parse",
    "C36_options",
    "C36_count",
    "C36_incr",
    "C36_xx_creates_refuted"
   ],
   "note": "For members that ZPOPMIN/ZPOPMAX has not popped (C33). XX on a missing key creates an empty sorted set: C36_xx_creates_refuted."
  },
  {
   "property": "C37",
   "status": "proved",
   "theorems": [
    "C37_nothing_stored"
   ],
   "note": ""
  },
  {
   "property": "C38",
   "status": "partial",
   "theorems": [
    "C38_harmless_partial",
    "C38_specified_partial",
    "C38_server_partial",
    "C38_requests_refuted",
    "C38_refuted",
    "C38_no_request_refuted"
   ],
   "note": "False of the code: C38_refuted, C38_requests_refuted; not even a request is needed, C38_no_request_refuted (a frame that announces an argument larger than memory). Proved for every sequence of 'harmless' requests (SpecSafe.v: every command but ZREM and ZPOPMAX; KEYS with patterns that compile; scores that are numbers; LREM only from one end and then no push at the other), and for every sequence whose effect the specification describes, also under every schedule of the running server, for coin flips below the maximal tower height."
  },
  {
   "property": "C39",
   "status": "proved",
   "theorems": [
    "C39_refines",
    "C39_refines_calm",
    "C39_complete",
    "C39_server"
   ],
   "note": "Where the code corrupts a value (see the refuted properties) the abstract server marks the key as damaged and allows anything for it, and only for it."
  },
  {
   "property": "C40",
   "status": "proved",
   "theorems": [
    "C40_hash_table"
   ],
   "note": ""
  },
  {
   "property": "C41",
   "status": "partial",
   "theorems": [
    "C41_closed_loop_partial",
    "C41_demo",
    "C41_refuted"
   ],
   "note": "False of the code: C41_refuted (each frame gets its own goroutine; replies may overtake). Proved for clients that wait for each reply before the next request (C41_closed_loop_partial)."
  },
  {
   "property": "C42",
   "status": "proved",
   "theorems": [
    "C42_terminates",
    "C42_all_answered"
   ],
   "note": ""
  },
  {
   "property": "C43",
   "status": "partial",
   "theorems": [
    "C43_write_ahead_partial",
    "C43_log_is_request",
    "C43_demo",
    "C43_refuted"
   ],
   "note": "Replay is false of the code: C43_refuted (requests are logged in decoding order, not in execution order). Proved: logged before executed, verbatim (C43_write_ahead_partial, C43_log_is_request)."
  },
  {
   "property": "C44",
   "status": "proved",
   "theorems": [
    "C44_panic_cause"
   ],
   "note": "C44_panic_cause is the necessary condition, C03_no_panic_partial its contrapositive in the shape of well-formed headers."
  },
  {
   "property": "C45",
   "status": "proved",
   "theorems": [
    "C45_cut"
   ],
   "note": ""
  },
  {
   "property": "C46",
   "status": "proved",
   "theorems": [
    "C46_rest_ignored"
   ],
   "note": ""
  },
  {
   "property": "C47",
   "status": "proved",
   "theorems": [
    "C47_timed_out_executed"
   ],
   "note": ""
  },
  {
   "property": "C48",
   "status": "partial",
   "theorems": [
    "C48_all_but_last_partial",
    "C48_accepted_refuted"
   ],
   "note": "False of the code: C48_accepted_refuted (the worker's select may take the done channel while an event is queued). Proved: C48_all_but_last_partial (everything ever accepted is executed except at most the last one, and that only if the server was being stopped)."
  },
  {
   "property": "C49",
   "status": "partial",
   "theorems": [
    "C49_lindex_refuted",
    "C49_lindex_partial"
   ],
   "note": "False of the code: C49_lindex_refuted (the second argument is used as the key as well as the index). Proved: the position arithmetic for the key it looks at (C49_lindex_partial)."
  },
  {
   "property": "C50",
   "status": "partial",
   "theorems": [
    "C50_descending_partial",
    "C50_all",
    "C50_refuted"
   ],
   "note": "False of the code: C50_refuted. Proved for the whole set (C50_all) and for windows that are their own mirror images (C50_descending_partial); C35 says exactly what the code does."
  },
  {
   "property": "C51",
   "status": "partial",
   "theorems": [
    "C51_refuted",
    "C51_no_phantom_partial"
   ],
   "note": "False of the code: C51_refuted (for every reachable state and absent key, HSET is acknowledged and the field is not found). Proved: C51_no_phantom_partial (no question about a hash ever reports a field that is not there: every hash is empty, in every reachable state), and C37."
  },
  {
   "property": "C52",
   "status": "partial",
   "theorems": [
    "C52_length_partial",
    "C52_refuted"
   ],
   "note": "False of the code: C52_refuted. Proved for histories that only set fields (C52_length_partial)."
  },
  {
   "property": "C53",
   "status": "proved",
   "theorems": [
    "C53_fifo"
   ],
   "note": ""
  },
  {
   "property": "C54",
   "status": "proved",
   "theorems": [
    "C54_zcount",
    "C54_zrangebyscore",
    "C54_closed",
    "C54_towers"
   ],
   "note": ""
  },
  {
   "property": "C55",
   "status": "proved",
   "theorems": [
    "C55_every_request",
    "C55_every_history",
    "C55_server"
   ],
   "note": ""
  },
  {
   "property": "C56",
   "status": "partial",
   "theorems": [
    "C56_requests_partial",
    "C56_so_far_partial",
    "C56_monotone",
    "C56_as_frame",
    "C56_bytes",
    "C56_exact",
    "C56_refuted",
    "C56_demo"
   ],
   "note": "False of the code when a value is split over two reads: C56_refuted (the value is cut at the split and filled with NUL bytes, the rest is taken for the next request). Proved for every split that does not cut a value (C56_requests_partial, C56_so_far_partial); and for all bytes and all splits that every byte is accounted for: the returned requests are the decoder's reading of the bytes that arrived, in order, with nothing left out and nothing added but NUL bytes at the end of a piece (C56_bytes, C56_exact)."
  },
  {
   "property": "C57",
   "status": "proved",
   "theorems": [
    "C57_in_order",
    "C57_executed_in_order",
    "C57_bytes",
    "C57_bytes_exact",
    "C57_as_sent",
    "C57_demo"
   ],
   "note": ""
  },
  {
   "property": "C58",
   "status": "proved",
   "theorems": [
    "C58_all_served",
    "C58_demo"
   ],
   "note": ""
  },
  {
   "property": "C59",
   "status": "partial",
   "theorems": [
    "C59_causes_partial",
    "C59_refuted",
    "C59_demo"
   ],
   "note": "False of the code: C59_refuted (whenever a client connects and disconnects there is a schedule that kills the process). Proved: the complete list of causes (C59_causes_partial)."
  },
  {
   "property": "C60",
   "status": "proved",
   "theorems": [
    "C60_stop_returns",
    "C60_nothing_executed",
    "C60_nothing_written",
    "C60_demo"
   ],
   "note": ""
  },
  {
   "property": "C61",
   "status": "proved",
   "theorems": [
    "C61_zpopmin",
    "C61_zscore",
    "C61_zrank",
    "C61_empty",
    "C61_zadd",
    "C61_zincr",
    "C61_zrem"
   ],
   "note": ""
  },
  {
   "property": "C62",
   "status": "proved",
   "theorems": [
    "C62_sadd",
    "C62_srem",
    "C62_spop",
    "C62_smove",
    "C62_store",
    "C62_history"
   ],
   "note": ""
  },
  {
   "property": "C63",
   "status": "proved",
   "theorems": [
    "C63_history",
    "C63_total",
    "C63_zadd",
    "C63_zincr",
    "C63_zrem",
    "C63_pop"
   ],
   "note": ""
  },
  {
   "property": "C64",
   "status": "proved",
   "theorems": [
    "C64_history",
    "C64_start",
    "C64_run",
    "C64_lost_front"
   ],
   "note": ""
  },
  {
   "property": "C65",
   "status": "partial",
   "theorems": [
    "C65_end_is_clean",
    "C65_at_most_once",
    "C65_ends",
    "C65_failure",
    "C65_signal_partial",
    "C65_deaf",
    "C65_signals_end_refuted",
    "C65_break_stays",
    "C65_demo"
   ],
   "note": "False of the code: C65_signals_end_refuted, C65_deaf (a signal that arrives before the server is registered is consumed, and no later signal ever ends the process). C65_signal_partial is proved for runs without a signal before the server begins to serve."
  },
  {
   "property": "C66",
   "status": "proved",
   "theorems": [
    "C66_declarations",
    "C66_callable",
    "C66_files",
    "C66_again",
    "C66_paths_needed",
    "C66_long_line",
    "C66_repository",
    "C66_commands",
    "C66_dispatch",
    "C66_demo"
   ],
   "note": "The conditions are needed: C66_long_line (nothing after a longer line is seen, silently), C66_paths_needed (a file that is not a Go source is overwritten with an empty table; a '.go' inside the path redirects the output)."
  },
  {
   "property": "C67",
   "status": "partial",
   "theorems": [
    "C67_loaded_partial",
    "C67_executed",
    "C67_first_refuted",
    "C67_exclusive_refuted",
    "C67_demo"
   ],
   "note": "False of the code: C67_first_refuted (a client may be answered before the data is there), C67_exclusive_refuted (the loading commands may execute at the same time as each other and as a client's command, on maps without locks). Proved: by the time the process is at rest all four have been executed (C67_executed), and then, in runs whose executions do not overlap and whatever their order, the data is there (C67_loaded_partial). The loading goroutines never end: nobody receives their replies."
  },
  {
   "property": "C68",
   "status": "proved",
   "theorems": [
    "C68_alone",
    "C68_unnoticed",
    "C68_served",
    "C68_demo",
    "C68_keys_refuted",
    "C68_crash_refuted",
    "C68_served_demo"
   ],
   "note": "C68_alone for conversations, C68_unnoticed for any two conversations in which the group asks the same, C68_served for the running server and the clients of given connections. The provisos are needed: C68_keys_refuted (KEYS shows the keys of others), C68_crash_refuted (a request that crashes the server takes everybody along). LINDEX counts its second argument as a key too, because the code looks there (C49)."
  },
  {
   "property": "C69",
   "status": "partial",
   "theorems": [
    "C69_replay",
    "C69_settled_partial",
    "C69_served",
    "C69_towers_refuted",
    "C69_open_refuted",
    "C69_replay_demo",
    "C69_settled_demo",
    "C69_served_demo"
   ],
   "note": "False of the code: C69_towers_refuted (whether a ZREM crashes the server depends on the heights), C69_open_refuted (ZCOUNT of an open interval answers 2, 1 or 0 depending on them). Proved: without ZADD, ZINCR and SPOP the whole state and all replies are the same, or both servers crash (C69_replay; C69_served for the running server); with sorted sets, if every request is specified by the abstract server (which excludes ZREM beyond the two lowest members and the other damaging requests) and settled (no SPOP, no open end), both survive and reply the same (C69_settled_partial)."
  },
  {
   "property": "C70",
   "status": "proved",
   "theorems": [
    "C70_life",
    "C70_keys",
    "C70_until_del",
    "C70_served",
    "C70_type_stays",
    "C70_emptied_demo",
    "C70_life_demo",
    "C70_stays_demo"
   ],
   "note": "As Redis, except that emptied lists, sets and sorted sets stay (C70_emptied_demo), DEL removes its first argument only, and HSET and the like never create a key."
  },
  {
   "property": "C71",
   "status": "proved",
   "theorems": [
    "C71_unhurt",
    "C71_blame",
    "C71_history",
    "C71_served",
    "C71_demo",
    "C71_causes"
   ],
   "note": "C71_unhurt and C71_blame for conversations, C71_history for the first crash of one, C71_served for the running server. C71_causes shows that a bad pattern, LREM, ZREM and ZPOPMAX are causes, and that DEL heals; for the odd scores only the direction stated is proved. The maximal tower crashes by itself (C29_high_tower_refuted); bytes that crash the decoder are C44's subject."
  },
  {
   "property": "C72",
   "status": "proved",
   "theorems": [
    "C72_accepted",
    "C72_panics",
    "C72_refused",
    "C72_unambiguous",
    "C72_served",
    "C72_decimal",
    "C72_demo"
   ],
   "note": "The grammar (SpecAccept.v) records the decoder's liberties: digits may be any bytes, junk between the first CR and LF of a header is skipped, the byte before the LF of an inline value is dropped whatever it is, PING is logged twice, the header of a nested array is logged after its elements."
  },
  {
   "property": "C73",
   "status": "proved",
   "theorems": [
    "C73_kinds",
    "C73_silent",
    "C73_served",
    "C73_answered",
    "C73_served1",
    "C73_encoder",
    "C73_tight",
    "C73_demo"
   ],
   "note": "The table (SpecKinds.v) records what the code does, also where Redis differs: ZINCR answers a number when the score does not change, ZPOPMIN, ZPOPMAX and HGETALL hide the type error, HGET is always null."
  },
  {
   "property": "C74",
   "status": "partial",
   "theorems": [
    "C74_error_no_effect_partial",
    "C74_refuted"
   ],
   "note": "Missing: SMOVE, of which the claim is false (C74_refuted)."
  },
  {
   "property": "C75",
   "status": "proved",
   "theorems": [
    "C75_bound",
    "C75_refused",
    "C75_taken",
    "C75_no_trace",
    "C75_no_reply",
    "C75_queue",
    "C75_patient",
    "C75_drains",
    "C75_demo",
    "C75_queue_tight",
    "C75_patient_demo"
   ],
   "note": "The pool is gnet's (not modelled: a bound on live goroutines). In the model the write of a reply and the end of its goroutine are one step, so C75_patient takes a reply to have arrived when its goroutine has ended. The refusal is silent: C75_demo. Only without Stop does the server come to rest with nothing under way (a request dropped by Stop may wait for its deadline, C10)."
  },
  {
   "property": "C76",
   "status": "proved",
   "theorems": [
    "C76_twice",
    "C76_history",
    "C76_error",
    "C76_set_noop",
    "C76_del_noop",
    "C76_sadd_noop",
    "C76_srem_noop",
    "C76_set_later",
    "C76_del_later",
    "C76_sadd_later",
    "C76_store",
    "C76_hash",
    "C76_others",
    "C76_all_kinds"
   ],
   "note": "Every implemented command is of one of these kinds (C76_all_kinds). ZADD is listed as harmful because of its INCR option (and SDIFFSTORE because its destination may be a source); SMOVE k k m counts the member again each time."
  },
  {
   "property": "C77",
   "status": "proved",
   "theorems": [
    "C77_swap",
    "C77_order",
    "C77_clients",
    "C77_reads",
    "C77_shared_refuted",
    "C77_same_key_refuted"
   ],
   "note": "The two states may differ in the addresses of the set objects; C77_swap is proved with a relation between states up to such a renaming (Twin.v). That KEYS lists the keys in the same order in both (KeyOrder.v) holds because the order in which the model visits a map depends on its keys and the random choices only; the program's depends on more, but the choices range over all orders."
  },
  {
   "property": "C78",
   "status": "proved",
   "theorems": [
    "C78_queue",
    "C78_once",
    "C78_from_push",
    "C78_size",
    "C78_clients",
    "C78_clients1",
    "C78_lrem_refuted",
    "C78_missed"
   ],
   "note": "C78_queue, C78_once, C78_from_push, C78_size for conversations, C78_clients and C78_clients1 for the two running servers; C78_missed and C78_lrem_refuted show the two limits."
  },
  {
   "property": "C79",
   "status": "proved",
   "theorems": [
    "C79_numbers",
    "C79_clients",
    "C79_clients1",
    "C79_wraps_refuted"
   ],
   "note": "C79_numbers for conversations, C79_clients and C79_clients1 for the two running servers, C79_wraps_refuted for the end of the integers."
  },
  {
   "property": "C80",
   "status": "proved",
   "theorems": [
    "C80_lock",
    "C80_told",
    "C80_exclusive",
    "C80_clients",
    "C80_clients1",
    "C80_pair_refuted",
    "C80_forgotten"
   ],
   "note": "C80_lock, C80_told, C80_exclusive for conversations, C80_clients and C80_clients1 for the two running servers; C80_forgotten and C80_pair_refuted show the limits."
  },
  {
   "property": "C81",
   "status": "proved",
   "theorems": [
    "C81_log",
    "C81_told",
    "C81_found",
    "C81_apart",
    "C81_clients",
    "C81_clients1"
   ],
   "note": "C81_log, C81_told, C81_found, C81_apart for conversations, C81_clients and C81_clients1 for the two running servers. The number in the reply is the byte length of the string, without bound: strings are assumed to fit the memory."
  },
  {
   "property": "C82",
   "status": "proved",
   "theorems": [
    "C82_together",
    "C82_clients",
    "C82_clients1",
    "C82_gets_refuted"
   ],
   "note": "C82_together for conversations, C82_clients and C82_clients1 for the two running servers; C82_gets_refuted for separate GETs. An MSET with an odd number of arguments is not among the requests (see C19)."
  },
  {
   "property": "C83",
   "status": "proved",
   "theorems": [
    "C83_deque",
    "C83_last_first",
    "C83_conserved",
    "C83_clients",
    "C83_clients1"
   ],
   "note": "C83_deque, C83_conserved, C83_last_first for conversations, C83_clients and C83_clients1 for the two running servers. LREM is excluded (see C22: a list it empties loses an end); C78 is the case of one end each."
  },
  {
   "property": "C84",
   "status": "proved",
   "theorems": [
    "C84_list",
    "C84_page",
    "C84_read_on",
    "C84_up_to_date",
    "C84_clients",
    "C84_clients1",
    "C84_front_refuted"
   ],
   "note": "C84_list, C84_page, C84_read_on, C84_up_to_date for conversations, C84_clients and C84_clients1 for the two running servers; C84_front_refuted for LPUSH."
  },
  {
   "property": "C85",
   "status": "proved",
   "theorems": [
    "C85_in_force",
    "C85_accepted",
    "C85_never_zero",
    "C85_refused_leave_no_trace",
    "C85_takes_effect",
    "C85_positive_refuted",
    "C85_demo"
   ],
   "note": "C85_in_force, C85_accepted, C85_never_zero, C85_refused_leave_no_trace, C85_takes_effect. The YAML library is a parameter. A negative timeout is possible (C85_positive_refuted). The server does not use this package."
  },
  {
   "property": "C86",
   "status": "proved",
   "theorems": [
    "C86_board",
    "C86_told",
    "C86_clients",
    "C86_clients1",
    "C86_unique",
    "C86_pop_refuted"
   ],
   "note": "C86_board, C86_told, C86_unique for conversations, C86_clients and C86_clients1 for the two running servers; C86_pop_refuted for ZPOPMIN. A tower of the maximal height (odds 4^-31 per insertion) crashes the server (C29_high_tower_refuted); fewer than 2^63-2 submissions."
  },
  {
   "property": "C87",
   "status": "proved",
   "theorems": [
    "C87_places",
    "C87_move",
    "C87_once",
    "C87_clients",
    "C87_clients1",
    "C87_wrong_type_refuted",
    "C87_twice_refuted"
   ],
   "note": "C87_places, C87_move, C87_once for conversations; C87_clients and C87_clients1 for the two running servers; C87_wrong_type_refuted and C87_twice_refuted show that the conditions are needed. SCARD is not covered: it counts moved tasks too (C25)."
  },
  {
   "property": "C88",
   "status": "proved",
   "theorems": [
    "C88_sum",
    "C88_clients",
    "C88_clients1",
    "C88_set_refuted"
   ],
   "note": "C88_sum for conversations; C88_clients and C88_clients1 for the two running servers; C88_set_refuted shows that the condition is needed."
  },
  {
   "property": "C89",
   "status": "proved",
   "theorems": [
    "C89_seen",
    "C89_clients",
    "C89_clients1",
    "C89_pop_refuted"
   ],
   "note": "C89_seen for conversations; C89_clients and C89_clients1 for the two running servers; C89_pop_refuted shows that the condition is needed."
  },
  {
   "property": "C90",
   "status": "proved",
   "theorems": [
    "C90_register",
    "C90_clients",
    "C90_clients1",
    "C90_fresh"
   ],
   "note": "C90_register for conversations; C90_clients and C90_clients1 for the two running servers; C90_fresh (the answer is not older than what was answered before) for the gnet server."
  },
  {
   "property": "C91",
   "status": "proved",
   "theorems": [
    "C91_real_time",
    "C91_answered_executed",
    "C91_taken_first",
    "C91_fresh"
   ],
   "note": "The second server's counterparts are C08_real_time, C08_replied_executed and C90_fresh."
  },
  {
   "property": "C92",
   "status": "proved",
   "theorems": [
    "C92_list",
    "C92_zset",
    "C92_conversation",
    "C92_clients",
    "C92_clients1",
    "C92_past_the_end",
    "C92_zrevrange_refuted"
   ],
   "note": "C92_list and C92_zset for a state, C92_conversation, C92_clients and C92_clients1 for pages read at different moments; C92_zrevrange_refuted for the descending direction."
  },
  {
   "property": "C93",
   "status": "proved",
   "theorems": [
    "C93_counter",
    "C93_set",
    "C93_counter1",
    "C93_set1",
    "C93_overflow_refuted",
    "C93_pop_refuted"
   ],
   "note": "C93_counter and C93_set for the gnet server, C93_counter1 and C93_set1 for the first server; the _refuted theorems show that the conditions are needed."
  },
  {
   "property": "C94",
   "status": "proved",
   "theorems": [
    "C94_in_order",
    "C94_in_order1",
    "C94_pipelined1",
    "C94_pipelined_refuted"
   ],
   "note": "C94_in_order for the gnet server, C94_in_order1 and C94_pipelined1 for the first server; C94_pipelined_refuted shows that on the gnet server waiting is necessary."
  },
  {
   "property": "C95",
   "status": "proved",
   "theorems": [
    "C95_fifo",
    "C95_fifo1",
    "C95_pipelined_refuted",
    "C95_stack_refuted"
   ],
   "note": "C95_fifo for the gnet server, C95_fifo1 for the first server (with the requests being taken in place of being sent); the _refuted theorems show that the conditions are needed."
  },
  {
   "property": "C96",
   "status": "proved",
   "theorems": [
    "C96_sections",
    "C96_sections1",
    "C96_not_owner_refuted",
    "C96_impatient_refuted"
   ],
   "note": "C96_sections for the gnet server, C96_sections1 for the first server (releases being taken from the connection in place of being sent); the function owner says whose release a SREM is. The _refuted theorems show that the discipline is needed. C80 is the counterpart for the order of execution."
  },
  {
   "property": "C97",
   "status": "proved",
   "theorems": [
    "C97_pot",
    "C97_once",
    "C97_clients",
    "C97_clients1",
    "C97_default_refuted",
    "C97_again_refuted"
   ],
   "note": "C97_pot, C97_once for conversations; C97_clients and C97_clients1 for the two running servers; the _refuted theorems show that the conditions are needed. SCARD is not covered: it counts drawn members too (C25)."
  },
  {
   "property": "C98",
   "status": "proved",
   "theorems": [
    "C98_logged",
    "C98_logged1",
    "C98_pipelined_refuted"
   ],
   "note": "C98_logged for the gnet server, C98_logged1 for the first server; C98_pipelined_refuted shows that on the gnet server waiting is necessary. C81 is the counterpart for the order of execution."
  }
 ]
}
