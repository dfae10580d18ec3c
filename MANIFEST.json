{
 "claims": [
  {
   "property": "C01",
   "status": "partial",
   "theorems": [
    "c01_store_then_get",
    "c01_store_defined",
    "c01_oversize_refuted"
   ],
   "note": "Proved for data up to INT32_MAX bytes with total size below 2^32; c01_oversize_refuted shows the request size that is accepted but wraps."
  },
  {
   "property": "C02",
   "status": "proved",
   "theorems": [
    "c02_frame"
   ],
   "note": "Frame: an operation on one key leaves every other key's record and tombstone alone (tombstone eviction excepted, stated in the theorem)."
  },
  {
   "property": "C03",
   "status": "partial",
   "theorems": [
    "c03_version_monotone",
    "c03_stored_strict",
    "c03_small_key_set_never_forgets",
    "c03_eviction_refuted",
    "c03_flush_refuted"
   ],
   "note": "Holds while the tombstone of the key is not evicted or flushed (c03_small_key_set_never_forgets gives a sufficient condition); unconditionally false, see the refutations."
  },
  {
   "property": "C04",
   "status": "partial",
   "theorems": [
    "c05_command_conditions",
    "c04_cas_one_winner",
    "c04_eviction_refuted"
   ],
   "note": "cas stores iff the version matches and at most one of several cas with the same version wins, as long as the key's tombstone is kept; c04_eviction_refuted otherwise."
  },
  {
   "property": "C05",
   "status": "proved",
   "theorems": [
    "c05_command_conditions"
   ],
   "note": ""
  },
  {
   "property": "C06",
   "status": "proved",
   "theorems": [
    "c06_get_exact",
    "c06_visible_total",
    "c08_remove_exact"
   ],
   "note": ""
  },
  {
   "property": "C07",
   "status": "proved",
   "theorems": [
    "c07_incr_exact",
    "c07_number_total",
    "c07_incr_defined"
   ],
   "note": "incr/decr: value, saturation at 0, wrap, flag/expiry preserved."
  },
  {
   "property": "C08",
   "status": "proved",
   "theorems": [
    "c08_remove_exact",
    "c08_stays_deleted",
    "c08_delete_leaves",
    "c08_stale_dump_rejected",
    "c08_deleted_version_stays_out"
   ],
   "note": ""
  },
  {
   "property": "C09",
   "status": "proved",
   "theorems": [
    "c09_flush_all_empties",
    "c09_flush_all_reads"
   ],
   "note": ""
  },
  {
   "property": "C10",
   "status": "partial",
   "theorems": [
    "c10_newest_wins",
    "c10_replicas_agree",
    "c10_versioned_set_step",
    "c10_expiry_refuted"
   ],
   "note": "Replicas that receive the same versioned sets agree, without expiry racing the delivery (c10_expiry_refuted)."
  },
  {
   "property": "C11",
   "status": "partial",
   "theorems": [
    "c11_newest_decides_partial",
    "c11_replicas_agree_partial",
    "c11_delete_order_refuted"
   ],
   "note": "Stores and deletes arrive any number of times and in any order, those of a dump in any order at all, except that no forwarded store arrives after a delete of the same or a later version: this is refuted (c11_delete_order_refuted). As in C10 nothing expires meanwhile, and for dumps the tombstones are kept (C03)."
  },
  {
   "property": "C12",
   "status": "proved",
   "theorems": [
    "c12_header_roundtrip",
    "c12_short_header_rejected",
    "c12_reads_header_only"
   ],
   "note": ""
  },
  {
   "property": "C13",
   "status": "partial",
   "theorems": [
    "c13_resolve_in_range",
    "c13_hint_zero_refuted",
    "c13_table_overrun_refuted"
   ],
   "note": "Holds for a hint of at least 1 and fewer partitions than table rows; the two refutations show both conditions are needed and not checked by the program."
  },
  {
   "property": "C14",
   "status": "partial",
   "theorems": [
    "c14_minimal_movement",
    "c14_below_hint_refuted"
   ],
   "note": "Holds from the hint upwards; refuted below it."
  },
  {
   "property": "C15",
   "status": "proved",
   "theorems": [
    "c15_handover",
    "c15_balance",
    "c15_row_exists"
   ],
   "note": "Slots per partition differ from V/n by less than n-1."
  },
  {
   "property": "C16",
   "status": "partial",
   "theorems": [
    "c16_hash_nonneg_partial",
    "c16_raw_is_int",
    "c16_int_min_refuted",
    "c16_simple_exact",
    "c16_bitshift_exact"
   ],
   "note": "Non-negative unless the raw hash is INT_MIN, which a 7 byte key reaches."
  },
  {
   "property": "C17",
   "status": "partial",
   "theorems": [
    "c17_store_roundtrip",
    "c17_split",
    "c17_delete_roundtrip",
    "c17_touch_roundtrip",
    "c17_incr_roundtrip",
    "c17_get_roundtrip",
    "c17_request_fits",
    "c17_key_injection_refuted",
    "c17_huge_size_refuted"
   ],
   "note": "Round trip of every forwarded request for legal text keys; keys that came in over the binary protocol can inject commands (c17_key_injection_refuted), and sizes within two bytes of INT_MAX crash the receiver (c17_huge_size_refuted)."
  },
  {
   "property": "C18",
   "status": "proved",
   "theorems": [
    "c18_response_roundtrip",
    "c18_miss_roundtrip",
    "c18_other_key"
   ],
   "note": ""
  },
  {
   "property": "C19",
   "status": "partial",
   "theorems": [
    "c19_field_roundtrip",
    "c19_header_fields",
    "c19_magic",
    "c19_short_header",
    "c19_store_request",
    "c19_append_request",
    "c19_delete_request",
    "c19_get_request",
    "c19_incr_request",
    "c19_touch_request",
    "c19_value_response",
    "c19_result_response",
    "c19_quiet",
    "c19_status_injective",
    "c19_any_chunking_partial",
    "c19_store_chunks"
   ],
   "note": "Header members, magic check, all request kinds and responses round trip (c19_quiet is about a member the program never sets: c58_quiet_refuted); reading a request off the connection is chunking independent outside the state of c20_single_byte_segment_refuted."
  },
  {
   "property": "C20",
   "status": "partial",
   "theorems": [
    "c20_readline",
    "c20_readsize",
    "c20_request_partial",
    "c20_store_any_chunks",
    "c20_session_partial",
    "c20_chunking_irrelevant_partial",
    "c20_single_byte_segment_refuted",
    "c20_nul_refuted",
    "c20_double_cr_refuted",
    "c20_push_back_refuted"
   ],
   "note": "Single reads (a line, a block) proved for every chunking; whole requests and sessions proved outside three situations, each refuted: a request whose first byte arrives alone after a consumed buffer, a NUL after the command, two CRs before LF."
  },
  {
   "property": "C21",
   "status": "partial",
   "theorems": [
    "c21_next_word",
    "c21_next_digit_partial",
    "c21_next_digit_refuted",
    "c21_request_line_refuted",
    "c21_short_lines_safe"
   ],
   "note": "next_word proved; next_digit writes one byte past its buffer when no space precedes a number as long as the buffer, reachable from a request line."
  },
  {
   "property": "C22",
   "status": "proved",
   "theorems": [
    "c22_base64_roundtrip",
    "c22_base64_text",
    "c22_base64_decode_fits"
   ],
   "note": ""
  },
  {
   "property": "C23",
   "status": "proved",
   "theorems": [
    "c23_sync_roundtrip",
    "c23_add_reply_roundtrip",
    "c23_node_key",
    "c23_colon_refuted",
    "c23_unversioned",
    "c26_no_prepare",
    "c22_base64_decode_bytes"
   ],
   "note": "Round trip of whole node lists with any fields (ints, host names of 1 to 1023 word bytes as the index server accepts) through the sync request and the reply to node add; node keys for host names without a colon, as the property says. c23_colon_refuted shows what happens with one."
  },
  {
   "property": "C24",
   "status": "proved",
   "theorems": [
    "c24_names",
    "c24_numbers",
    "c24_commands"
   ],
   "note": "All casts between values and names, the numbers used in node lists, and the command words of both text servers, over all strings."
  },
  {
   "property": "C25",
   "status": "partial",
   "theorems": [
    "c25_one_master_partial",
    "c25_two_masters_refuted"
   ],
   "note": "Holds in all histories without failing stores in which no preserved master is brought up or removed while its partition has only non-master live nodes; c25_two_masters_refuted shows two masters otherwise."
  },
  {
   "property": "C26",
   "status": "partial",
   "theorems": [
    "c26_failover_partial",
    "c26_failover_defined",
    "c26_failed_store_refuted"
   ],
   "note": "Exact effect of a node going down on every such history, and definedness while the balances add up to an int; after a failed store of a role change the wrong node is promoted (refuted)."
  },
  {
   "property": "C27",
   "status": "partial",
   "theorems": [
    "c27_tables_partial",
    "c27_accepted",
    "c27_rejected_keeps",
    "c27_index_tables_partial",
    "c27_no_master_refuted",
    "c27_negative_refuted"
   ],
   "note": "Tables that are taken over list exactly the nodes of each partition and are numbered 0..n-1 (prepare: n) when no master has a negative partition; a rejected map leaves the tables. Exactly one master per table and numbering for malformed maps are refuted."
  },
  {
   "property": "C28",
   "status": "partial",
   "theorems": [
    "c28_sync",
    "c28_monotone",
    "c28_version_partial",
    "c28_converges_partial",
    "c28_race_refuted"
   ],
   "note": "Monotone for all messages; convergence for every order, loss and repetition of messages that carry the map and version of one state, over all runs without failing stores or abandoned masters. It fails for messages that pair the map of one state with the version of a later one, which the index server can send: c28_race_refuted."
  },
  {
   "property": "C29",
   "status": "partial",
   "theorems": [
    "c29_unique_partial",
    "c29_key_injective",
    "c29_add",
    "c29_threads_grow_partial"
   ],
   "note": "On the histories of C25."
  },
  {
   "property": "C30",
   "status": "partial",
   "theorems": [
    "c30_remove_partial",
    "c30_remove_succeeds",
    "c30_sole_keeper_refuted"
   ],
   "note": "On the histories of C25 a removed node is down and its partition keeps a live master; a preserved master whose only replacement is a preparing slave can be removed (refuted)."
  },
  {
   "property": "C31",
   "status": "partial",
   "theorems": [
    "c31_owner_partial",
    "c31_loop_refuted"
   ],
   "note": "Who executes and who forwards a write, for all nodes, keys and reachable maps when the nodes agree on the map. With maps of different states a write can be passed around forever (refuted)."
  },
  {
   "property": "C32",
   "status": "partial",
   "theorems": [
    "c32_replicated_partial",
    "c32_no_master"
   ],
   "note": "For every order in which nodes serve the requests, when they agree on the map and requests arrive: executed exactly once by exactly the nodes that hold the key."
  },
  {
   "property": "C33",
   "status": "partial",
   "theorems": [
    "c33_balanced_partial"
   ],
   "note": "When the nodes agree on the map."
  },
  {
   "property": "C34",
   "status": "partial",
   "theorems": [
    "c34_crash_partial",
    "c34_recovers_partial",
    "c34_save_reports",
    "c34_crash_refuted",
    "c34_full_disk_refuted",
    "c34_power_running",
    "c34_power_partial",
    "c34_power_synced",
    "c34_power_refuted",
    "c34_power_lost_refuted"
   ],
   "note": "At every kill point of a save a new process reads the previous or the new state, or finds no state file while the complete new state is in the temporary file; with the history theorems of C46 the whole index state is recovered. The full property is refuted: the old file is unlinked before the rename, and a full disk is not noticed. When the whole machine fails, only states saved since the kernel last wrote everything out, or the one of that moment, or none, can be found; a save that was reported as done may be lost or leave an empty map."
  },
  {
   "property": "C35",
   "status": "partial",
   "theorems": [
    "c35_linearizable_partial",
    "c35_alone_get",
    "c35_alone_incr",
    "c35_increments_partial",
    "c35_no_deadlock_partial",
    "c35_requests_refuted"
   ],
   "note": "Linearizability, absence of deadlock and the sum of concurrent increments are proved for every number of threads, all requests and every schedule, when the header cache has room for the keys in use. The removal of an expired record, which a get or incr asks for after it released its locks, is a command of its own there: with it the request as a whole is refuted (a flush_all and a set in between lose the new value)."
  },
  {
   "property": "C36",
   "status": "partial",
   "theorems": [
    "c36_fifo",
    "c36_all_taken_are_processed",
    "c36_processed_in_order",
    "c36_not_released_early",
    "c36_settled_was_handled",
    "c36_wakeup_is_coming",
    "c36_everything_gets_done",
    "c36_no_lost_wakeup",
    "c36_stop_partial",
    "c36_limit_partial",
    "c36_release_refuted",
    "c36_late_push_refuted",
    "c36_spurious_release_refuted",
    "c36_monitor_null_refuted",
    "c36_limit_refuted",
    "c36_no_null",
    "c36_sleep",
    "c36_monitor_wakes"
   ],
   "note": "FIFO, exactly once, no early release without spurious wakeups of the requester, no lost wakeup of the worker, and completion of everything while the worker is not stopped are proved for every schedule. The release is refuted for a proxy worker stopped between dequeue and processing and for entries put in after the last sweep; the limit holds up to the number of workers minus one and is refuted as stated; a late signal makes the monitor use a null pointer. One entry for several workers is C71, reuse of a pooled thread with entries in its queue is C75."
  },
  {
   "property": "C37",
   "status": "partial",
   "theorems": [
    "c37_ids_unique_in_pool",
    "c37_ids_unique_partial",
    "c37_ids_unique_refuted",
    "c37_threads_not_shared",
    "c37_pool_bounded",
    "c37_pool_bounded_fixed",
    "c37_kill_finds",
    "c37_kill_partial",
    "c37_kill_refuted",
    "c37_kill_earlier"
   ],
   "note": "Unique non-zero ids within a pool, exclusive use of thread objects and the bound on idle threads hold for every schedule. The two pools of a process share a counter but not the check for duplicates: uniqueness in the process is proved for the first 2^32 draws and refuted afterwards. kill finds the right thread; stopping it is a second step, and is refuted when the thread has gone on to another connection in between. Failure of pthread_create is in C70, the shutdown of a whole pool in C69."
  },
  {
   "property": "C38",
   "status": "partial",
   "theorems": [
    "c38_monitor_partial",
    "c38_no_early_down",
    "c38_down_follows",
    "c38_up_exactly",
    "c38_once_refuted"
   ],
   "note": "Exactly the stated behaviour while the controller carries out requests before the next ping. For any schedule: never before t failures without a success, always after t failures while the map does not say down, up exactly when a ping succeeds while the map says down. Once per outage fails if the controller lags (refuted). Failed transfers of the map count as failures too."
  },
  {
   "property": "C39",
   "status": "partial",
   "theorems": [
    "c39_slave_partial",
    "c39_shutdown_refuted",
    "c39_master_partial",
    "c39_master_race_refuted",
    "c39_master_leak_refuted"
   ],
   "note": "A slave is activated only after a complete, completely applied dump, for every behaviour of the sender and every cut of the stream; refuted for a shutdown request at the receiver. A new master: proved when all threads are counted before the first finishes and no attempt failed before; refuted otherwise (early activation, and no activation at all after a failed attempt). Database write errors at the receiver: C79."
  },
  {
   "property": "C40",
   "status": "partial",
   "theorems": [
    "c40_dump_partial",
    "c40_nul_refuted",
    "c40_dump_key_partial",
    "c40_dump_key_honest",
    "c40_one_at_a_time",
    "c40_second_refused",
    "c40_reconstruct_partial",
    "c40_space_refuted"
   ],
   "note": "Exactly the live keys of the partition, one dump at a time for every schedule, and the receiver ends up with them. Keys with a NUL byte are cut (refuted) and keys with a space break every reconstruction (refuted); both can be stored with the binary protocol."
  },
  {
   "property": "C41",
   "status": "partial",
   "theorems": [
    "c41_no_limit",
    "c41_call",
    "c41_debt_kept",
    "c41_rate",
    "c41_clock_back_refuted",
    "c41_clock_jump_refuted"
   ],
   "note": "The sleep of every call, the conservation of debt and the resulting rate are proved for clocks that do not go backwards and within the stated bounds; for a clock set back the sleep is not proportional to the bytes (refuted)."
  },
  {
   "property": "C42",
   "status": "proved",
   "theorems": [
    "c42_time_arithmetic",
    "c42_time_conversions",
    "c42_reports_exactly",
    "c42_ping"
   ],
   "note": "For all histories of accesses, polls and threshold changes with clock readings of at most 62 bit seconds."
  },
  {
   "property": "C43",
   "status": "partial",
   "theorems": [
    "c43_consistent_lengths_partial",
    "c43_overlong_key_refuted",
    "c43_every_overlong_key_refuted",
    "c43_stats_null_refuted"
   ],
   "note": "Holds when key and extras lengths fit into the body; otherwise the program reads past it (refuted)."
  },
  {
   "property": "C44",
   "status": "partial",
   "theorems": [
    "c44_value_refuted",
    "c19_value_response",
    "c19_result_response"
   ],
   "note": "False of the program: both members are zero in every response."
  },
  {
   "property": "C45",
   "status": "partial",
   "theorems": [
    "c45_retries_partial",
    "c45_at_most_once_partial",
    "c45_replicated_once",
    "c45_twice_refuted",
    "c45_unreachable"
   ],
   "note": "At most four times always; at most once when no attempt fails after its request was sent, and for records that carry a version; otherwise refuted with an increment applied twice."
  },
  {
   "property": "C46",
   "status": "partial",
   "theorems": [
    "c46_restart_partial",
    "c46_restart_refuted"
   ],
   "note": "On the histories of C25; refuted beyond."
  },
  {
   "property": "C47",
   "status": "partial",
   "theorems": [
    "c47_served_partial",
    "c47_unread_refuted"
   ],
   "note": "Holds if some active node of the partition has a positive read balance; otherwise refuted."
  },
  {
   "property": "C48",
   "status": "partial",
   "theorems": [
    "c48_admin_roundtrip",
    "c48_role_garbage_refuted"
   ],
   "note": "Well-formed requests with host names of 1 to 1023 word bytes are executed exactly. The rejection of other lines fails for node role: c48_role_garbage_refuted."
  },
  {
   "property": "C49",
   "status": "partial",
   "theorems": [
    "c49_own_answer_partial",
    "c49_stale_answer_refuted"
   ],
   "note": "Holds while no read of an answer times out (connection errors are fine); a timeout leaves the connection open with an answer on its way, which the next request gets (refuted)."
  },
  {
   "property": "C50",
   "status": "partial",
   "theorems": [
    "c50_store",
    "c50_touch",
    "c50_delete",
    "c50_too_large",
    "c50_negative_refuted",
    "c50_amount_refused",
    "c50_minus_refuted",
    "c50_field_refused",
    "c50_flush_time",
    "c50_verbosity_level",
    "c50_verbosity_none"
   ],
   "note": "All values are covered for store, touch and delete requests with non-negative expiry times. Negative expiry times are refused, contrary to the protocol (c50_negative_refuted); negative amounts of incr and decr are taken, contrary to the protocol (c50_minus_refuted), other amounts that are no number below 2^64 are refused."
  },
  {
   "property": "C51",
   "status": "partial",
   "theorems": [
    "c51_argument_rejected",
    "c51_accepted",
    "c51_session",
    "c51_rejected_partial",
    "c51_negative_refuted",
    "c51_too_large_refuted"
   ],
   "note": "Accepted requests use up exactly their bytes, rejected ones exactly their line; so the property is refuted for every data block of a rejected store request."
  },
  {
   "property": "C52",
   "status": "partial",
   "theorems": [
    "c52_balance_partial",
    "c52_prepare_refuted"
   ],
   "note": "For every reachable map and request, except that a slave being prepared is made a proxy: there it is refuted."
  },
  {
   "property": "C53",
   "status": "partial",
   "theorems": [
    "c53_catches_up_partial",
    "c53_reads_forward_partial",
    "c53_prefixes",
    "c53_deliverable",
    "c53_reordered_refuted",
    "c53_late_touch_refuted",
    "c53_flush_refuted"
   ],
   "note": "Proved from the bytes of the requests down to the database, for every interleaving in which operations on one key arrive in the order of the storage calls and a touch arrives while the record is alive at the replica; both conditions are needed (refuted otherwise), and two client threads can violate the first. Version counters that wrap around to 0 are excluded. flush_all is not forwarded at all, which refutes the claim for it. The binary protocol and operations dropped after all retries are not part of the model."
  },
  {
   "property": "C54",
   "status": "proved",
   "theorems": [
    "c54_session",
    "c54_served",
    "c54_flush_delay_refuted"
   ],
   "note": "From the bytes of the requests to the bytes of the answers, through parser, request handlers, storage and the cache of deleted versions. Requests are served one after the other by the owning node (routing is C31-C33, concurrency C35). Unknown words, ping, version, verbosity, flush_all and quit are included; known words with malformed parameters are C50 and C51. flush_all with a delay empties at once (refuted)."
  },
  {
   "property": "C55",
   "status": "partial",
   "theorems": [
    "c55_queued_partial",
    "c55_message",
    "c55_any_node_partial",
    "c55_served_partial",
    "c55_noreply_refuted",
    "c55_flush_refuted"
   ],
   "note": "From the bytes a client sends to any node to the bytes it is answered, through routing, the request passed on, its execution by the owner and the answer passed back. Restrictions: the map does not change meanwhile, no connection fails (C18, C48), reads are not directed to slaves (C53), requests are served one after the other, and flush_all is not used (without that it is refuted). Requests with noreply either go to the owner of the key, or take effect when they reach it (c55_queued_partial): the client may miss its own write before (refuted)."
  },
  {
   "property": "C56",
   "status": "partial",
   "theorems": [
    "c56_forward_partial",
    "c56_forward_incr_refuted",
    "c56_duplicate_partial",
    "c56_duplicate_sent",
    "c56_one_queue",
    "c56_duplicate_slave_refuted"
   ],
   "note": "Mode forward from the bytes the client sends to the bytes it is answered, through the destination cluster (C55); excluded are incr and decr (refuted: the amount is lost), flush_all, noreply requests unless the destination node owns the key, and connections that fail. Mode duplicate is the execution of C53 with a trail of its own for every delivery, under the conditions of C53; slaves send nothing (refuted)."
  },
  {
   "property": "C57",
   "status": "partial",
   "theorems": [
    "c57_dump_partial",
    "c57_converges_partial",
    "c57_deleted_refuted",
    "c57_expired_refuted",
    "c57_delete_race_refuted",
    "c57_touch_race_refuted",
    "c57_table_refuted"
   ],
   "note": "The requests of the dump are proved for all databases and stop points as long as no visited key vanishes or expires before it is read (refuted otherwise). Convergence is proved for each key that is not deleted or touched meanwhile and does not expire (refuted for delete and touch), with deliveries in any order and repeated. The destination is one node, and connections do not fail."
  },
  {
   "property": "C58",
   "status": "partial",
   "theorems": [
    "c58_session_partial",
    "c58_framing",
    "c58_misshapen",
    "c58_protocol_answer",
    "c58_quiet_refuted",
    "c58_quiet_miss_refuted",
    "c58_opaque_refuted",
    "c58_token_refuted",
    "c58_initial_refuted",
    "c58_unknown_opcode_refuted",
    "c58_delete_token_refuted",
    "c58_append_token_refuted",
    "c58_forward_refuted",
    "c58_damaged"
   ],
   "note": "Proved for whole mixed sessions up to values of 2^31 bytes, for arbitrary byte strings as keys; the answers are those of the protocol without opaque, token and silence. Refuted: quiet requests are answered, the opaque and the token are zero, initial values are ignored, unknown opcodes are answered as a failed noop, tokens of delete and append are not compared for equality, keys with a space are not replicated."
  },
  {
   "property": "C59",
   "status": "partial",
   "theorems": [
    "c59_kch",
    "c59_tcb_partial",
    "c59_tcb_empty_key_refuted",
    "c59_tcb_delete_time_refuted",
    "c59_locks",
    "c59_tcb_lock_refuted",
    "c59_kch_large_refuted",
    "c59_release"
   ],
   "note": "kch agrees with tch in answers and states on every history that stays within INT_MAX bytes per record; tcb agrees in answers as long as the tombstones of the keys in use are kept and the clock does not run backwards. Refuted for tcb: the empty key, deletes with a time, and an increment of an expired item takes locks it already holds; for kch: values within 28 bytes of the size limit are stored but cannot be read."
  },
  {
   "property": "C60",
   "status": "partial",
   "theorems": [
    "c60_exclusive_partial",
    "c60_first_gets_it",
    "c60_defined_partial",
    "c60_expired_holder_refuted",
    "c60_given_up_refuted",
    "c60_exclusive_refuted",
    "c60_counter_refuted",
    "c60_expired_waiter_refuted"
   ],
   "note": "Exclusion, order and progress are proved for every interleaving, failure and expiry while fewer than 2^31 requests have been made and no wait is given up, for objects whose session exists. Refuted: an operation goes on after its session has expired, so two run at once; two objects with sessions hold the lock after a wait is given up by one thread while the other finds itself first, and after the counter of ZooKeeper has passed 2^31; an operation whose session expires while it waits never returns."
  },
  {
   "property": "C61",
   "status": "partial",
   "theorems": [
    "c61_one_server_partial",
    "c61_one_master_partial",
    "c61_versions_partial",
    "c61_not_lost_partial",
    "c61_acknowledged",
    "c61_missed_change_refuted",
    "c61_one_server_refuted",
    "c61_failed_flush_refuted",
    "c61_late_store_refuted",
    "c61_expired_lock_refuted",
    "c61_stored_once",
    "c61_stored_count"
   ],
   "note": "Refinement to one server for every interleaving of operations, notifications and answers, with one master, consecutive versions and no lost node as consequences. Missing, and refuted: a change between the reading of the map and the next watch (the server then acts on old tables and takes a master down without failover), a failed flush, a late store and an ended lock session (an acknowledged change is lost). Monitoring threads and crashes are not modelled."
  },
  {
   "property": "C62",
   "status": "partial",
   "theorems": [
    "c62_node_partial",
    "c62_unique",
    "c62_refused",
    "c62_read",
    "c62_visible",
    "c62_one_partition_partial",
    "c62_partitions_refuted",
    "c62_phantom_refuted",
    "c62_broken_refuted",
    "c62_expired_refuted",
    "c62_engine_refuted",
    "c62_binary_keys_refuted"
   ],
   "note": "The list is proved to be the first keys with the prefix, in order, of the node that the prefix belongs to, for every node asked, any number of prefixes and up to three tries that are not sent; of the whole cluster if it has one partition. Refuted: keys of other partitions, expired keys, unreachable owners, broken answers, engines that cannot search, keys with blanks or NUL bytes."
  },
  {
   "property": "C63",
   "status": "partial",
   "theorems": [
    "c63_replace",
    "c63_delete",
    "c63_packet",
    "c63_follows_partial",
    "c63_read",
    "c63_key_refuted",
    "c63_value_refuted",
    "c63_backslash_refuted",
    "c63_flush_refuted",
    "c63_full_packet_refuted",
    "c63_login_refuted",
    "c63_empty_refuted",
    "c63_command"
   ],
   "note": "Statements, events and packets are proved to be read back as meant for all values, keys without quote, backslash or NUL, and event sizes that are no multiple of 2^24 - 1; and the rows to follow the store for every history of requests without flush_all. Missing, and refuted: the other keys, flush_all, events of 2^24 - 1 bytes, longer logins, empty packets. The slave is the specification's reading of SQL and of the protocol."
  },
  {
   "property": "C64",
   "status": "partial",
   "theorems": [
    "c64_settings",
    "c64_sources",
    "c64_start",
    "c64_same_home",
    "c64_lost_refuted",
    "c64_refused",
    "c64_standing",
    "c64_role_window_refuted",
    "c64_back_refuted",
    "c64_zero_refuted",
    "c64_numbers"
   ],
   "note": "Proved for all settings, options and histories: the answer to 'meta' is read back exactly, the node has the map and the homes of keys of the index server, index servers that read all settings agree, names in use are refused, a started node is idle. Missing, and refuted: a setting that cannot be read, a role given between the request and its answer, older maps sent before."
  },
  {
   "property": "C65",
   "status": "partial",
   "theorems": [
    "c65_converges_partial",
    "c65_same_loops",
    "c65_touch_refuted",
    "c65_evicted_refuted",
    "c65_slave_source",
    "c65_master_sources",
    "c65_no_other"
   ],
   "note": "Proved for all interleavings and all histories: the sources of the copies, and that a key ends as in the master. Missing, and refuted: touch, tombstones dropped from the bounded cache. Missing: flush_all, records that expire during the copy, writes to one key that are sent on out of order (C53)."
  },
  {
   "property": "C66",
   "status": "partial",
   "theorems": [
    "c66_session_partial",
    "c66_balance",
    "c66_nodes",
    "c66_items_refuted",
    "c66_gat_refuted",
    "c66_keys_refuted",
    "c66_opaque_refuted",
    "c66_misshapen",
    "c66_unknown"
   ],
   "note": "Proved for all sessions as long as the requests are served as by memcached (C58): every counter is the number of its moves, answers read back in both protocols, stats nodes determines the map. curr_items: only that it is at least the number of readable items; that it is exactly that is refuted. Refuted: gat, touch, keys, opaque. Missing: stats threads (see C80)."
  },
  {
   "property": "C67",
   "status": "partial",
   "theorems": [
    "c67_start",
    "c67_start_no_file",
    "c67_startable",
    "c67_server",
    "c67_index_startable",
    "c67_index_accept",
    "c67_reload",
    "c67_accept",
    "c67_refused_partial",
    "c67_atomic_refuted",
    "c67_leftover_refuted",
    "c67_unchanged",
    "c67_command_line_refuted",
    "c67_cli_servers_refuted",
    "c67_restart",
    "c67_restart_refuted",
    "c67_dump_refuted",
    "c67_servers",
    "c67_servers_refuted",
    "c67_show",
    "c67_signal_partial",
    "c67_signal_refuted",
    "c67_index_start",
    "c67_index",
    "c67_index_pool_refuted",
    "c67_index_timeout_refuted",
    "c67_range_refuted",
    "c67_goes_on"
   ],
   "note": "Proved: values at the start and after any accepted reload in any life of reloads, what is accepted, unchanged and complete files, server lists, show variables, the index server. Partial: a refused reload keeps all but the connection limit and what is shown; a SIGHUP outside a reload is honoured. Refuted: the rest, as listed in the property. Missing: the time until a signal is noticed."
  },
  {
   "property": "C68",
   "status": "partial",
   "theorems": [
    "c68_once",
    "c68_served_partial",
    "c68_pool_partial",
    "c68_limits",
    "c68_sessions_partial",
    "c68_freed",
    "c68_kill",
    "c68_kill_signal",
    "c68_unharmed",
    "c68_late_kill_refuted",
    "c68_wakeup_refuted",
    "c68_starved",
    "c68_starved_refuted",
    "c68_kill_other_refuted",
    "c68_dropped_refuted",
    "c68_kill_slow_refuted"
   ],
   "note": "Proved for all schedules: at most once and by one thread, the limits, the freeing of a place, what a kill leaves a session, that a session nobody kills goes on. Partial: every connection is served, the pool is sound and sessions are within the limit in schedules without spurious wake-ups in which kills reach threads inside a session. Refuted: the rest, as listed in the property. The stop of the whole server is C69."
  },
  {
   "property": "C69",
   "status": "partial",
   "theorems": [
    "c69_quiet_partial",
    "c69_prompt",
    "c69_ends",
    "c69_told",
    "c69_window_refuted",
    "c69_clean_refuted",
    "c69_killed_refuted",
    "c69_queue_order",
    "c69_queue_stop",
    "c69_queue_refuted"
   ],
   "note": "Proved: the stop ends and how many waits it gives up, sessions outside the window end promptly with their request completed, the order of a proxy thread's queue. Partial: the storage is closed with nobody in a session and none to come, in histories without kills, spurious wake-ups and waits given up. Refuted: the rest, as listed in the property. Missing: the threads of the other pool except for the loop of a proxy thread, and a kill under way when the stop begins."
  },
  {
   "property": "C70",
   "status": "partial",
   "theorems": [
    "c70_once",
    "c70_limit",
    "c70_served",
    "c70_kept",
    "c70_total",
    "c70_retries",
    "c70_starve_refuted",
    "c70_stuck_refuted",
    "c70_unix_refuted",
    "c70_unlink",
    "c70_unlink_refuted",
    "c70_bound",
    "c70_total_index",
    "c70_total_failed"
   ],
   "note": "Proved: once, in order, the limit, that working sockets are served, that failures lose nothing, the count of the statistics, paths of at most 13 bytes. Refuted: the rest, as listed in the property."
  },
  {
   "property": "C71",
   "status": "partial",
   "theorems": [
    "c71_once",
    "c71_ends",
    "c71_bounded",
    "c71_answered_partial",
    "c71_write_partial",
    "c71_broadcast_partial",
    "c71_single_partial",
    "c71_early_refuted",
    "c71_broadcast_refuted",
    "c71_spurious_refuted",
    "c71_hang_refuted",
    "c71_swept_refuted",
    "c71_prepared_refuted",
    "c71_skipped_refuted"
   ],
   "note": "Proved for all programs, numbers of workers and schedules: once each, the end of every wait unless a worker is stopped with the entry, the number of steps. Partial: that everyone has processed the entry when the requester goes on, in schedules without wake-ups for no reason and without stops in which the entry goes to no further worker between another one's last count and its signal; with one worker the last condition is not needed. Refuted: the rest, as listed in the property. Processed means that the request was sent as in C45: that it reached the slave is not checked by the program."
  },
  {
   "property": "C72",
   "status": "partial",
   "theorems": [
    "c72_one_slave_partial",
    "c72_off",
    "c72_own_partial",
    "c72_goes_on",
    "c72_stale_refuted",
    "c72_window_refuted",
    "c72_pattern"
   ],
   "note": "Proved: all for one slave; all without a window; own answers for several slaves when no worker marks an entry between the request and the answer of another; that no answer is waited for in vain. Refuted: the rest, as listed in the property. No client uses noreply and connections do not fail (C49)."
  },
  {
   "property": "C73",
   "status": "partial",
   "theorems": [
    "c73_history_partial",
    "c73_opens",
    "c73_reads_do_not_open_refuted",
    "c73_disconnect_refuted",
    "c73_stale_refuted",
    "c73_disconnect_closed",
    "c73_key_refuted"
   ],
   "note": "Proved for all sequences of calls through an open connection on a node that starts empty and owns all keys, with entries for get that have no data and without disconnect; that connect, add and cas open a connection. Refuted: the rest, as listed in the property, and keys with an end of line, the rest of which is carried out as a request. Not covered: answers of the node that are errors, connections that break while a call is under way."
  },
  {
   "property": "C74",
   "status": "partial",
   "theorems": [
    "c74_any_node_partial",
    "c74_count_refuted",
    "c74_cas_refuted",
    "c74_key_refuted",
    "c74_no_partition",
    "c74_no_proxy"
   ],
   "note": "Proved for all sequences of requests of both protocols at any nodes of a settled cluster that starts empty, up to the first request that is too long or counts from an initial value, with keys of the text protocol and, for counting and tokens, asked of the owner of the key. Refuted: the rest, as listed in the property; for counting universally, whatever was asked before. Not covered: flush_all (C55), quiet requests, opaque and tokens in answers (C58), nodes that fail, requests at the same time."
  },
  {
   "property": "C75",
   "status": "partial",
   "theorems": [
    "c75_right_node_partial",
    "c75_right_node_undisturbed",
    "c75_wrong_node_refuted",
    "c75_once",
    "c75_order_partial",
    "c75_order_refuted",
    "c75_concurrency_refuted",
    "c75_accepted_partial",
    "c75_accepted_refuted",
    "c75_stranded_refuted",
    "c75_no_fault_partial",
    "c75_fault_refuted"
   ],
   "note": "For every schedule: each accepted request is in exactly one place. The right node is proved for schedules in which no thread goes away between the moment a request finds it and uses it, in particular if none is stopped; order, acceptance and completion while the threads of the node are all running. Refuted by concrete schedules: right node, order, number of threads, acceptance, stranded requests, division by zero (universally for proxy-concurrency 0)."
  },
  {
   "property": "C76",
   "status": "partial",
   "theorems": [
    "c76_newest_partial",
    "c76_monotone",
    "c76_lost_for_good",
    "c76_lost_refuted",
    "c76_no_alarm",
    "c76_alarm_refuted",
    "c76_alarm_default_refuted",
    "c76_prior_partial",
    "c76_prior_refuted",
    "c76_prior_join_refuted",
    "c76_prior_failed_refuted",
    "c76_back_refuted",
    "c76_stays_refuted",
    "c76_restart_refuted",
    "c76_prior_restart_refuted",
    "c76_restored_refused",
    "c76_restored_refuted",
    "c76_excluded",
    "c76_dead",
    "c76_down_again",
    "c76_restart_fresh"
   ],
   "note": "For every schedule: a node the change leaves out is not told, a node is taken for dead after as many unanswered pings as the threshold says, no node goes back while it runs, none goes by a map the index server did not have, and a node whose connection is open when the last change is made and with which nothing fails ends up with the newest map. One change at a time: a node that answers is not taken for dead, and the nodes to be told first know first while no node starts and nothing fails with them. Refuted by concrete schedules: a node that missed one ping is never told and never taken for dead; with the coordinator for files a node that answers everything is taken for dead, also with the default threshold, and others know before a new master; a failed message to a new master is not repeated; a node that starts can go back, and stay with, an older map; an index server that ends between the storing of a map and its broadcast never tells it after its restart; one that is restarted with an older state has its new maps refused by all nodes. Missing: a monitoring thread that is made anew (a node removed and added again)."
  },
  {
   "property": "C77",
   "status": "partial",
   "theorems": [
    "c77_read",
    "c77_read_only",
    "c77_read_unique",
    "c77_fragment_refuted",
    "c77_file",
    "c77_dir",
    "c77_dir_always",
    "c77_dirs_apart",
    "c77_relative_refuted",
    "c77_question_refuted",
    "c77_unreadable",
    "c77_unreadable_refuted",
    "c77_refused",
    "c77_zookeeper_partial",
    "c77_zookeeper_many",
    "c77_zookeeper_refuted",
    "c77_zookeeper_parts"
   ],
   "note": "For every address as users write it all parts are read as written, and no other text is read as an address (a fragment needs a query). For every data-dir: the map is kept there exactly when it is named from the root without a question mark. Different directories have different files. Every list of one to five ZooKeeper servers with ports is handed on in order. Which texts are refused is stated exactly. Refuted by concrete texts: relative data-dirs, question marks, unreadable file addresses (all kept in the root directory), fragments without a query, more than five ZooKeeper servers (shown for all such lists), servers without a port or with an IPv6 address. Missing: NUL bytes in options."
  },
  {
   "property": "C78",
   "status": "partial",
   "theorems": [
    "c78_one_partial",
    "c78_second",
    "c78_again",
    "c78_stop",
    "c78_race_refuted",
    "c78_empty_refuted",
    "c78_same_number_refuted",
    "c78_other_refuted",
    "c78_file_read",
    "c78_look",
    "c78_write"
   ],
   "note": "For every first content of the file and every schedule in which no two servers start at the same time: at most one runs, the file names it, a second one goes away without a change; after any end a server starts again when the number in the file is free and not its own. Refuted: two servers that start together, an empty file left by a kill (no start succeeds while it is there, shown for all schedules), a server that always gets the same number, a number taken by another program. What a server has done before it looks at the file is in C81."
  },
  {
   "property": "C79",
   "status": "partial",
   "theorems": [
    "c79_write",
    "c79_told",
    "c79_acknowledged",
    "c79_get",
    "c79_ping",
    "c79_ping_ok",
    "c79_noreply_refuted",
    "c79_flush_refuted",
    "c79_flush_forgets_refuted",
    "c79_copy_partial",
    "c79_copy_refuted",
    "c79_unread",
    "c79_unread_refuted",
    "c79_dump_unread",
    "c79_dump_unread_refuted",
    "c79_dump_readable",
    "c79_fine",
    "c79_no_false_alarm",
    "c79_overwritten_refuted",
    "c79_unread_cas",
    "c79_unread_keys"
   ],
   "note": "For every database, request and pattern of failures: a write is served as by a database that works, or nothing changes, nothing is forwarded and the client gets an error (or the refusal it would have got anyway); an acknowledged write was made; gets are answered as before; pings fail for ever after. A copy ends as it would without failures, and only the records whose write failed can differ. Refuted: noreply, flush_all (not noted, for every node; delayed deletes are forgotten), a copy with failed writes activates the node. A request for one key that needs its record (get, delete, touch, incr, replace, append, prepend) and cannot read it is answered as without a record; records stay, nothing is forwarded, the failure is not noted. A cas is refused as not found. A get for several keys is served as one for those that can be read. Refuted, for every node and record: a set or add over a record that cannot be read is stored, its version starts again and replicas keep the old record. A dump skips the records it cannot read, sends exactly the others and ends as if it were whole, so that a slave is activated without them (refuted). Missing: writes that fail after tchdbputasync returned, the binary protocol, records of 2 GB and more in a copy."
  },
  {
   "property": "C80",
   "status": "partial",
   "theorems": [
    "c80_request",
    "c80_report",
    "c80_names",
    "c80_kill",
    "c80_wrap_refuted",
    "c80_lock_partial",
    "c80_lock_refuted",
    "c80_lock_once",
    "c80_queue",
    "c80_order",
    "c80_counts",
    "c80_request_only",
    "c80_doing",
    "c80_doing_seen",
    "c80_stale_refuted",
    "c80_killed_refuted",
    "c80_labour",
    "c80_labour_seen",
    "c80_labour_stale_refuted",
    "c80_copying",
    "c80_copying_seen",
    "c80_copying_over_refuted",
    "c80_copying_stop_refuted",
    "c80_standing",
    "c80_standing_refuted"
   ],
   "note": "For every schedule with fewer than 2^32 threads so far: the report reads back in text and binary; its threads are exactly those that were there, with the type asked for, when their list was taken; none twice; every line is right; kill with such an id reaches the thread shown or none. Reports on types the pool had before do not change its map; one report on a new type makes its entry. Refuted: after 2^32 threads an id is shown twice; two first reports on a type race. The lists are in order; curr_connections, threads and pool_threads of stats count the threads of the pools. The index server does the same with no types for slaves (op_stats_index.cc). For every schedule of a thread that serves clients: while it executes a request the name and the client of the request are shown and a state that says so (or that it was killed); a name shown is that of the last request. Refuted: name and state are not changed together; a killed thread need not be shown as killed. The same for the threads that send on, replicate, monitor and change states, and for those that copy a whole node; but a copy that is over is shown as under way until the index server is told, and a copy from a master never shows that it is asked to stop (refuted). The threads that keep the time and feed a MySQL slave: names and states while they work; the latter is shown as executing its last entry for ever once it has taken one (refuted for all schedules without kill or stop)."
  },
  {
   "property": "C81",
   "status": "partial",
   "theorems": [
    "c81_prefix",
    "c81_port",
    "c81_pid_refuted",
    "c81_database_refuted",
    "c81_status",
    "c81_status_refuted",
    "c81_socket",
    "c81_socket_refuted",
    "c81_cut_refuted",
    "c81_complete",
    "c81_index"
   ],
   "note": "Proved for all options and all patterns of failing steps: what was done is a prefix of the plan; a taken port or socket ends the start before anything shared is touched; without daemonize the status tells failure exactly. For all lives of a server with a socket name of at most 13 bytes: a start succeeds unless the name was left by a kill, no other file is touched. Refuted for all options: the file with the number is looked at last, the database is opened after the cluster was joined; daemonize hides failures. Refuted for all names from 14 to 107 bytes and all contents of memory but one: the name stays and no start succeeds; names over 107 bytes are cut. Missing: what the single steps leave behind when they fail half-way."
  }
 ]
}