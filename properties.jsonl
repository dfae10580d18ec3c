{"id": "C01", "title": "A stored value is read back exactly", "statement": "After any client store command (set, add, replace, cas, append, prepend) or touch is answered STORED/TOUCHED, a get of the same key before the entry's expiry returns exactly the flag, expiry, length, bytes and version that the command established (for append/prepend: old bytes and new bytes joined in the right order with the old flag and expiry; for touch: everything unchanged except the expiry), and the bytes on disk decode to exactly that record.", "quantifier": "every reachable storage state, every key, value, flag, expiry, version, behaviour bits and clock value", "why_tests_cant": "The value/behaviour/state space is unbounded; unit tests only sample a few states and miss interactions of expiry, tombstones and behaviour bits.", "anchors": ["src/lib/storage_tch.cc:storage_tch::set", "src/lib/storage_tch.cc:storage_tch::get", "src/lib/storage.cc:storage::_serialize_header", "src/lib/storage.cc:storage::_unserialize_header"]}
{"id": "C02", "title": "Commands on one key never affect another key", "statement": "Any set/incr/get/remove on key k leaves what get returns for every other key k' unchanged (value, flag, expiry, version and existence).", "quantifier": "every reachable storage state, every operation, every pair of distinct keys", "why_tests_cant": "Requires ranging over all pairs of keys and all states.", "anchors": ["src/lib/storage_tch.cc:storage_tch::set", "src/lib/storage_tch.cc:storage_tch::incr", "src/lib/storage_tch.cc:storage_tch::remove", "src/lib/storage_tch.cc:storage_tch::get"]}
{"id": "C03", "title": "Versions of a key only grow, also across deletes", "statement": "Along any history of un-versioned client commands on a node, the version reported for a key by successive successful stores strictly increases, and this continues across delete as long as the node still remembers the tombstone; no entry ever becomes visible with a version lower than one already visible. (It may restart after flush_all or after the bounded tombstone cache forgets the key; both are shown as explicit counter-examples.)", "quantifier": "every history of operations of any length, every key, every tombstone cache size", "why_tests_cant": "A history-wide monotonicity property; depends on eviction order of the tombstone cache and on unbounded operation sequences.", "anchors": ["src/lib/storage_tch.cc:storage_tch::set", "src/lib/storage_tch.cc:storage_tch::remove", "src/lib/storage.cc:storage::_set_header_cache", "src/lib/storage.h:_get_header_cache"]}
{"id": "C04", "title": "Compare-and-swap is exact", "statement": "cas stores if and only if the entry exists (alive, or remembered as a not-yet-expired delete) and the supplied token equals its current version; it answers NOT_FOUND for a missing or expired entry and EXISTS on a mismatch, in both cases leaving the visible entry untouched; hence of several cas commands issued with the same token at most one succeeds, whatever other commands run in between, until the version counter wraps.", "quantifier": "every state, token and every history between the two cas commands", "why_tests_cant": "At-most-once success must hold for all interleaved histories.", "anchors": ["src/lib/storage_tch.cc:storage_tch::set", "src/lib/op_cas.cc"]}
{"id": "C05", "title": "add / replace / append / prepend / touch preconditions", "statement": "add stores iff no live entry (and no pending delete) exists; replace, append, prepend store iff a live entry exists; touch answers TOUCHED iff a live entry exists; when the precondition fails the answer is NOT_STORED (NOT_FOUND for touch) and the visible contents are unchanged.", "quantifier": "every reachable state, key, clock value", "why_tests_cant": "Covers all combinations of presence, expiry and tombstone state.", "anchors": ["src/lib/storage_tch.cc:storage_tch::set", "src/lib/op_add.cc", "src/lib/op_replace.cc", "src/lib/op_append.cc", "src/lib/op_prepend.cc", "src/lib/op_touch.cc"]}
{"id": "C06", "title": "Expired data is never served", "statement": "An entry whose positive expiry time is at or before the node's clock is never returned by get, never counts as existing for add/replace/append/prepend/touch/incr, and delete answers NOT_FOUND for it; an entry with expiry 0 or in the future is never dropped by a read.", "quantifier": "every state, key, clock value (clock may move arbitrarily between operations)", "why_tests_cant": "Needs all clock/expiry relations, including boundary equality.", "anchors": ["src/lib/storage_tch.cc:storage_tch::get", "src/lib/storage_tch.cc:storage_tch::set", "src/lib/storage_tch.cc:storage_tch::remove", "src/lib/storage_tch.cc:storage_tch::incr", "src/lib/util.cc:util::realtime"]}
{"id": "C07", "title": "incr/decr arithmetic is exact and saturating", "statement": "For a live entry whose data starts with a decimal number n < 2^64, incr by v stores decimal min(n+v, 2^64-1) and decr by v stores decimal max(n-v,0); flag and expiry are kept, the version grows by one, data that is not a number counts as 0, and a missing or expired key answers NOT_FOUND and stores nothing.", "quantifier": "every stored byte string, every 64-bit operand", "why_tests_cant": "2^64 x 2^64 operand space plus arbitrary stored text.", "anchors": ["src/lib/storage_tch.cc:storage_tch::incr", "src/lib/op_incr.cc"]}
{"id": "C08", "title": "Deleted data stays deleted; stale dump data cannot resurrect it", "statement": "After delete answers DELETED, get answers not found until a later store succeeds, and as long as the node remembers the tombstone a dump/reconstruction record of the deleted version or older is rejected.", "quantifier": "every history after the delete, every record version", "why_tests_cant": "Quantifies over all later histories and all replayed dump records.", "anchors": ["src/lib/storage_tch.cc:storage_tch::remove", "src/lib/storage_tch.cc:storage_tch::set", "src/lib/op_dump.cc:_parse_text_client_parameters"]}
{"id": "C09", "title": "flush_all empties the node", "statement": "After flush_all every key reads as not found and every remembered tombstone is forgotten, whatever the previous history.", "quantifier": "every reachable state and key", "why_tests_cant": "All states and keys.", "anchors": ["src/lib/storage_tch.cc:storage_tch::truncate", "src/lib/op_flush_all.cc"]}
{"id": "C10", "title": "Replicated stores converge to the newest version on every replica", "statement": "If a set of versioned store records for a key (pairwise distinct versions, as the master produced them) reaches a replica any number of times and in any order, the replica ends with exactly the record of the highest version (if that is newer than what it had), so any two replicas that received the same records hold the same value; records that are older or equal are answered NOT_STORED.", "quantifier": "every multiset and permutation of records, any duplicates, any initial replica state", "why_tests_cant": "All permutations and duplications of unbounded record streams.", "anchors": ["src/lib/storage_tch.cc:storage_tch::set", "src/lib/cluster.cc:cluster::post_proxy_write", "src/lib/queue_proxy_write.cc:_get_op", "src/lib/op_dump.cc"]}
{"id": "C11", "title": "Replica convergence with deletes", "statement": "Stores and deletes of one key that reach two replicas in different orders leave both replicas with the same visible value. (The code does not guarantee this: a stale non-dump store is accepted over a tombstone; shown by counter-example, with the restricted guarantee that does hold: dump records never overwrite newer tombstones.)", "quantifier": "every pair of delivery orders of the same versioned operations", "why_tests_cant": "Order-dependent distributed behaviour.", "anchors": ["src/lib/storage_tch.cc:storage_tch::set", "src/lib/storage_tch.cc:storage_tch::remove"]}
{"id": "C12", "title": "Stored record header survives the disk encoding", "statement": "The 28-byte header written before each value decodes to the same flag, expiry, size and version for every value of those fields, and truncated headers are rejected rather than misread.", "quantifier": "all 32/64-bit field values, all byte strings", "why_tests_cant": "2^220 field combinations.", "anchors": ["src/lib/storage.cc:storage::_serialize_header", "src/lib/storage.cc:storage::_unserialize_header"]}
{"id": "C13", "title": "Keys map to exactly one existing partition, stably", "statement": "With a valid configuration (hint >= 1, size below the configured maximum, non-negative hash) every key resolves to exactly one partition index in [0,n) for an n-partition cluster, the same on every node with the same configuration.", "quantifier": "every key hash, every partition count, hint and virtual size", "why_tests_cant": "All hashes x all cluster sizes.", "anchors": ["src/lib/key_resolver_modular.cc:startup", "src/lib/key_resolver_modular.cc:resolve"]}
{"id": "C14", "title": "Growing the cluster moves keys only to the new partition", "statement": "Going from n to n+1 partitions (n >= hint) every key either keeps its partition or moves to the newly added partition n; no key moves between old partitions.", "quantifier": "every key hash and every partition count", "why_tests_cant": "All hashes x all sizes; it is what makes reconstruction of the new partition from the others sufficient.", "anchors": ["src/lib/key_resolver_modular.cc:startup"]}
{"id": "C15", "title": "Key distribution stays balanced as the cluster grows", "statement": "When a partition is added, each old partition hands over exactly floor((c+1)/(n+1)) of its c hash slots to the new one, so every partition keeps within a provable bound of its fair share of hash slots for every cluster size.", "quantifier": "every partition count and virtual size", "why_tests_cant": "An inductive property of a table built for thousands of sizes.", "anchors": ["src/lib/key_resolver_modular.cc:startup"]}
{"id": "C16", "title": "Hash values are usable as indexes", "statement": "Every hash algorithm returns a non-negative value for every key so that partition and lock-slot lookups stay inside their tables. (False for keys hashing to INT_MIN: shown by an explicit key.)", "quantifier": "every key, every algorithm", "why_tests_cant": "Only one key in 2^32 triggers it.", "anchors": ["src/lib/storage.h:get_key_hash_value", "src/lib/key_resolver_modular.cc:resolve"]}
{"id": "C17", "title": "Text protocol store requests round-trip between nodes", "statement": "For every entry with a legal key, the request line and data block a node sends when proxying or replicating set/add/replace/append/prepend/cas/delete/touch/incr parses on the receiving node to the same key, flag, expiry, size, version, options and data.", "quantifier": "every legal key, field value, option set and data bytes (including data containing CR LF)", "why_tests_cant": "Unbounded inputs; all field widths.", "anchors": ["src/lib/op_set.cc:_run_client", "src/lib/op_set.cc:_parse_text_server_parameters", "src/lib/storage.cc:storage::entry::parse", "src/lib/op_delete.cc", "src/lib/op_touch.cc", "src/lib/op_incr.cc"]}
{"id": "C18", "title": "Text get responses round-trip", "statement": "The VALUE line and data block produced for get/gets/dump parse back, on the proxying node or client, to the same key, flag, size, version (gets/dump), expiry (dump) and data.", "quantifier": "every entry", "why_tests_cant": "Unbounded inputs.", "anchors": ["src/lib/storage.cc:storage::entry::response", "src/lib/storage.cc:storage::entry::parse", "src/lib/op_get.cc", "src/lib/op_dump.cc"]}
{"id": "C19", "title": "Binary protocol headers round-trip", "statement": "Every request/response header field (magic, opcode, lengths, status/reserved, total body, opaque, cas) written by the encoder is read back equal by the decoder in network byte order, and a header with the wrong magic is rejected.", "quantifier": "all field values", "why_tests_cant": "All 192-bit headers.", "anchors": ["src/lib/binary_header.h", "src/lib/binary_request_header.h", "src/lib/binary_response_header.h", "src/lib/htonll.h"]}
{"id": "C20", "title": "Request framing does not depend on how TCP splits the stream", "statement": "Whatever way the network chops the byte stream into reads, the sequence of lines and fixed-size blocks the server extracts is a function of the bytes alone (lines end at LF with an optional CR removed, blocks are exact). Holds for readline/readsize; the push-back of already parsed bytes can restore stale bytes in one state, shown by counter-example together with the condition under which it is exact.", "quantifier": "every byte stream and every chunking", "why_tests_cant": "All segmentations of all streams.", "anchors": ["src/lib/connection_tcp.cc:read", "src/lib/connection_tcp.cc:readline", "src/lib/connection_tcp.cc:readsize", "src/lib/connection_tcp.h:push_back"]}
{"id": "C21", "title": "Word and number tokenizers stay inside their buffers", "statement": "next_word and next_digit return the next space-separated token (or leading number), consume exactly what they return plus leading spaces, and never write outside the destination buffer. (next_digit writes one byte past the end for numbers of at least the buffer length: counter-example.)", "quantifier": "every input string and buffer size", "why_tests_cant": "All strings and sizes.", "anchors": ["src/lib/util.cc:util::next_word", "src/lib/util.cc:util::next_digit", "src/lib/util.h:next_word", "src/lib/util.h:next_digit"]}
{"id": "C22", "title": "base64 decode inverts encode", "statement": "base64_decode(base64_encode(x)) = x for every byte string x.", "quantifier": "every byte string", "why_tests_cant": "All lengths mod 3 and all byte values.", "anchors": ["src/lib/util.cc:util::base64_encode", "src/lib/util.cc:util::base64_decode"]}
{"id": "C23", "title": "Node list synchronisation round-trips", "statement": "A node map sent with 'node sync' (or the 'node add' reply) is parsed by the receiver into the same list of nodes (name, port, role, state, partition, balance, thread type), and node keys 'host:port' convert back to the same host and port.", "quantifier": "every node list with names free of spaces/colons/control characters, every port and field value", "why_tests_cant": "Unbounded lists and field values.", "anchors": ["src/lib/cluster.cc:cluster::node::parse", "src/lib/op_node_sync.cc", "src/lib/cluster.h:to_node_key", "src/lib/cluster.h:from_node_key"]}
{"id": "C24", "title": "Command words and enumerations are unambiguous", "statement": "Every role/state/option/result/hash-algorithm/storage-type name produced by the server is parsed back to the same value, unknown names are rejected, and distinct values have distinct names.", "quantifier": "all strings and enum values", "why_tests_cant": "All strings.", "anchors": ["src/lib/cluster.h:role_cast", "src/lib/cluster.h:state_cast", "src/lib/storage.h:option_cast", "src/lib/storage.h:hash_algorithm_cast", "src/lib/op.h:result_cast"]}
{"id": "C25", "title": "At most one master per partition", "statement": "In every state the index server reaches through any sequence of node add/remove/role/state/up/down/ready events (successful or rejected), no partition has two masters.", "quantifier": "every history of administrative and monitoring events, any number of nodes", "why_tests_cant": "Unbounded histories of the index state machine.", "anchors": ["src/lib/cluster.cc:add_node", "src/lib/cluster.cc:down_node", "src/lib/cluster.cc:up_node", "src/lib/cluster.cc:ready_node", "src/lib/cluster.cc:remove_node", "src/lib/cluster.cc:set_node_role", "src/lib/cluster.cc:set_node_state"]}
{"id": "C26", "title": "Master failover promotes a live replica and nothing else", "statement": "When an active master goes down and its partition has an active slave, exactly one such slave - one with the largest balance - becomes master of the same partition, the failed node becomes a down proxy, and no other node changes; with no active slave the failed node keeps its master slot so the partition is not lost.", "quantifier": "every node map", "why_tests_cant": "All cluster shapes.", "anchors": ["src/lib/cluster.cc:down_node"]}
{"id": "C27", "title": "Partition tables published to clients are well formed", "statement": "A node map is accepted only if the resulting partition table has contiguous partitions 0..n-1, each with exactly one master, at most one prepare partition and that one equal to n; otherwise the previous table stays in force. Each table lists precisely the nodes with that partition.", "quantifier": "every node map", "why_tests_cant": "All node maps, also malformed ones.", "anchors": ["src/lib/cluster.cc:_reconstruct_node_partition", "src/lib/cluster.cc:_check_node_partition"]}
{"id": "C28", "title": "Nodes never go back to an older cluster map", "statement": "A node that has a versioned map ignores any sync with a lower version, so for any delivery order (with loss, duplication, reordering) its map version never decreases and after receiving the newest map it holds exactly that map; the index increases the version on every saved change.", "quantifier": "every delivery order of sync messages", "why_tests_cant": "All reorderings.", "anchors": ["src/lib/cluster.cc:reconstruct_node", "src/lib/cluster.cc:_save", "src/lib/cluster.cc:_broadcast"]}
{"id": "C29", "title": "Node identity and queue thread type are unique", "statement": "add_node never lets two live nodes share a host:port and never gives two nodes the same thread type; re-adding a node is possible only while it is down and keeps its identity.", "quantifier": "every history", "why_tests_cant": "Unbounded histories.", "anchors": ["src/lib/cluster.cc:add_node", "src/lib/cluster.cc:remove_node", "src/lib/cluster.cc:_load"]}
{"id": "C30", "title": "Only down, replaceable nodes can be removed", "statement": "remove_node succeeds only for a node that is down and is not the sole keeper of a partition; in all other cases the map is unchanged.", "quantifier": "every node map", "why_tests_cant": "All maps.", "anchors": ["src/lib/cluster.cc:remove_node"]}
{"id": "C31", "title": "Writes are executed only by the owner of the key", "statement": "A write request is applied locally only if this node is the master of the key's partition (or the request was forwarded to it by a node of the cluster); otherwise it is forwarded to the partition's current master, exactly one hop at a time, and proxy loops terminate.", "quantifier": "every node map, key and proxy trail", "why_tests_cant": "All routing tables.", "anchors": ["src/lib/cluster.cc:pre_proxy_write", "src/lib/cluster.cc:pre_proxy_read", "src/lib/cluster.cc:post_proxy_write"]}
{"id": "C32", "title": "Every successful master write is replicated to every replica of the partition", "statement": "After a local write on the master, one replication record goes to each slave of the partition that is active or preparing (and to the preparing master when a partition is being added), none to other nodes, and the record carries the version assigned by the master.", "quantifier": "every node map and key", "why_tests_cant": "All maps.", "anchors": ["src/lib/cluster.cc:post_proxy_write", "src/lib/op_set.cc:_run_server"]}
{"id": "C33", "title": "Reads are balanced only over nodes allowed to serve them", "statement": "A proxied read for a key goes to the partition's master or one of its active slaves with positive balance, each picked in proportion to its balance, never to a preparing or down node.", "quantifier": "every node map and request sequence", "why_tests_cant": "All maps and hash values.", "anchors": ["src/lib/cluster.cc:pre_proxy_read", "src/lib/cluster.cc:_reconstruct_node_partition"]}
{"id": "C34", "title": "Cluster map survives a crash of the index server", "statement": "Whatever instant the index server crashes while saving its state file, on restart it loads either the previous or the new cluster map, never an empty one; and once a save has been reported as done, a failure of the whole machine does not lose it. (False: the old file is unlinked before the rename, so that there is a moment without any; and nothing is synced to the disk, so that a failure of the machine may leave an empty file or undo any number of saves.)", "quantifier": "every crash point during save; every history of saves, kills and write-outs by the kernel before a failure of the machine", "why_tests_cant": "Crash points cannot be enumerated by unit tests of the public API.", "anchors": ["src/lib/file_coordinator.cc:_save", "src/lib/file_coordinator.cc:_load"]}
{"id": "C35", "title": "Concurrent updates of one key are not lost", "statement": "With the node's per-slot locks, any interleaving of concurrent set/incr/remove/get commands gives the same answers and final state as some sequential order; in particular k concurrent increments add up.", "quantifier": "every interleaving of any number of concurrent commands", "why_tests_cant": "All schedules.", "anchors": ["src/lib/storage_tch.cc:storage_tch::set", "src/lib/storage_tch.cc:storage_tch::incr", "src/lib/storage_tch.cc:storage_tch::get", "src/lib/storage.h:_mutex_slot"]}
{"id": "C36", "title": "Work queues are FIFO, bounded, and every waiter is released", "statement": "Queue items are handed to the worker exactly once in enqueue order, the configured global limit is respected, and a synchronous requester is released once its item was processed or discarded. (Shutdown of a proxy worker between dequeue and processing loses the release: counter-example.)", "quantifier": "every schedule of enqueue/dequeue/shutdown", "why_tests_cant": "All schedules.", "anchors": ["src/lib/thread.cc:enqueue", "src/lib/thread.cc:dequeue", "src/lib/thread_queue.cc", "src/lib/handler_proxy.cc:run"]}
{"id": "C37", "title": "Thread ids are unique and pool size is bounded", "statement": "Every running worker has a nonzero id different from every other running worker, kill addresses exactly that worker, and the idle pool never exceeds its configured size.", "quantifier": "every history of get/clean", "why_tests_cant": "Histories with id wrap-around.", "anchors": ["src/lib/thread_pool.cc"]}
{"id": "C38", "title": "A node is declared down exactly at the configured number of consecutive failures", "statement": "With threshold t > 0 and fixed options the monitor requests 'down' exactly when t consecutive pings failed since the last success (once per outage), and requests 'up' on the first success after being declared down.", "quantifier": "every ping outcome sequence", "why_tests_cant": "All outcome sequences.", "anchors": ["src/lib/handler_monitor.cc"]}
{"id": "C39", "title": "A failed or interrupted reconstruction never activates the node", "statement": "A preparing node is activated only after it received the complete dump. (False when the reconstruction thread gets a shutdown request: the client loop breaks and reports success; counter-example; holds otherwise.)", "quantifier": "every dump stream and interruption point", "why_tests_cant": "All interruption points.", "anchors": ["src/lib/op_dump.cc:_parse_text_client_parameters", "src/lib/handler_reconstruction.cc:run"]}
{"id": "C40", "title": "Dump sends every live key of the requested partition exactly once", "statement": "For a quiescent database a dump request for (partition, size) yields exactly one record for each unexpired key that resolves to the partition, and nothing else; the second concurrent dump is refused.", "quantifier": "every database content and partition", "why_tests_cant": "All contents.", "anchors": ["src/lib/op_dump.cc:_run_server", "src/lib/storage_tch.cc:iter_begin", "src/lib/storage_tch.cc:iter_next", "src/lib/storage_tch.cc:iter_end"]}
{"id": "C41", "title": "Bandwidth limiting never loses debt", "statement": "With a non-zero limit the sleep requested for a batch is proportional to outstanding bytes, is zero below 0.1 s, and the recorded debt never becomes negative by elapsed time alone; with limit 0 no delay is ever added.", "quantifier": "every sequence of writes and clock readings", "why_tests_cant": "All sequences.", "anchors": ["src/lib/bwlimitter.cc"]}
{"id": "C42", "title": "Slow-storage watchdog fires iff the threshold is exceeded", "statement": "Normalised timespec arithmetic (add, sub, compare, from milliseconds) agrees with nanosecond arithmetic, so the watchdog callback fires exactly for accesses older than the threshold.", "quantifier": "every pair of normalised times", "why_tests_cant": "All carries/borrows.", "anchors": ["src/lib/time_util.cc", "src/lib/time_watcher.cc:_check_timestamp"]}
{"id": "C43", "title": "Binary request bodies are parsed within bounds", "statement": "Whatever bytes a client sends in a binary request header, no byte outside the body it sent is read, and the value length never exceeds the body.", "quantifier": "every 24 byte header and every following byte string", "why_tests_cant": "All combinations of the announced lengths.", "anchors": ["src/lib/storage.cc:entry::parse", "src/lib/op.cc", "src/lib/op_set.cc", "src/lib/op_get.cc"]}
{"id": "C44", "title": "Binary responses identify the request and the version", "statement": "A response to a binary request carries the opaque value of the request and, for a value, the entry's version in the cas member, as the protocol requires.", "quantifier": "every request and stored entry", "why_tests_cant": "All requests.", "anchors": ["src/lib/op.cc:_send_binary_result", "src/lib/storage.cc:entry::response", "src/lib/binary_response_header.h"]}
{"id": "C45", "title": "A forwarded write is applied at most once", "statement": "A write that a node forwards to the master or to a slave is executed at most once there, even when the connection fails after the request was sent.", "quantifier": "every write and every pattern of connection failures", "why_tests_cant": "Depends on where in the exchange a connection fails.", "anchors": ["src/lib/queue_proxy_write.cc:run"]}
{"id": "C46", "title": "The index server can always be restarted from its saved state", "statement": "Whenever the index server has answered a request successfully, a new process started from the stored state comes up and has the same nodes, roles, version and partition tables.", "quantifier": "every history of administrative and monitoring events, restart at any point between them", "why_tests_cant": "All histories; the startup checks refuse maps that individual operations accept.", "anchors": ["src/lib/cluster.cc:startup_index", "src/lib/cluster.cc:_load", "src/lib/cluster.cc:_save", "src/lib/cluster.cc:_reconstruct_node_partition"]}
{"id": "C47", "title": "A partition whose master is up can be read", "statement": "As long as the master of a partition is active, a get for one of its keys is served by some node that holds the partition, whatever the read balances of its nodes are and whichever slaves are down.", "quantifier": "every cluster state and every key", "why_tests_cant": "All combinations of balances and node failures.", "anchors": ["src/lib/cluster.cc:pre_proxy_read", "src/lib/cluster.cc:_reconstruct_node_partition", "src/lib/cluster.cc:_check_node_balance"]}
{"id": "C48", "title": "Administrative requests are executed as written or rejected", "statement": "A 'node add', 'node remove', 'node role' or 'node state' request is executed by the index server with exactly the host, port, role, state, balance and partition that were written; a line that is not such a request is answered with an error and changes nothing.", "quantifier": "every request with any arguments, and every line", "why_tests_cant": "All hosts, numbers and malformed lines.", "anchors": ["src/lib/op_node_add.cc", "src/lib/op_node_role.cc:_parse_text_server_parameters", "src/lib/op_node_state.cc", "src/flarei/op_parser_text_index.cc"]}
{"id": "C49", "title": "The answer to a forwarded request is the answer to that request", "statement": "When a node forwards a client's request to another node and reports an answer, that answer is what the other node said when it served this request, not what it said to an earlier request on the same connection; in particular a write reported as stored was stored.", "quantifier": "every sequence of forwarded requests and every pattern of connection failures and delays", "why_tests_cant": "the wrong pairing needs a timeout that leaves the connection open and a later request on it; tests use fast peers and cannot cover all patterns of delay", "anchors": ["src/lib/queue_proxy_write.cc:run", "src/lib/queue_proxy_read.cc:run", "src/lib/connection_tcp.cc:read", "src/lib/handler_proxy.cc:run"]}
{"id": "C50", "title": "Client requests mean what the memcached protocol says", "statement": "For every key, flags, expiry time, data, cas token and noreply flag, a store, touch or delete request written as the memcached text protocol prescribes is executed with exactly those values: expiry 0 means never, up to 30 days means seconds from now, larger means an absolute time, negative means already expired; a value announced larger than 2^31-1 bytes is refused, and so is an amount of incr or decr that is no number below 2^64.", "quantifier": "every key, flags, expiry time, data, token", "why_tests_cant": "All values, including the boundary of 30 days and numbers at the limits of their types.", "anchors": ["src/lib/storage.cc:entry::parse", "src/lib/util.cc:realtime", "src/lib/op_set.cc:_parse_text_server_parameters", "src/lib/op_touch.cc", "src/lib/op_delete.cc"]}
{"id": "C51", "title": "Data is never executed", "statement": "The data block of a store request is never interpreted as requests, whether the request is accepted or rejected. (False for rejected requests: the data block stays in the stream and is parsed as commands.)", "quantifier": "every request and data block", "why_tests_cant": "All rejected requests and all data blocks.", "anchors": ["src/lib/op_set.cc:_parse_text_server_parameters", "src/lib/op.cc:run_server", "src/flared/handler_request.cc:run"]}
{"id": "C52", "title": "A role request does not take away the last read balance of a partition", "statement": "After an accepted node role request for a master or slave, some node of its partition has a positive read balance. (False for a slave that is being prepared and made a proxy again: counter-example.)", "quantifier": "every reachable cluster map and every role request", "why_tests_cant": "All combinations of nodes, balances and requests.", "anchors": ["src/lib/cluster.cc:set_node_role", "src/lib/cluster.cc:_check_node_balance"]}
{"id": "C53", "title": "A replica follows its master, and never goes back", "statement": "Whatever store, delete, touch, incr and read requests clients send to the master of a partition, and however the forwarded operations are interleaved with them and repeated after lost answers: once all of them were delivered, the replica answers every read exactly like the master; and at every moment before, what the replica shows under a key is what the master showed at some earlier moment, which never moves back. (False if operations on one key are queued in another order than they were stored, which the code allows, and for a touch that arrives after the old expiry time, and for flush_all, which is never forwarded.)", "quantifier": "every sequence of client requests, deliveries, retries and clock values", "why_tests_cant": "All interleavings of client requests with asynchronous deliveries, and all lost answers.", "anchors": ["src/lib/cluster.cc:post_proxy_write", "src/lib/queue_proxy_write.cc:run", "src/lib/queue_proxy_write.cc:_get_op", "src/lib/handler_proxy.cc:run", "src/lib/op_set.cc:_run_server", "src/lib/storage_tch.cc:set"]}
{"id": "C54", "title": "A text session behaves as a memcached", "statement": "For every sequence of set, add, replace, append, prepend, cas, touch, gat, delete, incr, decr, get, gets, flush_all, verbosity, version, ping and quit requests, and of lines that begin with an unknown word, sent to the node that owns the keys, the bytes answered are exactly those a memcached memory prescribes: each request sees the effects of all earlier ones and nothing else, items disappear at their due time, tokens grow with every change, noreply requests answer nothing, unknown words are answered ERROR and change nothing, nothing is served after quit, and later bytes in the stream do not matter. The only limit is values of more than 2^31 - 29 bytes. (False for a delay given to flush_all, which is ignored.)", "quantifier": "every sequence of well-formed requests, all keys, values, flags, expiry times and tokens, and every non-decreasing sequence of clock values", "why_tests_cant": "Unboundedly many histories, byte strings and clock values; tests sample a few command sequences.", "anchors": ["src/flared/handler_request.cc:run", "src/lib/op_set.cc:_run_server", "src/lib/op_cas.cc:_parse_text_server_parameters", "src/lib/op_touch.cc:_run_server", "src/lib/op_gat.cc", "src/lib/op_delete.cc:_run_server", "src/lib/op_incr.cc:_run_server", "src/lib/op_get.cc:_run_server", "src/lib/storage_tch.cc:set"]}
{"id": "C55", "title": "Any node can be asked: the cluster behaves as one memcached", "statement": "In a cluster whose nodes have the current map and whose partitions have an active master, clients may put every request to any node - the owner of the key, another master, a slave or a proxy - and each to another one: the bytes answered are exactly those of one memcached memory, each request seeing the effects of all earlier ones and nothing else; a get of many keys answers them in the order asked though they come from several nodes. (False for a write with noreply put to a node that is not the owner: it is only queued, and a later get misses it; and for flush_all, which empties only the node asked.)", "quantifier": "every settled cluster map, key resolver and hash function, every sequence of well-formed requests and of nodes asked, every choice of random numbers and every non-decreasing sequence of clock values", "why_tests_cant": "Unboundedly many cluster maps, request sequences and assignments of requests to nodes.", "anchors": ["src/lib/op_set.cc:_run_server", "src/lib/op_set.cc:_run_client", "src/lib/op_delete.cc:_run_server", "src/lib/op_incr.cc:_parse_text_client_parameters", "src/lib/op_touch.cc:_run_server", "src/lib/op_gat.cc:_parse_text_client_parameters", "src/lib/op_get.cc:_run_server", "src/lib/queue_proxy_write.cc:run", "src/lib/queue_proxy_read.cc:run", "src/lib/cluster.cc:pre_proxy_write", "src/lib/cluster.cc:pre_proxy_read"]}
{"id": "C56", "title": "Cluster replication: the other cluster gets the same operations", "statement": "With cluster replication in mode forward, a client of any node of the replicating cluster is answered exactly as one memcached memory in the destination cluster would answer, whatever the state of its own cluster, which does not change. In mode duplicate, the writes executed by a master reach the destination and, once all have arrived, both clusters show the same under every key, whatever trail of nodes the requests came with, in whatever order the keys are served and however often a write is sent; all writes of a key pass through one queue. (False for incr and decr in mode forward: the amount is sent as 0; and for writes executed on a slave in mode duplicate: nothing is sent.)", "quantifier": "every sequence of well-formed requests to any nodes, every state of the replicating cluster, every settled destination cluster, every interleaving of client requests and deliveries that keeps the order per key", "why_tests_cant": "Unboundedly many histories, interleavings and repeated deliveries.", "anchors": ["src/lib/cluster_replication.cc:on_pre_proxy_read", "src/lib/cluster_replication.cc:on_pre_proxy_write", "src/lib/cluster_replication.cc:on_post_proxy_write", "src/lib/cluster_replication.cc:_enqueue", "src/lib/queue_proxy_write.cc:run", "src/lib/handler_cluster_replication.cc:run"]}
{"id": "C57", "title": "The dump that starts cluster replication brings the other cluster up to date", "statement": "When cluster replication starts, every record of the node's partition that the iterator visits is sent to the destination exactly once with its flags, expiry time, data and version, and the dump ends early only if it is stopped or an answer is not understood. While it runs, clients may write: whatever the interleaving of their writes, of the duplicated writes and of the dump, once everything has arrived the destination shows under each key what the source shows. (False for keys that are deleted or touched while their record is on the way, and for keys that vanish or expire between being visited and being read: their record is sent with the data of another key, or read past its end.)", "quantifier": "every database, partition, stop point, and every interleaving of client requests, visits, arrivals and repeated deliveries, for each key", "why_tests_cant": "The outcome depends on the interleaving of the dump with client writes and their deliveries.", "anchors": ["src/lib/handler_dump_replication.cc:run", "src/lib/cluster_replication.cc:start", "src/lib/op_set.cc:run_client", "src/lib/storage_tch.cc:iter_next"]}
{"id": "C58", "title": "Text and binary clients share one memory", "statement": "On a connection that carries any sequence of requests, each in the text or in the binary protocol, every request acts on one and the same memory exactly as its counterpart in the other protocol does, and is answered in its own protocol with the status, flags, key and value of its outcome. A binary answer also gives back the opaque of its request and tells the token of the item; quiet requests are answered only when they fail (quiet gets only when they find something); an increment with an initial value creates a missing item; a token sent along with any update must be the item's; unknown operations are answered as such. (The last sentence is false of the program.)", "quantifier": "all sequences of text and binary requests with their keys, flags, times, values, tokens and clock values that do not run backwards", "why_tests_cant": "The outcome of a request depends on everything sent before it in either protocol.", "anchors": ["src/lib/op_parser.h:parse_server", "src/lib/op_parser_binary.cc:parse_server", "src/flared/op_parser_binary_node.cc:_determine_op", "src/lib/op.cc:_send_binary_result", "src/lib/op_get.cc:_send_binary_entry", "src/lib/op_incr.cc:_send_binary_result", "src/lib/op_gat.cc:_send_binary_result", "src/lib/op_set.cc:_parse_binary_request"]}
{"id": "C59", "title": "The storage engine does not change the answers", "statement": "A node gives the same answers to the same history of commands whichever storage engine (tch, tcb, kch) it is configured with. (False for the empty key, for deletes with a time and for values near the size limit; with tcb an increment of an expired item can block the node for good.)", "quantifier": "all histories of storage operations, keys, values, times and versions", "why_tests_cant": "The engines leave different states behind, so agreement has to be shown for all later commands.", "anchors": ["src/lib/storage_tcb.cc:incr", "src/lib/storage_kch.cc:set", "src/lib/storage_kch.cc:incr", "src/lib/storage_kch.cc:get", "src/lib/storage_kch.cc:remove", "src/lib/storage_kch.cc:_get_header", "src/lib/storage_tch.cc"]}
{"id": "C60", "title": "One index server at a time changes the cluster map", "statement": "Of all index servers that share a ZooKeeper ensemble, at most one at a time is between a successful begin and the end of an operation on the cluster map; operations get their turn in the order of their requests, and who is first in line is not passed over. (False once a session has expired, when a waiting thread gives up while an event thread of the same operation finds itself first, and after 2^31 operations; an operation whose session expires while it waits never returns.)", "quantifier": "all numbers of index servers and operations, all interleavings of the two threads of every operation, all failures and lost answers of ZooKeeper calls, all expiries of sessions", "why_tests_cant": "The races are between two threads of several processes and ZooKeeper; the counter must be run past 2^31.", "anchors": ["src/lib/zookeeper_lock.cc:_lock_operation", "src/lib/zookeeper_lock.cc:wait_for_ownership", "src/lib/zookeeper_lock.cc:_unlock_internal", "src/lib/zookeeper_lock.cc:_child_floor", "src/lib/zookeeper_coordinator.cc:begin_operation", "src/lib/zookeeper_coordinator.cc:end_operation"]}
{"id": "C61", "title": "Several index servers act as one", "statement": "When several index servers keep their cluster map in ZooKeeper and requests arrive at any of them, the answers and the sequence of stored maps are those of one index server that handles the same requests one after the other; in particular no acknowledged change is lost, stored maps are numbered consecutively, and no partition gets two live masters. (False when a change comes between reading the map and watching it again, when the flush before an operation fails, when a store reported as failed takes effect later, and when the session of the lock ends during an operation.)", "quantifier": "all numbers of index servers, all requests, all interleavings of operations, notifications and ZooKeeper's answers, all delays of notifications, failing calls", "why_tests_cant": "The outcome depends on when each server's session sees the changes of the others relative to its own operations; the number of interleavings is unbounded.", "anchors": ["src/lib/zookeeper_coordinator.cc:begin_operation", "src/lib/zookeeper_coordinator.cc:store_state", "src/lib/zookeeper_coordinator.cc:restore_state", "src/lib/zookeeper_coordinator.cc:_handle_nodemap_watch_event", "src/lib/cluster.cc:_update", "src/lib/cluster.cc:_load", "src/lib/cluster.cc:_save"]}
{"id": "C62", "title": "keys lists the keys with a prefix", "statement": "Whichever node a client asks for the keys that begin with a prefix, up to a limit, it is answered with the first of the keys of the cluster that begin with the prefix, in the order of their bytes, each once and no others, as many as there are or as the limit allows; requests without a prefix or a positive limit are refused. (False: only the node that the prefix would belong to as a key is searched, expired keys are shown, a node that is not reached yields the prefix itself as a key, an answer that breaks off yields an incomplete or repeating list, an engine that cannot search yields an empty list at other nodes, keys with blanks or NUL bytes are cut.)", "quantifier": "all prefixes, limits, databases, nodes asked, and failed tries to reach the owner", "why_tests_cant": "The answer depends on the order and number of keys of an arbitrary database, on the node asked, and on the point at which a connection fails.", "anchors": ["src/lib/op_keys.cc:_run_server", "src/lib/op_keys.cc:_parse_text_server_parameters", "src/lib/op_keys.cc:_parse_text_client_parameters", "src/lib/op_keys.cc:_run_client", "src/lib/storage_tcb.cc:get_key", "src/lib/queue_proxy_read.cc:run", "src/lib/cluster.cc:pre_proxy_read"]}
{"id": "C63", "title": "A MySQL slave follows the node", "statement": "When a MySQL slave follows a node from a moment at which its table has the rows of the node, then after any requests of clients and once the queue was sent its table again has for every key the value, flag, version and expiry that clients of the node see, whatever bytes keys and values have, and no row for other keys but those of expired records; the bytes sent are packets and events a slave can read in one way only, and each statement touches no row but that of its key. (False: keys are not escaped, so a key can empty the table, set other rows or stop the slave; flush_all is not sent; an event of exactly 2^24 - 1 bytes runs into the next one; logins of 128 bytes or more are turned away; an empty packet crashes the node.)", "quantifier": "all histories of client requests, keys, values, flags, versions and expiry times, event sizes, log positions and packet numbers, and all first bytes of packets of a slave", "why_tests_cant": "Quoting has to be right for every value and key, splitting for every length, and the rows for every history.", "anchors": ["src/lib/mysql_replication.cc:send", "src/lib/mysql_replication.cc:_send_query_log_event", "src/lib/mysql_replication.cc:_write", "src/lib/mysql_replication.cc:_read", "src/lib/mysql_replication.cc:parse", "src/flared/handler_mysql_replication.cc:run", "src/lib/cluster.cc:post_proxy_write"]}
{"id": "C64", "title": "A node starts with the settings and the map of the index server", "statement": "When an index server has started, a node that starts on it gets exactly its settings and its map: it looks for every key in the partition the settings say, for every number of partitions. All index servers that read the settings from ZooKeeper have the same ones whatever their options are, so all nodes agree on the home of every key. A node whose name is in use is refused and changes nothing; one that starts has no partition, or is the master that went down, still down, and nobody else's standing changes. (False: if one value cannot be read from ZooKeeper the index server may take its own option instead; a node given a role between its request and the answer never copies the data of its partition; the answer has no version, so a node can fall back to an older map.)", "quantifier": "all options and contents of ZooKeeper an index server starts with, all settings, histories of the cluster, keys and numbers of partitions", "why_tests_cant": "Agreement is needed for every key, setting and history, and the failures are races and read errors of the moment.", "anchors": ["src/lib/cluster.cc:startup_node", "src/lib/cluster.cc:reconstruct_node", "src/lib/cluster.cc:_shift_node_role", "src/lib/op_meta.cc:_parse_text_client_parameters", "src/lib/op_meta.cc:_run_server", "src/flarei/flarei.cc:startup", "src/lib/zookeeper_coordinator.cc:get_meta_variables"]}
{"id": "C65", "title": "A node that joins a partition while clients write ends with the master's data", "statement": "A node that is given a role copies the keys of its partition, counted with the right number of partitions, from the master of the partition (a new master: from every active master), and nobody else starts a copy. While the copy runs, clients go on writing to the master and the writes are sent on. However the records of the copy and the writes interleave, and even if writes arrive twice, once the copy has come to its end and no write to a key is still to be sent on, the node shows for that key exactly what the master shows, now and later: also keys that were created, overwritten, incremented or deleted meanwhile. (False: a touch that overtakes the record of the copy is lost; a delete that overtakes it is undone if its tombstone has been dropped from the bounded cache; if the master went down meanwhile there is nobody to copy from.)", "quantifier": "all histories of the cluster, all keys, stores, client requests and interleavings of the copy, the clients and the writes sent on", "why_tests_cant": "The result depends on the order in which a record of the copy and the writes to its key pass each other at three nodes; the failing orders are rare.", "anchors": ["src/lib/op_dump.cc:_run_server", "src/lib/op_dump.cc:_parse_text_client_parameters", "src/lib/handler_reconstruction.cc:run", "src/lib/cluster.cc:_shift_node_role", "src/lib/cluster.cc:post_proxy_write", "src/lib/queue_proxy_write.cc", "src/lib/storage_tch.cc:set", "src/lib/storage_tch.cc:remove"]}
{"id": "C66", "title": "Statistics count what was served, and show the map", "statement": "Whatever requests a node has served, text and binary mixed, an answer to stats (in either protocol) can be read back, and every counter in it is the number of requests of that kind with that outcome so far: sets, gets, hits and misses of get, delete, incr, decr, cas, touch, items stored. Hits and misses of get add up to cmd_get. No item that can be read is missing from curr_items. stats nodes shows exactly the nodes of the map with role, state, partition, balance and thread type, so that equal answers mean equal maps. Asking for statistics changes nothing. (False: curr_items counts items whose time has passed; gat is counted as a set only; touch is counted as a set; keys counts as gets without hit or miss; binary answers do not carry the number of the request.)", "quantifier": "all sessions of any length, text and binary requests in any order and any arguments, all clock values that do not go back, all maps, all points at which statistics are asked for", "why_tests_cant": "A test checks a counter after a handful of requests; that no request of any kind or outcome is missed or counted twice is a statement about all histories.", "anchors": ["src/lib/stats.cc", "src/lib/op_stats.cc: op_stats::_send_stats, _send_stats_nodes", "src/flared/op_stats_node.cc", "src/lib/op_set.cc", "src/lib/op_get.cc", "src/lib/op_delete.cc", "src/lib/op_incr.cc"]}
{"id": "C67", "title": "A node goes by the settings it was given and shows them", "statement": "A node or index server that starts goes by the value on the command line, else in the file, else by the default, of every option. After an accepted reload it goes by the file's value of every reloadable option the file names and by the old value of everything else, whatever reloads went before; a reload is accepted exactly when the file can be read and its values are allowed. A refused reload changes nothing. Reloading an unchanged file changes nothing; reloading a complete file comes to the same as a restart with it. Lists of index servers are read as written. show variables shows the values in force. A SIGHUP leads to a reload of the file as it then is. (False: a refused reload of a node changes the connection limit and values shown, which a later reload puts in force; a reload overrides the command line and is always refused when the index server is named only there; a removed option keeps its value; malformed server lists are accepted; going from forward to duplicate starts no dump; a SIGHUP during a reload is lost; the index server's other pool is not resized and its read timeout cannot be set.)", "quantifier": "all command lines and files of any options and values, all sequences of reloads, accepted or refused, all lists of servers, all interleavings of edits, signals and steps of the main thread", "why_tests_cant": "A test starts a node with one file and reloads another; that no option among fifty is dropped, overridden or left behind by any sequence of files, and that no signal is lost in any schedule, are statements about all of them.", "anchors": ["src/flared/ini_option.cc: ini_option::load, ini_option::reload, ini_option::_process_index_servers", "src/flared/flared.cc: flared::startup, flared::reload, flared::run", "src/flared/show_node.cc", "src/flarei/ini_option.cc: ini_option::load, ini_option::reload", "src/flarei/flarei.cc: flarei::startup, flarei::reload, flarei::run", "src/lib/cluster_replication.cc: cluster_replication::start, stop"]}
{"id": "C68", "title": "Every accepted connection is served once, and a kill ends the session it names and no other", "statement": "A connection that is accepted is served: by one thread, once, without needing anything from other connections. One that is turned away is not. There are never more connections counted than max_connection, nor more idle threads kept than the pool may hold; the end of a session frees its place. A session goes on until its client leaves or somebody kills its id. After kill has marked a session, it takes in at most one more request, and none if one was being executed; one that waits for its client ends at once. (False: a kill that finds a session which ends before the kill acts ends the pooled thread, so that the next connection given to it is accepted, never served and counted for ever, or cuts another session on that thread, or has a fresh connection dropped without being served or closed; a spurious wake-up of a condition variable does the first of these; as many such losses as connections are allowed shut the server for good; a kill between two requests is acknowledged while the session stays and answers one more request.)", "quantifier": "all interleavings of the accept loop, any number of threads, clients and kills, and spurious wake-ups; all pool sizes and connection limits", "why_tests_cant": "The hand-over goes through six unlocked or separately locked steps on each side; a test sees a few of the orders in which they can happen, and the harmful ones need a kill between two of them.", "anchors": ["src/lib/thread.cc: thread_run, thread::wait, thread::trigger, thread::run, thread::clean, thread::shutdown", "src/lib/thread_pool.cc: thread_pool::get, thread_pool::clean", "src/lib/op_kill.cc: op_kill::_run_server", "src/flared/flared.cc: flared::run", "src/flared/handler_request.cc: handler_request::run"]}
{"id": "C69", "title": "An orderly stop waits for what is under way and loses nothing", "statement": "When a node is stopped, the requests under way are completed before the storage is closed, and no request runs after that. A session that waits for its client is ended at once. The stop ends after at most one time limit for each thread it waits for. Writes queued for other nodes are carried out in order, each once. (False: a session between two requests misses the signal: the stop waits out its limit, then closes the storage under the open session, which goes on taking requests; a thread whose session has just ended cannot take itself off the list the stop keeps locked while waiting for it, so that the limit passes each time; a thread that once served a killed session is not waited for, and the storage is closed during its request; the writes still queued for another node are dropped.)", "quantifier": "all interleavings of the stop with any number of threads, clients and earlier kills; all states in which the stop can begin; all lengths of queues", "why_tests_cant": "Whether a stop is orderly depends on where each thread happens to be when its signal comes; a test stops an idle server or one whose threads are all in the same place.", "anchors": ["src/flared/flared.cc: flared::shutdown", "src/lib/thread_pool.cc: thread_pool::shutdown", "src/lib/thread.cc: thread::shutdown, thread::notify_shutdown, thread_run, thread::enqueue, thread::dequeue", "src/flared/handler_request.cc: handler_request::run", "src/lib/handler_proxy.cc: handler_proxy::run"]}
{"id": "C70", "title": "Every connection is accepted once, in order, within the limit, or closed", "statement": "Each connection a client makes is accepted once, from each listening socket in the order they were made; it gets one session or is closed. There are never more sessions than max-connection says. A failing system call loses no connection, and sockets do not wait for each other. A server that listens on a Unix domain socket serves it like the other and removes its name when it stops. (False: a socket whose accept keeps failing keeps all sockets after it waiting; the index server keeps a connection open for ever that it can make no thread for; over a Unix domain socket the address is read from outside of the object it was stored in, for every connection, and again at the stop when the path has more than 13 bytes; a path longer than 107 bytes is cut off.)", "quantifier": "all sequences of connections, rounds of the loop, ends of sessions and reloads; all failures of accept, of the socket options and of making a thread; all paths", "why_tests_cant": "The failures of system calls and the order in which sockets become ready cannot be produced by a client; a limit has to hold in every interleaving.", "anchors": ["src/lib/server.cc: server::wait, server::listen, server::close", "src/flared/flared.cc: flared::run", "src/flarei/flarei.cc: flarei::run", "src/lib/thread_pool.cc: thread_pool::get"]}
{"id": "C71", "title": "With synchronous replication a write is answered when every slave has processed it", "statement": "If replication is synchronous, the answer to a write is sent when the worker of each slave that the write was handed to is through with it; each worker processes it once; the answer comes in the end. The same holds for the map that the index server hands to all nodes and waits for. (False: a worker that signals late ends the wait although another one has not begun; a wake-up without reason ends it; a worker that is stopped with the entry in its hands keeps the client waiting for ever, one that is stopped before is not waited for; the node that is being prepared as master is never waited for; slaves whose worker cannot take the write are left out without notice.)", "quantifier": "all numbers of slaves and nodes, all interleavings of the requester and the workers, all refusals and stops", "why_tests_cant": "The order of one thread's steps between a mutex and a signal cannot be chosen by a test; the claim is about every interleaving.", "anchors": ["src/lib/thread_queue.cc: thread_queue::sync, sync_ref, sync_unref", "src/lib/cluster.cc: cluster::post_proxy_write, _enqueue, _broadcast", "src/lib/handler_proxy.cc: handler_proxy::run"]}
{"id": "C72", "title": "With a window of unanswered replication requests, answers go to their requests and the window is kept", "statement": "With noreply-window-limit n a master lets at most n replication requests in a row to one slave go unanswered, and the answer it reads for a request is the answer to this request. With n = 0 every request is answered. (False with two or more slaves: they share the option that says that no answer is wanted; a worker may leave an answer on the connection and take it for that to a later request, and requests that another worker has marked are not counted.)", "quantifier": "all windows, all numbers of slaves, all sequences of writes, all interleavings of the workers", "why_tests_cant": "The mix-up needs one worker to change a shared object between two lines of another; what is claimed is about all interleavings and sequences.", "anchors": ["src/lib/handler_proxy.cc: handler_proxy::_process_queue", "src/lib/op_set.cc: op_set::_run_client, _parse_text_client_parameters", "src/lib/cluster.cc: cluster::post_proxy_write"]}
{"id": "C73", "title": "The client library returns what the node holds", "statement": "A program that uses the client library (connect, get, gets, add, cas, disconnect) gets from each call what the calls before it make true: add stores if there is nothing under the key, cas stores if the token is that of the stored item, get and gets fill in the entry with flags, token and data of what is stored or say that nothing is there. Calls without a connection open one, or fail and change nothing; disconnect closes the connection. (False: get and gets do not open a connection; disconnect never closes one; get of a missing key with an entry that still has data from an earlier get says OK and presents the old data under the new key.)", "quantifier": "all sequences of calls, keys, values, flags, tokens and clock values that do not run backwards", "why_tests_cant": "The claim is about every sequence of calls and every byte string; the wrong results need an entry with a certain past.", "anchors": ["src/lib/client.cc: client::connect, disconnect, get, gets, add, cas", "src/lib/op_get.cc: op_get::_run_client, _parse_text_client_parameters", "src/lib/op_set.cc: op_set::_run_client, _parse_text_client_parameters"]}
{"id": "C74", "title": "A binary client may ask any node", "statement": "Once the map of the cluster has settled and every key has an active master, clients may put requests of the text and of the binary protocol to any nodes: all of them act on one memory, and each request is answered in its own protocol with the outcome that memory gives it. (False for a binary client that asks a node that does not own the key: an increment that succeeds is answered with a line of the text protocol; a set with the right token is refused as not stored and one with a wrong, larger token is stored; a key with an end of line in it, which the binary protocol allows, makes the owner carry out the rest of the key as a request, for example flush_all.)", "quantifier": "all settled clusters, all sequences of legal requests of both protocols put to any nodes one after the other, all keys, values, times and numbers drawn, clocks that do not run backwards", "why_tests_cant": "The claim is about every sequence of requests, every way of spreading them over the nodes and every key; whether a request goes wrong depends on which node owns the key.", "anchors": ["src/lib/queue_proxy_write.cc: queue_proxy_write::run, _get_op", "src/lib/queue_proxy_read.cc: queue_proxy_read::run", "src/lib/op_set.cc: op_set::_run_server, _run_client", "src/lib/op_incr.cc: op_incr::_run_server", "src/lib/op_get.cc: op_get::_run_server", "src/lib/op.cc: op::_send_binary_result"]}
{"id": "C75", "title": "A request passed on to another node goes to that node and no other, once, and in order", "statement": "When a node passes a client's request on, or replicates a write, the request is sent to the node it was meant for and to no other, at most once, and not before an earlier request for the same key that was accepted for the same node; while nothing is stopped the request is not refused for want of a thread. (False when an operator kills a proxy thread or the node list changes at the wrong moment: a request may be sent to another node or stay in an idle thread's queue; false in the first moments of a connection to a node: two requests at once make too many threads, later requests for the same key overtake earlier ones, and a request may be refused because the thread is just being made; proxy-concurrency 0 ends the process at the first such request.)", "quantifier": "every schedule of requests, of threads that are made, work, end and are reused", "why_tests_cant": "The failures need a thread to end or start between two adjacent unlocked reads of another thread.", "anchors": ["src/lib/cluster.cc:_get_proxy_thread", "src/lib/cluster.cc:_enqueue", "src/lib/thread.cc:enqueue", "src/lib/thread.cc:clean", "src/lib/thread_pool.cc:get", "src/lib/thread_pool.cc:clean", "src/lib/handler_proxy.cc:run"]}
{"id": "C76", "title": "Every node learns of a new map, a new master first, and no node is taken for dead because of it", "statement": "When the index server changes the map, every node that answers ends up going by the newest map once all messages are handled; no node goes back to an older map; the nodes that are to be told first (a new master) know before any other node does; and a node that answers everything is never taken for dead because of the messages.", "quantifier": "all sequences of changes, one at a time or several, all interleavings of their broadcasts with the handling of the messages by the monitoring threads, all failures of transfers and pings, all starts of nodes", "why_tests_cant": "the outcome depends on the order in which broadcasts of several changes fill the queues, and on whether a failure falls between two pings; a test sees few such orders and waits for none of them", "anchors": ["src/lib/cluster.cc:_broadcast", "src/lib/queue_node_sync.cc:queue_node_sync", "src/lib/thread_queue.cc:sync", "src/lib/handler_monitor.cc:_process_monitor", "src/lib/op_node_sync.cc:_run_client", "src/lib/cluster.cc:reconstruct_node"]}
{"id": "C77", "title": "The index server keeps its map where it was told to", "statement": "The index server keeps its map at the address given as index-db, or in data-dir without one: every part of an address is read as it was written, the file is the one in the directory that was named, index servers with different directories do not share a file, and every ZooKeeper server of a list is used. An address that cannot be understood is refused. (False: a relative data-dir, or one with a question mark in its name, leads to another directory, and different ones to the same file; an unreadable file address leads to the root directory; a fragment without a query is taken as part of the path; of more than five ZooKeeper servers none is used, a server without a port gets port 0.)", "quantifier": "all directories, all addresses with any users, hosts, ports, paths, queries and fragments, all other texts, all lists of servers", "why_tests_cant": "the tests read a handful of addresses; that no text is taken apart differently by the order in which the expressions are tried is a statement about all texts", "anchors": ["src/flarei/flarei.cc: flarei::startup", "src/lib/coordinator_factory.cc: create_coordinator", "src/lib/coordinator.h: uri", "src/lib/file_coordinator.cc: _save, _load", "src/lib/zookeeper_coordinator.h: ext_uri", "src/lib/zookeeper_coordinator.cc: zookeeper_coordinator"]}
{"id": "C78", "title": "One server for a directory", "statement": "With the file for the number of the process at most one server runs for a directory, the file names it, a second one that is started goes away and changes nothing, and after any stop or crash a server can be started again. (False: two that start at the same time both run, and the stop of one opens the way for a third; a server that dies between making the file and writing to it, one that always gets the same number, and another program that has got the number, bar every later start.)", "quantifier": "all contents of the file at first, all sequences of starts, stops, kills at any point, and other programs that come and go with any numbers", "why_tests_cant": "the outcome depends on the point at which a server is killed and on which numbers are given again; a test would have to try all of them", "anchors": ["src/lib/app.cc:_set_pid", "src/lib/app.cc:_clear_pid", "src/flared/flared.cc: flared::startup, flared::shutdown", "src/flarei/flarei.cc: flarei::startup, flarei::shutdown"]}
{"id": "C79", "title": "A database that fails is not hidden from anyone", "statement": "When the database refuses a write, the client is told of an error and not that its request was carried out, the record stays as it was, nothing is sent to the replicas, reading goes on as before, and from then on the node answers every ping with an error, so that the index server can take it out. (False: a client that asked for no answer gets one; a flush_all that fails leaves the pings OK and forgets delayed deletes; a node that copies another's records ignores failed writes and is activated without these records; a record that cannot be read counts as one that is not there, pings stay OK, and an add then replaces it with a version that starts again; a dump leaves it out and says it is whole.)", "quantifier": "all databases, all requests, all patterns of failures, all streams of a copy", "why_tests_cant": "a failure can come at any write of any request; disks that fail on demand are not part of the tests", "anchors": ["src/lib/storage_tch.cc:set, incr, remove, get, truncate", "src/flared/flared.cc:on_storage_error", "src/lib/op_ping.cc:_run_server", "src/lib/op_flush_all.cc:_run_server", "src/lib/op_dump.cc:_parse_text_client_parameters"]}
{"id": "C80", "title": "The reports on threads show the threads that run, and their ids can be used with kill", "statement": "'stats threads', 'stats threads request' and 'stats threads slave' list every thread of their kind that runs when its list is taken, each once, with the same eight facts under names that tell the threads apart; the answer can be read back whatever the threads do meanwhile. A kill with an id out of the report, at any later time, reaches the thread that was shown or none. 'stats threads queue' shows the number of queued entries. (False: after 2^32 threads one id can be two threads; the first reports on a type of threads that a pool never had change the pool's map under a lock that lets others read and change it at the same time.)", "quantifier": "all schedules of threads starting and ending between and during the reports, all texts and numbers the threads show", "why_tests_cant": "threads start and end between the reading of the lists in unboundedly many ways", "anchors": ["src/lib/op_stats.cc:_send_stats_threads, _send_stats", "src/flared/op_stats_node.cc:_run_server", "src/lib/thread_pool.cc:get_thread_info, get_thread_size, get_active", "src/lib/thread.cc:get_thread_info", "src/lib/op_kill.cc:_run_server"]}
{"id": "C81", "title": "A server that does not start leaves nothing behind, its caller is told, and a server that ended can be started again", "statement": "A start that fails has done what comes before the failing step and nothing after it; a server whose port or local socket is taken goes away before it touches the database, the cluster or the file with the number of the process. The caller learns whether the start failed. A server with a local socket that was stopped, or whose start failed, can be started again, and no file but its own socket is removed. (False: a node that finds another process in the file, or cannot open its database, has told the index server of itself before; with daemonize the caller is told success whatever fails; a local socket with a name of 14 bytes or more is not removed, so that the next start fails, and a file with another name may be removed instead; a name of more than 107 bytes is cut; after a kill the name must be removed by hand.)", "quantifier": "all options, all patterns of failing steps, all names of sockets, all contents of memory, all sequences of starts, stops and kills", "why_tests_cant": "every step can fail in every configuration, and what is removed depends on the length of a name and on what lies in memory behind a variable", "anchors": ["src/flared/flared.cc:startup, main", "src/flarei/flarei.cc:startup", "src/lib/app.cc:_daemonize, _set_pid", "src/lib/server.cc:listen, close"]}
