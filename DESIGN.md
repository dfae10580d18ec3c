# Formal model of gree/flare in Rocq (Coq 8.16.1)

Source: `/repo` (gree/flare, pinned commit), read as text. Model: `/verif/rocq/theories`.

## 1. Layout

Each area of the code has up to three kinds of file:

* `XModel.v`  - executable Gallina definitions, one per C++ function; every definition
  has a comment citing file and lines. No proofs.
* `XSpec.v` (where the specification is not just standard notions) - a small independent
  specification that does not mention model helpers.
* `XProofs.v` - lemmas.
* `Props_X.v` - only the property theorems, each closed by `exact`, with
  `Print Assumptions` beneath and `Example`s showing the hypotheses are met.

Conventions: unsigned C integers are `N` with explicit wrap-around (`mod 2^32`, `mod 2^64`),
signed ones are `Z`; bytes are `N` below 256; `std::string`/buffers are `list N`.
Undefined behaviour of the C++ (out-of-bounds access, NULL dereference, reading an
uninitialised variable) is a distinct outcome in the model (`None`/`UB`), never a default value.
External calls (Tokyo Cabinet, sockets, clock, rename/unlink) are modelled by their documented
contract, listed in section 4.

## 2. Plan per property

| Id | Modelled code | Proof |
|----|---------------|-------|
| C01 | `storage_tch::set/get/remove`, header codec, tombstone ("header") cache; database maps keys to raw bytes | symbolic execution of the model over an arbitrary invariant-satisfying state; record-level spec |
| C02 | same | frame lemma for every operation |
| C03 | same, histories as `fold_left` over operations | invariant + refutations for eviction/flush |
| C04 | same | iff characterisation; induction over the history between two cas |
| C05 | same | case analysis against a spec table |
| C06 | same + `util::realtime` | case analysis |
| C07 | `storage_tch::incr` incl. decimal parse/print | numeric lemmas on digit strings |
| C08 | same as C01 | history induction |
| C09 | `truncate` | direct, plus history corollary |
| C10 | versioned `set` on replicas | fold over permutations; join-semilattice argument |
| C11 | same, versioned stores and deletes (`ConvergeSpec`) | the newest operation decides, induction over the deliveries; refuted by witness for stores that overtake a delete |
| C12 | header codec | little-endian codec lemma |
| C13-C15 | `key_resolver_modular` | induction on table construction |
| C16 | `get_key_hash_value_*` | refuted by witness; range theorem for the rest |
| C17,C18 | text protocol printers and parsers | round-trip by tokenizer lemmas |
| C19 | binary header codec | big-endian codec lemma |
| C20 | `connection_tcp::read/readline/readsize/push_back` | refinement of buffer+chunks to a flat byte stream |
| C21 | `next_word/next_digit` with explicit buffer bound | induction; refutation |
| C22 | base64 | induction in steps of 3 bytes; 8-bit arithmetic |
| C23,C24 | node lines, node keys, enum casts | tokenizer lemmas; finite enumeration of enums |
| C25,C26,C29,C30 | index server state machine | invariant by induction over events |
| C27,C31-C33 | partition table construction and routing | refinement to set-level spec |
| C28 | `reconstruct_node`, version counter | induction over delivery sequence |
| C34 | `file_coordinator` save/load on a small file-system model with crash points; the same calls on a file system that keeps changes in memory, for a failure of the machine (`PowerModel`) | refutation + conditional theorem; an invariant over all the states the disk may be found in |
| C35 | small-step interleaving of locked operations | commuting/mover argument for mutual exclusion |
| C36 | thread queue | ghost history invariant |
| C37 | thread pool | invariant |
| C38 | monitor handler | induction over ping results |
| C39,C40 | dump server/client loops | list-level refinement; refutation |
| C41 | bwlimitter | arithmetic |
| C42 | time_util/time_watcher | arithmetic |
| C43,C44 | `binary_request_header`, bodies and responses (`BinaryModel`) | codec lemmas; refutations |
| C45,C49 | proxy attempts, connection cache, answers on the wire (`ProxyModel`) | invariant over attempts; refutations |
| C46 | index server state + its saved form (`ClusterModel`, `FilesModel`) | invariant; refutation |
| C47,C52 | read balances in the partition tables (`RoutingModel`, `ClusterModel`) | invariant over reachable maps; refutations |
| C48 | admin request lines (`NodeModel`) | tokenizer lemmas |
| C50,C51 | client request lines and the request loop (`TextModel`, `SessionModel`) | tokenizer lemmas; refutations |
| C53 | request handlers, forwarded operations, one replica (`ServerModel`, `ReplicaModel`) | simulation with a chain of pending operations |
| C54 | whole text sessions at the owning node (`ServerModel`) against an abstract memory (`MemcachedSpec`) | refinement, induction over the session |
| C55 | requests put to any node of a cluster with a settled map: routing, forwarding, execution and the answer passed back (`GatewayModel`) against the same memory (`GatewaySpec`), with the requests under way that nobody waits for (`QueuedSpec`) | refinement, induction over the requests |
| C56 | cluster replication in both modes (`ReplicationModel`), on top of `GatewayModel` and `ReplicaModel` | refinement as C55; simulation as C53; refutations |
| C57 | the dump at the start of replication and its interleaving with client writes (`ReplicationModel`) | induction over the visits; invariant per key; refutations |
| C58 | binary requests run at the owning node, mixed sessions (`BinaryServerModel`) against the memory of C54 (`BinaryServerSpec`) | refinement, transfer from the text handlers, induction over the session; refutations |
| C59 | the engines tcb and kch beside tch (`EngineModel`), answers of histories (`EngineSpec`) | simulation between the engines, by induction over the history; refutations |
| C60 | the lock in ZooKeeper: nodes, sessions, watches, two threads per lock object (`LockModel`) | invariant by induction over all interleavings; progress; refutations |
| C61 | several index servers with one map in ZooKeeper: sessions, flush, notifications, the lock of C60 (`IndexesModel`) | refinement to one index server (`one_server`) by an invariant over all interleavings; refutations |
| C62 | the command `keys`: parsing, search of the B+ tree, queries to the owner of the prefix with its retries (`KeysModel`) | the list is the unique sorted, sound, complete one (`listing`); round trip of request and answer; routing of C33; refutations |
| C63 | replication to MySQL: the statements, the events of the log, the packets, the commands of the slave (`MysqlModel`); a small reader of SQL and of the protocol as specification (`MysqlSpec`) | round trips of statement, event and packet; the rows follow the store by induction over a history of requests; refutations |
| C64 | the settings of an index server from options and ZooKeeper, the request 'meta', cluster::startup_node, the copies a new map starts (`StartupModel`) | round trip of the answer; the map and the settings of the started node from the invariant of histories; refutations |
| C65 | a master that serves clients, dumps its partition and sends writes on, and the node that joins, as one transition system (`JoinModel`); the copies a new map starts (`StartupModel`) | an invariant on the way of a key through the pending writes: where the node that joins is on it; refutations |
| C66 | the counters and the answers of stats, in both protocols, over the sessions of C58 (`StatsModel`); reading an answer back is specified apart (`StatsSpec`) | induction over a session: the counters are the numbers of moves the memory of C58 calls for; round-trips; refutations |
| C67 | the settings of flared and flarei from the options, their reload, what they govern, show variables, and the loop that notices SIGHUP (`ConfigModel`); values wanted, going by a value and reading the answer are specified apart (`ConfigSpec`) | load and reload as lists of steps, with one lemma on the members after a run of them; invariant over a life of reloads; round-trips; refutations |
| C68 | the life of pooled threads: the accept loop, the loop of a thread, the sections of trigger, wait, run and clean, and kill, with arbitrary interleaving and spurious wake-ups (`ThreadModel`); timely schedules and what a session is are specified apart (`ThreadSpec`) | invariants over all schedules and over timely ones; progress in a bounded number of own steps; refutations that quantify over every continuation |
| C69 | the stop of a node on top of the threads of C68: the loops over the map and the pool, the four steps of each shutdown, the locks they hold, the limit of a wait, the closing of the storage; and the queue of a proxy thread (`StopModel`); peaceful histories and quiet states are specified apart (`StopSpec`) | an invariant over peaceful schedules, decreasing measures for the length of the stop, refutations that quantify over every continuation |
| C70 | the accept loop: sockets that are ready, retries of accept, failing calls, the limit on sessions, threads that cannot be made, the statistics; addresses of Unix domain sockets in objects of a fixed size (`AcceptModel`) | an invariant (permutation of all connections over the places they can be in), counting, refutations for all continuations |
| C71 | one entry, its counter and condition, any number of workers and the programs of its requester: forwarding, replication, broadcast (`FanModel`) | an invariant over all schedules, a measure for the length of a schedule, refutations by schedules |
| C72 | the workers of several slaves that process the same entries with a window of unanswered requests, one access to the shared option at a time (`WindowModel`) | invariants over all schedules, refutations by schedules |
| C73 | the calls of the client library through one connection to a node that serves them with the model of C54 (`LibraryModel`) | induction over the calls with the memory of C54 as what they should return; refutations for the unconnected get, disconnect and a reused entry |
| C74 | binary requests at any node of the settled cluster of C55: run by the owner of the key, else sent on in the text protocol and the answer passed on (`BinaryGatewayModel`) | the invariant of C55 (every store shows its part of one memory) kept by each request, then induction over the turns; counting, tokens and keys with line ends refuted |
| C75 | requests that look for, make and use the threads of a node, threads that end, are pooled and used again, any schedule (`RelayModel`) | invariants over all steps (place of each thread, of each request); order by an invariant between two requests of one thread; wrong node, wrong order, refusal, stranded request and division by zero by concrete schedules |
| C76 | changes of the map, their broadcasts, the queues of the monitoring threads, the nodes that take or refuse a map, any schedule, one change at a time or several (`SpreadModel`) | invariants over all steps (versions in queues and jobs, references of a job); lost messages, false alarms and wrong order by concrete schedules |
| C77 | the options index-db and data-dir, the regular expressions that read them with boost's order of trying, the coordinator that is made (`AddressModel`) | the expressions shown equal to reading from left to right, then round trip with addresses as written and exactness; what is read wrongly by concrete texts |
| C78 | the file with the number of the process: starts, stops, kills and other programs in any order (`PidModel`) | invariant over all steps (one server between its look at the file and its end, the file names it); races and files that bar every start by concrete schedules and by invariants |
| C79 | requests, pings and the receiving side of a dump while the database refuses writes (`FailModel`) | the storage functions with their failing branches, shown equal to the ones without as long as nothing fails; case analysis per request; simulation of a copy by one without failures; a record that cannot be read is one that is not there (`BlindModel`); refutations by concrete runs |
| C80 | the reports on threads on top of the pools of C37: the lists, taken one after the other while threads come and go, their order, the lines, and the map under its lock (`ShowModel`); what a thread that serves clients says of itself (`DoingModel`, `LabourModel`, `CopyingModel`, `StandingModel`) | an id means one thread at all times while the counter has not wrapped, by induction over the steps; then by induction over the lists; reading back as in C66; refutations by runs |
| C81 | the order of the steps of a start, what the caller is told, and the name of the local socket through the lives of a server (`LaunchModel`) | the steps done are a prefix of the plan, by induction; case analysis over the options; an invariant over the lives; refutations for all names and all contents of memory |

## 3. What is modelled and what is not

Modelled (file of the model: what it covers in `/repo/src/lib`):

| Model | Code |
|-------|------|
| `StorageModel` | storage.cc (codec, header cache), storage_tch.cc set/incr/get/remove/truncate |
| `ConcModel` | the same as small steps under the slot and header cache locks |
| `KeyResolverModel` | key_resolver_modular.cc, storage.h/storage.cc key hashes |
| `TextModel`, `SessionModel` | op_*.cc text parsers and printers, op_parser_text.cc, handler_request.cc, util.h |
| `Base64Model`, `NamesModel` | util.cc base64; the enumerations with their names |
| `StreamModel` | connection_tcp.cc read side, push_back |
| `BinaryModel` | binary_header.cc, binary parsers and responses of the operations |
| `NodeModel` | node lines, node keys, admin requests, op_node_sync, op_meta partly |
| `ClusterModel` | cluster.cc: index server requests, promotion, reconstruct_node, partition tables, dump of the state |
| `RoutingModel`, `ProxyModel` | cluster.cc pre_proxy_*, queue_proxy_read/write, connection pool use |
| `MonitorModel`, `LimitModel`, `WatchModel` | handler_monitor.cc, bwlimitter.cc, time_util/time_watcher |
| `QueueModel`, `PoolModel` | thread_queue, thread.cc enqueue/dequeue, thread_pool.cc |
| `FilesModel` | file_coordinator.cc save/restore on a file system with kill points |
| `PowerModel` | the calls of file_coordinator.cc save on a journalling file system whose changes reach the disk only when the kernel decides; what a failure of the machine may leave |
| `DumpModel` | op_dump(.cc/_key.cc), handler_reconstruction.cc, activation |
| `ServerModel`, `ReplicaModel` | op_*::_run_server, post_proxy_write, delivery to a replica |
| `GatewayModel` | op_*::_run_server with forwarding, _run_client and the client side parsers, queue_proxy_write/read run |
| `ReplicationModel` | cluster_replication.cc, handler_cluster_replication.cc, handler_dump_replication.cc |
| `BinaryServerModel` | op_*::_run_server with _send_binary_*, op_parser_binary*.cc, the choice of the protocol per request |
| `EngineModel` | storage_tcb.cc incr, storage_kch.cc set/get/incr/remove/_get_header, the locks of incr |
| `LockModel` | zookeeper_lock.cc (lock, unlock, wait_for_ownership, the watch handler), begin/end of an operation in zookeeper_coordinator.cc |
| `IndexesModel` | zookeeper_coordinator.cc (flush, store_state, restore_state, notifications) with `_load`, `_save`, `_update` of cluster.cc |
| `KeysModel` | op_keys.cc, `get_key` of storage_tcb.cc, queue_proxy_read.cc for this command |
| `MysqlModel` | mysql_replication.cc without handshake and the answers to a slave's queries, queue order of handler_mysql_replication.cc |
| `StartupModel` | meta variables of zookeeper_coordinator.cc and flarei.cc startup, op_meta.cc, cluster.cc startup_node, the shift of roles in reconstruct_node and _shift_node_role |
| `JoinModel` | the rounds of the two loops of op_dump.cc, interleaved with the writes of clients and the ones sent on (cluster.cc post-write, queue_proxy_write.cc) |
| `StatsModel` | what requests count (stats.cc, op_set.cc, op_delete.cc, op_incr.cc, op_get.cc, op_keys.cc) and the answers of stats (op_stats.cc, op_stats_node.cc), but for stats threads |
| `ConfigModel` | ini_option.cc of flared and flarei (load, reload, the list of index servers), startup() and reload() of flared.cc and flarei.cc as far as settings go, cluster_replication start and stop, show_node.cc, the SIGHUP flag of the main loop |
| `ThreadModel` | thread.cc (thread_run, wait, trigger, run, clean, clean_internal, shutdown as kill calls it), thread_pool.cc get and clean around it, op_kill.cc, the accept loop of flared.cc, the loop of handler_request.cc |
| `StopModel` | the end of flared.cc shutdown, thread_pool::shutdown, thread::shutdown and notify_shutdown, what a forced request does to thread_run and handler_request; handler_proxy.cc run with thread::enqueue and dequeue |
| `AcceptModel` | server.cc wait, the loops of flared.cc run and flarei.cc run; the addresses in server.cc listen, wait and close for Unix domain sockets |
| `FanModel` | thread_queue.cc sync, sync_ref, sync_unref; cluster.cc _enqueue, post_proxy_write, pre_proxy_write, _broadcast as programs of handing over and waiting; the loop of handler_proxy.cc for one entry |
| `WindowModel` | handler_proxy.cc _process_queue; where run_client of the write operations looks at the option noreply |
| `LibraryModel` | client.cc (all calls), the client side of op_get.cc, op_gets.cc, op_add.cc, op_cas.cc for them; connection_tcp.cc open and close as one bit. Not modelled: what is left unread after an answer that is not understood |
| `BinaryGatewayModel` | queue_proxy_write.cc:112-195, queue_proxy_read.cc:120-131 for binary requests, the passing on of answers in op_set.cc, op_delete.cc, op_incr.cc, op_gat.cc, op_get.cc; further requests in the bytes that are sent on are carried out. Not modelled: what their answers do to the next request over the same connection |
| `RelayModel` | cluster.cc:1606-1626, 2225-2264, thread.cc:198-305, 388-458, thread_pool.cc:62-181, handler_proxy.cc:64-132. Not modelled: handlers of other kinds that take entries from their queue, thread ids that wrap, the limits of queue and pool (chosen by the schedule) |
| `SpreadModel` | cluster.cc:198-252, 404-1055 (ends of the changes), 1099-1112, 1658-1724, queue_node_sync.cc:37-60, thread_queue.cc:83-140, handler_monitor.cc:66-182, op_node_sync.cc:107-190. Not modelled: a message that is read while the map changes (c28_race_refuted), a monitoring thread that is ended and made anew |
| `AddressModel` | flarei.cc:169-186, coordinator_factory.cc:82-110, coordinator.h:57-91, file_coordinator.cc:48-54, 78-80, 114, zookeeper_coordinator.cc:52-82, zookeeper_coordinator.h:73-120; of boost::regex the operators these patterns use. Trusted: whether setup() of the ZooKeeper coordinator succeeds is a variable. Not modelled: NUL bytes in options |
| `PidModel` | app.cc:146-193, flared.cc:296-298, 451, 470-474, flarei.cc:283-285, 381, 388-392. Trusted: whether a group of processes exists is a variable. Not modelled: what a server does before it looks at the file, containers that hide each other's processes |
| `FailModel` | the failing branches of storage_tch.cc:125-604 (`set`, `incr`, `get`, `remove`, `truncate`), flared.cc:459-466, status_node.h, op_ping.cc:78-86, op_flush_all.cc:133-147, op_dump.cc:243-310. Trusted: a database call that fails changes nothing. Not modelled: writes of tchdbputasync that fail later, storage_tcb and storage_kch |
| `BlindModel` | storage_tch.cc:461-465, 689-695, 328-333: a `tchdbget` or `tchdbget3` that fails is taken for a record that is not there; requests for one key. Trusted: each request reads the record of its key once. Not modelled: a failing read in requests for several keys |
| `BlindDumpModel` | op_dump.cc:157-231 with reads that fail (storage_tch.cc:461-465): the record is skipped. A failing iterator is in `DumpModel` (`iteration_error`) |
| `ShowModel` | op_stats.cc:64-92, 179-232, 254-258, op_stats_node.cc:74-94, thread_pool.cc:233-275, thread.cc:183-194, 460-477. Not modelled: how each thread sets what it shows (any texts without line ends; see `DoingModel`), the index server's variant |
| `DoingModel` | thread.h:134-137, thread.cc:102-110, 180-191, 310-325, handler_request.cc:60-101, op.cc:68-77, op_kill.cc:109 |
| `LabourModel` | handler_proxy.cc:64-141, handler_cluster_replication.cc:59-108, handler_monitor.cc:66-170, handler_controller.cc:58-90: the order of what they set and of their loops. Not modelled: an empty entry taken by the monitor (`QueueModel`) |
| `CopyingModel` | handler_reconstruction.cc:67-112, handler_dump_replication.cc:65-147: the order of what they set. Not modelled here: the copy itself (C39, C40, C57) |
| `StandingModel` | src/flared/handler_alarm.cc:56-73 (the same in src/flarei), src/flared/handler_mysql_replication.cc:61-170: the order of what they set. Not modelled here: what is sent to the slave (C63) |
| `LaunchModel` | flared.cc:140-300, 563-575, flarei.cc:126-287, app.cc:111-141, server.cc:67-125, 190-251. Trusted: getsockname fills the 16 bytes it is given and cuts the rest (Linux), bind refuses a name that exists, static objects are destroyed when main returns. The read behind the address is undefined behaviour in C++; it is modelled as reading whatever bytes are there. Not modelled: chmod of the socket, the steps' own work (C39, C67, C76, C78) |

The text requests `stats`, `node ...`, `keys`, `dump`, `dump_key`, `kill` and `show` are recognized by the parser of text sessions
(`serve_other`) but not run by `ServerModel`; `dump`, `keys` and `node ...` have models of their own.

Not modelled: OS scheduling other than arbitrary interleaving, socket errors beyond "the call fails", logging,
stats threads, the login of a MySQL slave and the answers to its queries, the FUSE client,
memory exhaustion.  The ZooKeeper client library, Tokyo Cabinet and Kyoto Cabinet appear through their contracts only.
Simplifications of single functions are stated in the comment of the definition.

## 4. Trusted base

* Coq 8.16.1 kernel (including `vm_compute`), the standard library and std++ definitions
  used in statements.
* `Print Assumptions` is run under every property theorem; expected output is
  "Closed under the global context" unless listed here.
* The transcription from C++ to Gallina, documented per definition.
* Contracts assumed of external code: Tokyo Cabinet hash database is a map from byte strings
  to byte strings with atomic put/get/out/vanish and NUL-terminated results; `TCMAP` is an
  insertion-ordered map whose overwrite keeps the position; POSIX `read` delivers the stream in order
  in arbitrary non-empty pieces; `rename`/`unlink` are atomic; `std::map` iterates in key order.
* Section variables and function arguments that stand for external code, and appear as universally quantified
  arguments in the theorems: `ext` (the libhashkit hashes of key_resolver), the order in which Tokyo Cabinet
  iterates over keys, clock readings, the results of polls, connects, reads and writes, and the choice made by every scheduler.
* ZooKeeper (LockModel.v) is modelled, not verified: one linear order of calls, sequential ephemeral nodes, one-shot watches, sessions that may end at any time; `uuid_generate` is a Section variable that the theorems require to be injective.
* ZooKeeper as IndexesModel.v uses it: a session sees the changes of a node in their order but maybe late, `zoo_async` answered successfully means that the session has seen all earlier changes, events and completions of a session are delivered one after the other.
* Tokyo Cabinet's `tcbdbfwmkeys` (KeysModel.v) returns the first keys with the prefix in the order of their bytes.
* The text of localtime_r (MysqlModel.v, `time_text`) is a parameter; what a MySQL server makes of packets, events and the statements sent is written down in MysqlSpec.v.
* What zoo_get_children and zoo_get give for the settings (StartupModel.v, the argument of `get_meta`) is a parameter.
* The numbers in stats that do not come from requests (process id, clock, times used, file size, connections, bytes, threads) are arbitrary within their types, a new choice for each answer.
* boost::program_options is a map from option names to typed values, in which the first of two stored values stays and an unknown name is refused; boost::regex finds the leftmost match of the index server pattern, which is written out as a matcher. Options are parsed as numbers by boost with the types' ranges.
* Threads: mutexes, condition variables and signals behave as POSIX says, and fields shared without a lock are read and written in a sequentially consistent order. SIGUSR1 interrupts poll and has no effect elsewhere.
* The boost XML archive of the index server's state (FilesModel.v) is a pair of Section variables `encode`, `decode`, universally
  quantified in the theorems, which assume that `decode` inverts `encode` where they need it.
* Assumptions reported by `Print Assumptions`: none; every theorem listed in MANIFEST.json is
  "Closed under the global context".
