(** Model of the statistics of a node: op_stats.cc, stats.h, stats.cc, src/flared/op_stats_node.cc, and the places in
    op_set.cc, op_get.cc, op_delete.cc, op_incr.cc, op_keys.cc ([_run_server]) at which requests are counted.

    As in ServerModel the node owns the key, so nothing is proxied.  The list of threads is not modelled. *)
From Coq Require Import NArith ZArith List Bool String.
From stdpp Require gmap.
From Verif Require Import Base StorageModel TextModel SessionModel ServerModel BinaryModel BinaryServerModel ClusterModel NodeModel.
Import ListNotations.
Local Open Scope N_scope.
Local Open Scope list_scope.

(** ** Counters *)
(** stats.h:43-60: the counters that count requests. *)
Inductive counter :=
| AllGets | AllSets | GetHits | GetMisses | DeleteHits | DeleteMisses | IncrHits | IncrMisses | DecrHits | DecrMisses
| CasHits | CasMisses | CasBadval | TouchHits | TouchMisses | TotalItems.
Definition counter_eqb (a b : counter) : bool :=
  match a, b with
  | AllGets, AllGets | AllSets, AllSets | GetHits, GetHits | GetMisses, GetMisses | DeleteHits, DeleteHits
  | DeleteMisses, DeleteMisses | IncrHits, IncrHits | IncrMisses, IncrMisses | DecrHits, DecrHits | DecrMisses, DecrMisses
  | CasHits, CasHits | CasMisses, CasMisses | CasBadval, CasBadval | TouchHits, TouchHits | TouchMisses, TouchMisses
  | TotalItems, TotalItems => true
  | _, _ => false
  end.
Definition counters := counter -> N.
(** stats.cc:38-60 *)
Definition no_counts : counters := fun _ => 0.
(** util.h:70-131 AtomicCounter::incr on 64 bits (every build but gcc for 32 bit machines) *)
Definition bump (x : counter) (c : counters) : counters := fun y => if counter_eqb x y then u64 (c y + 1) else c y.

(** op_set.cc:149-175, after the storage call; [ident] and [behavior] are the members of the operation. *)
Definition count_set (ident : bytes) (behavior : N) (o : outcome) (c : counters) : counters :=
  if (o_ret o <? 0)%Z then c
  else match o_res o with
  | None => c
  | Some r =>
      let cas := has behavior behavior_cas || beq ident (s2b "cas") in
      let c := match r with result_stored => bump TotalItems c | _ => c end in
      match r with
      | result_stored | result_touched =>
          if cas then bump CasHits c else if beq ident (s2b "touch") then bump TouchHits c else c
      | _ =>
          if cas then match r with result_exists => bump CasBadval c | result_not_found => bump CasMisses c | _ => c end
          else if beq ident (s2b "touch") then match r with result_not_found => bump TouchMisses c | _ => c end else c
      end
  end.
(** op_set.cc:113-175 up to the answer: counted before anything else *)
Definition count_store (now : Z) (s : store) (ident : bytes) (behavior : N) (e : entry) (c : counters) : counters :=
  let c := bump AllSets c in
  match set s now e behavior with Some o => count_set ident behavior o c | None => c end.
(** op_delete.cc:125-135 *)
Definition count_delete (now : Z) (s : store) (e : entry) (c : counters) : counters :=
  let o := remove s now e 0 in
  if (o_ret o <? 0)%Z then c
  else match o_res o with
  | Some result_deleted => bump DeleteHits c
  | Some result_not_found => bump DeleteMisses c
  | _ => c
  end.
(** op_incr.cc:178-197 *)
Definition count_incr (now : Z) (s : store) (up : bool) (e : entry) (v : N) (c : counters) : counters :=
  match incr s now e v up 0 with
  | None => c
  | Some o =>
      if (o_ret o <? 0)%Z then c
      else match o_res o with
      | Some result_stored => bump (if up then IncrHits else DecrHits) c
      | Some result_not_found => bump (if up then IncrMisses else DecrMisses) c
      | _ => c
      end
  end.
(** op_get.cc:120-178: one of the keys.  The storage is asked for all keys before the first hit is counted, which makes no
    difference to the numbers. *)
Fixpoint count_gets (now : Z) (s : store) (entries : list entry) (c : counters) : counters :=
  match entries with
  | [] => c
  | e :: entries' =>
      let o := get s now e 0 in
      let c := bump AllGets c in
      let c := match o_res o with Some result_none => bump GetHits c | _ => bump GetMisses c end in
      count_gets now (o_store o) entries' c
  end.

(** What a text request counts. *)
Definition count_request (now : Z) (s : store) (r : request) (c : counters) : counters :=
  match r with
  | RStore ident e => count_store now s ident (store_behavior ident) e c
  | RTouch ident e => count_store now s ident behavior_touch e c
  | RDelete e => count_delete now s e c
  | RIncr ident e v => count_incr now s (beq ident (s2b "incr")) e v c
  | RGet _ keys => count_gets now s (map empty_entry keys) c
  | _ => c
  end.
(** op_keys.cc:118-119: every prefix asked for. *)
Definition count_keys (prefixes : list bytes) (c : counters) : counters := fold_left (fun c _ => bump AllGets c) prefixes c.
(** What a binary request counts.  The names of the operations are those of the text protocol
    (op_parser_binary_node.cc:74-205, op_set.h, op_touch.h, op_gat.h), except that the name of cas is not used. *)
Definition opcode_ident (opcode : N) : bytes :=
  if nmem opcode [28] then s2b "touch" else if nmem opcode [29; 30] then s2b "gat" else s2b "set".
Definition count_brequest (now : Z) (s : store) (r : brequest) (c : counters) : counters :=
  match r with
  | BStore o cas e => count_store now s (opcode_ident o) (opcode_behavior o cas) e c
  | BTouch o e => count_store now s (opcode_ident o) behavior_touch e c
  | BDelete _ e => count_delete now s e c
  | BIncr o e v _ => count_incr now s (nmem o [5; 21]) e v c
  | BGet _ e => count_gets now s [e] c
  | BOther _ _ => c
  end.

(** ** What is shown *)
(** The values of [stats] that do not depend on the requests: process id, clock, times used, size of the database file,
    connections, bytes transferred, threads (op_stats.cc:124-168).  Numbers as they are printed. *)
Record surroundings := mkSurroundings {
  u_pid : Z; u_uptime : Z; u_time : Z; u_user : bytes; u_system : bytes; u_bytes : N; u_connections : N;
  u_read : N; u_written : N; u_threads : N; u_pool : N; u_queue : N; u_current : N;
}.
(** op_stats.cc:132-166, stats.cc:120-166 (getters): in this order.  curr_items is storage::count, for the hash database
    the number of its records; it and total_items are cut to 32 bits.  curr_connections: src/flared/stats_node.cc:54-56.
    These getters return 0: connection_structures, evictions, limit_maxbytes. *)
Definition general_stats (u : surroundings) (s : store) (c : counters) (version : N) : list (bytes * bytes) :=
  [(s2b "pid", decZ (u_pid u)); (s2b "uptime", decZ (u_uptime u)); (s2b "time", decZ (u_time u)); (s2b "version", s2b "1.3.4");
   (s2b "pointer_size", s2b "64"); (s2b "rusage_user", u_user u); (s2b "rusage_system", u_system u);
   (s2b "curr_items", dec (u32 (N.of_nat (base.size (db s))))); (s2b "total_items", dec (u32 (c TotalItems)));
   (s2b "bytes", dec (u_bytes u)); (s2b "curr_connections", dec (u32 (u_current u))); (s2b "total_connections", dec (u_connections u));
   (s2b "connection_structures", s2b "0"); (s2b "cmd_get", dec (c AllGets)); (s2b "cmd_set", dec (c AllSets));
   (s2b "get_hits", dec (c GetHits)); (s2b "get_misses", dec (c GetMisses)); (s2b "delete_hits", dec (c DeleteHits));
   (s2b "delete_misses", dec (c DeleteMisses)); (s2b "incr_hits", dec (c IncrHits)); (s2b "incr_misses", dec (c IncrMisses));
   (s2b "decr_hits", dec (c DecrHits)); (s2b "decr_misses", dec (c DecrMisses)); (s2b "cas_hits", dec (c CasHits));
   (s2b "cas_misses", dec (c CasMisses)); (s2b "cas_badval", dec (c CasBadval)); (s2b "touch_hits", dec (c TouchHits));
   (s2b "touch_misses", dec (c TouchMisses)); (s2b "evictions", s2b "0"); (s2b "bytes_read", dec (u_read u));
   (s2b "bytes_written", dec (u_written u)); (s2b "limit_maxbytes", s2b "0"); (s2b "threads", dec (u_threads u));
   (s2b "pool_threads", dec (u_pool u)); (s2b "node_map_version", dec version)].
(** op_stats.cc:230-249: the nodes in the order of their keys, five lines each; snprintf into BUFSIZ bytes *)
Definition node_stats (n : node) : list (bytes * bytes) :=
  let key := to_node_key (n_name n) (n_port n) in
  [(snprintf (cstr key ++ s2b ":role"), role_name (n_role n)); (snprintf (cstr key ++ s2b ":state"), state_name (n_state n));
   (snprintf (cstr key ++ s2b ":partition"), decZ (n_partition n)); (snprintf (cstr key ++ s2b ":balance"), decZ (n_balance n));
   (snprintf (cstr key ++ s2b ":thread_type"), decZ (n_thread n))].
Definition nodes_stats (m : node_map) : list (bytes * bytes) := flat_map (fun p => node_stats (snd p)) m.

(** op_stats.cc:59-98: what is asked for; threads, threads request and threads slave are not modelled. *)
Inductive asked := AskGeneral | AskNothing | AskNodes | AskQueue | AskThreads.
Definition parse_asked (rest : bytes) : res asked :=
  let* (w, p) := call_word BUFSIZ rest in
  if beq w [] then Ok AskGeneral
  else if mem w [s2b "items"; s2b "slabs"; s2b "sizes"] then Ok AskNothing
  else if beq w (s2b "threads") then
    let* (w2, _) := call_word BUFSIZ p in
    if mem w2 [[]; s2b "request"; s2b "slave"] then Ok AskThreads
    else if beq w2 (s2b "queue") then Ok AskQueue else Err
  else if beq w (s2b "nodes") then Ok AskNodes else Err.

(** A node: its database, what it has counted, its map and the map's version. *)
Record watched := mkWatched { w_store : store; w_counts : counters; w_map : node_map; w_version : N }.
(** src/flared/op_stats_node.cc:60-103 *)
Definition stats_of_node (u : surroundings) (w : watched) (a : asked) : res (list (bytes * bytes)) :=
  match a with
  | AskGeneral => Ok (general_stats u (w_store w) (w_counts w) (w_version w))
  | AskNothing => Ok []
  | AskNodes => Ok (nodes_stats (w_map w))
  | AskQueue => Ok [(s2b "total_thread_queue", dec (u32 (u_queue u)))]
  | AskThreads => Undef
  end.
(** op_stats.cc:257-261, 277-287 *)
Definition stat_line (p : bytes * bytes) : bytes := s2b "STAT " ++ fst p ++ [32] ++ snd p ++ crlf.
Definition text_stats (l : list (bytes * bytes)) : bytes := flat_map stat_line l ++ s2b "END" ++ crlf.
(** op_stats.cc:263-275, 289-298: a message for each, then one without key and value *)
Definition binary_stat (p : bytes * bytes) : bytes :=
  set_field FTotal (blen (fst p ++ snd p)) (set_field FKeyLen (blen (cstr (fst p))) (new_header magic_response 16)) ++ fst p ++ snd p.
Definition binary_stats (l : list (bytes * bytes)) : bytes := flat_map binary_stat l ++ new_header magic_response 16.

(** ** A session in which stats may be asked for *)
(** op.cc:68-77, op_stats.cc:100-115: a text request.  Answer, node, what is left to read. *)
Definition watch_line (u : surroundings) (now : Z) (w : watched) (stream : bytes) : res (bytes * watched * bytes) :=
  let* (line, s1) := get_line stream in
  let* (c, rest) := parse_command line in
  if beq (c_word c) (s2b "stats") then
    match parse_asked rest with
    | Ok a => let* l := stats_of_node u w a in Ok (text_stats l, w, s1)
    | Err => Ok (s2b "ERROR" ++ crlf, w, s1)
    | Undef => Undef
    end
  else
    let* (v, rest) := serve_next now stream in
    match v with
    | Accepted c r =>
        let* p := run_request now (w_store w) r in
        Ok (p_answer p, mkWatched (p_store p) (count_request now (w_store w) r (w_counts w)) (w_map w) (w_version w), rest)
    | Rejected => Ok (s2b "ERROR" ++ crlf, w, rest)
    end.
(** op.cc:111-121, op_stats.cc:117-120: a binary request; the body of stats is read as the rest of a line. *)
Definition watch_binary (u : surroundings) (now : Z) (w : watched) (stream : bytes) : res (bytes * watched * bytes) :=
  let* (v, rest) := binary_next now stream in
  match v with
  | BAccepted (BOther 16 body) =>
      match parse_asked (cstr body) with
      | Ok a => let* l := stats_of_node u w a in Ok (binary_stats l, w, rest)
      | Err => Ok (result_response 16 (quiet_opcode 16) BError, w, rest)
      | Undef => Undef
      end
  | BAccepted r =>
      let* (s', out) := run_brequest now (w_store w) r in
      Ok (out, mkWatched s' (count_brequest now (w_store w) r (w_counts w)) (w_map w) (w_version w), rest)
  | BRejected o => Ok (result_response o (quiet_opcode o) BError, w, rest)
  end.
Definition watch_any (u : surroundings) (now : Z) (w : watched) (stream : bytes) : res (bytes * watched * bytes) :=
  if is_binary stream then watch_binary u now w stream else watch_line u now w stream.
(** A text session as in ServerModel.run_session; the answers one by one. *)
Fixpoint watch_session (times : list (Z * surroundings)) (w : watched) (stream : bytes) : res (watched * list bytes) :=
  match times with
  | [] => Ok (w, [])
  | (now, u) :: times' =>
      let* (r, rest) := watch_any u now w stream in
      let '(a, w1) := r in
      if quits_any now stream then Ok (w1, [a]) else
      let* (w2, l) := watch_session times' w1 rest in
      Ok (w2, a :: l)
  end.
