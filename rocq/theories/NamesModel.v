(** Names of enumerated values and of commands: the casts of storage.h, op.h,
    cluster_replication.h and key_resolver.h, and the command words of the two
    text servers.  (Roles, states and replication types are in NodeModel.) *)
From Coq Require Import NArith List Bool String.
From Verif Require Import Base.
Import ListNotations.
Local Open Scope list_scope.

(** storage.h:250-262 and 235-248: value to name, then name to value. *)
Inductive soption := opt_none | opt_noreply | opt_sync | opt_async.
Definition soption_name (x : soption) : bytes :=
  match x with
  | opt_none => s2b ""
  | opt_noreply => s2b "noreply"
  | opt_sync => s2b "sync"
  | opt_async => s2b "async"
  end.
Definition soption_cast (s : bytes) : option soption :=
  if beq s (s2b "") then Some opt_none else
  if beq s (s2b "noreply") then Some opt_noreply else
  if beq s (s2b "sync") then Some opt_sync else
  if beq s (s2b "async") then Some opt_async else None.

(** storage.h:287-307 and 264-285 (results of the storage layer): value to name, then name to value. *)
Inductive sresult := sr_none | sr_stored | sr_not_stored | sr_exists | sr_not_found | sr_deleted | sr_found | sr_touched.
Definition sresult_name (x : sresult) : bytes :=
  match x with
  | sr_none => s2b ""
  | sr_stored => s2b "STORED"
  | sr_not_stored => s2b "NOT_STORED"
  | sr_exists => s2b "EXISTS"
  | sr_not_found => s2b "NOT_FOUND"
  | sr_deleted => s2b "DELETED"
  | sr_found => s2b "FOUND"
  | sr_touched => s2b "TOUCHED"
  end.
Definition sresult_cast (s : bytes) : option sresult :=
  if beq s (s2b "") then Some sr_none else
  if beq s (s2b "STORED") then Some sr_stored else
  if beq s (s2b "NOT_STORED") then Some sr_not_stored else
  if beq s (s2b "EXISTS") then Some sr_exists else
  if beq s (s2b "NOT_FOUND") then Some sr_not_found else
  if beq s (s2b "DELETED") then Some sr_deleted else
  if beq s (s2b "FOUND") then Some sr_found else
  if beq s (s2b "TOUCHED") then Some sr_touched else None.

(** storage.h:322-332 and 309-320: value to name, then name to value. *)
Inductive stype := ty_tch | ty_tcb | ty_kch.
Definition stype_name (x : stype) : bytes :=
  match x with
  | ty_tch => s2b "tch"
  | ty_tcb => s2b "tcb"
  | ty_kch => s2b "kch"
  end.
Definition stype_cast (s : bytes) : option stype :=
  if beq s (s2b "tch") then Some ty_tch else
  if beq s (s2b "tcb") then Some ty_tcb else
  if beq s (s2b "kch") then Some ty_kch else None.

(** storage.h:349-361 and 334-347: value to name, then name to value. *)
Inductive compress := co_none | co_deflate | co_bz2 | co_tcbs.
Definition compress_name (x : compress) : bytes :=
  match x with
  | co_none => s2b ""
  | co_deflate => s2b "deflate"
  | co_bz2 => s2b "bz2"
  | co_tcbs => s2b "tcbs"
  end.
Definition compress_cast (s : bytes) : option compress :=
  if beq s (s2b "") then Some co_none else
  if beq s (s2b "deflate") then Some co_deflate else
  if beq s (s2b "bz2") then Some co_bz2 else
  if beq s (s2b "tcbs") then Some co_tcbs else None.

(** storage.h:382-398 and 363-380: value to name, then name to value. *)
Inductive hashing := hash_simple | hash_bitshift | hash_crc32 | hash_adler32 | hash_murmur | hash_jenkins.
Definition hashing_name (x : hashing) : bytes :=
  match x with
  | hash_simple => s2b "simple"
  | hash_bitshift => s2b "bitshift"
  | hash_crc32 => s2b "crc32"
  | hash_adler32 => s2b "adler32"
  | hash_murmur => s2b "murmur"
  | hash_jenkins => s2b "jenkins"
  end.
Definition hashing_cast (s : bytes) : option hashing :=
  if beq s (s2b "simple") then Some hash_simple else
  if beq s (s2b "bitshift") then Some hash_bitshift else
  if beq s (s2b "crc32") then Some hash_crc32 else
  if beq s (s2b "adler32") then Some hash_adler32 else
  if beq s (s2b "murmur") then Some hash_murmur else
  if beq s (s2b "jenkins") then Some hash_jenkins else None.

(** op.h:141-171 and 108-139 (results of the protocol layer): value to name, then name to value. *)
Inductive oresult := res_none | res_ok | res_end | res_stored | res_not_stored | res_exists | res_not_found | res_deleted | res_found | res_touched | res_error | res_client_error | res_server_error.
Definition oresult_name (x : oresult) : bytes :=
  match x with
  | res_none => s2b ""
  | res_ok => s2b "OK"
  | res_end => s2b "END"
  | res_stored => s2b "STORED"
  | res_not_stored => s2b "NOT_STORED"
  | res_exists => s2b "EXISTS"
  | res_not_found => s2b "NOT_FOUND"
  | res_deleted => s2b "DELETED"
  | res_found => s2b "FOUND"
  | res_touched => s2b "TOUCHED"
  | res_error => s2b "ERROR"
  | res_client_error => s2b "CLIENT_ERROR"
  | res_server_error => s2b "SERVER_ERROR"
  end.
Definition oresult_cast (s : bytes) : option oresult :=
  if beq s (s2b "") then Some res_none else
  if beq s (s2b "OK") then Some res_ok else
  if beq s (s2b "END") then Some res_end else
  if beq s (s2b "STORED") then Some res_stored else
  if beq s (s2b "NOT_STORED") then Some res_not_stored else
  if beq s (s2b "EXISTS") then Some res_exists else
  if beq s (s2b "NOT_FOUND") then Some res_not_found else
  if beq s (s2b "DELETED") then Some res_deleted else
  if beq s (s2b "FOUND") then Some res_found else
  if beq s (s2b "TOUCHED") then Some res_touched else
  if beq s (s2b "ERROR") then Some res_error else
  if beq s (s2b "CLIENT_ERROR") then Some res_client_error else
  if beq s (s2b "SERVER_ERROR") then Some res_server_error else None.

(** cluster_replication.h:93-101 and 82-91: value to name, then name to value. *)
Inductive rmode := mode_duplicate | mode_forward.
Definition rmode_name (x : rmode) : bytes :=
  match x with
  | mode_duplicate => s2b "duplicate"
  | mode_forward => s2b "forward"
  end.
Definition rmode_cast (s : bytes) : option rmode :=
  if beq s (s2b "duplicate") then Some mode_duplicate else
  if beq s (s2b "forward") then Some mode_forward else None.

(** key_resolver.h:66-72 and 57-64: value to name, then name to value. *)
Inductive resolver := key_modular.
Definition resolver_name (x : resolver) : bytes :=
  match x with
  | key_modular => s2b "modular"
  end.
Definition resolver_cast (s : bytes) : option resolver :=
  if beq s (s2b "modular") then Some key_modular else None.

(** flared/op_parser_text_node.cc:62-128: the command named by the first word of a request line, and the
    second word if the first is "node".  [nc_error] is op_error, which replies ERROR. *)
Inductive ncommand := nc_get | nc_set | nc_add | nc_replace | nc_cas | nc_append | nc_prepend | nc_incr | nc_decr | nc_delete | nc_gets | nc_touch | nc_gat | nc_ping | nc_stats | nc_node_sync | nc_keys | nc_dump | nc_dump_key | nc_flush_all | nc_kill | nc_quit | nc_verbosity | nc_version | nc_show | nc_error.
Definition ncommand_of (first second : bytes) : ncommand :=
  if beq first (s2b "get") then nc_get else
  if beq first (s2b "set") then nc_set else
  if beq first (s2b "add") then nc_add else
  if beq first (s2b "replace") then nc_replace else
  if beq first (s2b "cas") then nc_cas else
  if beq first (s2b "append") then nc_append else
  if beq first (s2b "prepend") then nc_prepend else
  if beq first (s2b "incr") then nc_incr else
  if beq first (s2b "decr") then nc_decr else
  if beq first (s2b "delete") then nc_delete else
  if beq first (s2b "gets") then nc_gets else
  if beq first (s2b "touch") then nc_touch else
  if beq first (s2b "gat") then nc_gat else
  if beq first (s2b "ping") then nc_ping else
  if beq first (s2b "stats") then nc_stats else
  if beq first (s2b "node") then
    if beq second (s2b "sync") then nc_node_sync else nc_error
  else if beq first (s2b "keys") then nc_keys else
  if beq first (s2b "dump") then nc_dump else
  if beq first (s2b "dump_key") then nc_dump_key else
  if beq first (s2b "flush_all") then nc_flush_all else
  if beq first (s2b "kill") then nc_kill else
  if beq first (s2b "quit") then nc_quit else
  if beq first (s2b "verbosity") then nc_verbosity else
  if beq first (s2b "version") then nc_version else
  if beq first (s2b "show") then nc_show else nc_error.

(** flarei/op_parser_text_index.cc:60-103: the command named by the first word of a request line, and the
    second word if the first is "node".  [ic_error] is op_error, which replies ERROR. *)
Inductive icommand := ic_ping | ic_stats | ic_node_add | ic_node_remove | ic_node_role | ic_node_state | ic_kill | ic_quit | ic_meta | ic_verbosity | ic_version | ic_show | ic_shutdown | ic_error.
Definition icommand_of (first second : bytes) : icommand :=
  if beq first (s2b "ping") then ic_ping else
  if beq first (s2b "stats") then ic_stats else
  if beq first (s2b "node") then
    if beq second (s2b "add") then ic_node_add else if beq second (s2b "remove") then ic_node_remove else if beq second (s2b "role") then ic_node_role else if beq second (s2b "state") then ic_node_state else ic_error
  else if beq first (s2b "kill") then ic_kill else
  if beq first (s2b "quit") then ic_quit else
  if beq first (s2b "meta") then ic_meta else
  if beq first (s2b "verbosity") then ic_verbosity else
  if beq first (s2b "version") then ic_version else
  if beq first (s2b "show") then ic_show else
  if beq first (s2b "shutdown") then ic_shutdown else ic_error.

