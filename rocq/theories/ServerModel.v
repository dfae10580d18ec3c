(** Model of how a node that holds the master copy of a key runs a text request: op_set.cc, op_delete.cc,
    op_incr.cc, op_touch.cc, op_gat.cc, op_get.cc [_run_server]; and of the request it forwards to
    its replicas afterwards (cluster.cc:1422-1494 post_proxy_write, queue_proxy_write.cc [_get_op]).

    The node is the one the key is routed to, so pre_proxy_write continues locally (RoutingModel).
    Request counters (stats_object) are left out. *)
From Coq Require Import NArith ZArith List Bool String.
From Verif Require Import Base StorageModel TextModel SessionModel.
Import ListNotations.
Local Open Scope N_scope.

(** op.h:141-171 and storage.h:165-205: the words the results of the two enumerations are written
    with (op_set.cc casts one to the other; NamesModel shows that the words agree). *)
Definition result_word (r : result) : bytes :=
  match r with
  | result_none => []
  | result_stored => s2b "STORED"
  | result_not_stored => s2b "NOT_STORED"
  | result_exists => s2b "EXISTS"
  | result_not_found => s2b "NOT_FOUND"
  | result_deleted => s2b "DELETED"
  | result_found => s2b "FOUND"
  | result_touched => s2b "TOUCHED"
  end.
(** op.cc [_send_text_result] without a message, connection_tcp::writeline *)
Definition answer_line (r : result) : bytes := result_word r ++ crlf.
Definition io_error : bytes := s2b "SERVER_ERROR i/o error" ++ crlf.

(** op_set.cc:44, op_add.cc:40, op_replace.cc:40, op_cas.cc:40, op_append.cc:41, op_prepend.cc:40 *)
Definition store_behavior (ident : bytes) : N :=
  if beq ident (s2b "add") then behavior_add
  else if beq ident (s2b "replace") then behavior_replace
  else if beq ident (s2b "cas") then behavior_cas
  else if beq ident (s2b "append") then N.lor behavior_replace behavior_append
  else if beq ident (s2b "prepend") then N.lor behavior_replace behavior_prepend
  else 0.

(** What a request leaves behind: the store, the bytes answered, and the operation handed to
    post_proxy_write (its name and its entry, as the storage call left it). *)
Record reply := mkReply { p_store : store; p_answer : bytes; p_forward : option (bytes * entry) }.

Definition noreply (e : entry) : bool := has (e_option e) option_noreply.
(** The common end of the _run_server functions: an error of the storage is answered whatever the
    options say; else the operation is forwarded if [done] and answered unless noreply. *)
Definition finish (o : outcome) (done : result -> bool) (ident : bytes) (answer : result -> bytes) : res reply :=
  if (o_ret o <? 0)%Z then Ok (mkReply (o_store o) io_error None)
  else match o_res o with
  | None => Undef
  | Some r =>
      Ok (mkReply (o_store o) (if noreply (o_entry o) then [] else answer r)
            (if done r then Some (ident, o_entry o) else None))
  end.
Definition is_stored (r : result) : bool := match r with result_stored | result_touched => true | _ => false end.
Definition is_deleted (r : result) : bool := match r with result_deleted => true | _ => false end.

(** op_set.cc:113-181 [_run_server] *)
Definition run_store (now : Z) (s : store) (ident : bytes) (e : entry) : res reply :=
  match set s now e (store_behavior ident) with
  | None => Undef
  | Some o => finish o is_stored ident answer_line
  end.
(** op_touch.cc and op_gat.cc:40-92: gat answers with the value *)
Definition run_touch (now : Z) (s : store) (ident : bytes) (e : entry) : res reply :=
  match set s now e behavior_touch with
  | None => Undef
  | Some o => finish o is_stored ident (fun r =>
      if beq ident (s2b "gat") && is_stored r then print_response response_get (o_entry o) else answer_line r)
  end.
(** op_delete.cc:88-140 [_run_server] *)
Definition run_delete (now : Z) (s : store) (e : entry) : res reply :=
  finish (remove s now e 0) is_deleted (s2b "delete") answer_line.
(** op_incr.cc:117-178 [_run_server], [_send_text_result]: the new value *)
Definition run_incr (now : Z) (s : store) (ident : bytes) (e : entry) (v : N) : res reply :=
  match incr s now e v (beq ident (s2b "incr")) 0 with
  | None => Undef
  | Some o => finish o is_stored ident (fun r =>
      if is_stored r then firstn (N.to_nat (e_size (o_entry o))) (e_data (o_entry o)) ++ crlf else answer_line r)
  end.
(** op_get.cc:97-157 [_run_server], [_send_entry]: a value block for every key found, then END.
    The clock is read once for all keys. *)
Fixpoint run_get (now : Z) (s : store) (t : response_type) (keys : list bytes) : store * bytes :=
  match keys with
  | [] => (s, s2b "END" ++ crlf)
  | k :: keys' =>
      let o := get s now (empty_entry k) 0 in
      let '(s', out) := run_get now (o_store o) t keys' in
      (s', match o_res o with Some result_none => print_response t (o_entry o) | _ => [] end ++ out)
  end.

(** op_ping.cc:78-86 (the status is ok unless the database has failed, flared.cc:458-466),
    op_version.cc:77-87, op_quit.cc:83-89 *)
Definition run_plain (w : bytes) : bytes :=
  if beq w (s2b "version") then s2b "VERSION flare-1.3.4" ++ crlf
  else if beq w (s2b "quit") then s2b "END" ++ crlf
  else s2b "OK" ++ crlf.
(** op_flush_all.cc:133-147, op_verbosity.cc:124-132; the database does not fail. *)
Definition ok_line (noreply : bool) : bytes := if noreply then [] else s2b "OK" ++ crlf.

(** The requests of the data path and the ones with a short answer; the other ones are not part of this file
    ([Err]). *)
Definition run_request (now : Z) (s : store) (r : request) : res reply :=
  match r with
  | RStore ident e => run_store now s ident e
  | RDelete e => run_delete now s e
  | RTouch ident e => run_touch now s ident e
  | RIncr ident e v => run_incr now s ident e v
  | RGet ident keys =>
      let '(s', out) := run_get now s (if beq ident (s2b "gets") then response_gets else response_get) keys in
      Ok (mkReply s' out None)
  | RPlain w => Ok (mkReply s (run_plain w) None)
  | RFlush nr => Ok (mkReply (truncate s) (ok_line nr) None)
  | RVerbosity nr => Ok (mkReply s (ok_line nr) None)
  | ROther _ => Err
  end.

(** handler_request.cc:58-100, op.cc:68-77: one round of a session. *)
Definition run_line (now : Z) (s : store) (stream : bytes) : res (reply * bytes) :=
  let* (v, rest) := serve_next now stream in
  match v with
  | Accepted c r => let* p := run_request now s r in Ok (p, rest)
  | Rejected => Ok (mkReply s (s2b "ERROR" ++ crlf) None, rest)
  end.

(** A session: round after round, at the clock values [times]; the bytes answered.  It ends after quit, whatever
    else the client has sent (handler_request.cc:84-89). *)
Definition quits (now : Z) (stream : bytes) : bool :=
  match serve_next now stream with Ok (Accepted _ (RPlain w), _) => beq w (s2b "quit") | _ => false end.
Fixpoint run_session (times : list Z) (s : store) (stream : bytes) : res (store * bytes) :=
  match times with
  | [] => Ok (s, [])
  | now :: times' =>
      let* (p, rest) := run_line now s stream in
      if quits now stream then Ok (p_store p, p_answer p) else
      let* (s', out) := run_session times' (p_store p) rest in
      Ok (s', p_answer p ++ out)
  end.

(** queue_proxy_write.cc:132-195 [_get_op] with post_proxy, and the [_run_client] of the operation:
    what is sent to a replica.  Everything that stores is sent as a set with the new version, gat
    as touch. *)
Definition forward_request (trail : list bytes) (f : bytes * entry) : bytes :=
  let '(ident, e) := f in
  if beq ident (s2b "delete") then delete_request trail e
  else if mem ident [s2b "touch"; s2b "gat"] then touch_request trail (s2b "touch") e
  else store_request trail (s2b "set") e.
