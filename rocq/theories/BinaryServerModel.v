(** Model of how a node that holds the master copy of a key runs a binary request (op_set.cc, op_delete.cc,
    op_incr.cc, op_touch.cc, op_gat.cc, op_get.cc, op_flush_all.cc, op_version.cc, op_quit.cc, op_ping.cc,
    op_error.cc [_run_server] with the [_send_binary_*] functions), and of a connection on which text and binary requests
    may alternate (op_parser.h:79-113, handler_request.cc:58-100).

    As in ServerModel the node owns the key, so nothing is proxied, and request counters are left out.  What is handed
    to the replicas is the same as for text requests and not part of this file; stat (0x10) is not modelled. *)
From Coq Require Import NArith ZArith List Bool String.
From Verif Require Import Base StorageModel TextModel SessionModel ServerModel StreamModel BinaryModel.
Import ListNotations.
Local Open Scope N_scope.
Local Open Scope list_scope.

(** op.cc:47, op.h:83: the member is constant and false for every operation; binary_header::is_quiet
    (binary_header.h:131) has no caller. *)
Definition quiet_opcode (opcode : N) : bool := false.
(** op_parser_binary_node.cc:74-205: the opcode an operation answers with is the one its class is constructed with, which
    is that of the request except for op_error (op.h:91: the default is noop). *)
Definition op_others : list N := [7; 23; 8; 24; 10; 11; 16].   (* quit(q) flush(q) noop version stat *)
Definition answer_opcode (o : N) : N :=
  if nmem o (op_sets ++ op_appends ++ op_deletes ++ op_gets ++ op_incrs ++ op_touches ++ op_others) then o else 10.

(** op.cc:196-224: the results of the two enumerations in terms of the protocol. *)
Definition bresult_of (r : result) : bresult :=
  match r with
  | result_none | result_stored | result_deleted | result_found | result_touched => BOk
  | result_not_stored => BNotStored
  | result_exists => BExists
  | result_not_found => BNotFound
  end.
(** op.cc:225-238 with a message *)
Definition message_response (opcode status : N) (message : bytes) : bytes :=
  set_field FTotal (blen message) (set_field FStatus status (new_header magic_response opcode)) ++ message.
(** op_set.cc:145, op_delete.cc, op_incr.cc:181 *)
Definition binary_io_error (opcode : N) : bytes := message_response opcode 132 (s2b "i/o error").
Definition answer_result (opcode : N) (r : result) : bytes := result_response opcode (quiet_opcode opcode) (bresult_of r).

(** The answer and what is left of the store. *)
Definition bfinish (opcode : N) (o : outcome) (answer : result -> bytes) : res (store * bytes) :=
  if (o_ret o <? 0)%Z then Ok (o_store o, binary_io_error opcode)
  else match o_res o with
  | None => Undef
  | Some r => Ok (o_store o, if noreply (o_entry o) then [] else answer r)
  end.

(** The constructors of op_set.cc, op_add.cc, op_replace.cc, op_append.cc, op_prepend.cc and of their quiet variants
    (op_setq in op_set.h, ...), which only differ in the opcode; op_set.cc:108-110 for the cas. *)
Definition opcode_behavior (opcode : N) (cas : bool) : N :=
  N.lor
    (if nmem opcode [2; 18] then behavior_add
     else if nmem opcode [3; 19] then behavior_replace
     else if nmem opcode [14; 25] then N.lor behavior_replace behavior_append
     else if nmem opcode [15; 26] then N.lor behavior_replace behavior_prepend
     else 0)
    (if cas then behavior_cas else 0).
(** op_set.cc:113-181 *)
Definition run_bstore (now : Z) (s : store) (opcode : N) (cas : bool) (e : entry) : res (store * bytes) :=
  match set s now e (opcode_behavior opcode cas) with
  | None => Undef
  | Some o => bfinish opcode o (answer_result opcode)
  end.
(** op_touch.cc runs as op_set; op_gat.cc:127-140 *)
Definition run_btouch (now : Z) (s : store) (opcode : N) (e : entry) : res (store * bytes) :=
  match set s now e behavior_touch with
  | None => Undef
  | Some o => bfinish opcode o (fun r =>
      if nmem opcode [29; 30] && is_stored r then value_response opcode false (o_entry o) else answer_result opcode r)
  end.
(** op_delete.cc:94-147 *)
Definition run_bdelete (now : Z) (s : store) (opcode : N) (e : entry) : res (store * bytes) :=
  bfinish opcode (remove s now e 0) (answer_result opcode).
(** op_incr.cc:288-305: the new value as a number.  The extraction from the string stream reads the digits the storage has
    just written; a number out of range is all ones and reported as a failure. *)
Definition number_response (opcode : N) (e : entry) : bytes :=
  let v := dec_val (fst (span is_digit (firstn (N.to_nat (e_size e)) (e_data e)))) in
  if quiet_opcode opcode then []
  else set_field FTotal 8 (new_header magic_response opcode) ++ be_enc 8 (if v <? 2 ^ 64 then v else 2 ^ 64 - 1).
(** op_incr.cc:153-203; decr: op_decr.cc.  The initial value is in the entry and nowhere used. *)
Definition run_bincr (now : Z) (s : store) (opcode : N) (e : entry) (v : N) : res (store * bytes) :=
  match incr s now e v (nmem opcode [5; 21]) 0 with
  | None => Undef
  | Some o => bfinish opcode o (fun r => if is_stored r then number_response opcode (o_entry o) else answer_result opcode r)
  end.
(** op_get.cc:114-183, 319-375; result_end only flushes the connection's buffer. *)
Definition missing_response (opcode : N) (k : bytes) : bytes :=
  let message := s2b "Not found" in
  let h := set_field FStatus 1 (new_header magic_response opcode) in
  if quiet_opcode opcode then []
  else if nmem opcode [12; 13] then set_field FTotal (blen k + blen message) (set_field FKeyLen (blen k) h) ++ k ++ message
  else set_field FTotal (blen message) h ++ message.
Definition run_bget (now : Z) (s : store) (opcode : N) (e : entry) : store * bytes :=
  let o := get s now e 0 in
  (o_store o, match o_res o with
              | Some result_none => value_response opcode (nmem opcode [12; 13]) (o_entry o)
              | _ => missing_response opcode (e_key e)
              end).
(** op_flush_all.cc:133-147 (the body is not looked at: op.cc:123-125), op_version.cc:87-94, op_quit.cc:83-89,
    op_ping.cc:78-86 (noop), op_error.cc; the database does not fail. *)
Definition run_bother (s : store) (opcode : N) : res (store * bytes) :=
  let ok := result_response (answer_opcode opcode) (quiet_opcode opcode) BOk in
  if nmem opcode [8; 24] then Ok (truncate s, ok)
  else if nmem opcode [7; 23; 10] then Ok (s, ok)
  else if opcode =? 11 then Ok (s, message_response opcode 0 (s2b "flare-1.3.4"))
  else if opcode =? 16 then Err
  else Ok (s, result_response (answer_opcode opcode) (quiet_opcode opcode) BError).

Definition run_brequest (now : Z) (s : store) (r : brequest) : res (store * bytes) :=
  match r with
  | BStore o cas e => run_bstore now s o cas e
  | BDelete o e => run_bdelete now s o e
  | BGet o e => Ok (run_bget now s o e)
  | BIncr o e v _ => run_bincr now s o e v
  | BTouch o e => run_btouch now s o e
  | BOther o _ => run_bother s o
  end.

(** op.cc:68-77, 111-121, op_parser_binary.cc:50-65: a request whose parameters are not accepted is answered as an error
    and the session goes on; without a header it ends ([Err]). *)
Inductive bverdict := BAccepted (r : brequest) | BRejected (opcode : N).
Definition binary_next (now : Z) (s : bytes) : res (bverdict * bytes) :=
  let* (h, s) := read_header magic_request s in
  let o := answer_opcode (get_field FOpcode h) in
  match body_of (get_field FTotal h) s with
  | Ok (body, rest) =>
      match parse_binary now h body with
      | Ok r => Ok (BAccepted r, rest)
      | Err => Ok (BRejected o, rest)
      | Undef => Undef
      end
  | Err => Ok (BRejected o, [])
  | Undef => Undef
  end.
(** op_parser.h:79-113: the protocol is that of the first byte of the request. *)
Definition is_binary (stream : bytes) : bool := match stream with c :: _ => c =? magic_request | [] => false end.
(** One round of a session: store, answer, what is left to read. *)
Definition run_any (now : Z) (s : store) (stream : bytes) : res (store * bytes * bytes) :=
  if is_binary stream then
    let* (v, rest) := binary_next now stream in
    match v with
    | BAccepted r => let* (s', out) := run_brequest now s r in Ok (s', out, rest)
    | BRejected o => Ok (s, result_response o (quiet_opcode o) BError, rest)
    end
  else let* (p, rest) := run_line now s stream in Ok (p_store p, p_answer p, rest).
(** op_quit.cc:86, handler_request.cc:84-89 *)
Definition quits_any (now : Z) (stream : bytes) : bool :=
  if is_binary stream then
    match binary_next now stream with Ok (BAccepted (BOther o _), _) => nmem o [7; 23] | _ => false end
  else quits now stream.
Fixpoint run_mixed (times : list Z) (s : store) (stream : bytes) : res (store * bytes) :=
  match times with
  | [] => Ok (s, [])
  | now :: times' =>
      let* (r, rest) := run_any now s stream in
      let '(s1, out) := r in
      if quits_any now stream then Ok (s1, out) else
      let* (s2, out2) := run_mixed times' s1 rest in
      Ok (s2, out ++ out2)
  end.
