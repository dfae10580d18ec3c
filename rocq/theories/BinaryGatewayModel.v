(** Model of a cluster of which any node may be asked in the binary protocol too: the node that reads a binary request
    runs it (BinaryServerModel) if the key is routed to it, and else sends it on as a request of the text protocol
    (queue_proxy_write.cc:132-195, queue_proxy_read.cc:120-131: the operation made for the other node is of the text
    protocol, op.cc:43), reads the answer and passes it on in the binary protocol: [_run_server] and
    [_send_binary_result] of op_set.cc, op_delete.cc, op_incr.cc, op_gat.cc, op_get.cc.

    As in GatewayModel the node asked is reached and answers, and what is passed on to replicas is left out. *)
From Coq Require Import NArith ZArith List Bool String.
From Verif Require Import Base StorageModel TextModel SessionModel NamesModel KeyResolverModel ClusterModel NodeModel RoutingModel ServerModel GatewayModel
  StreamModel BinaryModel BinaryServerModel.
Import ListNotations.
Local Open Scope N_scope.
Local Open Scope list_scope.

(** The names the operations are constructed with: op_set.cc:41, op_add.cc:39, op_append.cc:40, op_touch.cc:39, op_gat.cc:39,
    ... and op_setq.h:40, op_addq.h:40, ..., op_gatq.h:40 for the quiet ones, which have the name without q. *)
Definition op_ident (o : N) : bytes :=
  if nmem o [1; 17] then s2b "set" else if nmem o [2; 18] then s2b "add" else if nmem o [3; 19] then s2b "replace"
  else if nmem o [14; 25] then s2b "append" else if nmem o [15; 26] then s2b "prepend"
  else if nmem o [5; 21] then s2b "incr" else if nmem o [6; 22] then s2b "decr"
  else if o =? 28 then s2b "touch" else s2b "gat".
(** cluster.cc:1406 and queue_proxy_write.cc:132-195: the operation made for the other node has the name and the entry of
    the one asked for; that a token came with it (op_set.cc:100-102, [_behavior]) is not passed on. *)
Definition text_of (r : brequest) : option request :=
  match r with
  | BStore o _ e => Some (RStore (op_ident o) e)
  | BDelete _ e => Some (RDelete e)
  | BTouch o e => Some (RTouch (op_ident o) e)
  | BIncr o e v _ => Some (RIncr (op_ident o) e v)
  | BGet _ _ | BOther _ _ => None
  end.

(** op.cc:196-241 [_send_binary_result] for a result and message read from another node. *)
Definition kind_of (r : oresult) : bresult :=
  match r with
  | res_none | res_ok | res_end | res_stored | res_deleted | res_found | res_touched => BOk
  | res_not_stored => BNotStored
  | res_exists => BExists
  | res_not_found => BNotFound
  | res_error | res_client_error | res_server_error => BError
  end.
Definition binary_result (opcode : N) (r : oresult) (message : bytes) : bytes :=
  match kind_of r, message with
  | (BOk | BError), _ :: _ =>
      if quiet_opcode opcode && (status_of (kind_of r) =? 0) then [] else message_response opcode (status_of (kind_of r)) message
  | k, _ => result_response opcode (quiet_opcode opcode) k
  end.
Definition binary_proxy_failure (opcode : N) : bytes := binary_result opcode res_server_error (s2b "proxy failure").
Definition binary_no_partition (opcode : N) : bytes := binary_result opcode res_server_error (s2b "no partition available").

(** op_gat.cc:63-110: the entry of the request with what the answer says; [None]: NOT_FOUND. *)
Definition gat_entry (now : Z) (e : entry) (s : bytes) : res (option entry) :=
  let* (line, s) := get_line s in
  if beq (cstr line) (s2b "NOT_FOUND" ++ [10]) then Ok None else
  let* (w, p) := call_word BUFSIZ line in
  if negb (beq w (s2b "VALUE")) then Err else
  let* t := parse_entry now parse_get p in
  if negb (beq (e_key e) (e_key t)) then Err else
  let e := with_version (with_size (with_flag e (e_flag t)) (e_size t)) (e_version t) in
  let* (d, s) := get_bytes (e_size e + 2) s in
  Ok (Some (with_data e (firstn (N.to_nat (e_size e)) d))).
(** The answer [s] to a request that was sent on, as it is passed on: op_set.cc:119-131, op_delete.cc:98-106, op_gat.cc:127-140;
    op_incr.cc:160-172 with queue_proxy_write.cc:112-121: a number is written as the line that was read, whatever the
    protocol of the client. *)
Definition brelay (now : Z) (r : brequest) (s : bytes) : res bytes :=
  match r with
  | BStore o _ _ | BDelete o _ =>
      let* (line, _) := get_line s in let* (r, message) := parse_text_response line in Ok (binary_result o r message)
  | BTouch o e =>
      if nmem o [29; 30] then
        let* g := gat_entry now e s in
        Ok (match g with Some e => value_response o false e | None => binary_result o res_not_found [] end)
      else let* (line, _) := get_line s in let* (r, message) := parse_text_response line in Ok (binary_result o r message)
  | BIncr o _ _ _ =>
      let* (line, _) := get_line s in
      let p := strip_blanks (cstr line) in
      match lex_u u64_max p with
      | Ok _ => if BUFSIZ <=? blen p then Undef else Ok (p ++ crlf)
      | Err =>
          if beq line [10] then Undef else
          let* (r, message) := parse_text_response (p ++ [10]) in
          Ok (match r with res_stored => message | _ => binary_result o r message end)
      | Undef => Undef
      end
  | BGet _ _ | BOther _ _ => Err
  end.

(** What a node does with the bytes another node sends it, one request after the other (handler_request.cc:58-100); bytes
    that are not a whole request are left to be read with what comes later. *)
Fixpoint go_on (fuel : nat) (step : world -> bytes -> res (world * bytes * bytes)) (w : world) (s : bytes) : res (world * bytes) :=
  match fuel, s with
  | O, _ | _, [] => Ok (w, [])
  | S fuel', _ =>
      match step w s with
      | Ok (w, out, rest) => let* (w, out') := go_on fuel' step w rest in Ok (w, out ++ out')
      | Err => Ok (w, [])
      | Undef => Undef
      end
  end.
Definition serve_sent (step : world -> bytes -> res (world * bytes * bytes)) (w : world) (s : bytes) : res (world * bytes) :=
  let* (p, rest) := step w s in
  let '(w, out) := p in
  let* (w, out') := go_on (List.length rest) step w rest in Ok (w, out ++ out').

Section Cluster.
  Variables (c : config) (tab : bytes -> copy) (hash : bytes -> Z).

  (** Node [y] is sent the bytes [request].  Of its answers the sender reads the first; the others stay in the connection
      (for the next request sent over it, which is not followed here). *)
  Definition sent_to (hops : nat) (pick : bytes -> nat) (now : Z) (w : world) (y request : bytes) : res (world * bytes) :=
    serve_sent (fun w s => node_line c tab hash hops pick now now w y s) w request.

  Definition opcode_in (r : brequest) : N :=
    match r with BStore o _ _ | BDelete o _ | BGet o _ | BIncr o _ _ _ | BTouch o _ | BOther o _ => o end.
  (** A binary request at node [x]: op_set.cc:113-181, op_delete.cc:94-147, op_incr.cc:153-203, op_get.cc:114-183.  The entry
      of a binary request has no options (storage.cc:200-225), so the answer is always waited for. *)
  Definition node_request (hops : nat) (pick : bytes -> nat) (now : Z) (w : world) (x : bytes) (r : brequest) : res (world * bytes) :=
    let here := let* (s, out) := run_brequest now (w_stores w x) r in Ok (put_store w x s, out) in
    match r with
    | BOther _ _ => here
    | BGet o e =>
        let* a := pre_read c (tab x) x (hash (e_key e)) (pick (e_key e)) in
        match a with
        | Here => here
        | Forward y =>
            let* (w, answer) := sent_to hops pick now w y (get_request (s2b "get") [TextModel.cstr (e_key e)]) in
            let* f := fetched now (e_key e) answer in
            Ok (w, match f with Some e => value_response o (nmem o [12; 13]) e | None => missing_response o (e_key e) end)
        | NoPartition | NoProxy => Ok (w, missing_response o (e_key e))
        end
    | _ =>
        match text_of r with
        | None => Err
        | Some t =>
            match write_of t with
            | None => Err
            | Some (e, request) =>
                let* a := pre_write c (tab x) x (hash (e_key e)) false in
                match a with
                | Here => here
                | Forward y =>
                    let* (w, answer) := sent_to hops pick now w y (request [x]) in
                    let* out := brelay now r answer in Ok (w, out)
                | NoProxy => Ok (w, binary_proxy_failure (opcode_in r))
                | NoPartition => Ok (w, binary_no_partition (opcode_in r))
                end
            end
        end
    end.
  (** Node [x] reads a request, of whichever protocol, off the stream (op_parser.h:79-113). *)
  Definition node_any (hops : nat) (pick : bytes -> nat) (asked now : Z) (w : world) (x stream : bytes) : res (world * bytes * bytes) :=
    if is_binary stream then
      let* (v, rest) := binary_next asked stream in
      match v with
      | BAccepted r => let* (w, out) := node_request hops pick now w x r in Ok (w, out, rest)
      | BRejected o => Ok (w, result_response o (quiet_opcode o) BError, rest)
      end
    else node_line c tab hash (S hops) pick asked now w x stream.
  (** Requests put to nodes one after the other, each over a connection of its own and read to its end before the next.
      [s_asked]: the clock when the node reads it, [s_now]: when it is executed, [s_pick]: as for [node_line]. *)
  Record submission := mkSubmission { s_node : bytes; s_pick : bytes -> nat; s_asked : Z; s_now : Z; s_bytes : bytes }.
  Fixpoint submit (hops : nat) (l : list submission) (w : world) : res (world * list bytes) :=
    match l with
    | [] => Ok (w, [])
    | t :: l' =>
        let* (p, _) := node_any hops (s_pick t) (s_asked t) (s_now t) w (s_node t) (s_bytes t) in
        let '(w, a) := p in
        let* (w, out) := submit hops l' w in Ok (w, a :: out)
    end.
End Cluster.
