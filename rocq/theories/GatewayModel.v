(** Model of a cluster in which any node may be asked: the node that reads a request runs it if the key is routed to it
    (ServerModel) and else sends it to the node that pre_proxy_write or pre_proxy_read (RoutingModel) names, reads the
    answer and passes it on: op_set.cc, op_delete.cc, op_incr.cc, op_touch.cc, op_gat.cc, op_get.cc
    [_run_server], [_run_client] and [_parse_text_client_parameters], queue_proxy_write.cc:75-128, queue_proxy_read.cc:66-114.

    The node asked is reached and answers; what happens otherwise is in ProxyModel.  The writes
    that the executing node passes on to its replicas are not part of this file (ReplicaModel):
    they go to nodes that are not asked for the key here. *)
From Coq Require Import NArith ZArith List Bool String.
From Verif Require Import Base StorageModel TextModel SessionModel NamesModel KeyResolverModel ClusterModel NodeModel RoutingModel ServerModel.
Import ListNotations.
Local Open Scope N_scope.

(** op.cc:155-176 [_parse_text_response]; [line] ends with a line feed, which is cut off the message. *)
Definition parse_text_response (line : bytes) : res (oresult * bytes) :=
  let* (w, p) := call_word BUFSIZ (cstr line) in
  match oresult_cast w with
  | None => Err
  | Some r => Ok (r, removelast (skip_spaces p))
  end.
(** op.cc:181-190 [_send_text_result] *)
Definition text_result (r : oresult) (message : bytes) : bytes :=
  oresult_name r ++ match message with [] => [] | _ => sp ++ message end ++ crlf.

(** op_incr.cc:244-253: the line without the blanks at its end; the first character stays. *)
Fixpoint strip_front (l : bytes) : bytes :=
  match l with
  | c :: l' => match l' with [] => l | _ => if (c =? 10) || (c =? 32) then strip_front l' else l end
  | [] => []
  end.
Definition strip_blanks (line : bytes) : bytes := rev (strip_front (rev line)).
(** op_incr.cc:233-274, queue_proxy_write.cc:112-121 and op_incr.cc:164-168: what is
    written to the client.  A number is copied to a buffer of BUFSIZ bytes.  An empty line would be
    written back past its end (265). *)
Definition relay_incr (line : bytes) : res bytes :=
  let p := strip_blanks (cstr line) in
  match lex_u u64_max p with
  | Ok _ => if BUFSIZ <=? blen p then Undef else Ok (p ++ crlf)
  | Err =>
      if beq line [10] then Undef else
      let* (r, message) := parse_text_response (p ++ [10]) in Ok (text_result r message)
  | Undef => Undef
  end.
(** op_gat.cc:63-110 with the entry [e] of the request, then op_set.cc:126-130 and op_gat.cc:112-125 *)
Definition relay_gat (now : Z) (e : entry) (s : bytes) : res bytes :=
  let* (line, s) := get_line s in
  if beq (cstr line) (s2b "NOT_FOUND" ++ [10]) then Ok (text_result res_not_found []) else
  let* (w, p) := call_word BUFSIZ line in
  if negb (beq w (s2b "VALUE")) then Err else
  let* t := parse_entry now parse_get p in
  if negb (beq (e_key e) (e_key t)) then Err else
  let e := with_version (with_size (with_flag e (e_flag t)) (e_size t)) (e_version t) in
  let* (d, s) := get_bytes (e_size e + 2) s in
  Ok (print_response response_get (with_data e (firstn (N.to_nat (e_size e)) d))).
(** The answer [s] to a forwarded write, as it is passed on: op_set.cc:119-131 and 213-231, op_delete.cc:98-106 and 170-188.
    [Err]: the answer is not understood (the request is sent again, ProxyModel). *)
Definition relay (now : Z) (r : request) (s : bytes) : res bytes :=
  match r with
  | RStore _ _ | RDelete _ =>
      let* (line, _) := get_line s in let* (r, message) := parse_text_response line in Ok (text_result r message)
  | RTouch ident e =>
      if beq ident (s2b "gat") then relay_gat now e s
      else let* (line, _) := get_line s in let* (r, message) := parse_text_response line in Ok (text_result r message)
  | RIncr _ _ _ => let* (line, _) := get_line s in relay_incr line
  | RGet _ _ | RPlain _ | RFlush _ | RVerbosity _ | ROther _ => Err
  end.
(** op_get.cc:214-262 for the entry of one key: [None] if it has no data, which is so if the answer
    begins with END. *)
Definition fetched (now : Z) (k : bytes) (s : bytes) : res (option entry) :=
  let* (e, _) := client_get_response now k s in
  let* (line, _) := get_line s in
  Ok (if beq (cstr line) (s2b "END" ++ [10]) then None else Some e).

(** The request as it is sent to another node: queue_proxy_write.cc:132-195 [_get_op] without
    post_proxy, and the [_run_client] of the operation. *)
Definition write_of (r : request) : option (entry * (list bytes -> bytes)) :=
  match r with
  | RStore ident e => Some (e, fun trail => store_request trail ident e)
  | RDelete e => Some (e, fun trail => delete_request trail e)
  | RTouch ident e => Some (e, fun trail => touch_request trail ident e)
  | RIncr ident e v => Some (e, fun trail => incr_request trail ident e v)
  | RGet _ _ | RPlain _ | RFlush _ | RVerbosity _ | ROther _ => None
  end.
Definition proxy_failure : bytes := s2b "SERVER_ERROR proxy failure" ++ crlf.
Definition no_partition : bytes := s2b "SERVER_ERROR no partition available" ++ crlf.

(** The stores of all nodes, and the requests that a node has queued for another one without waiting
    for the answer (cluster.cc:1403, [sync] is false with noreply). *)
Record world := mkWorld { w_stores : bytes -> store; w_queued : list (bytes * bytes) }.
Definition put_store (w : world) (x : bytes) (s : store) : world :=
  mkWorld (fun y => if beq x y then s else w_stores w y) (w_queued w).
Definition enqueue (w : world) (y request : bytes) : world := mkWorld (w_stores w) (w_queued w ++ [(y, request)]).

(** op_get.cc:114-178: a key is read here, or the answer of another node waited for; the
    queries are kept by key, so the last one of a key counts. *)
Inductive source := Local (o : option entry) | Query (o : option entry).
Fixpoint query_for (k : bytes) (l : list (bytes * source)) : option (option entry) :=
  match l with
  | [] => None
  | (k', src) :: l' =>
      match query_for k l' with
      | Some o => Some o
      | None => match src with Query o => if beq k k' then Some o else None | Local _ => None end
      end
  end.
Definition send_entry (t : response_type) (o : option entry) : bytes :=
  match o with Some e => print_response t e | None => [] end.
Definition send_all (t : response_type) (l : list (bytes * source)) : bytes :=
  flat_map (fun p => send_entry t (match query_for (fst p) l with Some o => o | None => match snd p with Local o | Query o => o end end)) l
  ++ s2b "END" ++ crlf.

Section Cluster.
  (** The key resolver, the copies of the node map and the hash of a key (storage.h get_key_hash_value). *)
  Variables (c : config) (tab : bytes -> copy) (hash : bytes -> Z).

  (** One key of a get: [ask] is what another node does with the bytes it is sent. *)
  Definition fetch (ask : world -> bytes -> bytes -> res (world * bytes)) (pick : bytes -> nat) (now : Z) (x ident k : bytes) (w : world)
    : res (world * source) :=
    let* a := pre_read c (tab x) x (hash k) (pick k) in
    match a with
    | Here =>
        let o := get (w_stores w x) now (empty_entry k) 0 in
        Ok (put_store w x (o_store o), Local match o_res o with Some result_none => Some (o_entry o) | _ => None end)
    | Forward y =>
        let* (w, answer) := ask w y (get_request ident [k]) in
        let* o := fetched now k answer in Ok (w, Query o)
    | NoPartition | NoProxy => Ok (w, Local None)
    end.
  Fixpoint fetch_all (ask : world -> bytes -> bytes -> res (world * bytes)) (pick : bytes -> nat) (now : Z) (x ident : bytes) (keys : list bytes) (w : world)
    : res (world * list (bytes * source)) :=
    match keys with
    | [] => Ok (w, [])
    | k :: keys' =>
        let* (w, src) := fetch ask pick now x ident k w in
        let* (w, l) := fetch_all ask pick now x ident keys' w in
        Ok (w, (k, src) :: l)
    end.

  (** Node [x] reads a request off the stream, at the clock value [asked], and answers it; a node
      that executes it does so at the clock value [now] (one for all keys of a get).  [hops] bounds how
      often the request is sent on.  [pick] is what rand() returns when a reader of a key is chosen.
      handler_request.cc:58-100, then the [_run_server] of the operation. *)
  Fixpoint node_line (hops : nat) (pick : bytes -> nat) (asked now : Z) (w : world) (x stream : bytes) : res (world * bytes * bytes) :=
    match hops with
    | O => Undef
    | S hops' =>
        let ask w y request := let* (p, _) := node_line hops' pick now now w y request in Ok p in
        let* (v, rest) := serve_next asked stream in
        match v with
        | Rejected => Ok (w, s2b "ERROR" ++ crlf, rest)
        | Accepted cmd r =>
            match r with
            | ROther _ => Err
            | RPlain _ | RFlush _ | RVerbosity _ =>
                let* p := run_request now (w_stores w x) r in Ok (put_store w x (p_store p), p_answer p, rest)
            | RGet ident keys =>
                let* (w, l) := fetch_all ask pick now x ident keys w in
                Ok (w, send_all (if beq ident (s2b "gets") then response_gets else response_get) l, rest)
            | _ =>
                match write_of r with
                | None => Err
                | Some (e, request) =>
                    let* a := pre_write c (tab x) x (hash (e_key e)) (c_proxied cmd) in
                    match a with
                    | Here => let* p := run_request now (w_stores w x) r in Ok (put_store w x (p_store p), p_answer p, rest)
                    | Forward y =>
                        if noreply e then Ok (enqueue w y (request (c_trail cmd ++ [x])), [], rest)
                        else
                          let* (w, answer) := ask w y (request (c_trail cmd ++ [x])) in
                          let* out := relay now r answer in Ok (w, out, rest)
                    | NoProxy => Ok (w, proxy_failure, rest)
                    | NoPartition => Ok (w, no_partition, rest)
                    end
                end
            end
        end
    end.

  (** What happens in the cluster: a client asks a node, or the [i]th queued request reaches its node. *)
  Inductive happening :=
  | Ask (pick : bytes -> nat) (asked now : Z) (x : bytes) (stream : bytes)
  | Arrive (now : Z) (i : nat).
  Fixpoint drop_nth {A} (i : nat) (l : list A) : list A :=
    match i, l with O, _ :: l' => l' | S i', a :: l' => a :: drop_nth i' l' | _, [] => [] end.
  Definition happen (hops : nat) (h : happening) (w : world) : res (world * bytes) :=
    match h with
    | Ask pick asked now x stream => let* (p, _) := node_line hops pick asked now w x stream in Ok p
    | Arrive now i =>
        match nth_error (w_queued w) i with
        | None => Err
        | Some (y, request) =>
            let* (p, _) := node_line hops (fun _ => O) now now (mkWorld (w_stores w) (drop_nth i (w_queued w))) y request in
            Ok (fst p, [])
        end
    end.
  (** The answers, one for each event. *)
  Fixpoint happens (hops : nat) (l : list happening) (w : world) : res (world * list bytes) :=
    match l with
    | [] => Ok (w, [])
    | h :: l' =>
        let* (w, a) := happen hops h w in
        let* (w, out) := happens hops l' w in Ok (w, a :: out)
    end.
End Cluster.
