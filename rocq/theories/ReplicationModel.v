(** Model of the replication from one cluster to another: src/lib/cluster_replication.cc,
    handler_cluster_replication.cc, handler_dump_replication.cc and where cluster.cc calls them
    (1305-1318, 1368-1382, 1422-1432).

    A node has one destination node, in another cluster.  In the mode forward every read and write is sent there
    instead of being served; in the mode duplicate what the master of a partition has stored is sent
    there as well, and at the start of the replication everything it already has (the dump).
    The destination is reached and answers (retries: ProxyModel). *)
From stdpp Require Import gmap.
From Coq Require Import String.
From Verif Require Import Base StorageModel TextModel SessionModel NamesModel KeyResolverModel ClusterModel NodeModel RoutingModel ServerModel GatewayModel DumpModel.
Local Open Scope N_scope.

(** ** Which thread sends *)
(** cluster_replication.cc:251-281: [key_hash_value % m.size()] is computed with 64 bits without sign and stored in
    an int; [None]: no thread is active and nothing is sent. *)
Definition replication_thread (hash : Z) (threads : nat) : option nat :=
  match threads with
  | O => None
  | S _ => Some (N.to_nat (Z.to_N (hash mod 2 ^ 64) mod N.of_nat threads))
  end.

(** ** Mode forward *)
(** cluster_replication.cc:179: the value of incr and decr (generic_value) is not handed on to the
    queue; queue_proxy_write.cc:61 leaves 0. *)
Definition handed_on (r : request) : request := match r with RIncr ident e _ => RIncr ident e 0 | _ => r end.

Section Forward.
  (** The destination cluster (GatewayModel). *)
  Variables (c : config) (tab : bytes -> copy) (hash : bytes -> Z).
  (** cluster_replication.cc:139-162, op_get.cc:120-175 for one key: [q->sync()] waits for the answer. *)
  Definition forward_fetch (ask : world -> bytes -> res (world * bytes)) (now : Z) (ident k : bytes) (w : world) : res (world * source) :=
    let* (w, answer) := ask w (get_request ident [k]) in
    let* o := fetched now k answer in Ok (w, Query o).
  Fixpoint forward_fetch_all (ask : world -> bytes -> res (world * bytes)) (now : Z) (ident : bytes) (keys : list bytes) (w : world)
    : res (world * list (bytes * source)) :=
    match keys with
    | [] => Ok (w, [])
    | k :: keys' =>
        let* (w, src) := forward_fetch ask now ident k w in
        let* (w, l) := forward_fetch_all ask now ident keys' w in
        Ok (w, (k, src) :: l)
    end.
  (** A node with the store [s] in the mode forward reads a request off the stream at the clock value [asked];
      [dest] is the node it sends to, [now] the clock value there.  Nothing depends on the map of its own cluster.
      cluster.cc:1305-1318 and 1368-1382 (before the partition is determined), cluster_replication.cc:167-191.  The trail is passed
      on as it came: the own name is not added (165).  With noreply the request is sent as well before the client is served
      again (the queue is waited for), and no answer is read. *)
  Definition forward_line (hops : nat) (pick : bytes -> nat) (dest : bytes) (asked now : Z) (s : store) (w : world) (stream : bytes)
    : res (store * world * bytes * bytes) :=
    let ask w request := let* (p, _) := node_line c tab hash hops pick now now w dest request in Ok p in
    let* (v, rest) := serve_next asked stream in
    match v with
    | Rejected => Ok (s, w, s2b "ERROR" ++ crlf, rest)
    | Accepted cmd r =>
        match r with
        | ROther _ => Err
        | RPlain _ | RFlush _ | RVerbosity _ => let* p := run_request now s r in Ok (p_store p, w, p_answer p, rest)
        | RGet ident keys =>
            let* (w, l) := forward_fetch_all ask now ident keys w in
            Ok (s, w, send_all (if beq ident (s2b "gets") then response_gets else response_get) l, rest)
        | _ =>
            match write_of (handed_on r) with
            | None => Err
            | Some (e, request) =>
                let* (w, answer) := ask w (request (c_trail cmd)) in
                if noreply e then Ok (s, w, [], rest)
                else let* out := relay now r answer in Ok (s, w, out, rest)
            end
        end
    end.
  (** Clients put requests to nodes in the mode forward: node [x] sends to [dest x].  The stores of the nodes
      themselves, those of the destination, and the answers. *)
  Record asking := mkAsking { a_node : bytes; a_pick : bytes -> nat; a_asked : Z; a_now : Z; a_stream : bytes }.
  Fixpoint forwards (hops : nat) (dest : bytes -> bytes) (l : list asking) (ss : bytes -> store) (w : world) : res ((bytes -> store) * world * list bytes) :=
    match l with
    | [] => Ok (ss, w, [])
    | a :: l' =>
        let x := a_node a in
        let* (p, _) := forward_line hops (a_pick a) (dest x) (a_asked a) (a_now a) (ss x) w (a_stream a) in
        let '(s, w, answer) := p in
        let* (q, out) := forwards hops dest l' (fun y => if beq x y then s else ss y) w in
        Ok (q, answer :: out)
    end.
End Forward.

(** ** Mode duplicate *)
(** cluster_replication.cc:196-221: what a node sends to its destination after a write it has carried out: nothing unless
    it is a master, whatever the partition; the trail is passed on as it came. *)
Definition duplicate (r : role) (trail : list bytes) (f : bytes * entry) : option bytes :=
  match r with Master => Some (forward_request trail f) | Slave | Proxy => None end.

(** ** The dump *)
(** op_set.cc:183-211: the data is copied with the size of the entry; [Undef] if there is not that much. *)
Definition set_client (e : entry) : res bytes :=
  match memcpy (e_data e) (e_size e) with
  | None => Undef
  | Some _ => Ok (store_request [] (s2b "set") e)
  end.
(** handler_dump_replication.cc:110-126: the record of the key of [e] is read and sent.  Only a negative value returned by get lets
    a key be skipped (111); for a key that is not there, or expired, get returns 0 (storage_tch.cc:461-486).
    Returns the store (get removes an expired record), the entry as it is left, and the request. *)
Definition dump_read (s : store) (now : Z) (e : entry) : res (store * entry * option bytes) :=
  let o := get s now e 0 in
  if (o_ret o <? 0)%Z then Ok (o_store o, o_entry o, None)
  else let* request := set_client (o_entry o) in Ok (o_store o, o_entry o, Some request).
(** One round of the loop: the key the iterator returns, the store and the clock when the record is read (other threads
    go on serving clients), the number of partitions, whether a shutdown was requested, and whether the answer of the
    destination was understood. *)
Record visit := mkVisit { v_key : bytes; v_now : Z; v_store : store; v_size : nat; v_stop : bool; v_answered : bool }.
Section Dump.
  (** the key resolver, the external hash functions, the configured hash, and the partition of the node *)
  Variables (cfg : config) (ext : hash_algorithm -> bytes -> Z) (alg : hash_algorithm) (part : Z).
  (** handler_dump_replication.cc:95-140: the requests written to the destination.  The entry [e] lives
      across the rounds. *)
  Fixpoint dump_visits (e : entry) (l : list visit) : res (list bytes) :=
    match l with
    | [] => Ok []
    | v :: l' =>
        if v_stop v then Ok [] else
        let e := with_key e (TextModel.cstr (v_key v)) in
        match selected cfg ext alg part (v_size v) (e_key e) with
        | None => Undef
        | Some false => dump_visits e l'
        | Some true =>
            let* (p, sent) := dump_read (v_store v) (v_now v) e in
            match sent with
            | None => dump_visits (snd p) l'
            | Some request =>
                if negb (v_answered v) then Ok [request] else
                let* requests := dump_visits (snd p) l' in Ok (request :: requests)
            end
        end
    end.
  Definition dump_replication (l : list visit) : res (list bytes) := dump_visits (empty_entry []) l.
End Dump.

(** ** The dump while clients write *)
(** The master of the source, the node of the destination (that owns the key), what is on the way: the writes
    duplicated, in any order, and the request of the dump with its entry.  A write that fails max_retry times
    is dropped; that is not modelled. *)
Record transfer := mkTransfer { source_store : store; dest_store : store; on_way : list (list bytes * (bytes * entry)); dump_entry : entry; dump_request : option bytes }.
Inductive incident :=
| Client (now : Z) (stream : bytes)          (* a client's bytes are served by the master *)
| Visit (now : Z) (k : bytes)                (* the dump reads the record of the next key *)
| Land (now : Z)                             (* its request is carried out by the destination *)
| Attempt (now : Z) (i : nat)                (* so is the ith duplicated write, the answer is lost *)
| Deliver (now : Z) (i : nat).               (* or arrives *)
Definition transfer_step (st : transfer) (h : incident) : res (transfer * bytes) :=
  match h with
  | Client now stream =>
      let* (v, rest) := serve_next now stream in
      let* (p, rest) := run_line now (source_store st) stream in
      let trail := match v with Accepted cmd _ => c_trail cmd | Rejected => [] end in
      Ok (mkTransfer (p_store p) (dest_store st) (on_way st ++ match p_forward p with Some f => [(trail, f)] | None => [] end) (dump_entry st) (dump_request st), p_answer p)
  | Visit now k =>
      match dump_request st with
      | Some _ => Err
      | None =>
          let* (p, sent) := dump_read (source_store st) now (with_key (dump_entry st) (TextModel.cstr k)) in
          Ok (mkTransfer (fst p) (dest_store st) (on_way st) (snd p) sent, [])
      end
  | Land now =>
      match dump_request st with
      | None => Err
      | Some request =>
          let* (p, rest) := run_line now (dest_store st) request in
          Ok (mkTransfer (source_store st) (p_store p) (on_way st) (dump_entry st) None, p_answer p)
      end
  | Attempt now i =>
      match nth_error (on_way st) i with
      | None => Err
      | Some (trail, f) =>
          let* (p, rest) := run_line now (dest_store st) (forward_request trail f) in
          Ok (mkTransfer (source_store st) (p_store p) (on_way st) (dump_entry st) (dump_request st), p_answer p)
      end
  | Deliver now i =>
      match nth_error (on_way st) i with
      | None => Err
      | Some (trail, f) =>
          let* (p, rest) := run_line now (dest_store st) (forward_request trail f) in
          Ok (mkTransfer (source_store st) (p_store p) (firstn i (on_way st) ++ skipn (S i) (on_way st)) (dump_entry st) (dump_request st), p_answer p)
      end
  end.
Fixpoint transfer_run (st : transfer) (l : list incident) : res transfer :=
  match l with
  | [] => Ok st
  | h :: l' => let* (st, _) := transfer_step st h in transfer_run st l'
  end.
