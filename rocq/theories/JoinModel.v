(** Model of a node that joins a partition while clients write: src/lib/op_dump.cc (both sides of the dump),
    handler_reconstruction.cc, and the writes that the master sends on meanwhile (cluster.cc:1422-1494,
    queue_proxy_write.cc), as in ReplicaModel.

    The master serves clients, runs the loop of the dump in one thread and sends the writes on with others, in any order.  The
    node that joins takes records off the connection of the dump in one thread and carries out the writes sent on in
    others.  The storage calls are atomic (the lock of storage_tch).  A connection that breaks and a shutdown end the
    reconstruction with a failure (DumpModel); a write that fails max_retry times is dropped: neither is modelled here. *)
From Coq Require Import NArith ZArith List Bool String.
From Verif Require Import Base StorageModel TextModel SessionModel ServerModel KeyResolverModel DumpModel.
Import ListNotations.
Local Open Scope N_scope.
Local Open Scope list_scope.

(** ** One round of the two loops *)
Section Turn.
  (** as in DumpModel: the key resolver, the hash functions, the configured hash, and what the request asks for *)
  Variables (cfg : config) (ext : hash_algorithm -> bytes -> Z) (alg : hash_algorithm) (part : Z) (psize : nat).
  (** op_dump.cc:175-219 for one key [k] of the iterator: the store, the entry, and what is sent *)
  Definition dump_turn (s : store) (e : entry) (now : Z) (k : bytes) : res (store * entry * bytes) :=
    let e := with_key e (TextModel.cstr k) in
    match selected cfg ext alg part psize (e_key e) with
    | None => Undef
    | Some false => Ok (s, e, [])
    | Some true =>
        let o := get s now e 0 in
        if (o_ret o <? 0)%Z || match o_res o with Some result_not_found => true | _ => false end
        then Ok (o_store o, o_entry o, [])
        else Ok (o_store o, o_entry o, print_response response_dump (o_entry o))
    end.
End Turn.
(** op_dump.cc:243-310, one round of the loop *)
Inductive landed := LUndef | LFail | LEnd (rest : bytes) | LStored (s : store) (rest : bytes).
Definition dump_round (now : Z) (s : store) (str : bytes) : landed :=
  match get_line str with
  | Undef => LUndef
  | Err => LFail
  | Ok (line, str) =>
      if beq (TextModel.cstr line) (s2b "END" ++ [10]) then LEnd str
      else match call_word BUFSIZ line with
      | Undef => LUndef
      | Err => LFail
      | Ok (w, p) =>
          if negb (beq w (s2b "VALUE")) then LFail
          else match parse_entry now parse_get p with
          | Undef => LUndef
          | Err => LFail
          | Ok e =>
              match get_bytes (e_size e + 2) str with
              | Undef => LUndef
              | Err => LFail
              | Ok (d, str) =>
                  match set s now (with_data e (firstn (N.to_nat (e_size e)) d)) behavior_dump with
                  | None => LUndef
                  | Some o => LStored (o_store o) str
                  end
              end
          end
      end
  end.

(** ** The two nodes *)
(** The store of the master, that of the node that joins, the writes that are to be sent on (each with its trail),
    the entry of the loop of the dump, what is on the connection of the dump, whether the iterator has come to its end,
    and whether the node that joins has read the end (then it asks the index server for activation,
    handler_reconstruction.cc:93-105). *)
Record joining := mkJoining {
  j_master : store; j_replica : store; j_pending : list (list bytes * (bytes * entry));
  j_entry : entry; j_wire : bytes; j_ended : bool; j_whole : bool }.
Inductive event :=
| Client (now : Z) (stream : bytes)            (* a client's bytes are served by the master *)
| Visit (now : Z) (k : bytes)                  (* the iterator of the dump gives [k] *)
| Finish (now : Z)                             (* the iterator has no more keys *)
| Land (now : Z)                               (* the node that joins reads on *)
| Attempt (now : Z) (i : nat)                  (* pending[i] reaches it, the answer is lost *)
| Deliver (now : Z) (i : nat).                 (* pending[i] reaches it and is answered *)

Section Step.
  Variables (cfg : config) (ext : hash_algorithm -> bytes -> Z) (alg : hash_algorithm) (part : Z) (psize : nat).
  (** One event; [Err] if it cannot happen. *)
  Definition join_step (st : joining) (ev : event) : res joining :=
    let deliver now i (done : bool) :=
      match nth_error (j_pending st) i with
      | None => Err
      | Some (trail, f) =>
          let* (p, _) := run_line now (j_replica st) (forward_request trail f) in
          Ok (mkJoining (j_master st) (p_store p) (if done then firstn i (j_pending st) ++ skipn (S i) (j_pending st) else j_pending st)
                (j_entry st) (j_wire st) (j_ended st) (j_whole st))
      end in
    match ev with
    | Client now stream =>
        let* (v, _) := serve_next now stream in
        let trail := match v with Accepted c _ => c_trail c | Rejected => [] end in
        let* (p, _) := run_line now (j_master st) stream in
        Ok (mkJoining (p_store p) (j_replica st) (j_pending st ++ match p_forward p with Some f => [(trail, f)] | None => [] end)
              (j_entry st) (j_wire st) (j_ended st) (j_whole st))
    | Visit now k =>
        if j_ended st then Err else
        let* (p, out) := dump_turn cfg ext alg part psize (j_master st) (j_entry st) now k in
        Ok (mkJoining (fst p) (j_replica st) (j_pending st) (snd p) (j_wire st ++ out) false (j_whole st))
    | Finish now =>
        if j_ended st then Err else
        Ok (mkJoining (j_master st) (j_replica st) (j_pending st) (j_entry st) (j_wire st ++ last_line Ended) true (j_whole st))
    | Land now =>
        if j_whole st then Err else
        match dump_round now (j_replica st) (j_wire st) with
        | LUndef => Undef
        | LFail => Err
        | LEnd rest => Ok (mkJoining (j_master st) (j_replica st) (j_pending st) (j_entry st) rest (j_ended st) true)
        | LStored s rest => Ok (mkJoining (j_master st) s (j_pending st) (j_entry st) rest (j_ended st) false)
        end
    | Attempt now i => deliver now i false
    | Deliver now i => deliver now i true
    end.
End Step.
