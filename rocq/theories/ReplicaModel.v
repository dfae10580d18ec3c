(** Model of a master and one of its replicas: cluster.cc:1422-1494 (post_proxy_write puts the operation
    on the queue of every active replica after the local storage call), handler_proxy.cc:63-175
    (takes it off and sends it), queue_proxy_write.cc:60-128 (up to max_retry attempts).

    The queue of each replica is independent of the others, so one replica is modelled.  [pending]
    lists the operations whose storage call at the master is done and whose delivery is not, in the
    order of the storage calls; the threads of the pool may deliver them in any order ([Deliver] takes an
    index).  The code picks the queue by the hash of the key, so operations on one key are delivered in
    the order in which they were queued; two client threads working on the same key at the same
    time may queue in the other order (the storage lock is released before post_proxy_write), see
    [in_order] in ReplicaSpec.  An operation that fails max_retry times is dropped; that is not modelled
    (the index server takes the replica out, MonitorModel). *)
From Coq Require Import NArith ZArith List Bool String.
From Verif Require Import Base StorageModel TextModel SessionModel ServerModel.
Import ListNotations.
Local Open Scope N_scope.

Record pair := mkPair { master : store; replica : store; pending : list (bytes * entry) }.

Inductive event :=
| Client (now : Z) (stream : bytes)            (* a client's bytes are served by the master *)
| Read (now : Z) (t : response_type) (keys : list bytes)  (* a client reads from the replica *)
| Attempt (now : Z) (i : nat)                  (* pending[i] reaches the replica, the answer is lost *)
| Deliver (now : Z) (i : nat).                 (* pending[i] reaches the replica and is answered *)

Fixpoint remove_nth {A} (i : nat) (l : list A) : list A :=
  match l, i with
  | [], _ => []
  | _ :: l', O => l'
  | x :: l', S i' => x :: remove_nth i' l'
  end.

(** One event; [trail] is what the master writes in front of a forwarded request.  The bytes are
    what the client, or the master, gets as an answer. *)
Definition step (trail : list bytes) (st : pair) (ev : event) : res (pair * bytes) :=
  match ev with
  | Client now stream =>
      let* (p, rest) := run_line now (master st) stream in
      Ok (mkPair (p_store p) (replica st)
            (pending st ++ match p_forward p with Some f => [f] | None => [] end), p_answer p)
  | Read now t keys =>
      let '(s, out) := run_get now (replica st) t keys in
      Ok (mkPair (master st) s (pending st), out)
  | Attempt now i =>
      match nth_error (pending st) i with
      | None => Err
      | Some f =>
          let* (p, rest) := run_line now (replica st) (forward_request trail f) in
          Ok (mkPair (master st) (p_store p) (pending st), p_answer p)
      end
  | Deliver now i =>
      match nth_error (pending st) i with
      | None => Err
      | Some f =>
          let* (p, rest) := run_line now (replica st) (forward_request trail f) in
          Ok (mkPair (master st) (p_store p) (remove_nth i (pending st)), p_answer p)
      end
  end.
