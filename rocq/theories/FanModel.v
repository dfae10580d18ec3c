(** Model of one queue entry that is given to several workers while its requester waits
    for them: src/lib/thread_queue.cc:84-136 ([sync], [sync_ref], [sync_unref]),
    src/lib/cluster.cc:1606-1626 ([_enqueue]), 1463-1492 ([post_proxy_write]), 1400-1412
    ([pre_proxy_write]), 1656-1733 ([_broadcast]), and of the workers
    src/lib/handler_proxy.cc:74-129 and src/lib/thread.cc:289-300.

    A step is what one thread does under the entry's mutex, or one step without it; any
    interleaving of the steps is a schedule.  The workers' queues and their other entries
    (C36) appear as the freedom of a worker to start whenever it likes. *)
From Coq Require Import List Bool Arith ZArith.
Import ListNotations.

(** What the requester still has to do: hand the entry to a worker, or wait. *)
Inductive instr := Give (d : nat) | Await.

(** cluster.cc:1467-1492: one worker for each slave (0 .. n-1), the wait, and then the worker
    of the node that is being prepared as master, if there is one. *)
Definition write_prog (n : nat) (prepared : bool) : list instr :=
  map Give (seq 0 n) ++ Await :: (if prepared then [Give n] else []).
(** cluster.cc:1406-1412: one worker. *)
Definition forward_prog : list instr := [Give 0; Await].
(** cluster.cc:1660-1732: [m] nodes first, wait, then [n] nodes, wait. *)
Definition broadcast_prog (m n : nat) : list instr :=
  (if Nat.eqb m 0 then [] else map Give (seq 0 m) ++ [Await]) ++ map Give (seq m n) ++ [Await].

(** A worker, as to this entry. *)
Inductive work :=
| Away              (* has not got it *)
| Queued            (* has it in its queue *)
| Busy              (* has taken it out and will process it (handler_proxy.cc:82-96) *)
| Handled           (* has processed it (118) *)
| Counted (z : bool)(* has counted down; [z]: to 0, it will signal (thread_queue.cc:124-132) *)
| Done              (* is past sync_unref *)
| Lost.             (* has stopped between taking and processing it (handler_proxy.cc:88-92) *)

(** The requester is between calls, inside _enqueue with the count raised, or in
    pthread_cond_wait. *)
Inductive mode := Free | Mid | Waits.

(** [given], [got] and [swept] list the workers that have it in the order they got it,
    processed it, and let go of it unprocessed; [promised]: the workers that had been given it
    when the requester last finished waiting. *)
Record st := mkSt { prog : list instr; how : mode; count : Z; at_ : nat -> work;
                    given : list nat; got : list nat; swept : list nat; promised : list nat }.
Definition st0 (p : list instr) : st := mkSt p Free 0 (fun _ => Away) [] [] [] [].

Definition upd (f : nat -> work) (d : nat) (w : work) : nat -> work := fun x => if Nat.eqb x d then w else f x.
Definition put (s : st) (d : nat) (w : work) : st := mkSt (prog s) (how s) (count s) (upd (at_ s) d w) (given s) (got s) (swept s) (promised s).
(** thread_queue.cc:124-129: the count goes down under the mutex. *)
Definition unref (s : st) (d : nat) : st :=
  let c := (count s - 1)%Z in
  mkSt (prog s) (how s) c (upd (at_ s) d (Counted (Z.eqb c 0))) (given s) (got s) (swept s) (promised s).
(** The requester's wait is over. *)
Definition release (s : st) : st := mkSt (tl (prog s)) Free (count s) (at_ s) (given s) (got s) (swept s) (given s).

Inductive event :=
| Skip               (* cluster.cc:1610-1612: there is no thread for the node *)
| Ref                (* cluster.cc:1614-1616, thread_queue.cc:105-114 *)
| Push (ok : bool)   (* cluster.cc:1617-1622; [ok]: the worker takes it, else the count goes down again *)
| Sync               (* thread_queue.cc:84-99 up to pthread_cond_wait *)
| Spurious           (* pthread_cond_wait returns without a signal, which POSIX allows *)
| Start (d : nat)    (* handler_proxy.cc:82-96 *)
| Drop (d : nat)     (* handler_proxy.cc:82-92: the worker is told to stop *)
| Sweep (d : nat)    (* thread.cc:289-300: the worker has stopped and clears its queue *)
| Handle (d : nat)   (* handler_proxy.cc:94-123 *)
| Unref (d : nat)    (* handler_proxy.cc:128, thread_queue.cc:124-129 *)
| Signal (d : nat).  (* thread_queue.cc:131-133 *)

(** Next state; [None] if the step is not possible now.  When an entry is refused the
    requester counts down itself; its signal finds nobody, as only it ever waits. *)
Definition step (s : st) (e : event) : option st :=
  match e with
  | Skip => match how s, prog s with
            | Free, Give _ :: p => Some (mkSt p Free (count s) (at_ s) (given s) (got s) (swept s) (promised s))
            | _, _ => None
            end
  | Ref => match how s, prog s with
           | Free, Give _ :: _ => Some (mkSt (prog s) Mid (count s + 1) (at_ s) (given s) (got s) (swept s) (promised s))
           | _, _ => None
           end
  | Push ok =>
      match how s, prog s with
      | Mid, Give d :: p =>
          Some (if ok then mkSt p Free (count s) (upd (at_ s) d Queued) (given s ++ [d]) (got s) (swept s) (promised s)
                else mkSt p Free (count s - 1) (at_ s) (given s) (got s) (swept s) (promised s))
      | _, _ => None
      end
  | Sync => match how s, prog s with
            | Free, Await :: _ => Some (if Z.eqb (count s) 0 then release s
                                        else mkSt (prog s) Waits (count s) (at_ s) (given s) (got s) (swept s) (promised s))
            | _, _ => None
            end
  | Spurious => match how s with Waits => Some (release s) | _ => None end
  | Start d => match at_ s d with Queued => Some (put s d Busy) | _ => None end
  | Drop d => match at_ s d with Queued => Some (put s d Lost) | _ => None end
  | Sweep d =>
      match at_ s d with
      | Queued => Some (unref (mkSt (prog s) (how s) (count s) (at_ s) (given s) (got s) (swept s ++ [d]) (promised s)) d)
      | _ => None
      end
  | Handle d =>
      match at_ s d with
      | Busy => Some (put (mkSt (prog s) (how s) (count s) (at_ s) (given s) (got s ++ [d]) (swept s) (promised s)) d Handled)
      | _ => None
      end
  | Unref d => match at_ s d with Handled => Some (unref s d) | _ => None end
  | Signal d =>
      match at_ s d with
      | Counted z => Some (if z then match how s with Waits => release (put s d Done) | _ => put s d Done end else put s d Done)
      | _ => None
      end
  end.
Fixpoint steps (s : st) (es : list event) : option st :=
  match es with [] => Some s | e :: es' => match step s e with Some s' => steps s' es' | None => None end end.
