(** Model of a worker's queue and of the requesters that wait for their entries:
    src/lib/thread.cc:388-458 ([dequeue], [enqueue]), src/lib/thread_queue.cc:81-138
    ([sync], [sync_ref], [sync_unref]), src/lib/cluster.cc:1606-1626 ([_enqueue]), and the
    loops of src/lib/handler_proxy.cc:64-132, handler_controller.cc:58-81,
    handler_monitor.cc:76-127 and handler_cluster_replication.cc:72-97.

    A step is what one thread does while it holds a mutex, or one access to a shared
    variable without it; any interleaving of the steps is a schedule.  Entries are
    numbers.  Each entry is handed to one worker once. *)
From Coq Require Import List Bool NArith ZArith.
Import ListNotations.

(** How the loops differ: the monitor uses the entry although dequeue returned -1
    (handler_monitor.cc:91-119; the others continue), waits with a timeout, and the
    replication of a cluster releases an entry it does not process
    (handler_cluster_replication.cc:88-93; the others just leave the loop). *)
Record kind := mkKind { uses_null : bool; timed : bool; releases : bool }.
Definition proxy_kind : kind := mkKind false false false.
Definition monitor_kind : kind := mkKind true true false.
Definition replication_kind : kind := mkKind false false true.

(** Where a worker is. *)
Inductive place :=
| Top                 (* at the head of the loop *)
| Enter               (* calls dequeue *)
| Asleep              (* in pthread_cond_wait on the queue's condition *)
| Awake               (* has returned from it *)
| Holds (i : N)       (* has taken an entry *)
| Works (i : N)       (* is past the second check for a shutdown *)
| Signals (i : N)     (* has decremented the count of the entry *)
| Quit                (* has left the loop *)
| Drops (i : N)       (* has left the loop with an entry that it releases *)
| Idle                (* thread.cc:253-255: _running is false again *)
| Sweeps (i : N)      (* has decremented the count of an entry it found in the queue *)
| Swept               (* thread.cc:284-300: the queue was empty *)
| Crashed.            (* used a null pointer *)

(** Where the requester of an entry is. *)
Inductive stage :=
| NotYet | Counted | Checked | Pushed | Sent | Refused | Waits | Released | Failed.

(** [taken], [pushed], [handled] and [settled] record entries in the order they are taken from
    the queue, put into it, processed, and released. *)
Record st := mkSt {
  queue : list N; at_ : place; running : bool; shut : bool;
  stage_of : N -> stage; refs : N -> Z;
  pushed : list N; taken : list N; handled : list N; settled : list N }.
(** A worker that has just been started. *)
Definition st0 : st := mkSt [] Top true false (fun _ => NotYet) (fun _ => 0%Z) [] [] [] [].

Definition set_place (s : st) (p : place) : st := mkSt (queue s) p (running s) (shut s) (stage_of s) (refs s) (pushed s) (taken s) (handled s) (settled s).
Definition upd {A} (f : N -> A) (i : N) (v : A) : N -> A := fun j => if N.eqb j i then v else f j.
Definition set_stage (s : st) (i : N) (g : stage) : st := mkSt (queue s) (at_ s) (running s) (shut s) (upd (stage_of s) i g) (refs s) (pushed s) (taken s) (handled s) (settled s).
(** thread_queue.cc:119-136 [sync_unref], first half: the count goes down. *)
Definition unref (s : st) (i : N) : st := mkSt (queue s) (at_ s) (running s) (shut s) (stage_of s) (upd (refs s) i (refs s i - 1)%Z) (pushed s) (taken s) (handled s) (settled s ++ [i]).
(** Second half: if it came to 0, one waiter is woken. *)
Definition signal (s : st) (i : N) : st :=
  if Z.eqb (refs s i) 0 then match stage_of s i with Waits => set_stage s i Released | _ => s end else s.
(** pthread_cond_signal or broadcast on the queue's condition. *)
Definition wake (s : st) : st := match at_ s with Asleep => set_place s Awake | _ => s end.
Definition take (s : st) (i : N) (q : list N) : st := mkSt q (Holds i) (running s) (shut s) (stage_of s) (refs s) (pushed s) (taken s ++ [i]) (handled s) (settled s).

(** Steps of the requester of [i], of the worker, and others. *)
Inductive event :=
| Ref (i : N)                (* cluster.cc:1614-1616 *)
| Check (i : N)              (* thread.cc:436-439 *)
| Push (i : N) (room : bool) (* thread.cc:441-453; [room]: the limit is not reached *)
| Send (i : N)               (* thread.cc:454 *)
| Undo (i : N)               (* cluster.cc:1617-1622 *)
| Sync (i : N)               (* thread_queue.cc:81-98 *)
| Worker                     (* the worker's next step *)
| Timeout                    (* the worker's wait times out *)
| Shutdown                   (* thread.cc:326-336 *)
| SpuriousWorker             (* pthread_cond_wait returns without a signal, *)
| SpuriousWaiter (i : N).    (* which POSIX allows *)

(** Next state; [None] if the step is not possible now. *)
Definition step (k : kind) (s : st) (e : event) : option st :=
  match e with
  | Ref i =>
      match stage_of s i with
      | NotYet => Some (mkSt (queue s) (at_ s) (running s) (shut s) (upd (stage_of s) i Counted) (upd (refs s) i (refs s i + 1)%Z) (pushed s) (taken s) (handled s) (settled s))
      | _ => None
      end
  | Check i => match stage_of s i with Counted => Some (set_stage s i (if running s then Checked else Refused)) | _ => None end
  | Push i room =>
      match stage_of s i with
      | Checked =>
          if room then Some (mkSt (queue s ++ [i]) (at_ s) (running s) (shut s) (upd (stage_of s) i Pushed) (refs s) (pushed s ++ [i]) (taken s) (handled s) (settled s))
          else Some (set_stage s i Refused)
      | _ => None
      end
  | Send i => match stage_of s i with Pushed => Some (wake (set_stage s i Sent)) | _ => None end
  | Undo i => match stage_of s i with Refused => Some (set_stage (unref s i) i Failed) | _ => None end
  | Sync i => match stage_of s i with Sent => Some (set_stage s i (if Z.eqb (refs s i) 0 then Released else Waits)) | _ => None end
  | Worker =>
      match at_ s with
      | Top => Some (set_place s (if shut s then Quit else Enter))
      | Enter => Some (match queue s with [] => set_place s Asleep | i :: q => take s i q end)
      | Asleep => None
      | Awake => Some (match queue s with
                       | [] => set_place s (if shut s then Top else if uses_null k then Crashed else Top)
                       | i :: q => take s i q
                       end)
      | Holds i =>
          if shut s then Some (if releases k then unref (set_place s (Drops i)) i else set_place s Quit)
          else Some (mkSt (queue s) (Works i) (running s) (shut s) (stage_of s) (refs s) (pushed s) (taken s) (handled s ++ [i]) (settled s))
      | Works i => Some (unref (set_place s (Signals i)) i)
      | Signals i => Some (signal (set_place s Top) i)
      | Drops i => Some (signal (set_place s Quit) i)
      | Quit => Some (mkSt (queue s) Idle false (shut s) (stage_of s) (refs s) (pushed s) (taken s) (handled s) (settled s))
      | Idle =>
          Some (match queue s with
                | [] => set_place s Swept
                | i :: q => unref (mkSt q (Sweeps i) (running s) (shut s) (stage_of s) (refs s) (pushed s) (taken s ++ [i]) (handled s) (settled s)) i
                end)
      | Sweeps i => Some (signal (set_place s Idle) i)
      | Swept | Crashed => None
      end
  | Timeout => match at_ s with Asleep => if timed k then Some (set_place s Top) else None | _ => None end
  | Shutdown =>
      let s' := mkSt (queue s) (at_ s) (running s) true (stage_of s) (refs s) (pushed s) (taken s) (handled s) (settled s) in
      Some (if running s then wake s' else s')
  | SpuriousWorker => match at_ s with Asleep => Some (set_place s Awake) | _ => None end
  | SpuriousWaiter i => match stage_of s i with Waits => Some (set_stage s i Released) | _ => None end
  end.
Fixpoint steps (k : kind) (s : st) (es : list event) : option st :=
  match es with [] => Some s | e :: es' => match step k s e with Some s' => steps k s' es' | None => None end end.

(** ** The limit on all queues together
    thread.cc:441-453 reads a counter that all workers share, under the mutex of one
    worker; thread.cc:394, 420, 297 count down. *)
Record load := mkLoad { total : N; inside : nat -> option N (* the size read by whoever holds the mutex of a worker *) }.
Inductive levent := ReadSize (w : nat) | PushOrNot (w : nat) | Pop (w : nat).
Definition updn {A} (f : nat -> A) (i : nat) (v : A) : nat -> A := fun j => if Nat.eqb j i then v else f j.
(** [None]: not possible now. *)
Definition lstep (max : N) (l : load) (e : levent) : option load :=
  match e with
  | ReadSize w => match inside l w with None => Some (mkLoad (total l) (updn (inside l) w (Some (total l)))) | _ => None end
  | PushOrNot w =>
      match inside l w with
      | None => None
      | Some size =>
          Some (mkLoad (if N.eqb max 0 || N.ltb size max then total l + 1 else total l)%N (updn (inside l) w None))
      end
  | Pop w => match inside l w with None => if N.eqb (total l) 0 then None else Some (mkLoad (total l - 1) (inside l)) | _ => None end
  end.
Fixpoint lsteps (max : N) (l : load) (es : list levent) : option load :=
  match es with [] => Some l | e :: es' => match lstep max l e with Some l' => lsteps max l' es' | None => None end end.
Definition load0 : load := mkLoad 0 (fun _ => None).
