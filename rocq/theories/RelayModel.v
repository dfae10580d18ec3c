(** Model of how a request that is to be passed on finds the thread that passes it on:
    src/lib/cluster.cc:2225-2264 ([_get_proxy_thread]), 1606-1626 ([_enqueue]),
    thread.cc:198-305 ([wait], [trigger], [run], [clean]), 388-458 ([dequeue], [enqueue]),
    thread_pool.cc:62-181 ([get], [get_active], [clean]) and handler_proxy.cc:64-132.

    One queue and its waiters are in QueueModel, the ids of threads in PoolModel; here a thread ends,
    goes to the pool and is used again, possibly for another node.  A step is a section under a lock
    or one access to a shared variable; any interleaving is a schedule.  Requests, nodes and thread
    objects are numbers.  Simplified: ids grow for ever, so the map of a node's threads is ordered by
    age; whether there is room in the queue (thread.cc:442-447) and in the pool
    (thread_pool.cc:170-177) is part of the schedule; a thread that was told to start does so at once
    (thread.cc:223-240); only a thread that runs is told to stop. *)
From Coq Require Import List Bool NArith Arith.
Import ListNotations.
Local Open Scope N_scope.

(** [concurrency]: proxy-concurrency, 0 if negative (ini_option.cc:246: any number is accepted);
    the node and the hash of each request (cluster.cc:1606; the hash is converted to size_t). *)
Record setup := mkSetup { concurrency : nat; to : N -> N; hash : N -> N }.

(** What a thread is used for: requests for a node, or something else (monitoring, reconstruction,
    dump ...), whose handlers do not take such requests from a queue. *)
Notation use := (option N) (only parsing).
Inductive place :=
| Idle                              (* in the pool, or not yet created *)
| Ready (u : use)                   (* thread_pool.cc:101-103: registered *)
| Runs (u : use) (h : option N)     (* thread.cc:238-248; [h]: the request taken from the queue *)
| Left (u : use)                    (* thread.cc:250-261: _running is false *)
| Swept (u : use)                   (* thread.cc:279-300: the queue was emptied *)
| Erased                            (* thread_pool.cc:149-166 *)
| Gone.                             (* 174-176: not pooled, the thread exits *)

Inductive stage :=
| NotYet
| Making (n : nat)                  (* cluster.cc:2242: [n] threads are still to be made *)
| Made (t : N) (n : nat)            (* 2243: the pool has given [t] *)
| Found (t : N)                     (* 2253-2260 *)
| Checked (t : N)                   (* thread.cc:436: it was running *)
| Pushed
| Refused.

(** What became of a request. *)
Inductive outcome :=
| Sent (r node : N)                 (* handler_proxy.cc:118: processed on the connection to [node] *)
| Skipped (r : N)                   (* 95-116: the node has become a proxy *)
| Dropped (r : N)                   (* 88-92: the thread was told to stop; nobody is told *)
| Released (r : N).                 (* thread.cc:290-296, 126-133: not processed *)
Definition who (o : outcome) : N := match o with Sent r _ | Skipped r | Dropped r | Released r => r end.

(** [active]: the global map, oldest first; [pool], its top first; all thread objects so far are below
    [fresh]; [asked]: requests so far; [log]: outcomes, oldest first; [dead]: division by zero. *)
Record st := mkSt {
  active : list (option N * N); pool : list N; fresh : N;
  place_of : N -> place; queue_of : N -> list N; stop : N -> bool;
  stage_of : N -> stage; asked : list N; log : list outcome; dead : bool }.
Definition st0 : st := mkSt [] [] 0 (fun _ => Idle) (fun _ => []) (fun _ => false) (fun _ => NotYet) [] [] false.

Definition upd {A} (f : N -> A) (i : N) (v : A) : N -> A := fun j => if j =? i then v else f j.
Definition set_stage (s : st) (r : N) (g : stage) : st := mkSt (active s) (pool s) (fresh s) (place_of s) (queue_of s) (stop s) (upd (stage_of s) r g) (asked s) (log s) (dead s).
Definition set_place (s : st) (t : N) (p : place) : st := mkSt (active s) (pool s) (fresh s) (upd (place_of s) t p) (queue_of s) (stop s) (stage_of s) (asked s) (log s) (dead s).
Definition set_queue (s : st) (t : N) (q : list N) : st := mkSt (active s) (pool s) (fresh s) (place_of s) (upd (queue_of s) t q) (stop s) (stage_of s) (asked s) (log s) (dead s).
Definition note (s : st) (l : list outcome) : st := mkSt (active s) (pool s) (fresh s) (place_of s) (queue_of s) (stop s) (stage_of s) (asked s) (log s ++ l) (dead s).
Definition set_stop (s : st) (t : N) (b : bool) : st := mkSt (active s) (pool s) (fresh s) (place_of s) (queue_of s) (upd (stop s) t b) (stage_of s) (asked s) (log s) (dead s).
Definition ask (s : st) (r : N) : st := mkSt (active s) (pool s) (fresh s) (place_of s) (queue_of s) (stop s) (stage_of s) (r :: asked s) (log s) (dead s).
Definition die (s : st) : st := mkSt (active s) (pool s) (fresh s) (place_of s) (queue_of s) (stop s) (stage_of s) (asked s) (log s) true.

Definition use_eqb (a b : option N) : bool := match a, b with Some x, Some y => x =? y | None, None => true | _, _ => false end.
(** thread_pool.cc:135-145 [get_active] by type: each node has its own type. *)
Definition threads_of (s : st) (node : N) : list N := map snd (filter (fun e => use_eqb (fst e) (Some node)) (active s)).
(** cluster.cc:2253-2263: the thread at the place the hash says; division by zero if there is none. *)
Definition pick (c : setup) (s : st) (r : N) (m : list N) : st :=
  match m with
  | [] => die s
  | _ => set_stage s r (Found (nth (N.to_nat (hash c r mod N.of_nat (length m))) m 0))
  end.
(** thread_pool.cc:62-110 [get]: the top of the pool, or a new thread object; it is entered in the map. *)
Definition get_thread (s : st) : N := match pool s with t :: _ => t | [] => fresh s end.
Definition get (s : st) (u : option N) (p : place) : st :=
  let t := get_thread s in
  mkSt (active s ++ [(u, t)]) (tl (pool s)) (match pool s with [] => fresh s + 1 | _ => fresh s end)
    (upd (place_of s) t p) (queue_of s) (stop s) (stage_of s) (asked s) (log s) (dead s).
(** thread.cc:436: [_running] *)
Definition running (p : place) : bool := match p with Runs _ _ => true | _ => false end.
(** The request is about to use the thread. *)
Definition has (g : stage) (t : N) : bool := match g with Found x | Checked x => x =? t | _ => false end.

Inductive event :=
| Look (r : N)               (* cluster.cc:2225-2240, and 2251-2263 *)
| Take (r : N)               (* 2243 *)
| Go (r : N)                 (* 2244-2248 *)
| Check (r : N)              (* thread.cc:436-439 *)
| Push (r : N) (room : bool) (* 441-454 *)
| Dequeue (t : N)            (* handler_proxy.cc:76-87 *)
| Process (t : N) (proxy : bool) (* 88-130; [proxy]: the node is a proxy now *)
| Stop (t : N)               (* thread.cc:328-336: op_kill.cc:110, cluster.cc:831 *)
| Leave (t : N)              (* thread.cc:249-253 *)
| Sweep (t : N)              (* 279-300 *)
| Erase (t : N)              (* thread_pool.cc:149-166 *)
| Pool (t : N) (room : bool) (* 168-178 *)
| Bury (t : N)               (* thread.cc:125-145: the last reference is gone *)
| Borrow.                    (* a thread is taken and started for something else *)

(** Next state; [None]: not possible now. *)
Definition step (c : setup) (s : st) (e : event) : option st :=
  if dead s then None else
  match e with
  | Look r =>
      let m := threads_of s (to c r) in
      match stage_of s r with
      | NotYet =>
          if Nat.ltb (length m) (concurrency c) then Some (set_stage (ask s r) r (Making (concurrency c - length m)))
          else Some (pick c (ask s r) r m)
      | Making O => Some (pick c s r m)
      | _ => None
      end
  | Take r =>
      match stage_of s r with
      | Making (S n) => Some (set_stage (get s (Some (to c r)) (Ready (Some (to c r)))) r (Made (get_thread s) n))
      | _ => None
      end
  | Go r =>
      match stage_of s r with
      | Made t n => match place_of s t with Ready u => Some (set_stage (set_place s t (Runs u None)) r (Making n)) | _ => None end
      | _ => None
      end
  | Check r =>
      match stage_of s r with
      | Found t => Some (set_stage s r (if running (place_of s t) then Checked t else Refused))
      | _ => None
      end
  | Push r room =>
      match stage_of s r with
      | Checked t => if room then Some (set_stage (set_queue s t (queue_of s t ++ [r])) r Pushed) else Some (set_stage s r Refused)
      | _ => None
      end
  | Dequeue t =>
      match place_of s t, queue_of s t with
      | Runs (Some d) None, r :: q => Some (set_place (set_queue s t q) t (Runs (Some d) (Some r)))
      | _, _ => None
      end
  | Process t proxy =>
      match place_of s t with
      | Runs (Some d) (Some r) =>
          Some (set_place (note s [if stop s t then Dropped r else if proxy then Skipped r else Sent r d]) t (Runs (Some d) None))
      | _ => None
      end
  | Stop t => if running (place_of s t) then Some (set_stop s t true) else None
  | Leave t =>
      match place_of s t with
      | Runs (Some d) None => if stop s t then Some (set_place s t (Left (Some d))) else None
      | Runs None None => Some (set_place s t (Left None))
      | _ => None
      end
  | Sweep t =>
      match place_of s t with
      | Left u => Some (set_stop (set_place (note (set_queue s t []) (map Released (queue_of s t))) t (Swept u)) t false)
      | _ => None
      end
  | Erase t =>
      match place_of s t with
      | Swept u =>
          Some (mkSt (filter (fun e => negb (snd e =? t)) (active s)) (pool s) (fresh s) (upd (place_of s) t Erased) (queue_of s) (stop s) (stage_of s) (asked s) (log s) (dead s))
      | _ => None
      end
  | Pool t room =>
      match place_of s t with
      | Erased =>
          Some (mkSt (active s) (if room then t :: pool s else pool s) (fresh s) (upd (place_of s) t (if room then Idle else Gone)) (queue_of s) (stop s) (stage_of s) (asked s) (log s) (dead s))
      | _ => None
      end
  | Bury t =>
      match place_of s t with
      | Gone => if existsb (fun r => has (stage_of s r) t) (asked s) then None else Some (note (set_queue s t []) (map Released (queue_of s t)))
      | _ => None
      end
  | Borrow => Some (get s None (Runs None None))
  end.
Fixpoint steps (c : setup) (s : st) (es : list event) : option st :=
  match es with [] => Some s | e :: es' => match step c s e with Some s' => steps c s' es' | None => None end end.
