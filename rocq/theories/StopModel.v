(** An orderly stop of a node: how the main thread brings the threads of the
    request pool to an end and then closes the storage (src/flared/flared.cc:
    442-455, src/lib/thread_pool.cc:186-211, src/lib/thread.cc:331-383), on top
    of ThreadModel; and what becomes of the queue of a proxy thread
    (src/lib/handler_proxy.cc).

    Simplifications: the threads of the map are brought to an end in the order
    of their numbers (the code: of their ids); no kill is under way when the
    stop begins, and none begins (the map is locked, then empty); the end of a
    thread's loop and its notice (thread.cc:80-82) are one step; sending the
    shutdown message to the index server is left out; the pool of other
    threads is represented by the loop of a proxy thread below. *)
From Coq Require Import List Arith Lia Bool.
From Verif Require Import ThreadModel.
Import ListNotations.

(** The steps of thread::shutdown(false, false) (thread.cc:331-372): the
    request, the trigger, the signal, the wait for the thread's notice. *)
Inductive kst := DoMark | DoTrigger | DoSignal | DoWait.

(** Where the main thread is: in its accept loop; in the loop over the map
    (thread_pool.cc:188-197, the map locked); in the loop over the pool
    (thread_pool.cc:201-208, the pool locked); past both (the other pool is
    next); past storage->close. *)
Inductive phase :=
| Serving
| ActiveP (todo : list nat) (k : kst)
| PoolP (cur : option (nat * kst))
| Closing
| Closed.

(** [shut] is [_shutdown] of a thread (set by notify_shutdown, never cleared),
    [force] whether its [_shutdown_request] is the forced one. *)
Record sst := mkSst { base : st; shut : nat -> bool; force : nat -> bool; ph : phase }.

Definition begin_ (p c : nat) : sst := mkSst (start p c) (fun _ => false) (fun _ => false) Serving.

Definition set_base (x : sst) (s : st) : sst := mkSst s (shut x) (force x) (ph x).
Definition set_ph (x : sst) (p : phase) : sst := mkSst (base x) (shut x) (force x) p.
Definition set_shut (x : sst) (t : nat) : sst := mkSst (base x) (upd (shut x) t true) (force x) (ph x).
Definition set_force (x : sst) (t : nat) : sst := mkSst (base x) (shut x) (upd (force x) t true) (ph x).

Definition map_locked (p : phase) : bool := match p with ActiveP _ _ => true | _ => false end.
Definition map_cleared (p : phase) : bool := match p with PoolP _ | Closing | Closed => true | _ => false end.
Definition pool_locked (p : phase) : bool := match p with PoolP _ => true | _ => false end.

(** thread.cc:80-82: the loop is left and the notice given. *)
Definition exit_ (x : sst) (t : nat) : sst :=
  set_shut (set_base x (set_wk (base x) t (goto (wk_of (base x) t) Exited))) t.

(** The next step of a thread by itself: ThreadModel's, but for a forced
    request (thread.cc:58-60, 63-65, 69-71, 77-79: it ends the thread;
    handler_request.cc: it ends the session after the request), for the locks
    of the stop, for the emptied map (thread_pool.cc:158-163), and for the
    notices (thread.cc:74, 82). *)
Definition go2 (x : sst) (t : nat) : option sst :=
  let s := base x in
  let w := wk_of s t in
  let as_before := match go s t with
                   | Some s' => Some (set_base x s')
                   | None => None
                   end in
  match at_ w with
  | Check1 | Check2 =>
      if force x t then Some (exit_ x t)
      else match go s t with
           | Some s' => Some (if req w then set_shut (set_base x s') t else set_base x s')
           | None => None
           end
  | Inside j Busy =>
      if force x t then Some (set_base x (set_wk s t (goto w (Leave j)))) else as_before
  | CleanMap b =>
      if map_locked (ph x) then None
      else if map_cleared (ph x) then Some (set_base x (set_wk s t (goto w (After b false))))
      else as_before
  | CleanPool b => if pool_locked (ph x) then None else as_before
  | After b pooled =>
      if (negb b && (force x t || req w)) || negb pooled then Some (exit_ x t) else as_before
  | _ => as_before
  end.

(** The steps of the main thread once it stops. *)
Definition main (x : sst) : option sst :=
  let s := base x in
  match ph x with
  | Serving =>                                       (* flared.cc:309-318, 442-445 *)
      match giving s with
      | None => Some (set_ph x (ActiveP (List.filter (fun t => negb (Nat.eqb (id (wk_of s t)) 0))
                                                    (seq 0 (fresh s))) DoMark))
      | Some _ => None
      end
  | ActiveP [] _ => Some (set_ph x (PoolP None))     (* thread_pool.cc:195-197 *)
  | ActiveP (t :: l) DoMark => Some (set_ph (set_force x t) (ActiveP (t :: l) DoTrigger))
  | ActiveP (t :: l) DoTrigger =>
      Some (set_ph (set_base x (set_wk s t (trigger (wk_of s t)))) (ActiveP (t :: l) DoSignal))
  | ActiveP (t :: l) DoSignal =>
      Some (set_ph (set_base x (set_wk s t (interrupt (wk_of s t)))) (ActiveP (t :: l) DoWait))
  | ActiveP (t :: l) DoWait =>
      if shut x t then Some (set_ph x (ActiveP l DoMark)) else None
  | PoolP None =>
      match stack s with
      | t :: l => Some (set_ph (set_base x (set_stack s l)) (PoolP (Some (t, DoMark))))
      | [] => Some (set_ph x Closing)
      end
  | PoolP (Some (t, DoMark)) => Some (set_ph (set_force x t) (PoolP (Some (t, DoTrigger))))
  | PoolP (Some (t, DoTrigger)) =>
      Some (set_ph (set_base x (set_wk s t (trigger (wk_of s t)))) (PoolP (Some (t, DoSignal))))
  | PoolP (Some (t, DoSignal)) =>
      Some (set_ph (set_base x (set_wk s t (interrupt (wk_of s t)))) (PoolP (Some (t, DoWait))))
  | PoolP (Some (t, DoWait)) => if shut x t then Some (set_ph x (PoolP None)) else None
  | Closing => Some (set_ph x Closed)                (* flared.cc:449-450 *)
  | Closed => None
  end.

(** thread.cc:357-365: the wait is given up after shutdown_timeout (60 s). *)
Definition give_up (x : sst) : option sst :=
  match ph x with
  | ActiveP (t :: l) DoWait => Some (set_ph x (ActiveP l DoMark))
  | PoolP (Some (t, DoWait)) => Some (set_ph x (PoolP None))
  | _ => None
  end.

Inductive sevent :=
| Ev (e : event)   (* what happens besides the stop *)
| Main             (* the next step of the stop *)
| Timeout.         (* the stop gives up waiting for a thread *)

Definition sstep (x : sst) (e : sevent) : option sst :=
  match e with
  | Main => main x
  | Timeout => give_up x
  | Ev (Go t) => if t <? fresh (base x) then go2 x t else None
  | Ev ((Ask _ | Gone _ | Spurious _) as e') =>
      match step (base x) e' with Some s' => Some (set_base x s') | None => None end
  | Ev e' =>
      match ph x with
      | Serving => match step (base x) e' with Some s' => Some (set_base x s') | None => None end
      | _ => None
      end
  end.

Fixpoint ssteps (x : sst) (es : list sevent) : option sst :=
  match es with
  | [] => Some x
  | e :: r => match sstep x e with Some x' => ssteps x' r | None => None end
  end.

(** A proxy thread's loop (src/lib/handler_proxy.cc:58-107, thread.cc:388-428):
    the check for a shutdown request, the dequeue, the check after it, the
    processing. Entries are numbers. *)
Inductive pplace := PCheck | PDequeue | PWait | PCheck2 (q : nat) | PProcess (q : nat) | PDone.
Record pst := mkPst { pat : pplace; pqueue : list nat; pforce : bool; processed : list nat }.

Definition pgo (x : pst) : option pst :=
  match pat x with
  | PCheck => Some (mkPst (if pforce x then PDone else PDequeue) (pqueue x) (pforce x) (processed x))
  | PDequeue =>
      match pqueue x with
      | q :: l => Some (mkPst (PCheck2 q) l (pforce x) (processed x))
      | [] => Some (mkPst PWait [] (pforce x) (processed x))
      end
  | PWait => None
  | PCheck2 q => Some (mkPst (if pforce x then PDone else PProcess q) (pqueue x) (pforce x) (processed x))
  | PProcess q => Some (mkPst PCheck (pqueue x) (pforce x) (q :: processed x))
  | PDone => None
  end.

Inductive pevent :=
| PGo             (* its own next step *)
| PPush (q : nat) (* a write is queued and the thread woken: thread.cc:434-458 *)
| PStop           (* the stop marks the thread: thread.cc:334 *)
| PWake.          (* ... and wakes it: thread.cc:341 *)

Definition pstep (x : pst) (e : pevent) : option pst :=
  match e with
  | PGo => pgo x
  | PPush q =>
      match pat x with
      | PDone => None
      | PWait => Some (mkPst PDequeue (pqueue x ++ [q]) (pforce x) (processed x))
      | p => Some (mkPst p (pqueue x ++ [q]) (pforce x) (processed x))
      end
  | PStop => Some (mkPst (pat x) (pqueue x) true (processed x))
  | PWake =>
      match pat x with
      | PWait => Some (mkPst (match pqueue x with [] => PCheck | _ => PDequeue end) (pqueue x) (pforce x) (processed x))
      | _ => Some x
      end
  end.

Fixpoint psteps (x : pst) (es : list pevent) : option pst :=
  match es with
  | [] => Some x
  | e :: r => match pstep x e with Some x' => psteps x' r | None => None end
  end.

Definition pstart : pst := mkPst PCheck [] false [].
