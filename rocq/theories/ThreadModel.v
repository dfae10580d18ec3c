(** The life of the pooled threads that serve connections: how the accept loop
    hands a connection to a thread, how the thread's own loop serves it and
    goes back to the pool, and how [kill <id>] reaches into that loop.
    (src/lib/thread.cc, src/lib/thread_pool.cc, src/lib/op_kill.cc,
    src/flared/flared.cc, src/flared/handler_request.cc)

    The granularity is one step per critical section or per unlocked access to
    a field shared between threads.  Simplifications: shared fields are read
    and written in a sequentially consistent order (the code takes no lock for
    [_shutdown_request], [_running] and [_thread_handler]); the map of active
    threads is represented by the id of each thread, which the code changes in
    the same critical section (PoolModel models the map itself, and how an id
    is drawn); ids do not wrap (PoolModel does); creating a thread does not
    fail; the shutdown of the whole server (thread_pool.cc:186-211), which
    alone asks for a forced shutdown, is not modelled, nor is the queue of a
    thread (QueueModel). *)
From Coq Require Import List Arith Lia Bool.
Import ListNotations.

(** Where a session is inside handler_request::run
    (src/flared/handler_request.cc, the [for (;;)] loop): past the check of
    the shutdown request but not yet polling; in poll(2) for the next request
    (src/lib/connection_tcp.cc:240); executing a request. *)
Inductive hplace := Checked | Reading | Busy.

(** Where a thread is inside thread_run (src/lib/thread.cc:38-85).  The flag of
    the places of clean tells the call in the catch clause (thread.cc:75) from
    the one on the normal path (thread.cc:67). *)
Inductive place :=
| Top                        (* thread.cc:55-57, before wait takes its mutex *)
| Asleep                     (* thread.cc:204, in pthread_cond_wait *)
| Awake                      (* thread.cc:204, woken, about to go on *)
| Check1                     (* thread.cc:58 *)
| Enter                      (* thread.cc:62, 248-252 *)
| Inside (j : nat) (h : hplace) (* thread.cc:260, in the session of connection j *)
| Leave (j : nat)            (* thread.cc:262-272, that session is over *)
| Check2                     (* thread.cc:63 *)
| CleanTrig (thrown : bool)  (* thread.cc:281-283 *)
| CleanReq (thrown : bool)   (* thread.cc:284-287 *)
| CleanMap (thrown : bool)   (* thread_pool.cc:156-167 *)
| CleanPool (thrown : bool)  (* thread_pool.cc:169-178 *)
| After (thrown pooled : bool) (* thread.cc:69-71, 80 *)
| Exited.                    (* thread.cc:82-84 *)

(** A thread object (src/lib/thread.h): its place, [_thread_handler] (the
    connection it was given), [_trigger], whether [_shutdown_request] is
    graceful, and [_id] (0: not in the map of active threads). *)
Record wk := mkWk { at_ : place; handler : option nat; trig : bool; req : bool; id : nat }.

(** How far the accept loop is with the connection it is handing over
    (src/flared/flared.cc:345-351): it has a thread object; the thread has its
    id and is in the map; the handler is set. *)
Inductive gstage := Got | Registered | Handed.

(** How far a kill is (src/lib/op_kill.cc:99-110 and thread.cc:331-342): it has
    found the thread; it has set the request; it has triggered. *)
Inductive kstage := Found | Asked | Triggered.

(** The whole server: the thread objects made so far are [0 .. fresh-1];
    [stack] is the pool (top first); [pool_max] and [conn_max] are the limits
    (get_max_pool_size, get_max_connection); [last_id] is the index of ids;
    [kills] are the kills under way.  The last five fields only record what
    happened: which connections were accepted, which were turned away, which
    were given to a handler that ran (and on which thread), which sessions
    ended, and one entry for each request a session took in. *)
Record st := mkSt {
  wk_of : nat -> wk; fresh : nat; stack : list nat; pool_max : nat; conn_max : nat;
  giving : option (nat * nat * gstage); last_id : nat; kills : list (nat * kstage);
  accepted : list nat; refused : list nat; ran : list (nat * nat); ended : list nat;
  asked : list nat }.

Definition upd {A} (f : nat -> A) (i : nat) (x : A) : nat -> A :=
  fun j => if Nat.eqb j i then x else f j.

(** thread.cc:88-120 (constructor): a fresh thread object. *)
Definition new_wk : wk := mkWk Top None false false 0.

(** The server before its first connection. *)
Definition start (pmax cmax : nat) : st :=
  mkSt (fun _ => new_wk) 0 [] pmax cmax None 0 [] [] [] [] [] [].

Definition set_wk (s : st) (t : nat) (w : wk) : st :=
  mkSt (upd (wk_of s) t w) (fresh s) (stack s) (pool_max s) (conn_max s) (giving s) (last_id s)
       (kills s) (accepted s) (refused s) (ran s) (ended s) (asked s).
Definition set_giving (s : st) (g : option (nat * nat * gstage)) : st :=
  mkSt (wk_of s) (fresh s) (stack s) (pool_max s) (conn_max s) g (last_id s)
       (kills s) (accepted s) (refused s) (ran s) (ended s) (asked s).
Definition set_kills (s : st) (k : list (nat * kstage)) : st :=
  mkSt (wk_of s) (fresh s) (stack s) (pool_max s) (conn_max s) (giving s) (last_id s)
       k (accepted s) (refused s) (ran s) (ended s) (asked s).
Definition set_stack (s : st) (l : list nat) : st :=
  mkSt (wk_of s) (fresh s) l (pool_max s) (conn_max s) (giving s) (last_id s)
       (kills s) (accepted s) (refused s) (ran s) (ended s) (asked s).
Definition note_ran (s : st) (x : nat * nat) : st :=
  mkSt (wk_of s) (fresh s) (stack s) (pool_max s) (conn_max s) (giving s) (last_id s)
       (kills s) (accepted s) (refused s) (x :: ran s) (ended s) (asked s).
Definition note_ended (s : st) (j : nat) : st :=
  mkSt (wk_of s) (fresh s) (stack s) (pool_max s) (conn_max s) (giving s) (last_id s)
       (kills s) (accepted s) (refused s) (ran s) (j :: ended s) (asked s).
Definition note_asked (s : st) (j : nat) : st :=
  mkSt (wk_of s) (fresh s) (stack s) (pool_max s) (conn_max s) (giving s) (last_id s)
       (kills s) (accepted s) (refused s) (ran s) (ended s) (j :: asked s).

Definition goto (w : wk) (p : place) : wk := mkWk p (handler w) (trig w) (req w) (id w).
Definition set_handler (w : wk) (h : option nat) : wk := mkWk (at_ w) h (trig w) (req w) (id w).
Definition set_trig (w : wk) (b : bool) : wk := mkWk (at_ w) (handler w) b (req w) (id w).
Definition set_req (w : wk) (b : bool) : wk := mkWk (at_ w) (handler w) (trig w) b (id w).
Definition set_id (w : wk) (i : nat) : wk := mkWk (at_ w) (handler w) (trig w) (req w) i.

(** thread_pool.cc:233-248, get_thread_size: the number of threads in the map. *)
Definition active_count (s : st) : nat :=
  length (List.filter (fun t => negb (Nat.eqb (id (wk_of s t)) 0)) (seq 0 (fresh s))).

(** thread.cc:226-230, the critical section of trigger: set the flag, wake the
    thread if it waits. *)
Definition trigger (w : wk) : wk :=
  mkWk (match at_ w with Asleep => Awake | p => p end) (handler w) true (req w) (id w).

(** flared.cc:338-345 and thread_pool.cc:62-81: a connection is accepted. When
    there are as many active threads as connections are allowed it is closed;
    otherwise a thread object is taken off the pool or made. *)
Definition accept (s : st) (j : nat) : st :=
  if conn_max s <=? active_count s then
    mkSt (wk_of s) (fresh s) (stack s) (pool_max s) (conn_max s) (giving s) (last_id s)
         (kills s) (accepted s) (j :: refused s) (ran s) (ended s) (asked s)
  else
    match stack s with
    | t :: l =>
        mkSt (wk_of s) (fresh s) l (pool_max s) (conn_max s) (Some (j, t, Got)) (last_id s)
             (kills s) (j :: accepted s) (refused s) (ran s) (ended s) (asked s)
    | [] =>
        mkSt (upd (wk_of s) (fresh s) new_wk) (S (fresh s)) [] (pool_max s) (conn_max s)
             (Some (j, fresh s, Got)) (last_id s)
             (kills s) (j :: accepted s) (refused s) (ran s) (ended s) (asked s)
    end.

(** thread_pool.cc:84-108: the thread gets a fresh id and enters the map. *)
Definition register (s : st) (j t : nat) : st :=
  let i := S (last_id s) in
  mkSt (upd (wk_of s) t (set_id (wk_of s t) i)) (fresh s) (stack s) (pool_max s) (conn_max s)
       (Some (j, t, Registered)) i
       (kills s) (accepted s) (refused s) (ran s) (ended s) (asked s).

(** One step of a thread by itself; [None]: it has none (it sleeps, waits for
    its client, or has exited). *)
Definition go (s : st) (t : nat) : option st :=
  let w := wk_of s t in
  match at_ w with
  | Top =>                                                  (* thread.cc:199-208 *)
      Some (set_wk s t (if trig w then set_trig (goto w Check1) false else goto w Asleep))
  | Asleep => None
  | Awake => Some (set_wk s t (set_trig (goto w Check1) false))   (* thread.cc:206 *)
  | Check1 => Some (set_wk s t (goto w (if req w then CleanTrig true else Enter)))
  | Enter =>                                                (* thread.cc:249-260 *)
      match handler w with
      | None => Some (set_wk s t (goto w Check2))
      | Some j => Some (note_ran (set_wk s t (goto w (Inside j Checked))) (j, t))
      end
  | Inside j Checked => Some (set_wk s t (goto w (Inside j Reading)))
  | Inside j Reading => None
  | Inside j Busy =>                                          (* handler_request.cc, end of the loop *)
      Some (set_wk s t (goto w (if req w then Leave j else Inside j Checked)))
  | Leave j =>                                              (* thread.cc:262-272 *)
      Some (note_ended (set_wk s t (set_handler (goto w Check2) None)) j)
  | Check2 => Some (set_wk s t (goto w (CleanTrig (req w))))
  | CleanTrig b => Some (set_wk s t (set_trig (goto w (CleanReq b)) false))
  | CleanReq b => Some (set_wk s t (set_req (goto w (CleanMap b)) false))
  | CleanMap b =>
      Some (set_wk s t (if Nat.eqb (id w) 0 then goto w (After b false)
                        else set_id (goto w (CleanPool b)) 0))
  | CleanPool b =>
      if length (stack s) <? pool_max s
      then Some (set_stack (set_wk s t (goto w (After b true))) (t :: stack s))
      else Some (set_wk s t (goto w (After b false)))
  | After b pooled =>
      Some (set_wk s t (goto w (if negb b && req w then Exited
                                else if pooled then Top else Exited)))
  | Exited => None
  end.

Inductive event :=
| Accept (j : nat)     (* the accept loop takes connection j *)
| Hand                 (* the accept loop's next step with it *)
| Go (t : nat)         (* the next step of thread t by itself *)
| Ask (t : nat)        (* the client of t's session sends a request *)
| Gone (t : nat)       (* the client of t's session quits, hangs up or times out *)
| Spurious (t : nat)   (* pthread_cond_wait returns without a signal *)
| KillFind (i : nat)   (* kill i looks the thread up *)
| KillStep (t : nat).  (* the next step of a kill that has found t *)

(** The kills under way on t, oldest first. *)
Fixpoint kill_of (t : nat) (l : list (nat * kstage)) : option kstage :=
  match l with
  | [] => None
  | (t', k) :: r => if Nat.eqb t' t then Some k else kill_of t r
  end.
Fixpoint kill_next (t : nat) (l : list (nat * kstage)) (new : list (nat * kstage)) : list (nat * kstage) :=
  match l with
  | [] => []
  | (t', k) :: r => if Nat.eqb t' t then new ++ r else (t', k) :: kill_next t r new
  end.

(** op_kill.cc:101-102, thread_pool.cc:116-130: the thread with that id. *)
Definition find_id (s : st) (i : nat) : option nat :=
  if Nat.eqb i 0 then None
  else List.find (fun t => Nat.eqb (id (wk_of s t)) i) (seq 0 (fresh s)).

(** thread.cc:338-342: SIGUSR1, if the handler runs. It interrupts poll(2),
    which ends the session (connection_tcp.cc:249-270, handler_request.cc: the
    parser returns nothing); elsewhere it has no effect. *)
Definition interrupt (w : wk) : wk :=
  match at_ w with
  | Inside j Reading => goto w (Leave j)
  | _ => w
  end.

Definition known (s : st) (j : nat) : bool :=
  existsb (Nat.eqb j) (accepted s) || existsb (Nat.eqb j) (refused s).

(** One event; [None]: it cannot happen in this state. *)
Definition step (s : st) (e : event) : option st :=
  match e with
  | Accept j =>
      match giving s with
      | None => if known s j then None else Some (accept s j)
      | Some _ => None
      end
  | Hand =>
      match giving s with
      | None => None
      | Some (j, t, Got) => Some (register s j t)
      | Some (j, t, Registered) =>                          (* flared.cc:350-351, thread.cc:221-224 *)
          Some (set_giving (set_wk s t (set_handler (wk_of s t) (Some j))) (Some (j, t, Handed)))
      | Some (j, t, Handed) =>                              (* thread.cc:226-230 *)
          Some (set_giving (set_wk s t (trigger (wk_of s t))) None)
      end
  | Go t => if t <? fresh s then go s t else None
  | Ask t =>
      match at_ (wk_of s t) with
      | Inside j Reading => Some (note_asked (set_wk s t (goto (wk_of s t) (Inside j Busy))) j)
      | _ => None
      end
  | Gone t =>
      match at_ (wk_of s t) with
      | Inside j Reading => Some (set_wk s t (goto (wk_of s t) (Leave j)))
      | _ => None
      end
  | Spurious t =>
      match at_ (wk_of s t) with
      | Asleep => Some (set_wk s t (goto (wk_of s t) Awake))
      | _ => None
      end
  | KillFind i =>
      match find_id s i with
      | Some t => Some (set_kills s (kills s ++ [(t, Found)]))
      | None => None
      end
  | KillStep t =>
      match kill_of t (kills s) with
      | None => None
      | Some Found =>                                       (* thread.cc:334 *)
          Some (set_kills (set_wk s t (set_req (wk_of s t) true)) (kill_next t (kills s) [(t, Asked)]))
      | Some Asked =>                                       (* thread.cc:335 *)
          Some (set_kills (set_wk s t (trigger (wk_of s t))) (kill_next t (kills s) [(t, Triggered)]))
      | Some Triggered =>                                   (* thread.cc:337-341 *)
          Some (set_kills (set_wk s t (interrupt (wk_of s t))) (kill_next t (kills s) []))
      end
  end.

Fixpoint steps (s : st) (es : list event) : option st :=
  match es with
  | [] => Some s
  | e :: r => match step s e with Some s' => steps s' r | None => None end
  end.
