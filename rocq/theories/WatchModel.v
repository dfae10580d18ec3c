(** Model of the watchdog over storage accesses: src/lib/time_util.cc,
    src/lib/time_watcher.cc, src/lib/time_watcher_observer.cc,
    src/lib/time_watcher_scoped_observer.cc, and of the answer to ping it leads to
    (src/flared/flared.cc:459-466, src/flared/status_node.h, src/lib/op_ping.cc:78-86).

    The functions that take [_map_mutex] are single steps here. *)
From Coq Require Import List Bool NArith ZArith.
Import ListNotations.
Local Open Scope Z_scope.

(** time.h [timespec]; both fields are 64 bit signed. *)
Record timespec := mkTs { ts_sec : Z; ts_nsec : Z }.
(** Overflow of signed arithmetic is undefined: [None]. *)
Definition fits (z : Z) : bool := (- 2 ^ 63 <=? z) && (z <? 2 ^ 63).
Definition ts (s n : Z) : option timespec := if fits s && fits n then Some (mkTs s n) else None.
(** time_util.cc:32 [time_util_billion]. *)
Definition billion : Z := 1000000000.

(** time_util.cc:34-39 [msec_to_timespec]; no step overflows on 32 bit arguments. *)
Definition msec_to_timespec (msec : N) : timespec :=
  let s := Z.of_N msec / 1000 in mkTs s ((Z.of_N msec - s * 1000) * 1000 * 1000).
(** time_util.cc:41-46 [timeval_to_timespec] *)
Definition timeval_to_timespec (sec usec : Z) : option timespec := ts sec (usec * 1000).
(** time_util.cc:77-86 [add] *)
Definition ts_add (a b : timespec) : option timespec :=
  match ts (ts_sec a + ts_sec b) (ts_nsec a + ts_nsec b) with
  | Some r => if billion <=? ts_nsec r then ts (ts_sec r + 1) (ts_nsec r - billion) else Some r
  | None => None
  end.
(** time_util.cc:88-97 [sub] *)
Definition ts_sub (a b : timespec) : option timespec :=
  match ts (ts_sec a - ts_sec b) (ts_nsec a - ts_nsec b) with
  | Some r => if ts_nsec r <? 0 then ts (ts_sec r - 1) (ts_nsec r + billion) else Some r
  | None => None
  end.
(** time_util.cc:101-105 [is_bigger] *)
Definition is_bigger (a b : timespec) : bool :=
  if ts_sec a =? ts_sec b then ts_nsec b <? ts_nsec a else ts_sec b <? ts_sec a.

(** time_watcher_target_info.h; the callback is always [on_storage_access_no_response]
    with the calling thread bound (time_watcher_observer.cc:65-70). *)
Record target := mkTarget { t_stamp : timespec; t_threshold : timespec; t_thread : N }.
(** [_map] in ascending order of the ids, [_id_generator] (time_watcher.h:48-51); the two
    thresholds (time_watcher_observer.cc:34-35); [held]: the [_tw_id] of each thread's
    observer (time_watcher_scoped_observer.cc:34-36); [healthy]: the node's status is
    still ok (status_node.h). *)
Record watcher := mkWatcher {
  w_map : list (N * target); w_next : N;
  w_warn : timespec; w_ng : timespec;
  held : N -> option N; healthy : bool }.
(** flared.cc:263-266 *)
Definition watcher0 (warn ng : N) : watcher :=
  mkWatcher [] 0 (msec_to_timespec warn) (msec_to_timespec ng) (fun _ => None) true.

Definition mem (id : N) (m : list (N * target)) : bool := existsb (fun p => N.eqb (fst p) id) m.
Fixpoint insert (id : N) (t : target) (m : list (N * target)) : list (N * target) :=
  match m with
  | [] => [(id, t)]
  | p :: m' => if N.ltb id (fst p) then (id, t) :: m else if N.eqb id (fst p) then (id, t) :: m' else p :: insert id t m'
  end.
Definition erase (id : N) (m : list (N * target)) : list (N * target) := filter (fun p => negb (N.eqb (fst p) id)) m.

(** time_watcher.cc:106-112 [_generate_id], util.h:91-119: incr returns the old value and
    wraps; [None] for a loop that does not end within [fuel] rounds. *)
Fixpoint generate_id (fuel : nat) (next : N) (m : list (N * target)) : option (N * N) :=
  match fuel with
  | O => None
  | S f => let next' := ((next + 1) mod 2 ^ 64)%N in
           if mem next m then generate_id f next' m else Some (next, next')
  end.

(** What the watchdog does about an access. *)
Inductive report := Warned (thread : N) (age : timespec) | Failed (thread : N) (age : timespec).
(** time_watcher.cc:98-104 [_check_timestamp] and time_watcher_observer.cc:42-63
    [on_storage_access_no_response]. *)
Definition check1 (ng : timespec) (now : timespec) (t : target) : option (list report) :=
  match ts_sub now (t_stamp t) with
  | None => None
  | Some d =>
      Some (if is_bigger d (t_threshold t)
            then [if is_bigger d ng then Failed (t_thread t) d else Warned (t_thread t) d]
            else [])
  end.
(** time_watcher.cc:43-53 [check_timestamps]; [clk] gives the clock
    reading taken for the entry of each thread. *)
Fixpoint checks (ng : timespec) (clk : N -> timespec) (m : list (N * target)) : option (list report) :=
  match m with
  | [] => Some []
  | (_, t) :: m' =>
      match check1 ng (clk (t_thread t)) t, checks ng clk m' with
      | Some a, Some b => Some (a ++ b)
      | _, _ => None
      end
  end.
Definition is_failed (r : report) : bool := match r with Failed _ _ => true | _ => false end.

(** op_get.cc:139, op_set.cc:143, op_delete.cc:118: an access begins and ends with the
    life of its observer; a poll (time_watcher_processor.cc:60-61); ping; reload
    (flared.cc:405-410). *)
Inductive event :=
| Begin (thread : N) (now : timespec)
| End (thread : N)
| Poll (clk : N -> timespec)
| Thresholds (warn ng : N).

Definition upd (f : N -> option N) (k : N) (v : option N) : N -> option N := fun x => if N.eqb x k then v else f x.
(** Next state and reports; [None]: undefined, or a loop without end. *)
Definition step (w : watcher) (e : event) : option (watcher * list report) :=
  match e with
  | Begin a now =>
      match generate_id (S (length (w_map w))) (w_next w) (w_map w) with
      | None => None
      | Some (id, next) =>
          Some (mkWatcher (insert id (mkTarget now (w_warn w) a) (w_map w)) next (w_warn w) (w_ng w) (upd (held w) a (Some id)) (healthy w), [])
      end
  | End a =>
      match held w a with
      | None => None
      | Some id => Some (mkWatcher (erase id (w_map w)) (w_next w) (w_warn w) (w_ng w) (upd (held w) a None) (healthy w), [])
      end
  | Poll clk =>
      match checks (w_ng w) clk (w_map w) with
      | None => None
      | Some rs => Some (mkWatcher (w_map w) (w_next w) (w_warn w) (w_ng w) (held w) (healthy w && negb (existsb is_failed rs)), rs)
      end
  | Thresholds warn ng =>
      Some (mkWatcher (w_map w) (w_next w) (msec_to_timespec warn) (msec_to_timespec ng) (held w) (healthy w), [])
  end.
Fixpoint run (w : watcher) (es : list event) : option (watcher * list (list report)) :=
  match es with
  | [] => Some (w, [])
  | e :: es' =>
      match step w e with
      | None => None
      | Some (w', r) => match run w' es' with Some (w'', rs) => Some (w'', r :: rs) | None => None end
      end
  end.
(** op_ping.cc:78-86: OK, or SERVER_ERROR storage error. *)
Definition ping_ok (w : watcher) : bool := healthy w.
