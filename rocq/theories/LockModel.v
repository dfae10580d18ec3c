(** Model of the lock index servers share through ZooKeeper:
    src/lib/zookeeper_lock.cc and the begin/end of an operation in
    zookeeper_coordinator.cc:105-162.

    A lock object (an entry of the pool of operations, of some index server) has a
    ZooKeeper session of its own, the thread that runs begin_operation and
    end_operation, and ZooKeeper's thread that delivers watch events.  A step is one
    ZooKeeper call with what follows it up to the next call or the next access to
    [_is_owner].  Every call may fail, or take effect and lose its answer; the calls
    of a session that is gone fail.  Left out: the creation of the parent node (it
    exists), messages, waiting for a lost connection, the limits on immediate retries
    (a call that fails here has failed that often).  [Undef] is undefined behaviour,
    [Err] an event that cannot happen now. *)
From Coq Require Import NArith ZArith List Bool String.
From Verif Require Import Base TextModel ClusterModel.
Import ListNotations.
Local Open Scope N_scope.
Local Open Scope list_scope.

(** ** Names of lock nodes *)
(** printf("%010d"), what ZooKeeper appends to a sequential node *)
Definition pad (k : nat) (l : bytes) : bytes := repeat 48 (k - List.length l) ++ l.
Definition fmt10 (z : Z) : bytes := if (z <? 0)%Z then 45 :: pad 9 (dec (Z.to_N (- z))) else pad 10 (dec (Z.to_N z)).
(** zookeeper_lock.cc:567: the uuid and a suffix *)
Definition lock_prefix (u : bytes) : bytes := u ++ s2b "-lock-".
(** The counter of the parent node is an int; [n] nodes have been created before. *)
Definition node_name (p : bytes) (n : N) : bytes := p ++ fmt10 (u32_to_i32 (u32 n)).

(** zookeeper_lock.cc:320-329 [less_than_with_suffix]: what follows the last '-' *)
Fixpoint suffix (l : bytes) : bytes :=
  match l with
  | [] => []
  | c :: t => if existsb (N.eqb 45) t then suffix t else if c =? 45 then t else l
  end.
Definition suffix_lt (a b : bytes) : bool := blt (suffix a) (suffix b).
(** zookeeper_lock.cc:435: std::sort; names with equal suffixes do not occur *)
Fixpoint insert (x : bytes) (l : list bytes) : list bytes :=
  match l with
  | [] => [x]
  | y :: t => if suffix_lt y x then y :: insert x t else x :: l
  end.
Definition sort (l : list bytes) : list bytes := fold_right insert [] l.
(** zookeeper_lock.cc:275-283 [_lookup_node] *)
Definition lookup_node (l : list bytes) (p : bytes) : option bytes :=
  find (fun n => beq (firstn (List.length p) n) p) l.
(** zookeeper_lock.cc:350-361 [_child_floor] *)
Definition child_floor (l : list bytes) (id : bytes) : option bytes :=
  fold_left (fun acc n => if suffix_lt n id then Some n else acc) l None.

(** ** Lock objects *)
(** Where a thread is in [_lock_operation], zookeeper_lock.cc:370-493. *)
Inductive rpc :=
| RList                       (* 384: about to list the children *)
| RCreate (l : list bytes)    (* 407: about to create the own node; [l]: nodevector *)
| RList2 (l : list bytes)     (* 425: about to list them again *)
| RWin                        (* 444: about to set _is_owner *)
| RWatch (p : bytes)          (* 457: about to watch [p] *)
| RLose                       (* 478: about to clear _is_owner *)
| RGive                       (* 472: in _unlock_internal, 537 *)
| RDone (ok : bool).          (* returns 0 or -1 *)
(** The thread of begin_operation and end_operation. *)
Inductive mpc :=
| MIdle                       (* the object is in the pool *)
| MLock (r : rpc)             (* zookeeper_coordinator.cc:115, zookeeper_lock.cc:122, with _mutex_lock *)
| MWait (ok : bool)           (* 118; zookeeper_lock.cc:178-203; [ok]: ret is 0 *)
| MPoll (r : rpc)             (* zookeeper_lock.cc:193, without _mutex_lock *)
| MHeld                       (* begin_operation has got the lock *)
| MUnlock                     (* 155; zookeeper_lock.cc:154, with _mutex_lock *)
| MDrop.                      (* the object is about to be destroyed *)
(** ZooKeeper's thread: in [lock(true)] (zookeeper_lock.cc:239) with _mutex_lock, or not. *)
Inductive wpc := WIdle | WRun (r : rpc).
(** [l_gen]: how often the prefix has been made anew; [l_id]: empty for none;
    [l_watch]: the nodes watched. *)
Record lock := mkLock {
  l_alive : bool; l_gen : N; l_id : bytes; l_owner : bool; l_watch : list bytes; l_main : mpc; l_wat : wpc }.
Record znode := mkZnode { z_name : bytes; z_session : N }.
(** [z_next]: nodes created so far; [z_nodes]: the children; each lock object's
    session has its number. *)
Record st := mkSt { z_next : N; z_nodes : list znode; locks : N -> lock }.

Definition with_id (k : lock) (x : bytes) : lock := mkLock (l_alive k) (l_gen k) x (l_owner k) (l_watch k) (l_main k) (l_wat k).
Definition with_owner (k : lock) (b : bool) : lock := mkLock (l_alive k) (l_gen k) (l_id k) b (l_watch k) (l_main k) (l_wat k).
Definition with_watch (k : lock) (w : list bytes) : lock := mkLock (l_alive k) (l_gen k) (l_id k) (l_owner k) w (l_main k) (l_wat k).
Definition with_main (k : lock) (m : mpc) : lock := mkLock (l_alive k) (l_gen k) (l_id k) (l_owner k) (l_watch k) m (l_wat k).
Definition with_wat (k : lock) (w : wpc) : lock := mkLock (l_alive k) (l_gen k) (l_id k) (l_owner k) (l_watch k) (l_main k) w.
(** zookeeper_lock.cc:559-575 [_reset_lock] *)
Definition reset_lock (k : lock) : lock := mkLock (l_alive k) (l_gen k + 1) [] false (l_watch k) (l_main k) (l_wat k).
(** zookeeper_lock.cc:65-81: a new object; 90 and 136 of zookeeper_coordinator.cc put it in the pool *)
Definition new_lock (g : N) : lock := mkLock true g [] false [] MIdle WIdle.

Definition set_lock (s : st) (i : N) (k : lock) : st :=
  mkSt (z_next s) (z_nodes s) (fun j => if j =? i then k else locks s j).
Definition set_nodes (s : st) (l : list znode) : st := mkSt (z_next s) l (locks s).
Definition names (s : st) : list bytes := map z_name (z_nodes s).
Definition has (x : bytes) (l : list bytes) : bool := existsb (beq x) l.
(** zoo_delete *)
Definition delete (s : st) (x : bytes) : st := set_nodes s (filter (fun n => negb (beq x (z_name n))) (z_nodes s)).
(** A session ends: its (ephemeral) nodes go. *)
Definition close (s : st) (i : N) : st := set_nodes s (filter (fun n => negb (z_session n =? i)) (z_nodes s)).

(** zoo_get_children answers in any order. *)
Fixpoint remove1 (x : bytes) (l : list bytes) : list bytes :=
  match l with [] => [] | y :: t => if beq x y then t else y :: remove1 x t end.
Fixpoint same_names (l m : list bytes) : bool :=
  match l with
  | [] => match m with [] => true | _ => false end
  | x :: t => has x m && same_names t (remove1 x m)
  end.

(** How a call ends: with the children, with success or "no node", with an error,
    with its effect but an error; [NoWatch]: zoo_wexists with an error that is not "no node". *)
Inductive answer := Listed (l : list bytes) | Done | Failed | Lost | NoWatch.

Section Lock.
(** uuid_generate for the prefix [g] of object [i] *)
Variable uuid : N -> N -> bytes.
Definition prefix (s : st) (i : N) : bytes := lock_prefix (uuid i (l_gen (locks s i))).
(** zoo_create of an ephemeral sequential node *)
Definition create (s : st) (i : N) : st * bytes :=
  let n := node_name (prefix s i) (z_next s) in
  (mkSt (z_next s + 1) (z_nodes s ++ [mkZnode n i]) (locks s), n).

(** zookeeper_lock.cc:435-451: the owner, or the node to wait for *)
Definition decide (v : list bytes) (id : bytes) : res rpc :=
  match sort v with
  | [] => Undef
  | f :: t =>
      match child_floor (f :: t) id with
      | None => Ok (if beq id f then RWin else RDone true)
      | Some p => Ok (RWatch p)
      end
  end.
(** One step of [_lock_operation] *)
Definition lock_step (s : st) (i : N) (r : rpc) (a : answer) : res (st * rpc) :=
  let k := locks s i in
  match r, a with
  | RList, Listed l =>                                          (* 384-395 *)
      if l_alive k && same_names l (names s) then
        match lookup_node l (prefix s i) with
        | Some c => Ok (set_lock s i (with_id k c), RList2 l)
        | None => Ok (set_lock s i (with_id k []), RCreate l)
        end
      else Err
  | RCreate l, Done =>                                          (* 407-422 *)
      if l_alive k then let (s', n) := create s i in Ok (set_lock s' i (with_id k n), RList2 l) else Err
  | RCreate _, Lost => if l_alive k then Ok (fst (create s i), RDone false) else Err
  | RList2 l0, Listed l =>                                      (* 425, 308-316: an empty answer leaves nodevector *)
      if l_alive k && same_names l (names s) then
        let* r := decide (match l with [] => l0 | _ => l end) (l_id k) in Ok (s, r)
      else Err
  | RList, Failed | RCreate _, Failed | RList2 _, Failed => Ok (s, RDone false)
  | RWin, Done => Ok (set_lock s i (with_owner k true), RDone true)
  | RWatch p, Done =>                                           (* 457-468: "no node" leaves the loop *)
      if l_alive k then
        if has p (names s) then Ok (set_lock s i (with_watch k (p :: l_watch k)), RLose) else Ok (s, RDone true)
      else Err
  | RWatch _, NoWatch => Ok (s, RGive)
  | RLose, Done => Ok (set_lock s i (with_owner k false), RDone true)
  | RGive, Done =>                                              (* 523-557 *)
      match l_id k with
      | [] => Ok (s, RDone true)
      | x => if l_alive k then Ok (set_lock (delete s x) i (reset_lock k), RDone true) else Err
      end
  | RGive, Lost => if l_alive k then Ok (delete s (l_id k), RGive) else Err
  | RGive, Failed => Ok (s, RGive)
  | _, _ => Err
  end.

(** Which run of [_lock_operation]: the one of lock(), of a timeout, of a watch event. *)
Inductive who := First | Poll | Watcher.
Definition at_run (k : lock) (w : who) : option rpc :=
  match w, l_main k, l_wat k with
  | First, MLock r, _ => Some r
  | Poll, MPoll r, _ => Some r
  | Watcher, _, WRun r => Some r
  | _, _, _ => None
  end.
Definition put_run (k : lock) (w : who) (r : rpc) : lock :=
  match w with First => with_main k (MLock r) | Poll => with_main k (MPoll r) | Watcher => with_wat k (WRun r) end.

Inductive event :=
| Begin (i : N)                          (* begin_operation *)
| Call (i : N) (w : who) (a : answer)    (* a step of a run *)
| Return (i : N) (w : who)               (* the end of a run *)
| Timeout (i : N)                        (* zookeeper_lock.cc:189 *)
| Acquire (i : N)                        (* wait_for_ownership returns *)
| Wake (i : N) (p : bytes)               (* a watched node is gone *)
| Release (i : N)                        (* end_operation *)
| Delete (i : N) (a : answer)            (* zoo_delete of unlock() *)
| Drop (i : N)                           (* ~zookeeper_lock, and a new object *)
| Expire (i : N).                        (* ZooKeeper ends the session *)

Definition has_mutex (k : lock) : bool := match l_main k with MLock _ | MUnlock => true | _ => false end.
Definition quiet (k : lock) : bool := match l_wat k with WIdle => true | _ => false end.
Definition step (s : st) (e : event) : res st :=
  match e with
  | Begin i =>                           (* zookeeper_coordinator.cc:107-115, zookeeper_lock.cc:111-122 *)
      let k := locks s i in
      match l_main k with
      | MIdle => if negb (l_alive k) then Ok (set_lock s i (with_main k MDrop))
                 else if quiet k then Ok (set_lock s i (with_main k (MLock RList))) else Err
      | _ => Err
      end
  | Call i w a =>
      match at_run (locks s i) w with
      | Some r => let* (s', r') := lock_step s i r a in Ok (set_lock s' i (put_run (locks s' i) w r'))
      | None => Err
      end
  | Return i w =>
      let k := locks s i in
      match at_run k w with
      | Some (RDone ok) =>
          Ok (set_lock s i (match w with
              | First => with_main k (if ok && l_alive k then MWait true else MDrop)   (* 115-120; zookeeper_lock.cc:173 *)
              | Poll => with_main k (MWait ok)
              | Watcher => with_wat k WIdle
              end))
      | _ => Err
      end
  | Timeout i =>                         (* zookeeper_lock.cc:189-193 *)
      let k := locks s i in
      match l_main k with
      | MWait _ => if l_owner k then Err else Ok (set_lock s i (with_main k (MPoll RList)))
      | _ => Err
      end
  | Acquire i =>                         (* zookeeper_lock.cc:178; zookeeper_coordinator.cc:118-120, 135-138 *)
      let k := locks s i in
      match l_main k with
      | MWait ok => if l_owner k then Ok (set_lock s i (with_main k (if ok then MHeld else MDrop))) else Err
      | _ => Err
      end
  | Wake i p =>                          (* zookeeper_lock.cc:236-239, 376-379 *)
      let k := locks s i in
      if l_alive k && negb (has_mutex k) && quiet k && has p (l_watch k) && negb (has p (names s)) then
        let k := with_watch k (remove1 p (l_watch k)) in
        Ok (set_lock s i (match l_id k with [] => k | _ => with_wat k (WRun RList) end))
      else Err
  | Release i =>                         (* zookeeper_coordinator.cc:155-158, zookeeper_lock.cc:148-152 *)
      let k := locks s i in
      match l_main k with
      | MHeld => if negb (l_alive k) then Ok (set_lock s i (with_main k MDrop))
                 else if quiet k then Ok (set_lock s i (with_main k MUnlock)) else Err
      | _ => Err
      end
  | Delete i a =>                        (* zookeeper_lock.cc:153-157, 523-557 *)
      let k := locks s i in
      match l_main k, a with
      | MUnlock, Done =>
          match l_id k with
          | [] => Ok (set_lock s i (with_main k MIdle))
          | x => if l_alive k then Ok (set_lock (delete s x) i (with_main (reset_lock k) MIdle)) else Err
          end
      | MUnlock, Failed => Ok s
      | MUnlock, Lost => if l_alive k then Ok (delete s (l_id k)) else Err
      | _, _ => Err
      end
  | Drop i =>                            (* zookeeper_lock.cc:86-94 *)
      let k := locks s i in
      match l_main k with
      | MDrop => if quiet k then Ok (set_lock (close s i) i (new_lock (l_gen k + 1))) else Err
      | _ => Err
      end
  | Expire i =>
      let k := locks s i in
      if l_alive k
      then Ok (set_lock (close s i) i (mkLock false (l_gen k) (l_id k) (l_owner k) (l_watch k) (l_main k) (l_wat k)))
      else Err
  end.
Fixpoint run (s : st) (es : list event) : res st :=
  match es with
  | [] => Ok s
  | e :: t => let* s' := step s e in run s' t
  end.
End Lock.
Definition st0 : st := mkSt 0 [] (fun _ => new_lock 0).
