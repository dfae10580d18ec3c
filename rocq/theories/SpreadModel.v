(** Model of how the index server tells the nodes of a new map: src/lib/cluster.cc:404-490, 494-608,
    620-680, 684-770, 776-855, 862-1055 (what each change does at its end), 1658-1724 ([_broadcast]),
    queue_node_sync.cc:37-60, thread_queue.cc:83-140 ([sync], [sync_ref], [sync_unref]),
    handler_monitor.cc:66-130, op_node_sync.cc:107-190 and cluster.cc:1099-1112, 1174 (the node).

    A map is the number of its version, which a change increases by one (cluster.cc:1748); what a change does to the
    map is in ClusterModel, and that a message can pair a map with a later version is c28_race_refuted; here a message is
    read at once.  A job is a thread in which a change is made, from the change to the end of the broadcast.
    Each node has one monitoring thread.  The index server can end and start again, with the map it stored last.  A step is a section under a lock, or the handling of one entry of a
    queue; any interleaving is a schedule.  Nodes and jobs are numbers. *)
From Coq Require Import List Bool NArith ZArith.
From Verif Require Import MonitorModel.
Import ListNotations.
Local Open Scope N_scope.

(** [prior]: prior_node_key (to be told first), [excl]: exclude_node_key, [v]: the map in the message. *)
Inductive job :=
| NoJob
| Changed (prior : list N) (excl : option N)       (* the map is stored *)
| Priors (v : N) (todo : list N) (excl : option N) (* cluster.cc:1662-1692: those still to be enqueued for *)
| Rest (v : N) (todo : list N) (excl : option N)   (* 1699-1722 *)
| Done.
(** [serial]: the coordinator lets one change be made at a time, up to the end of its broadcast (zookeeper_coordinator.cc:105-162); the
    coordinator for files does not (coordinator.h:98-99). *)
(** [cur]: the map of the index server, [members]: its nodes, [downs]: those of them that are down; [queue_of]: of the
    node's monitoring thread: (job, map); [refs]: _sync_ref_count; [open_]: the connection of the monitoring
    thread is open; [held]: the map the node goes by; [seen]: its _node_map_version; [requests]: of the monitoring threads. *)
Record st := mkSt {
  cur : N; members : list N; downs : list N; job_of : N -> job; started : list N; refs : N -> Z;
  queue_of : N -> list (N * N); open_ : N -> bool; mon : N -> monitor; held : N -> N; seen : N -> N;
  requests : list (N * request) }.
(** [threshold]: monitor-threshold. *)
Definition st0 (ms : list N) (threshold : Z) : st :=
  mkSt 0 ms [] (fun _ => NoJob) [] (fun _ => 0%Z) (fun _ => []) (fun _ => true) (fun _ => mkMonitor 0 threshold) (fun _ => 0) (fun _ => 0) [].

Definition upd {A} (f : N -> A) (i : N) (v : A) : N -> A := fun j => if j =? i then v else f j.
Definition member (n : N) (l : list N) : bool := existsb (N.eqb n) l.
Definition set_job (s : st) (j : N) (x : job) : st :=
  mkSt (cur s) (members s) (downs s) (upd (job_of s) j x) (started s) (refs s) (queue_of s) (open_ s) (mon s) (held s) (seen s) (requests s).
(** thread.cc:441-454: at the end of the queue of node [n] *)
Definition enqueue (s : st) (n : N) (m : N * N) : st :=
  mkSt (cur s) (members s) (downs s) (job_of s) (started s) (refs s) (upd (queue_of s) n (queue_of s n ++ [m])) (open_ s) (mon s) (held s) (seen s) (requests s).
Definition add_ref (s : st) (j : N) (d : Z) : st :=
  mkSt (cur s) (members s) (downs s) (job_of s) (started s) (upd (refs s) j (refs s j + d)%Z) (queue_of s) (open_ s) (mon s) (held s) (seen s) (requests s).
Definition over (x : job) : bool := match x with NoJob | Done => true | _ => false end.
Definition excluded (excl : option N) (n : N) : bool := match excl with Some m => n =? m | None => false end.
(** handler_monitor.cc:99-109: what the map of the index server says of the node *)
Definition reading_of (s : st) (n : N) : reading := if member n (members s) then if member n (downs s) then ReadsDown else ReadsOther else Missing.

(** handler_monitor.cc:112-126: what the monitoring thread makes of its work; [None]: int overflow. *)
Definition watched (s : st) (n : N) (w : work) (q : list (N * N)) (o : bool) (h v : N) : option st :=
  match iterate (mon s n) (reading_of s n) w with
  | None => None
  | Some (m, rs) =>
      Some (mkSt (cur s) (members s) (downs s) (job_of s) (started s) (refs s) (upd (queue_of s) n q) (upd (open_ s) n o) (upd (mon s) n m)
              (upd (held s) n h) (upd (seen s) n v) (requests s ++ map (pair n) rs))
  end.

(** cluster.cc:198-252 [startup_index], handler_monitor.cc:66-76: the index server has ended and has started again, with the map [w] that
    is in the store, its nodes [ms] and those down [ds]; the new monitoring threads reach the nodes [up] at once.  No messages, no broadcasts
    under way.  ([start] cannot overflow.) *)
Definition first_look (s : st) (up : list N) (n : N) : monitor * list request :=
  match start (threshold (mon s n)) (member n up) with Some r => r | None => (mon s n, []) end.
Definition restart (s : st) (w : N) (ms ds up : list N) : st :=
  mkSt w ms ds (fun j => match job_of s j with NoJob => NoJob | _ => Done end) (started s) (fun _ => 0%Z) (fun _ => []) (fun n => member n up)
    (fun n => fst (first_look s up n)) (held s) (seen s) (requests s ++ flat_map (fun n => map (pair n) (snd (first_look s up n))) ms).

Inductive event :=
| Change (j : N) (prior : list N) (excl : option N) (ms ds : list N) (* a change by job [j] that makes [ms] the nodes and [ds] those down *)
| Make (j : N)                       (* queue_node_sync.cc:37-44 *)
| PushPrior (j : N) (room : bool)    (* cluster.cc:1665-1690; [room]: the thread runs and there is room (thread.cc:436-447) *)
| Wait (j : N)                       (* 1692-1696 *)
| Push (j : N) (room : bool)         (* 1700-1721 *)
| End (j : N)                        (* 1722-1731, end_operation *)
| Deliver (n : N) (ok : bool)        (* handler_monitor.cc:176-182, 120-125; [ok]: neither side nor the network fails *)
| Ping (n : N) (ok : bool)           (* 113-119, 136-161 *)
| Join (n : N) (o : bool)            (* cluster.cc:321: a node has started with the map of the answer to node add; [o]: the connection is open *)
| Restart (up : list N).              (* the index server starts again; the map was stored (cluster.cc:461, 592 ...: before the broadcast) *)

(** Next state; [None]: not possible now. *)
Definition step (serial : bool) (s : st) (e : event) : option st :=
  match e with
  | Change j prior excl ms ds =>
      match job_of s j with
      | NoJob =>
          if negb (forallb (fun n => member n ms) prior) || serial && negb (forallb (fun i => over (job_of s i)) (started s)) then None else
          Some (mkSt (cur s + 1) ms ds (upd (job_of s) j (Changed prior excl)) (j :: started s) (refs s) (queue_of s) (open_ s) (mon s) (held s) (seen s) (requests s))
      | _ => None
      end
  | Make j => match job_of s j with Changed prior excl => Some (set_job s j (Priors (cur s) prior excl)) | _ => None end
  | PushPrior j room =>
      match job_of s j with
      | Priors v (n :: todo) excl =>
          let s := set_job s j (Priors v todo excl) in
          if excluded excl n || negb room then Some s else Some (add_ref (enqueue s n (j, v)) j 1)
      | _ => None
      end
  | Wait j =>
      match job_of s j with
      | Priors v [] excl => if (refs s j =? 0)%Z then Some (set_job s j (Rest v (members s) excl)) else None
      | _ => None
      end
  | Push j room =>
      match job_of s j with
      | Rest v (n :: todo) excl =>
          let s := set_job s j (Rest v todo excl) in
          if excluded excl n || negb room then Some s else Some (enqueue s n (j, v))
      | _ => None
      end
  | End j => match job_of s j with Rest v [] excl => Some (set_job s j Done) | _ => None end
  | Deliver n ok =>
      match queue_of s n with
      | [] => None
      | (j, v) :: q =>
          let s := add_ref s j (-1) in
          (* cluster.cc:1106: the node ignores an older map, and says so *)
          if open_ s n && ok then
            if v <? seen s n then watched s n (NodeSync true false) q true (held s n) (seen s n)
            else watched s n (NodeSync true true) q true v v
          else watched s n (NodeSync (open_ s n) false) q false (held s n) (seen s n)
      end
  | Ping n ok => match queue_of s n with [] => watched s n (MonitorModel.Ping ok) [] ok (held s n) (seen s n) | _ => None end
  | Join n o =>
      if member n (members s) then
        Some (mkSt (cur s) (members s) (downs s) (job_of s) (started s) (refs s) (queue_of s) (upd (open_ s) n o) (mon s) (upd (held s) n (cur s)) (upd (seen s) n 0) (requests s))
      else None
  | Restart up => Some (restart s (cur s) (members s) (downs s) up)
  end.
Fixpoint steps (serial : bool) (s : st) (es : list event) : option st :=
  match es with [] => Some s | e :: es' => match step serial s e with Some s' => steps serial s' es' | None => None end end.
