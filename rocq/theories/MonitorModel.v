(** Model of the monitor of a node on the index server: src/lib/handler_monitor.cc.

    An iteration of its loop is one step.  The outcome of a ping or of the transfer of the
    map is given from outside, and so is what the map says of the node. *)
From Coq Require Import List Bool ZArith.
Import ListNotations.
Local Open Scope Z_scope.

(** handler_monitor.h: [_down_state], [_monitor_threshold]. *)
Record monitor := mkMonitor { failures : Z; threshold : Z }.
(** What get_node returns: no such node, or the state of the node. *)
Inductive reading := Missing | ReadsDown | ReadsOther.
(** What ends the wait: the interval is over and the node is pinged; a queue entry
    "node_sync", with the state of the connection and the outcome of the transfer;
    "update_monitor_option"; any other entry. *)
Inductive work := Ping (ok : bool) | NodeSync (available ok : bool) | Options (t : Z) | Unknown.
(** Requests to the controller thread (cluster.cc:1083-1097). *)
Inductive request := RequestDown | RequestUp.

(** handler_monitor.cc:190-202 [_down]; int overflow is undefined. *)
Definition down (m : monitor) : option (monitor * list request) :=
  let d := failures m + 1 in
  if 2 ^ 31 <=? d then None else
  Some (mkMonitor d (threshold m), if d =? threshold m then [RequestDown] else []).
(** handler_monitor.cc:204-212 [_up] *)
Definition up (m : monitor) : monitor * list request :=
  (mkMonitor 0 (threshold m), if threshold m <=? failures m then [RequestUp] else []).
(** handler_monitor.cc:99-109 *)
Definition sync_map (m : monitor) (r : reading) : monitor :=
  match r with
  | Missing => m
  | ReadsDown => mkMonitor (threshold m) (threshold m)
  | ReadsOther => if threshold m <=? failures m then mkMonitor 0 (threshold m) else m
  end.
(** handler_monitor.cc:163-188 [_process_queue] *)
Definition process_queue (m : monitor) (w : work) : monitor * bool :=
  match w with
  | Options t => (mkMonitor (failures m) t, true)
  | NodeSync available ok =>
      if (threshold m <=? failures m) && negb available then (m, false) else (m, ok)
  | _ => (m, false)
  end.
(** handler_monitor.cc:76-127: one iteration. *)
Definition iterate (m : monitor) (r : reading) (w : work) : option (monitor * list request) :=
  let m := sync_map m r in
  match w with
  | Ping ok => if ok then Some (up m) else down m
  | _ => let (m, ok) := process_queue m w in if ok then Some (m, []) else down m
  end.
(** handler_monitor.cc:63-75: the first connection. *)
Definition start (t : Z) (connected : bool) : option (monitor * list request) :=
  let m := mkMonitor 0 t in if connected then Some (m, []) else down m.

(** Any sequence of readings and outcomes; the requests made in each iteration. *)
Fixpoint iterates (m : monitor) (es : list (reading * work)) : option (monitor * list (list request)) :=
  match es with
  | [] => Some (m, [])
  | (r, w) :: es' =>
      match iterate m r w with
      | None => None
      | Some (m', q) => match iterates m' es' with Some (m'', qs) => Some (m'', q :: qs) | None => None end
      end
  end.

(** The monitor with the controller: requests are carried out before the next iteration,
    and nothing else changes the state of the node (cluster.cc:494-600, 684-770: a node
    that is not down goes down, a node that is down comes up). *)
Definition obey (isdown : bool) (q : request) : bool := match q with RequestDown => true | RequestUp => false end.
Fixpoint closed (m : monitor) (isdown : bool) (ws : list work) : option (monitor * bool * list (list request)) :=
  match ws with
  | [] => Some (m, isdown, [])
  | w :: ws' =>
      match iterate m (if isdown then ReadsDown else ReadsOther) w with
      | None => None
      | Some (m', q) =>
          match closed m' (fold_left obey q isdown) ws' with
          | Some (m'', d, qs) => Some (m'', d, q :: qs)
          | None => None
          end
      end
  end.
