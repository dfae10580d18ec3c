(** Model of what the threads of the other pool say of themselves (as [DoingModel] for those that serve clients): the threads that
    send requests on, that replicate to another cluster, that monitor a node, and that change the state of nodes
    (src/lib/handler_proxy.cc, handler_cluster_replication.cc, handler_monitor.cc, handler_controller.cc).  The
    threads that copy a whole node are in [CopyingModel].  Not modelled: the empty entry that the monitor may take (see [QueueModel]). *)
From Coq Require Import NArith ZArith List Bool String.
From Verif Require Import Base DoingModel.
Import ListNotations.
Local Open Scope string_scope.

(** Where the thread is, with the node it works for; the one that changes the state of nodes works for none. *)
Inductive place :=
| Idle
| Begin (o : option (bytes * Z))             (* handler_proxy.cc:65, handler_cluster_replication.cc:60, handler_monitor.cc:67, handler_controller.cc:58 *)
| Connect (c : bytes * Z)                    (* 66, 61, 68 *)
| Open (c : bytes * Z)                       (* 68-72, 63-70, 70-77 *)
| Top (o : option (bytes * Z))               (* 75, 73, 80, 60 *)
| Clear (o : option (bytes * Z))             (* 76, 74, 81, 61 *)
| Ask (o : option (bytes * Z))               (* 78-95, 76-93, 83-97, 63-74: the checks for a shutdown and the dequeue *)
| Have (o : option (bytes * Z)) (w : bytes)  (* 96-116, 138; 105; 100-123, 151, 167; 87 *)
| Name (o : option (bytes * Z)) (w : bytes)  (* 139, 106, 152, 168, 88 *)
| Work (o : option (bytes * Z)) (w : bytes)  (* 141, 108, 154, 170, 90 *)
| Leave (o : option (bytes * Z)).            (* the end of [run]; thread_pool.cc:150-166 *)
(** [Setup]: the thread is started.  [Fail]: no connection (handler_cluster_replication.cc:65-70).  [Item]: an entry of the queue
    with this name, or the time for a ping has come; [Retry]: the queue was empty; [Skip]: the destination is a proxy now
    (handler_proxy.cc:97-116), or no connection for a ping (handler_monitor.cc:132-137); [Stop]: a shutdown was asked for.  [Kill]: op_kill.cc:109, cluster.cc:830, 1835, cluster_replication.cc:127, 245. *)
Inductive event := Setup (o : option (bytes * Z)) | Next | Fail | Item (w : bytes) | Retry | Skip | Stop | Kill.
Definition step (x : place * shown) (e : event) : option (place * shown) :=
  let '(p, s) := x in
  match e, p with
  | Kill, _ => Some (p, set_state (s2b "killed") s)
  | Setup o, Idle => Some (Begin o, set_state (s2b "setup") s)
  | Next, Begin (Some c) => Some (Connect c, set_peer c s)
  | Next, Begin None => Some (Top None, s)
  | Next, Connect c => Some (Open c, set_state (s2b "connect") s)
  | Next, Open c => Some (Top (Some c), s)
  | Fail, Open c => Some (Leave (Some c), s)
  | Next, Top o => Some (Clear o, set_state (s2b "wait") s)
  | Next, Clear o => Some (Ask o, set_op [] s)
  | Stop, Ask o => Some (Leave o, set_state (s2b "shutdown") s)
  | Retry, Ask o => Some (Top o, s)
  | Item w, Ask o => Some (Have o w, s)
  | Skip, Have o w => Some (Top o, s)
  | Next, Have o w => Some (Name o w, set_state (s2b "execute") s)
  | Next, Name o w => Some (Work o w, set_op w s)
  | Next, Work o w => Some (Top o, s)
  | Next, Leave o => Some (Idle, blank)
  | _, _ => None
  end.
Fixpoint steps (x : place * shown) (es : list event) : option (place * shown) :=
  match es with [] => Some x | e :: es' => match step x e with Some x' => steps x' es' | None => None end end.
