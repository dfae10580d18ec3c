(** Model of what the threads that copy a whole node say of themselves (as [DoingModel] and [LabourModel] for the others): the one
    that fetches the records of a master (src/lib/handler_reconstruction.cc) and the one that sends those of this node to another
    cluster (src/lib/handler_dump_replication.cc).  What is copied is in [DumpModel] and the models of C39, C57. *)
From Coq Require Import NArith ZArith List Bool String.
From Verif Require Import Base DoingModel.
Import ListNotations.
Local Open Scope string_scope.

(** handler_reconstruction.cc and handler_dump_replication.cc *)
Inductive kind := Fetch | Send.
(** Where the thread is, with the node it copies from or to. *)
Inductive place :=
| Idle
| Begin (k : kind) (c : bytes * Z)      (* handler_reconstruction.cc:68, handler_dump_replication.cc:66 *)
| Connect (k : kind) (c : bytes * Z)    (* 69, 67 *)
| Open (k : kind) (c : bytes * Z)       (* 71-77, 69-76 *)
| Have (k : kind) (c : bytes * Z)       (* 79-82, 78 *)
| Name (k : kind) (c : bytes * Z)       (* 83, 79 *)
| Copy (k : kind) (c : bytes * Z)       (* 88, 81-136 *)
| Tell (c : bytes * Z)                  (* handler_reconstruction.cc:75, 91, 100-109: the index server is told, or the other threads are waited for *)
| Leave (k : kind) (c : bytes * Z).     (* the end of [run]; thread_pool.cc:150-166 *)
(** [Setup]: the thread is started.  [Fail]: no connection.  [End]: the copy is over or has failed (handler_dump_replication.cc:81-84
    and 121-124 too).  [Stop]: it ends since a shutdown was asked for (op_dump.cc:249-263, handler_dump_replication.cc:98-99, 141-142).
    [Kill]: op_kill.cc:109, cluster_replication.cc:127, 245. *)
Inductive event := Setup (k : kind) (c : bytes * Z) | Next | Fail | End | Stop | Kill.
(** handler_reconstruction.cc:67-112, handler_dump_replication.cc:65-147; the name is that of op_dump.cc:42 and of line 79 *)
Definition step (x : place * shown) (e : event) : option (place * shown) :=
  let '(p, s) := x in
  match e, p with
  | Kill, _ => Some (p, set_state (s2b "killed") s)
  | Setup k c, Idle => Some (Begin k c, set_state (s2b "setup") s)
  | Next, Begin k c => Some (Connect k c, set_peer c s)
  | Next, Connect k c => Some (Open k c, set_state (s2b "connect") s)
  | Next, Open k c => Some (Have k c, s)
  | Fail, Open Fetch c => Some (Tell c, s)
  | Fail, Open Send c => Some (Leave Send c, s)
  | Next, Have k c => Some (Name k c, set_state (s2b "execute") s)
  | Next, Name k c => Some (Copy k c, set_op (s2b "dump") s)
  | End, Copy Fetch c | Stop, Copy Fetch c => Some (Tell c, s)
  | End, Copy Send c => Some (Leave Send c, s)
  | Stop, Copy Send c => Some (Leave Send c, set_state (s2b "shutdown") s)
  | Next, Tell c => Some (Leave Fetch c, s)
  | Next, Leave k c => Some (Idle, blank)
  | _, _ => None
  end.
(** A schedule: the events one after the other. *)
Fixpoint steps (x : place * shown) (es : list event) : option (place * shown) :=
  match es with [] => Some x | e :: es' => match step x e with Some x' => steps x' es' | None => None end end.
