(** Model of what the two remaining threads say of themselves (as [DoingModel], [LabourModel] and [CopyingModel] for the others): the
    one that keeps the time (src/flared/handler_alarm.cc, the same in src/flarei) and the one that feeds a MySQL slave
    (src/flared/handler_mysql_replication.cc).  What is sent to the slave is in the models of C63. *)
From Coq Require Import NArith ZArith List Bool String.
From Verif Require Import Base DoingModel.
Import ListNotations.
Local Open Scope string_scope.

(** handler_alarm.cc and handler_mysql_replication.cc *)
Inductive kind := Clock | Feed.
(** Where the thread is. *)
Inductive place :=
| Idle
| Begin (k : kind)    (* handler_alarm.cc:57, handler_mysql_replication.cc:62 *)
| Clear (k : kind)    (* 58, 63 *)
| Listen              (* handler_mysql_replication.cc:65-69 *)
| Loop (k : kind)     (* 60-69; 71-94: a slave is waited for *)
| Ask                 (* 96-127: an entry is waited for *)
| Have (w : bytes)    (* 157-158 *)
| Name (w : bytes)    (* 159 *)
| Work (w : bytes)    (* 129-138, 161-169 *)
| Leave (k : kind).   (* the end of [run]; thread_pool.cc:150-166 *)
(** [Setup]: the thread is started.  [Fail]: the port is taken (66-69).  [Slave]: one has logged in (84-94); [Gone]: its connection is
    lost (123-126), or an entry could not be sent (135-138).  [Item]: an entry with this name; [Retry]: none came (114-127).
    [Stop]: a shutdown was asked for.  [Kill]: op_kill.cc:109. *)
Inductive event := Setup (k : kind) | Next | Fail | Slave | Gone | Item (w : bytes) | Retry | Stop | Kill.
(** handler_alarm.cc:56-73, handler_mysql_replication.cc:61-170; only entries named proxy_write are sent (163-169) *)
Definition step (x : place * shown) (e : event) : option (place * shown) :=
  let '(p, s) := x in
  match e, p with
  | Kill, _ => Some (p, set_state (s2b "killed") s)
  | Setup k, Idle => Some (Begin k, set_state (s2b "setup") s)
  | Next, Begin k => Some (Clear k, set_state (s2b "wait") s)
  | Next, Clear Clock => Some (Loop Clock, set_op [] s)
  | Next, Clear Feed => Some (Listen, set_op [] s)
  | Next, Listen => Some (Loop Feed, s)
  | Fail, Listen => Some (Leave Feed, s)
  | Next, Loop Clock => Some (Loop Clock, s)
  | Stop, Loop k => Some (Leave k, s)
  | Slave, Loop Feed => Some (Ask, s)
  | Stop, Ask => Some (Loop Feed, set_state (s2b "shutdown") s)
  | Retry, Ask => Some (Ask, s)
  | Gone, Ask => Some (Loop Feed, s)
  | Item w, Ask => Some (Have w, s)
  | Next, Have w => Some (Name w, set_state (s2b "execute") s)
  | Next, Name w => Some (Work w, set_op w s)
  | Next, Work w => Some (if beq w (s2b "proxy_write") then Ask else Loop Feed, s)
  | Gone, Work w => Some (Loop Feed, s)
  | Next, Leave k => Some (Idle, blank)
  | _, _ => None
  end.
(** A schedule: the events one after the other. *)
Fixpoint steps (x : place * shown) (es : list event) : option (place * shown) :=
  match es with [] => Some x | e :: es' => match step x e with Some x' => steps x' es' | None => None end end.
