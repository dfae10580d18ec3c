(** Model of what a thread that serves clients says of itself while it does so: the peer, the operation and the state that the
    reports on threads show (src/lib/thread.h:134-137, thread.cc, src/flared/handler_request.cc and src/flarei/handler_request.cc,
    which differ in the operations they know only, src/lib/op.cc).  Each change is made under a lock of its own, so that a report
    can come between any two.  The handlers of the other pool are in [LabourModel]. *)
From Coq Require Import NArith ZArith List Bool String.
From Verif Require Import Base.
Import ListNotations.
Local Open Scope string_scope.

(** thread.h:60-72: the part of thread_info that is set here *)
Record shown := mkShown { sh_peer : bytes * Z; sh_op : bytes; sh_state : bytes }.
(** thread.cc:102-110, 310-325 *)
Definition blank : shown := mkShown ([], 0%Z) [] [].
(** thread.h:134-137 *)
Definition set_peer (c : bytes * Z) (s : shown) : shown := mkShown c (sh_op s) (sh_state s).
Definition set_op (w : bytes) (s : shown) : shown := mkShown (sh_peer s) w (sh_state s).
Definition set_state (w : bytes) (s : shown) : shown := mkShown (sh_peer s) (sh_op s) w.

(** Where the thread is: in the pool or not yet set up; then, with the client, before the line of handler_request.cc or op.cc
    that is named. *)
Inductive place :=
| Idle
| Begin (c : bytes * Z)             (* handler_request.cc:61 *)
| Top (c : bytes * Z)               (* 64 *)
| Clear (c : bytes * Z)             (* 65 *)
| Read (c : bytes * Z)              (* 67 *)
| Accept (c : bytes * Z) (w : bytes)  (* 79 *)
| Name (c : bytes * Z) (w : bytes)    (* 80 *)
| Enter (c : bytes * Z) (w : bytes)   (* 82, op.cc:69 *)
| Parse (c : bytes * Z) (w : bytes)   (* op.cc:70-75 *)
| Work (c : bytes * Z) (w : bytes)    (* op.cc:76 *)
| Back (c : bytes * Z) (w : bytes)    (* handler_request.cc:84-97 *)
| Leave (c : bytes * Z).            (* 100, thread_pool.cc:150-166 *)

(** [Setup]: the thread is given a client (thread_pool.cc:102, thread.cc:180-191).  The others are steps of the thread:
    [Next], the only thing possible; [Request]: one has come; [Nothing]: none can be read; [Bad], [Good]: its parameters;
    [Quit]: it ends the session, or a shutdown was asked for.  [Kill]: op_kill.cc:109, by another thread. *)
Inductive event := Setup (c : bytes * Z) | Next | Request (w : bytes) | Nothing | Bad | Good | Quit | Kill.
Definition step (x : place * shown) (e : event) : option (place * shown) :=
  let '(p, s) := x in
  match e, p with
  | Kill, _ => Some (p, set_state (s2b "killed") s)
  | Setup c, Idle => Some (Begin c, set_state (s2b "setup") s)
  | Next, Begin c => Some (Top c, set_peer c s)
  | Next, Top c => Some (Clear c, set_state (s2b "wait") s)
  | Next, Clear c => Some (Read c, set_op [] s)
  | Request w, Read c => Some (Accept c w, s)
  | Nothing, Read c => Some (Leave c, set_state (s2b "shutdown") s)
  | Next, Accept c w => Some (Name c w, set_state (s2b "accept") s)
  | Next, Name c w => Some (Enter c w, set_op w s)
  | Next, Enter c w => Some (Parse c w, set_state (s2b "parse") s)
  | Bad, Parse c w => Some (Back c w, s)
  | Good, Parse c w => Some (Work c w, set_state (s2b "execute") s)
  | Next, Work c w => Some (Back c w, s)
  | Quit, Back c w => Some (Leave c, set_state (s2b "shutdown") s)
  | Next, Back c w => Some (Top c, s)
  | Next, Leave c => Some (Idle, blank)
  | _, _ => None
  end.
Fixpoint steps (x : place * shown) (es : list event) : option (place * shown) :=
  match es with [] => Some x | e :: es' => match step x e with Some x' => steps x' es' | None => None end end.
