(** What passing requests on should do. *)
From Coq Require Import List Bool NArith.
From Verif Require Import RelayModel.
Import ListNotations.
Local Open Scope N_scope.

Definition reachable (c : setup) (s : st) : Prop := exists es, steps c st0 es = Some s.

(** No thread is told to stop. *)
Definition undisturbed (es : list event) : Prop := forall t, ~ In (Stop t) es.

(** No thread empties its queue for the last time while a request has just seen it running, and none
    is taken off the list while a request has just found it there. *)
Definition in_time (s : st) (e : event) : Prop :=
  match e with
  | Sweep t => forall r, stage_of s r <> Checked t
  | Erase t => forall r, stage_of s r <> Found t
  | _ => True
  end.
Fixpoint all_in_time (c : setup) (s : st) (es : list event) : Prop :=
  match es with
  | [] => True
  | e :: es' => in_time s e /\ forall s', step c s e = Some s' -> all_in_time c s' es'
  end.

(** Requests that were passed on went to their nodes. *)
Definition right_node (c : setup) (s : st) : Prop := forall r node, In (Sent r node) (log s) -> node = to c r.

(** The request is with thread [t]. *)
Definition with_ (s : st) (t r : N) : Prop :=
  In r (queue_of s t) \/ exists u, place_of s t = Runs u (Some r).
Definition done (s : st) (r : N) : Prop := In r (map who (log s)).

(** All the threads a node needs are running and no request is about to make more. *)
Definition settled (c : setup) (s : st) (node : N) : Prop :=
  threads_of s node <> [] /\ (concurrency c <= length (threads_of s node))%nat /\
  (forall t, In t (threads_of s node) -> stop s t = false /\ exists h, place_of s t = Runs (Some node) h) /\
  (forall r, to c r = node -> forall n t, stage_of s r <> Making n /\ stage_of s r <> Made t n).

(** [q] is never dealt with before [r]. *)
Definition after (s : st) (r q : N) : Prop :=
  forall l1 o l2, log s = l1 ++ o :: l2 -> who o = q -> In r (map who l1).
