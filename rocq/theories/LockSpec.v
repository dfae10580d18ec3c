(** Vocabulary of the lock property. *)
From Coq Require Import NArith List Bool.
From Verif Require Import Base TextModel LockModel.
Import ListNotations.
Local Open Scope N_scope.

(** [i] is between a begin_operation that succeeded and its end_operation. *)
Definition holds (s : st) (i : N) : Prop := l_main (locks s i) = MHeld.
(** Its ZooKeeper session exists. *)
Definition live (s : st) (i : N) : Prop := l_alive (locks s i) = true.
(** It is in begin_operation, waiting for its turn; no call has failed lately. *)
Definition waits (s : st) (i : N) : Prop := l_main (locks s i) = MWait true.
(** Its begin_operation has asked for the lock and has not returned. *)
Definition in_begin (s : st) (i : N) : Prop :=
  match l_main (locks s i) with MWait _ | MPoll _ => True | _ => False end.
(** Its node is the oldest one. *)
Definition first (s : st) (i : N) : Prop := exists x t, z_nodes s = mkZnode x i :: t.
(** No thread that waits, or that serves an event, fails to watch the node before
    its own with an error other than "no node". *)
Definition watches (e : event) : Prop :=
  match e with Call _ w NoWatch => w = First | _ => True end.
(** The uuids differ and have one length. *)
Definition good_uuid (uuid : N -> N -> bytes) : Prop :=
  (forall i g j h, uuid i g = uuid j h -> i = j /\ g = h) /\
  (forall i g, List.length (uuid i g) = 36%nat).
Definition reached (uuid : N -> N -> bytes) (es : list event) (s : st) : Prop := run uuid st0 es = Ok s.
(** The event is a step of the lock object [i] (and not an end of its session). *)
Definition of_object (i : N) (e : event) : Prop :=
  match e with
  | Begin j | Call j _ _ | Return j _ | Timeout j | Acquire j | Wake j _ | Release j | Delete j _ | Drop j => j = i
  | Expire _ => False
  end.
