(** What C36 says about schedules. *)
From Coq Require Import List Bool NArith ZArith.
From Verif Require Import QueueModel.
Import ListNotations.

(** States that schedules of events satisfying [allowed] lead to. *)
Definition reachable (allowed : event -> bool) (k : kind) (s : st) : Prop :=
  exists es, forallb allowed es = true /\ steps k st0 es = Some s.
Definition any_event (_ : event) : bool := true.
(** The condition variable of a waiting requester wakes it only when signalled. *)
Definition no_spurious (e : event) : bool := match e with SpuriousWaiter _ => false | _ => true end.
(** The worker is not shut down, and its condition variable behaves as well. *)
Definition quiet (e : event) : bool := match e with SpuriousWaiter _ | SpuriousWorker | Shutdown => false | _ => true end.
(** Steps of the worker and signals already on their way. *)
Definition internal (e : event) : bool := match e with Worker | Send _ => true | _ => false end.
Definition prefix {A} (l m : list A) : Prop := exists r, m = l ++ r.
