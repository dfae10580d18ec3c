(** What C69 says, apart from how the stop goes about it. *)
From Coq Require Import List.
From Verif Require Import ThreadModel ThreadSpec StopModel.
Import ListNotations.

(** Nobody is killed, no condition variable wakes up by itself, and the stop
    never gives up waiting. *)
Definition peaceful_event (e : sevent) : Prop :=
  match e with
  | Ev (KillStep _) | Ev (Spurious _) | Timeout => False
  | _ => True
  end.
Definition peaceful (es : list sevent) : Prop := Forall peaceful_event es.

(** No thread is in a session: no request is being executed, none is awaited. *)
Definition quiet (x : sst) : Prop := forall t j, ~ in_session (base x) t j.

(** Nothing but the passing of the time limit moves the stop on. *)
Definition stuck_until_timeout (x : sst) (silent : sevent -> Prop) : Prop :=
  forall es x', Forall (fun e => e <> Timeout /\ silent e) es -> ssteps x es = Some x' -> ph x' = ph x.

(** The steps of the stop itself, and those among them that are waits given up. *)
Fixpoint stop_steps (es : list sevent) : nat :=
  match es with
  | [] => 0
  | Ev _ :: r => stop_steps r
  | _ :: r => S (stop_steps r)
  end.
Fixpoint given_up (es : list sevent) : nat :=
  match es with
  | [] => 0
  | Timeout :: r => S (given_up r)
  | _ :: r => given_up r
  end.

(** The writes queued for a proxy thread in a run. *)
Fixpoint pushed (es : list pevent) : list nat :=
  match es with
  | [] => []
  | PPush q :: r => q :: pushed r
  | _ :: r => pushed r
  end.

(** The threads in the pool and those about to put themselves there. *)
Definition pooling (s : st) (t : nat) : bool := match at_ (wk_of s t) with CleanPool _ => true | _ => false end.
Definition to_pool (s : st) : nat := length (stack s) + length (List.filter (pooling s) (seq 0 (fresh s))).

(** The write a proxy thread has taken from its queue and not yet carried out. *)
Definition held (x : pst) : list nat :=
  match pat x with PCheck2 q | PProcess q => [q] | _ => [] end.
