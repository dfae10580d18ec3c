(** What C68 says, apart from how the threads go about it. *)
From Coq Require Import List Arith.
From Verif Require Import ThreadModel.
Import ListNotations.

(** The server has come this far, from its start, by some schedule. *)
Definition reached (pmax cmax : nat) (s : st) : Prop :=
  exists es, steps (start pmax cmax) es = Some s.

(** The connection was given to a thread, and that thread has begun to serve it. *)
Definition serving_began (s : st) (j : nat) : Prop := exists t, In (j, t) (ran s).

(** The session of thread [t] is that of connection [j], from its first to its
    last request. *)
Definition in_session (s : st) (t j : nat) : Prop :=
  exists h, at_ (wk_of s t) = Inside j h.

(** A step of a kill is timely when the thread it is aimed at is still inside
    a session. (The last step, the signal, is harmless at any time.) *)
Definition timely (s : st) (e : event) : Prop :=
  match e with
  | Spurious _ => False
  | KillStep t =>
      match kill_of t (kills s) with
      | Some Triggered => True
      | _ => exists j, in_session s t j
      end
  | _ => True
  end.

(** A schedule without spurious wake-ups, in which every kill acts on a thread
    that is inside a session. *)
Fixpoint timely_run (s : st) (es : list event) : Prop :=
  match es with
  | [] => True
  | e :: r => timely s e /\ match step s e with Some s' => timely_run s' r | None => False end
  end.

Definition reached_timely (pmax cmax : nat) (s : st) : Prop :=
  exists es, timely_run (start pmax cmax) es /\ steps (start pmax cmax) es = Some s.

(** How many requests of connection [j] were taken in. *)
Definition requests (s : st) (j : nat) : nat := count_occ Nat.eq_dec (asked s) j.

(** Steps that wait for nobody: the accept loop's, and a thread's own. *)
Definition unaided (t : nat) (e : event) : Prop := e = Hand \/ e = Go t.
