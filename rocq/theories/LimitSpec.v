(** What C41 says, in bytes and microseconds. *)
From Coq Require Import List Bool NArith ZArith.
From Verif Require Import LimitModel.
Import ListNotations.
Local Open Scope Z_scope.

Definition usec (t : timeval) : Z := tv_sec t * 1000000 + tv_usec t.
(** A time of day: after 1970-01-01 00:00:01, microseconds below a million. *)
Definition time_of_day (t : timeval) : Prop := 0 < tv_sec t < 2 ^ 40 /\ 0 <= tv_usec t < 1000000.

(** Bytes handed over. *)
Definition sent (cs : list call) : Z := fold_right (fun c a => Z.of_N (fst (fst c)) + a) 0 cs.
(** The clock readings of the calls do not go backwards from [t0] on, nor beyond [t1]. *)
Fixpoint forwards (t0 t1 : Z) (cs : list call) : Prop :=
  match cs with
  | [] => True
  | (_, s, w) :: cs' =>
      time_of_day s /\ time_of_day w /\ t0 <= usec s /\ usec s <= usec w /\ usec w <= t1 /\ forwards (usec w) t1 cs'
  end.
(** Every sleep lasted at least as long as asked. *)
Fixpoint slept (us : list (option Z)) (cs : list call) : Prop :=
  match us, cs with
  | u :: us', (_, s, w) :: cs' => match u with Some u => usec s + u <= usec w | None => True end /\ slept us' cs'
  | _, _ => True
  end.
(** What may be sent within [t] microseconds under a limit of [limit] kilobytes a second,
    times 976: the code takes a second for 976 times 1024 microseconds. *)
Definition allowance (limit : N) (t : Z) : Z := Z.of_N limit * t.

(** What is outstanding when a call that hands over [b] bytes starts [e] microseconds
    after the last one (of the first call, [None]), and the sleep due for it. *)
Definition outstanding (limit : N) (debt : Z) (b : N) (e : option Z) : Z :=
  match e with
  | None => Z.of_N b
  | Some e => Z.max 0 (debt + Z.of_N b - allowance limit e / 976)
  end.
Definition due_sleep (limit : N) (out : Z) : Z := out * 976 / Z.of_N limit.
(** Limits, volumes and durations for which no step overflows: below 2^20 kB/s, 2^50
    bytes, and 2^42 microseconds (50 days). *)
Definition sane (limit : N) (volume duration : Z) : Prop := (0 < limit < 2 ^ 20)%N /\ volume < 2 ^ 50 /\ duration <= 2 ^ 42.
