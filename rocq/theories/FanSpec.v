(** What C71 says, in terms of schedules. *)
From Coq Require Import List Bool Arith ZArith.
From Verif Require Import FanModel.
Import ListNotations.

(** The workers a program names. *)
Definition targets (p : list instr) : list nat := flat_map (fun i => match i with Give d => [d] | Await => [] end) p.
(** Each worker once. *)
Definition fair_prog (p : list instr) : Prop := NoDup (targets p).

Definition no_spurious (es : list event) : Prop := ~ In Spurious es.
(** No worker is stopped. *)
Definition no_stop (es : list event) : Prop := forall d, ~ In (Drop d) es /\ ~ In (Sweep d) es.
(** The requester hands the entry to no further worker while one that has counted down to
    zero has not yet sent its signal. *)
Fixpoint prompt (s : st) (es : list event) : Prop :=
  match es with
  | [] => True
  | e :: es' => forall s', step s e = Some s' -> (e = Ref -> forall d, at_ s d <> Counted true) /\ prompt s' es'
  end.
(** Nothing can happen any more except a wake-up without reason. *)
Definition stuck (s : st) : Prop := forall e, e <> Spurious -> step s e = None.
(** The requester has gone through its program. *)
Definition finished (s : st) : Prop := prog s = [] /\ how s = Free.
(** The worker is through with the entry or has never had it. *)
Definition over (s : st) (d : nat) : Prop := at_ s d = Away \/ at_ s d = Done.
(** Steps a program can take at most. *)
Definition budget (p : list instr) : nat := 6 * List.length p.
