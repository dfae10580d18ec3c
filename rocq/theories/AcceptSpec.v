(** What is expected of the way connections come in. *)
From Coq Require Import List Bool Arith NArith.
From Verif Require Import Base AcceptModel.
Import ListNotations.

Definition reachable (k : kind) (max : nat) (s : srv) : Prop := exists es, steps k (listening max) es = Some s.
(** The connections of one listening socket. *)
Definition of_socket (l : nat) (p : list (nat * nat)) : list nat := map snd (filter (fun x => Nat.eqb (fst x) l) p).
(** Everywhere a connection can be. *)
Definition everywhere (s : srv) : list nat := map snd (pending s) ++ hand s ++ sessions s ++ over s ++ turned s ++ stuck s.
(** The highest limit that was in force. *)
Fixpoint highest (max : nat) (es : list event) : nat :=
  match es with [] => max | Reload n :: es => Nat.max max (highest n es) | _ :: es => highest max es end.
(** All system calls work for this socket. *)
Definition works (r : nat * list try * bool) : Prop := exists n ts, snd (fst r) = repeat TAgain n ++ TOk :: ts /\ n < 16 /\ snd r = true.
(** The failures of making a thread. *)
Definition failures (es : list event) : nat := length (filter (fun e => match e with Handle false => true | _ => false end) es).
