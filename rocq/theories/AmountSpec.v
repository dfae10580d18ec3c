(** The amounts a client can name in incr and decr. *)
From Coq Require Import NArith List.
From Verif Require Import Base.
Import ListNotations.
Local Open Scope N_scope.
(** A number that fits: digits with a value below 2^64, maybe with a minus sign before them. *)
Definition number_word (w : bytes) : Prop :=
  exists ds, (w = ds \/ w = 45 :: ds) /\ ds <> [] /\ Forall (fun c => 48 <= c <= 57) ds /\ dec_val ds < 2 ^ 64.
