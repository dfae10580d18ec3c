(** Specification vocabulary for key resolution. *)
From Coq Require Import ZArith List.
From Verif Require Import KeyResolverModel.

(** Valid configuration: hint and number of hash slots are positive. *)
Definition valid (c : config) : Prop := (1 <= c_hint c)%Z /\ (1 <= c_virtual c)%nat.

(** The number of hash slots a table row gives to partition [p]. *)
Definition slots (r : list nat) (p : nat) : nat := count_occ Nat.eq_dec r p.

(** The bytes of a key before its first NUL, as signed numbers. *)
Fixpoint signed_text (k : list N) : list Z :=
  match k with
  | nil => nil
  | cons 0%N _ => nil
  | cons c k' => cons ((Z.of_N c + 128) mod 256 - 128)%Z (signed_text k')
  end.
(** [a] and [b] are equal as 32 bit integers. *)
Definition same32 (a b : Z) : Prop := (a mod 2 ^ 32 = b mod 2 ^ 32)%Z.
(** The number whose digits to base 37 are [l], after [a]. *)
Fixpoint base37 (a : Z) (l : list Z) : Z := match l with nil => a | cons c l' => base37 (37 * a + c)%Z l' end.
