(** Shared vocabulary: bytes, byte strings, fixed width integer codecs and
    decimal numerals.  No code of /repo is modelled here; these are the notions
    the models and the specifications are written in. *)
From Coq Require Import NArith ZArith List Bool Lia String Ascii.
From Coq Require Import ZifyBool ZifyNat ZifyN.
Import ListNotations.
Local Open Scope N_scope.

(** A byte is an [N] below 256, a byte string a list of those. *)
Notation byte := N (only parsing).
Notation bytes := (list N) (only parsing).
Definition is_byte (b : N) : Prop := b < 256.
Definition wf_bytes (l : bytes) : Prop := Forall is_byte l.

(** C string literals. *)
Definition s2b (s : string) : bytes := map N_of_ascii (list_ascii_of_string s).

Fixpoint beq (a b : bytes) : bool :=
  match a, b with
  | [], [] => true
  | x :: a', y :: b' => (x =? y) && beq a' b'
  | _, _ => false
  end.

(** Length of a buffer as an unsigned C integer. *)
Definition blen (l : bytes) : N := N.of_nat (List.length l).

(** Unsigned wrap-around. *)
Definition u32 (n : N) : N := n mod 2 ^ 32.
Definition u64 (n : N) : N := n mod 2 ^ 64.

(** [k] little-endian bytes of [v]. *)
Fixpoint le_enc (k : nat) (v : N) : bytes :=
  match k with
  | O => []
  | S k' => (v mod 256) :: le_enc k' (v / 256)
  end.
Fixpoint le_dec (l : bytes) : N :=
  match l with
  | [] => 0
  | b :: l' => b + 256 * le_dec l'
  end.

(** Big-endian (network order). *)
Definition be_enc (k : nat) (v : N) : bytes := rev (le_enc k v).
Definition be_dec (l : bytes) : N := le_dec (rev l).

(** 64 bit two's complement ([time_t], [long]). *)
Definition i64_to_u64 (z : Z) : N := Z.to_N (z mod 2 ^ 64).
Definition u64_to_i64 (n : N) : Z :=
  if n <? 2 ^ 63 then Z.of_N n else (Z.of_N n - 2 ^ 64)%Z.
Definition is_i64 (z : Z) : Prop := (- 2 ^ 63 <= z < 2 ^ 63)%Z.
(** 32 bit two's complement ([int]). *)
Definition i32_to_u32 (z : Z) : N := Z.to_N (z mod 2 ^ 32).
Definition u32_to_i32 (n : N) : Z :=
  if n <? 2 ^ 31 then Z.of_N n else (Z.of_N n - 2 ^ 32)%Z.
Definition is_i32 (z : Z) : Prop := (- 2 ^ 31 <= z < 2 ^ 31)%Z.

(** Decimal numerals as printed by printf("%llu"). *)
Definition is_digit (c : N) : bool := (48 <=? c) && (c <=? 57).
Fixpoint dec_rev (fuel : nat) (v : N) : bytes :=
  match fuel with
  | O => []
  | S f => (48 + v mod 10) :: (if v / 10 =? 0 then [] else dec_rev f (v / 10))
  end.
Definition dec (v : N) : bytes := rev (dec_rev (S (N.size_nat v)) v).
(** printf("%ld") *)
Definition decZ (z : Z) : bytes :=
  if (z <? 0)%Z then 45 :: dec (Z.to_N (- z)) else dec (Z.to_N z).

(** Value of a digit string. *)
Definition dec_val (l : bytes) : N := fold_left (fun a d => a * 10 + (d - 48)) l 0.

(** Longest prefix satisfying [f] and the rest. *)
Fixpoint span (f : N -> bool) (l : bytes) : bytes * bytes :=
  match l with
  | [] => ([], [])
  | x :: l' => if f x then let '(a, b) := span f l' in (x :: a, b) else ([], l)
  end.
