(** Model of key hashing and key-to-partition resolution:
    src/lib/storage.h (get_key_hash_value) and src/lib/key_resolver_modular.cc. *)
From Coq Require Import NArith ZArith List Bool Arith.
From Verif Require Import Base.
Import ListNotations.

(** key_resolver_modular.h:43-47.  [_map] is the table built by [startup]. *)
Record config := mkConfig {
  c_partition_size : nat;   (* _partition_size: rows 0 .. _partition_size-1 *)
  c_hint : Z;               (* _hint *)
  c_virtual : nat;          (* _virtual: columns *)
}.

(** [counter[k]++]; callers check the bound. *)
Fixpoint bump (counter : list nat) (k : nat) : list nat :=
  match counter, k with
  | [], _ => []
  | c :: cs, O => S c :: cs
  | c :: cs, S k' => c :: bump cs k'
  end.

(** key_resolver_modular.cc:84-97, the inner loop over [j] for a row [i] above
    the hint; [prev] is the rest of row i-1 from column j on.  [None]: counter
    index out of range (undefined behaviour). *)
Fixpoint refine (i : nat) (counter : list nat) (prev : list nat) : option (list nat) :=
  match prev with
  | [] => Some []
  | k :: prev' =>
    match nth_error counter k with
    | None => None
    | Some c =>
      let v := if Nat.eqb (S c mod i) (i - 1) then (i - 1)%nat else k in
      match refine i (bump counter k) prev' with
      | None => None
      | Some r => Some (v :: r)
      end
    end
  end.

(** key_resolver_modular.cc:68-101 [startup], row [i] of the table.  Row 0 is
    NULL; reading through it is undefined ([None]). *)
Fixpoint row (c : config) (i : nat) : option (list nat) :=
  match i with
  | O => None
  | S i' =>
    if (Z.of_nat i <=? c_hint c)%Z then Some (map (fun j => (j mod i)%nat) (seq 0 (c_virtual c)))
    else match row c i' with
    | None => None
    | Some prev => refine i (repeat 0%nat (c_partition_size c)) prev
    end
  end.

(** key_resolver_modular.cc:106-109 [resolve]: [_map[partition_size][h % _virtual]].
    [None]: table row or column out of range, or division by zero. *)
Definition resolve (c : config) (h : Z) (n : nat) : option nat :=
  if Nat.ltb n (c_partition_size c) then
    match row c n with
    | None => None
    | Some r =>
      if Nat.eqb (c_virtual c) 0 then None
      else let j := Z.rem h (Z.of_nat (c_virtual c)) in
        if (j <? 0)%Z then None else nth_error r (Z.to_nat j)
    end
  else None.

(** [startup] as a whole: every row from 1 to _partition_size-1 is built.  [None]
    when any of them runs into undefined behaviour. *)
Definition startup_ok (c : config) : bool :=
  forallb (fun i => match row c i with Some _ => true | None => false end)
    (seq 1 (c_partition_size c - 1)).

(** *** Hashing *)
Local Open Scope Z_scope.

(** Two's complement wrap to [int].  Signed overflow is undefined in C++; the
    model describes the wrapped result every mainstream compiler produces here and
    [strict_int] below says whether the standard defines the value. *)
Definition wrap32 (z : Z) : Z := u32_to_i32 (i32_to_u32 z).

(** [static_cast<int>( *p )] for a plain (signed on x86) char. *)
Definition schar (b : N) : Z := if (b <? 128)%N then Z.of_N b else Z.of_N b - 256.

(** The bytes of [key.c_str()] up to the first NUL. *)
Fixpoint cstr (k : bytes) : bytes :=
  match k with
  | [] => []
  | c :: k' => if (c =? 0)%N then [] else c :: cstr k'
  end.

(** storage.h:151-156 *)
Definition hash_simple (k : bytes) : Z := fold_left (fun r c => wrap32 (r + schar c)) (cstr k) 0.
(** storage.h:157-163 *)
Definition hash_bitshift (k : bytes) : Z :=
  fold_left (fun r c => wrap32 (wrap32 (wrap32 (wrap32 (r * 32) + wrap32 (r * 4)) + r) + schar c)) (cstr k) 19790217.

(** storage.h:181-184: [if (r < 0) r *= -1]. *)
Definition fold_sign (r : Z) : Z := if r <? 0 then wrap32 (r * -1) else r.

(** storage.h:50-58 hash_algorithm.  crc32/adler32 (zlib), murmur and jenkins
    (libhashkit) are external and appear as the function [ext]. *)
Inductive hash_algorithm := ha_simple | ha_bitshift | ha_crc32 | ha_adler32 | ha_murmur | ha_jenkins.
Definition key_hash (ext : hash_algorithm -> bytes -> Z) (h : hash_algorithm) (k : bytes) : Z :=
  fold_sign match h with
  | ha_simple => hash_simple k
  | ha_bitshift => hash_bitshift k
  | _ => wrap32 (ext h (cstr k))
  end.
