(** Property theorems for key hashing and partition resolution (C13-C16). *)
From Coq Require Import NArith ZArith List Arith Lia String.
From Verif Require Import Base KeyResolverModel KeyResolverSpec KeyResolverProofs.
Import ListNotations.

(** C13. Every key resolves to exactly one existing partition; [resolve] depends
    only on the configuration, the hash and the number of partitions, so nodes
    with the same configuration agree. *)
Theorem c13_resolve_in_range c h n : valid c -> (0 <= h)%Z -> (1 <= n < c_partition_size c)%nat ->
  exists p, resolve c h n = Some p /\ (p < n)%nat.
Proof. exact (resolve_ok c h n). Qed.
Print Assumptions c13_resolve_in_range.
Definition cfg : config := mkConfig 16 1 64.
Example c13_nonvacuous : valid cfg /\ resolve cfg 77 5 = Some 4%nat /\ resolve cfg 77 4 = Some 0%nat
  /\ startup_ok cfg = true.
Proof. split; [split; cbn; lia|]. vm_compute. auto. Qed.

(** Outside a valid configuration the table is not usable: a hint below 1 makes
    start-up read through a null row, and nothing stops a cluster from having as
    many partitions as the table has rows. *)
Theorem c13_hint_zero_refuted : exists c, c_hint c = 0%Z /\ c_virtual c = 4096%nat
  /\ startup_ok c = false.
Proof. exact (ex_intro _ (mkConfig 1024 0 4096) (conj eq_refl (conj eq_refl eq_refl))). Qed.
Print Assumptions c13_hint_zero_refuted.
Theorem c13_table_overrun_refuted : exists c n, valid c /\ startup_ok c = true
  /\ forall h, resolve c h n = None.
Proof. exact (ex_intro _ (mkConfig 4 1 8) (ex_intro _ 4%nat
  (conj (conj (Z.le_refl 1) (le_n_S 0 7 (Nat.le_0_l 7))) (conj eq_refl (fun h => eq_refl))))). Qed.
Print Assumptions c13_table_overrun_refuted.

(** C14. *)
Theorem c14_minimal_movement c h n p p' : valid c -> (0 <= h)%Z -> (1 <= n)%nat -> (S n < c_partition_size c)%nat ->
  (c_hint c <= Z.of_nat n)%Z ->
  resolve c h n = Some p -> resolve c h (S n) = Some p' -> p' = p \/ p' = n.
Proof. exact (resolve_grow c h n p p'). Qed.
Print Assumptions c14_minimal_movement.
Example c14_nonvacuous : resolve cfg 12 4 = Some 1%nat /\ resolve cfg 12 5 = Some 4%nat
  /\ resolve cfg 5 4 = Some 0%nat /\ resolve cfg 5 5 = Some 0%nat.
Proof. vm_compute. auto. Qed.
(** Below the hint keys do move between old partitions. *)
Theorem c14_below_hint_refuted : exists c h n p p', valid c /\ (S n < c_partition_size c)%nat
  /\ resolve c h n = Some p /\ resolve c h (S n) = Some p' /\ p' <> p /\ p' <> n.
Proof.
  exists (mkConfig 16 8 64), 3%Z, 2%nat, 1%nat, 0%nat.
  split; [split; cbn; lia|]. split; [cbn; lia|]. vm_compute. repeat split; discriminate.
Qed.
Print Assumptions c14_below_hint_refuted.

(** C15. What each old partition hands over, exactly ... *)
Theorem c15_handover c n r r' p : valid c -> (1 <= n)%nat -> (c_hint c <= Z.of_nat n)%Z -> (n < c_partition_size c)%nat ->
  row c n = Some r -> row c (S n) = Some r' -> (p < n)%nat ->
  (slots r' p = slots r p - (slots r p + 1) / (n + 1) /\ (slots r p + 1) / (n + 1) <= slots r p)%nat.
Proof. exact (handover c n r r' p). Qed.
Print Assumptions c15_handover.
(** ... so with [n] partitions every partition owns the fair share
    [virtual / n] of the hash slots up to [n - 1] slots. *)
Theorem c15_balance c n r p : valid c -> (1 <= n <= c_partition_size c)%nat -> row c n = Some r -> (p < n)%nat ->
  (Z.abs (Z.of_nat n * Z.of_nat (slots r p) - Z.of_nat (c_virtual c)) <= Z.of_nat n * (Z.of_nat n - 1))%Z.
Proof. exact (fun Hc Hn Hr Hp => balance c n Hc Hn r p Hr Hp). Qed.
Print Assumptions c15_balance.
(** The rows exist and cover every hash slot. *)
Theorem c15_row_exists c i : valid c -> (1 <= i <= c_partition_size c)%nat ->
  exists r, row c i = Some r /\ List.length r = c_virtual c /\ Forall (fun p => p < i)%nat r.
Proof. exact (row_ok c i). Qed.
Print Assumptions c15_row_exists.
Example c15_nonvacuous :
  match row cfg 4, row cfg 5 with
  | Some r, Some r' => map (slots r) [0; 1; 2; 3] = [16; 16; 17; 15] /\ map (slots r') [0; 1; 2; 3; 4] = [13; 13; 14; 12; 12]
  | _, _ => False
  end%nat.
Proof. vm_compute. auto. Qed.

(** C16. With the sign folded, a hash is a usable (non-negative) index, unless
    the raw 32-bit hash is exactly INT_MIN. *)
Theorem c16_hash_nonneg_partial r : is_i32 r -> r <> (- 2 ^ 31)%Z -> (0 <= fold_sign r < 2 ^ 31)%Z.
Proof. exact (fold_sign_nonneg r). Qed.
Print Assumptions c16_hash_nonneg_partial.
Theorem c16_raw_is_int ext h k : is_i32 match h with
  | ha_simple => hash_simple k
  | ha_bitshift => hash_bitshift k
  | _ => wrap32 (ext h (cstr k)) end.
Proof. exact (raw_range ext h k). Qed.
Print Assumptions c16_raw_is_int.
(** The exception is reachable: with the bitshift algorithm the key
    "!/zt\sn" has a negative hash, and resolving it reads outside the table. *)
Theorem c16_int_min_refuted : exists k : bytes, forall ext,
  (key_hash ext ha_bitshift k < 0)%Z /\ resolve (mkConfig 16 1 63) (key_hash ext ha_bitshift k) 5 = None.
Proof. exists [33; 47; 122; 116; 92; 115; 110]%N. intros ext. vm_compute. auto. Qed.
Print Assumptions c16_int_min_refuted.
Example c16_nonvacuous : key_hash (fun _ _ => 0%Z) ha_simple (s2b "key1"%string) = 378%Z
  /\ key_hash (fun _ _ => 0%Z) ha_bitshift (s2b "key1"%string) = 1279122653%Z.
Proof. vm_compute. auto. Qed.

(** The two algorithms of flare itself are the sum of the signed bytes of the key, and the
    number with these digits to base 37 after 19790217, as 32 bit integers. *)
Theorem c16_simple_exact k : wf_bytes k -> same32 (hash_simple k) (fold_right Z.add 0%Z (signed_text k)) /\ is_i32 (hash_simple k).
Proof. exact (hash_simple_spec k). Qed.
Print Assumptions c16_simple_exact.
Theorem c16_bitshift_exact k : wf_bytes k -> same32 (hash_bitshift k) (base37 19790217 (signed_text k)) /\ is_i32 (hash_bitshift k).
Proof. exact (hash_bitshift_spec k). Qed.
Print Assumptions c16_bitshift_exact.
Example c16_signed : wf_bytes [200; 1; 0; 7]%N /\ signed_text [200; 1; 0; 7]%N = [-56; 1]%Z /\ hash_simple [200; 1; 0; 7]%N = (-55)%Z.
Proof. split; [repeat constructor|]. split; reflexivity. Qed.
