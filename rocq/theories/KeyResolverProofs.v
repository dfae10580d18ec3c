From Coq Require Import NArith ZArith List Bool Arith Lia.
From Coq Require Import ZifyBool ZifyNat ZifyN.
From Verif Require Import Base BaseLemmas KeyResolverModel KeyResolverSpec.
Import ListNotations.
Ltac Zify.zify_post_hook ::= Z.div_mod_to_equations.

Lemma bump_length cs k : length (bump cs k) = length cs.
Proof. revert k. induction cs as [|c cs IH]; intros [|k]; cbn; auto. Qed.
Lemma bump_same cs k c : nth_error cs k = Some c -> nth_error (bump cs k) k = Some (S c).
Proof.
  revert k. induction cs as [|c0 cs IH]; intros [|k]; cbn; try discriminate.
  - now intros [= ->].
  - apply IH.
Qed.
Lemma bump_other cs k k' : k <> k' -> nth_error (bump cs k) k' = nth_error cs k'.
Proof.
  revert k k'. induction cs as [|c0 cs IH]; intros [|k] [|k'] H; cbn; auto; try congruence.
Qed.

Lemma refine_ok i prev : forall cs, Forall (fun k => k < length cs)%nat prev ->
  exists r, refine i cs prev = Some r /\ Forall2 (fun k v => v = k \/ v = (i - 1)%nat) prev r.
Proof.
  induction prev as [|k prev IH]; intros cs H; [exists []; now split|].
  inversion_clear H as [|? ? Hk Hp]. cbn [refine].
  destruct (nth_error cs k) as [c|] eqn:E; [|apply nth_error_None in E; lia].
  destruct (IH (bump cs k)) as (r&Er&Fr); [now rewrite bump_length|]. rewrite Er.
  eexists. split; [reflexivity|]. constructor; auto. destruct (_ =? _)%nat; auto.
Qed.

(** How many of the slots of [p] stay with it. *)
Lemma refine_count i prev : (1 <= i)%nat -> forall cs r p c, p <> (i - 1)%nat ->
  refine i cs prev = Some r -> nth_error cs p = Some c ->
  (slots r p + ((c + slots prev p + 1) / i - (c + 1) / i) = slots prev p)%nat.
Proof.
  intros Hi. induction prev as [|k prev IH]; intros cs r p c Hp Hr Hc; cbn [refine] in Hr.
  - injection Hr as <-. unfold slots. cbn. rewrite Nat.add_0_r. lia.
  - destruct (nth_error cs k) as [ck|] eqn:Ek; [|discriminate].
    destruct (refine i (bump cs k) prev) as [r'|] eqn:Er; [|discriminate].
    remember (if (S ck mod i =? i - 1)%nat then (i - 1)%nat else k) as v. injection Hr as <-.
    unfold slots in *. cbn [count_occ].
    destruct (Nat.eq_dec k p) as [->|Hkp].
    + assert (ck = c) by congruence. subst ck.
      specialize (IH (bump cs p) r' p (S c) Hp Er (bump_same _ _ _ Ek)).
      destruct (S c mod i =? i - 1)%nat eqn:Em; subst v.
      * destruct (Nat.eq_dec (i - 1) p) as [?|_]; [congruence|].
        apply Nat.eqb_eq in Em.
        assert (Hd : ((c + 2) / i = (c + 1) / i + 1)%nat).
        { symmetry. apply Nat.div_unique with 0%nat; [lia|].
          pose proof (Nat.div_mod (S c) i ltac:(lia)). replace (c + 1)%nat with (S c) by lia.
          rewrite Em in H. nia. }
        replace (c + S (count_occ Nat.eq_dec prev p) + 1)%nat with (S c + count_occ Nat.eq_dec prev p + 1)%nat by lia.
        assert (((S c + 1) / i <= (S c + count_occ Nat.eq_dec prev p + 1) / i)%nat) by (apply Nat.div_le_mono; lia).
        replace (S c + 1)%nat with (c + 2)%nat in * by lia. lia.
      * destruct (Nat.eq_dec p p) as [_|?]; [|congruence].
        apply Nat.eqb_neq in Em.
        assert (Hd : ((c + 2) / i = (c + 1) / i)%nat).
        { symmetry. apply Nat.div_unique with ((S c mod i) + 1)%nat.
          - pose proof (Nat.mod_upper_bound (S c) i ltac:(lia)). lia.
          - pose proof (Nat.div_mod (S c) i ltac:(lia)). replace (c + 1)%nat with (S c) by lia. lia. }
        replace (c + S (count_occ Nat.eq_dec prev p) + 1)%nat with (S c + count_occ Nat.eq_dec prev p + 1)%nat by lia.
        replace (S c + 1)%nat with (c + 2)%nat in * by lia. lia.
    + rewrite <- (bump_other cs k p Hkp) in Hc.
      specialize (IH (bump cs k) r' p c Hp Er Hc).
      destruct (Nat.eq_dec v p) as [Hv|_]; [|exact IH].
      exfalso. destruct (_ =? _)%nat; congruence.
Qed.

Lemma Forall2_range (P : nat -> nat -> Prop) (Q R : nat -> Prop) l l' :
  Forall2 P l l' -> Forall Q l -> (forall x y, P x y -> Q x -> R y) -> Forall R l'.
Proof. intros H Hq Hr. induction H; constructor; inversion_clear Hq; eauto. Qed.

Lemma Forall2_length (P : nat -> nat -> Prop) l l' : Forall2 P l l' -> length l = length l'.
Proof. induction 1; cbn; auto. Qed.

Lemma some_inj {A} (x y : A) : Some x = Some y -> y = x.
Proof. now intros [= ->]. Qed.
Lemma row_S c i : row c (S i) =
  if (Z.of_nat (S i) <=? c_hint c)%Z then Some (map (fun j => (j mod (S i))%nat) (seq 0 (c_virtual c)))
  else match row c i with
    | None => None
    | Some prev => refine (S i) (repeat 0%nat (c_partition_size c)) prev
    end.
Proof. reflexivity. Qed.

Lemma row_ok c i : valid c -> (1 <= i <= c_partition_size c)%nat ->
  exists r, row c i = Some r /\ length r = c_virtual c /\ Forall (fun p => p < i)%nat r.
Proof.
  intros [Hh Hv]. induction i as [|i IH]; intros Hi; [lia|]. cbn [row].
  destruct (Z.of_nat (S i) <=? c_hint c)%Z eqn:E.
  - eexists. split; [reflexivity|]. rewrite map_length, seq_length. split; auto.
    apply Forall_forall. intros x Hx. apply in_map_iff in Hx as (j&<-&_). apply Nat.mod_upper_bound. lia.
  - destruct i as [|i]; [lia|]. destruct IH as (prev&Ep&Lp&Fp); [lia|]. rewrite Ep.
    destruct (refine_ok (S (S i)) prev (repeat 0%nat (c_partition_size c))) as (r&Er&Fr).
    { eapply Forall_impl; [|exact Fp]. cbn. intros a Ha. rewrite repeat_length. lia. }
    exists r. split; auto. split.
    + rewrite <- (Forall2_length _ _ _ Fr). auto.
    + eapply Forall2_range; [exact Fr|exact Fp|]. cbn. intros x y [->| ->] ?; lia.
Qed.

Lemma resolve_ok c h n : valid c -> (0 <= h)%Z -> (1 <= n < c_partition_size c)%nat ->
  exists p, resolve c h n = Some p /\ (p < n)%nat.
Proof.
  intros Hc Hh Hn. unfold resolve. destruct (row_ok c n Hc ltac:(lia)) as (r&Er&Lr&Fr).
  destruct Hc as [_ Hv].
  destruct (n <? c_partition_size c)%nat eqn:E; [|lia]. rewrite Er.
  destruct (c_virtual c =? 0)%nat eqn:Ev; [lia|].
  pose proof (Z.rem_bound_pos h (Z.of_nat (c_virtual c)) Hh ltac:(lia)) as Hb.
  destruct (Z.rem h (Z.of_nat (c_virtual c)) <? 0)%Z eqn:Ej; [lia|].
  destruct (nth_error r _) as [p|] eqn:En.
  - exists p. split; auto. rewrite Forall_forall in Fr. apply Fr. eapply nth_error_In; eauto.
  - apply nth_error_None in En. lia.
Qed.

Lemma row_step c n r r' : valid c -> (1 <= n)%nat -> (c_hint c <= Z.of_nat n)%Z -> (n < c_partition_size c)%nat ->
  row c n = Some r -> row c (S n) = Some r' ->
  Forall2 (fun k v => v = k \/ v = n) r r' /\ refine (S n) (repeat 0%nat (c_partition_size c)) r = Some r'.
Proof.
  intros Hc Hn Hh Hp Er Er'.
  assert (Hrf : refine (S n) (repeat 0%nat (c_partition_size c)) r = Some r').
  { cbn [row] in Er'. rewrite Er in Er'. destruct (Z.of_nat (S n) <=? c_hint c)%Z eqn:E; [lia|auto]. }
  split; auto.
  destruct (row_ok c n Hc ltac:(lia)) as (r0&Er0&Lr0&Fr0). assert (r0 = r) by congruence. subst r0.
  destruct (refine_ok (S n) r (repeat 0%nat (c_partition_size c))) as (r1&E1&F1).
  { eapply Forall_impl; [|exact Fr0]. cbn. intros a Ha. rewrite repeat_length. lia. }
  assert (r1 = r') by congruence. subst r1.
  replace (S n - 1)%nat with n in F1 by lia. exact F1.
Qed.

Lemma Forall2_nth (P : nat -> nat -> Prop) l l' j x y :
  Forall2 P l l' -> nth_error l j = Some x -> nth_error l' j = Some y -> P x y.
Proof.
  intros H. revert j. induction H; intros [|j]; cbn; try discriminate.
  - now intros [= <-] [= <-].
  - apply IHForall2.
Qed.

Lemma resolve_grow c h n p p' : valid c -> (0 <= h)%Z -> (1 <= n)%nat -> (S n < c_partition_size c)%nat ->
  (c_hint c <= Z.of_nat n)%Z ->
  resolve c h n = Some p -> resolve c h (S n) = Some p' -> p' = p \/ p' = n.
Proof.
  intros Hc Hh Hn Hp Hhint. unfold resolve.
  destruct (row_ok c n Hc ltac:(lia)) as (r&Er&Lr&_).
  destruct (row_ok c (S n) Hc ltac:(lia)) as (r'&Er'&Lr'&_).
  destruct (row_step c n r r') as [F _]; auto; [lia|].
  rewrite Er, Er'. destruct (n <? _)%nat; [|discriminate]. destruct (S n <? _)%nat; [|discriminate].
  destruct (c_virtual c =? 0)%nat; [discriminate|]. destruct (_ <? 0)%Z; [discriminate|].
  intros H1 H2. exact (Forall2_nth _ _ _ _ _ _ F H1 H2).
Qed.

(** *** Balance *)
Lemma nth_error_repeat0 n k : (k < n)%nat -> nth_error (repeat 0%nat n) k = Some 0%nat.
Proof. revert k. induction n as [|n IH]; intros [|k] H; cbn; auto; try lia. apply IH. lia. Qed.

Lemma handover c n r r' p : valid c -> (1 <= n)%nat -> (c_hint c <= Z.of_nat n)%Z -> (n < c_partition_size c)%nat ->
  row c n = Some r -> row c (S n) = Some r' -> (p < n)%nat ->
  (slots r' p = slots r p - (slots r p + 1) / (n + 1) /\ (slots r p + 1) / (n + 1) <= slots r p)%nat.
Proof.
  intros Hc Hn Hh Hp Er Er' Hpn. destruct (row_step c n r r') as [_ F]; auto.
  assert (H0 : nth_error (repeat 0%nat (c_partition_size c)) p = Some 0%nat) by (apply nth_error_repeat0; lia).
  assert (H : (slots r' p + ((0 + slots r p + 1) / S n - (0 + 1) / S n) = slots r p)%nat)
    by (apply (refine_count (S n) r ltac:(lia) (repeat 0%nat (c_partition_size c))); auto; lia).
  replace (n + 1)%nat with (S n) by lia. rewrite Nat.add_0_l in H.
  rewrite (Nat.div_small (0 + 1) (S n)) in H by lia.
  revert H. generalize ((slots r p + 1) / S n)%nat. intros q H. lia.
Qed.

(** All slots belong to some partition. *)
Fixpoint total (r : list nat) (n : nat) : nat :=
  match n with O => 0 | S n' => total r n' + slots r n' end.
Lemma total_cons_out a r n : (n <= a)%nat -> total (a :: r) n = total r n.
Proof.
  induction n as [|n IH]; intros H; [reflexivity|]. cbn [total]. rewrite IH by lia.
  unfold slots. cbn [count_occ]. destruct (Nat.eq_dec a n); lia.
Qed.
Lemma total_cons_in a r n : (a < n)%nat -> total (a :: r) n = S (total r n).
Proof.
  induction n as [|n IH]; intros H; [lia|]. cbn [total]. unfold slots. cbn [count_occ].
  destruct (Nat.eq_dec a n) as [->|Hne].
  - rewrite total_cons_out by lia. lia.
  - rewrite IH by lia. lia.
Qed.
Lemma total_all r n : Forall (fun p => p < n)%nat r -> total r n = length r.
Proof.
  induction 1 as [|a r Ha Hr IH]; [induction n as [|n IHn]; [reflexivity|]; cbn [total]; rewrite IHn; reflexivity|]. rewrite total_cons_in by auto. cbn. now rewrite IH.
Qed.

(** Rows up to the hint: round robin. *)
Lemma count_mod n p V : (p < n)%nat ->
  slots (map (fun j => (j mod n)%nat) (seq 0 V)) p = ((V + (n - 1 - p)) / n)%nat.
Proof.
  intros Hp. induction V as [|V IH].
  - cbn. symmetry. apply Nat.div_small. lia.
  - rewrite seq_S, map_app. unfold slots in *. rewrite count_occ_app, IH, Nat.add_0_l. cbn [map count_occ].
    pose proof (Nat.div_mod V n ltac:(lia)) as Hd. pose proof (Nat.mod_upper_bound V n ltac:(lia)) as Hu.
    set (q := (V / n)%nat) in *. set (m := (V mod n)%nat) in *.
    destruct (Nat.eq_dec m p) as [E|E].
    + assert (H1 : ((V + (n - 1 - p)) / n = q)%nat) by (symmetry; apply Nat.div_unique with (n - 1)%nat; lia).
      assert (H2 : ((S V + (n - 1 - p)) / n = q + 1)%nat) by (symmetry; apply Nat.div_unique with 0%nat; nia).
      rewrite H1, H2. lia.
    + destruct (lt_dec m p) as [L|L].
      * assert (H1 : ((V + (n - 1 - p)) / n = q)%nat) by (symmetry; apply Nat.div_unique with (m + n - 1 - p)%nat; lia).
        assert (H2 : ((S V + (n - 1 - p)) / n = q)%nat) by (symmetry; apply Nat.div_unique with (m + n - p)%nat; lia).
        rewrite H1, H2. lia.
      * assert (H1 : ((V + (n - 1 - p)) / n = q + 1)%nat) by (symmetry; apply Nat.div_unique with (m - 1 - p)%nat; nia).
        assert (H2 : ((S V + (n - 1 - p)) / n = q + 1)%nat) by (symmetry; apply Nat.div_unique with (m - p)%nat; nia).
        rewrite H1, H2. lia.
Qed.

Local Open Scope Z_scope.
Lemma balance_step (n cp : Z) : 1 <= n -> 0 <= cp ->
  n * cp - 1 <= (n + 1) * (cp - (cp + 1) / (n + 1)) <= n * cp + n - 1.
Proof. intros Hn Hc. pose proof (Z.div_mod (cp + 1) (n + 1) ltac:(lia)). pose proof (Z.mod_pos_bound (cp + 1) (n + 1) ltac:(lia)). nia. Qed.

Lemma total_bound (r r' : list nat) (n m : nat) (k : Z) :
  1 <= k ->
  (forall p, (p < m)%nat -> k * Z.of_nat (slots r p) - 1 <= (k + 1) * Z.of_nat (slots r' p) <= k * Z.of_nat (slots r p) + k - 1) ->
  k * Z.of_nat (total r m) - Z.of_nat m <= (k + 1) * Z.of_nat (total r' m) <= k * Z.of_nat (total r m) + Z.of_nat m * (k - 1).
Proof.
  intros Hk. induction m as [|m IH]; intros H.
  - cbn [total]. lia.
  - cbn [total]. specialize (IH (fun p Hp => H p ltac:(lia))). specialize (H m ltac:(lia)). nia.
Qed.

Lemma balance c n : valid c -> (1 <= n <= c_partition_size c)%nat -> forall r p, row c n = Some r -> (p < n)%nat ->
  Z.abs (Z.of_nat n * Z.of_nat (slots r p) - Z.of_nat (c_virtual c)) <= Z.of_nat n * (Z.of_nat n - 1).
Proof.
  intros Hc. induction n as [|n IH]; intros Hn r p Er Hp; [lia|].
  destruct (Z.of_nat (S n) <=? c_hint c)%Z eqn:E.
  - rewrite row_S, E in Er. apply some_inj in Er; subst r. rewrite count_mod by auto.
    set (V := c_virtual c).
    pose proof (Nat.div_mod (V + (S n - 1 - p)) (S n) ltac:(lia)) as Hd.
    pose proof (Nat.mod_upper_bound (V + (S n - 1 - p)) (S n) ltac:(lia)) as Hu.
    set (q := ((V + (S n - 1 - p)) / S n)%nat) in *. set (m := ((V + (S n - 1 - p)) mod S n)%nat) in *. nia.
  - destruct (Nat.eq_dec n 0) as [->|Hn0]; [destruct Hc; lia|].
    destruct (row_ok c n Hc ltac:(lia)) as (r0&Er0&Lr0&Fr0).
    destruct (row_ok c (S n) Hc ltac:(lia)) as (r1&Er1&Lr1&Fr1).
    assert (r1 = r) by congruence. subst r1.
    specialize (IH ltac:(lia) r0).
    assert (Hstep : forall q, (q < n)%nat ->
      Z.of_nat n * Z.of_nat (slots r0 q) - 1 <= (Z.of_nat n + 1) * Z.of_nat (slots r q) <= Z.of_nat n * Z.of_nat (slots r0 q) + Z.of_nat n - 1).
    { intros q Hq. destruct (handover c n r0 r q) as [H1 H2]; auto; try lia.
      rewrite H1, Nat2Z.inj_sub by auto. rewrite Nat2Z.inj_div, !Nat2Z.inj_add.
      change (Z.of_nat 1) with 1. apply balance_step; lia. }
    destruct (Nat.eq_dec p n) as [->|Hpn].
    + pose proof (total_bound r0 r n n (Z.of_nat n) ltac:(lia) Hstep) as Ht.
      pose proof (total_all r0 n Fr0) as T0. pose proof (total_all r (S n) Fr1) as T1. cbn [total] in T1.
      rewrite Lr0 in T0. rewrite Lr1 in T1. nia.
    + specialize (Hstep p ltac:(lia)). specialize (IH p Er0 ltac:(lia)). nia.
Qed.

(** *** Hash values *)
Lemma wrap32_range z : is_i32 (wrap32 z).
Proof.
  unfold wrap32, u32_to_i32, i32_to_u32, is_i32.
  pose proof (Z.mod_pos_bound z (2 ^ 32) ltac:(lia)). destruct (_ <? _)%N eqn:E; lia.
Qed.
Lemma wrap32_small z : is_i32 z -> wrap32 z = z.
Proof.
  unfold wrap32, u32_to_i32, i32_to_u32, is_i32. intros H.
  destruct (_ <? _)%N eqn:E.
  - assert (Hm : 0 <= z mod 2 ^ 32) by (apply Z.mod_pos_bound; lia). rewrite Z2N.id by auto. lia.
  - assert (Hm : 0 <= z mod 2 ^ 32) by (apply Z.mod_pos_bound; lia). rewrite Z2N.id by auto. lia.
Qed.
Lemma fold_sign_nonneg r : is_i32 r -> r <> - 2 ^ 31 -> 0 <= fold_sign r < 2 ^ 31.
Proof.
  intros H Hm. unfold fold_sign, is_i32 in *. destruct (r <? 0) eqn:E; [|lia].
  rewrite wrap32_small; unfold is_i32; lia.
Qed.
Lemma raw_range ext h k : is_i32 match h with
  | ha_simple => hash_simple k
  | ha_bitshift => hash_bitshift k
  | _ => wrap32 (ext h (cstr k)) end.
Proof.
  assert (F : forall (f : Z -> N -> Z) l a, is_i32 a -> (forall x y, is_i32 (f x y)) -> is_i32 (fold_left f l a)).
  { intros f l. induction l as [|x l IH]; intros a Ha Hf; cbn; auto. }
  destruct h; try apply wrap32_range; apply F; try (intros; apply wrap32_range); unfold is_i32; lia.
Qed.

(** *** The hash functions *)
Local Open Scope Z_scope.
Lemma wrap32_same z : same32 (wrap32 z) z.
Proof.
  unfold same32, wrap32, u32_to_i32, i32_to_u32.
  destruct (_ <? _)%N eqn:E; rewrite ?Z2N.id by (apply Z.mod_pos_bound; lia); [apply Z.mod_mod; lia|].
  rewrite <- (Z_mod_plus_full _ 1), Z.mul_1_l. replace (z mod 2 ^ 32 - 2 ^ 32 + 2 ^ 32) with (z mod 2 ^ 32) by lia. apply Z.mod_mod; lia.
Qed.
Lemma same32_trans a b c : same32 a b -> same32 b c -> same32 a c.
Proof. unfold same32. congruence. Qed.
Lemma same32_add a b c d : same32 a b -> same32 c d -> same32 (a + c) (b + d).
Proof. unfold same32. intros H G. now rewrite Zplus_mod, H, G, <- Zplus_mod. Qed.
Lemma same32_mul a b c : same32 a b -> same32 (c * a) (c * b).
Proof. unfold same32. intros H. now rewrite Zmult_mod, H, <- Zmult_mod. Qed.
Lemma schar_signed c : (c < 256)%N -> schar c = (Z.of_N c + 128) mod 256 - 128.
Proof. intros H. unfold schar. destruct (N.ltb_spec c 128); lia. Qed.
Lemma signed_text_cstr k : wf_bytes k -> signed_text k = map schar (cstr k).
Proof.
  induction 1 as [|c k H F IH]; [reflexivity|]. unfold is_byte in H. cbn [cstr signed_text]. destruct c as [|p]; [reflexivity|].
  cbn [N.eqb map]. now rewrite schar_signed, IH.
Qed.
Lemma fold_base37 (f : Z -> N -> Z) : (forall a c, same32 (f a c) (37 * a + schar c)) ->
  forall l a b, same32 a b -> same32 (fold_left f l a) (base37 b (map schar l)).
Proof.
  intros F. induction l as [|c l IH]; intros a b E; [exact E|]. cbn [fold_left map base37]. apply IH.
  eapply same32_trans; [apply F|]. apply same32_add; [now apply same32_mul|reflexivity].
Qed.
Lemma hash_bitshift_spec k : wf_bytes k -> same32 (hash_bitshift k) (base37 19790217 (signed_text k)) /\ is_i32 (hash_bitshift k).
Proof.
  intros H. rewrite (signed_text_cstr k H). split; [|exact (raw_range (fun _ _ => 0) ha_bitshift k)].
  unfold hash_bitshift. apply fold_base37; [|reflexivity]. intros a c. eapply same32_trans; [apply wrap32_same|].
  apply same32_add; [|reflexivity]. eapply same32_trans; [apply wrap32_same|]. replace (37 * a) with ((a * 32 + a * 4) + a) by lia.
  apply same32_add; [|reflexivity]. eapply same32_trans; [apply wrap32_same|]. apply same32_add; apply wrap32_same.
Qed.
Lemma hash_simple_spec k : wf_bytes k -> same32 (hash_simple k) (fold_right Z.add 0 (signed_text k)) /\ is_i32 (hash_simple k).
Proof.
  intros H. rewrite (signed_text_cstr k H). split; [|exact (raw_range (fun _ _ => 0) ha_simple k)].
  unfold hash_simple. assert (G : forall l a, same32 (fold_left (fun r c => wrap32 (r + schar c)) l a) (a + fold_right Z.add 0 (map schar l))).
  { induction l as [|c l IH]; intros a; cbn [fold_left map fold_right]; [now rewrite Z.add_0_r|].
    eapply same32_trans; [apply IH|]. rewrite Z.add_assoc. apply same32_add; [apply wrap32_same|reflexivity]. }
  apply (G (cstr k) 0).
Qed.
