(** Lemmas about the notions of [Base]. *)
From Coq Require Import NArith ZArith List Bool Lia String Ascii.
From Coq Require Import ZifyBool ZifyNat ZifyN.
From Verif Require Import Base.
Import ListNotations.
Local Open Scope N_scope.
Ltac Zify.zify_post_hook ::= Z.div_mod_to_equations.

Lemma beq_eq a b : beq a b = true <-> a = b.
Proof.
  revert b; induction a as [|x a IH]; intros [|y b]; cbn; split; intros H; try easy.
  - apply andb_prop in H as [H1 H2]. apply N.eqb_eq in H1. apply IH in H2. congruence.
  - inversion H; subst. rewrite N.eqb_refl. cbn. now apply IH.
Qed.
Lemma beq_refl a : beq a a = true.
Proof. now apply beq_eq. Qed.
Lemma beq_neq a b : beq a b = false <-> a <> b.
Proof.
  rewrite <- beq_eq. destruct (beq a b); split; congruence.
Qed.

Lemma le_enc_length k v : List.length (le_enc k v) = k.
Proof. revert v; induction k; cbn; intros; auto. Qed.

Lemma le_enc_wf k v : wf_bytes (le_enc k v).
Proof.
  revert v; induction k as [|k IH]; cbn; intros v; constructor.
  - unfold is_byte. apply N.mod_lt. lia.
  - apply IH.
Qed.

Lemma le_dec_enc k v : v < 256 ^ N.of_nat k -> le_dec (le_enc k v) = v.
Proof.
  revert v; induction k as [|k IH]; intros v H.
  - cbn in *. lia.
  - cbn [le_enc le_dec]. rewrite IH.
    + lia.
    + rewrite Nat2N.inj_succ, N.pow_succ_r' in H.
      apply N.div_lt_upper_bound; lia.
Qed.

Lemma le_enc_dec l : wf_bytes l -> le_enc (List.length l) (le_dec l) = l.
Proof.
  induction 1 as [|b l Hb Hl IH]; cbn [le_enc le_dec List.length]; auto.
  unfold is_byte in Hb.
  replace ((b + 256 * le_dec l) mod 256) with b by lia.
  replace ((b + 256 * le_dec l) / 256) with (le_dec l) by lia.
  now rewrite IH.
Qed.

Lemma le_dec_bound l : wf_bytes l -> le_dec l < 256 ^ N.of_nat (List.length l).
Proof.
  induction 1 as [|b l Hb Hl IH]; cbn [le_dec List.length].
  - cbn. lia.
  - rewrite Nat2N.inj_succ, N.pow_succ_r'. unfold is_byte in Hb. lia.
Qed.

Lemma be_enc_length k v : List.length (be_enc k v) = k.
Proof. unfold be_enc. now rewrite rev_length, le_enc_length. Qed.
Lemma be_dec_enc k v : v < 256 ^ N.of_nat k -> be_dec (be_enc k v) = v.
Proof. intros. unfold be_dec, be_enc. rewrite rev_involutive. now apply le_dec_enc. Qed.
Lemma be_enc_wf k v : wf_bytes (be_enc k v).
Proof. unfold be_enc. apply Forall_rev, le_enc_wf. Qed.
Lemma be_enc_dec l : wf_bytes l -> be_enc (List.length l) (be_dec l) = l.
Proof.
  intros. unfold be_dec, be_enc. rewrite <- (rev_length l), le_enc_dec.
  - apply rev_involutive.
  - now apply Forall_rev.
Qed.
Lemma be_dec_bound l : wf_bytes l -> be_dec l < 256 ^ N.of_nat (List.length l).
Proof.
  intros. unfold be_dec. rewrite <- (rev_length l). apply le_dec_bound. now apply Forall_rev.
Qed.

Lemma i64_roundtrip z : is_i64 z -> u64_to_i64 (i64_to_u64 z) = z.
Proof.
  unfold is_i64, u64_to_i64, i64_to_u64. intros [H1 H2].
  change (2^64)%Z with 18446744073709551616%Z in *.
  change (2^63)%Z with 9223372036854775808%Z in *.
  change (2^63) with 9223372036854775808.
  destruct (Z.to_N (z mod 18446744073709551616) <? 9223372036854775808) eqn:E; lia.
Qed.
Lemma i64_to_u64_bound z : i64_to_u64 z < 2 ^ 64.
Proof.
  unfold i64_to_u64. change (2^64)%Z with 18446744073709551616%Z.
  change (2^64) with 18446744073709551616. lia.
Qed.
Lemma u64_to_i64_range n : n < 2 ^ 64 -> is_i64 (u64_to_i64 n).
Proof.
  unfold is_i64, u64_to_i64. intros H.
  change (2^64)%Z with 18446744073709551616%Z in *.
  change (2^63)%Z with 9223372036854775808%Z in *.
  change (2^63) with 9223372036854775808.
  change (2^64) with 18446744073709551616 in *.
  destruct (n <? 9223372036854775808) eqn:E; lia.
Qed.

Lemma u64_lt n : u64 n < 2 ^ 64.
Proof. unfold u64. apply N.mod_lt. discriminate. Qed.
Lemma u64_small n : n < 2 ^ 64 -> u64 n = n.
Proof. intros. unfold u64. now apply N.mod_small. Qed.
Lemma u32_lt n : u32 n < 2 ^ 32.
Proof. unfold u32. apply N.mod_lt. discriminate. Qed.
Lemma u32_small n : n < 2 ^ 32 -> u32 n = n.
Proof. intros. unfold u32. now apply N.mod_small. Qed.

(** ** Decimal numerals *)
Lemma dec_val_app l d : dec_val (l ++ [d]) = dec_val l * 10 + (d - 48).
Proof. unfold dec_val. now rewrite fold_left_app. Qed.

Lemma dec_rev_val fuel v :
  v < 2 ^ N.of_nat fuel -> dec_val (rev (dec_rev (S fuel) v)) = v.
Proof.
  revert v; induction fuel as [|f IH]; intros v Hv.
  - cbn in Hv. assert (v = 0) by lia. subst. reflexivity.
  - remember (S f) as g. cbn [dec_rev]. subst g.
    destruct (v / 10 =? 0) eqn:E.
    + cbn [rev app]. unfold dec_val. cbn [fold_left]. lia.
    + cbn [rev]. rewrite dec_val_app, IH.
      * lia.
      * rewrite Nat2N.inj_succ, N.pow_succ_r' in Hv. lia.
Qed.

Lemma size_nat_bound v : v < 2 ^ N.of_nat (N.size_nat v).
Proof.
  replace (N.of_nat (N.size_nat v)) with (N.size v).
  - apply N.size_gt.
  - destruct v as [|p]; [reflexivity|].
    cbn. rewrite <- positive_nat_N. f_equal. induction p; cbn; auto; rewrite Pos.add_1_r || idtac.
    all: rewrite ?SuccNat2Pos.id_succ; try lia.
    all: rewrite Pos2Nat.inj_succ; congruence.
Qed.

Lemma dec_val_dec v : dec_val (dec v) = v.
Proof. apply dec_rev_val, size_nat_bound. Qed.

Lemma dec_rev_digits fuel v : Forall (fun c => is_digit c = true) (dec_rev fuel v).
Proof.
  revert v; induction fuel as [|f IH]; intros v; cbn [dec_rev]; constructor.
  - unfold is_digit. assert (v mod 10 < 10) by (apply N.mod_lt; lia).
    apply andb_true_intro. split; apply N.leb_le; lia.
  - destruct (_ =? _); auto.
Qed.
Lemma dec_digits v : Forall (fun c => is_digit c = true) (dec v).
Proof. apply Forall_rev, dec_rev_digits. Qed.
Lemma dec_nonnil v : dec v <> [].
Proof. unfold dec. cbn [dec_rev rev]. intros H. apply app_eq_nil in H as [_ H]. discriminate. Qed.

Lemma dec_rev_length fuel v k :
  (0 < k)%nat -> v < 10 ^ N.of_nat k -> (List.length (dec_rev fuel v) <= k)%nat.
Proof.
  revert v k; induction fuel as [|f IH]; intros v k Hk Hv; cbn [dec_rev List.length].
  - lia.
  - destruct (v / 10 =? 0) eqn:E; cbn [List.length]; [lia|].
    destruct k as [|[|k]]; [lia| |].
    + cbn in Hv. lia.
    + assert (List.length (dec_rev f (v / 10)) <= S k)%nat; [|lia].
      apply IH; [lia|]. rewrite Nat2N.inj_succ, N.pow_succ_r' in Hv.
      apply N.div_lt_upper_bound; lia.
Qed.
Lemma dec_length v k :
  (0 < k)%nat -> v < 10 ^ N.of_nat k -> (List.length (dec v) <= k)%nat.
Proof. intros. unfold dec. rewrite rev_length. now apply dec_rev_length. Qed.
Lemma dec_length_u64 v : v < 2 ^ 64 -> (List.length (dec v) <= 20)%nat.
Proof. intros. apply dec_length; [lia|]. change (10 ^ N.of_nat 20) with 100000000000000000000.
  change (2^64) with 18446744073709551616 in H. lia. Qed.

Lemma is_digit_range c : is_digit c = true <-> 48 <= c <= 57.
Proof. unfold is_digit. lia. Qed.

Lemma dec_wf v : wf_bytes (dec v).
Proof.
  eapply Forall_impl; [|apply dec_digits]. cbn; intros a H.
  apply is_digit_range in H. unfold is_byte. lia.
Qed.

(** ** span *)
Lemma span_app f l : fst (span f l) ++ snd (span f l) = l.
Proof.
  induction l as [|x l IH]; cbn; auto. destruct (f x); auto.
  destruct (span f l); cbn in *. now rewrite IH.
Qed.
Lemma span_all f l : Forall (fun c => f c = true) (fst (span f l)).
Proof.
  induction l as [|x l IH]; cbn; auto. destruct (f x) eqn:E; cbn; auto.
  destruct (span f l); cbn in *. constructor; auto.
Qed.
Lemma span_stop f l : match snd (span f l) with [] => True | x :: _ => f x = false end.
Proof.
  induction l as [|x l IH]; cbn; auto. destruct (f x) eqn:E; cbn; auto.
  destruct (span f l); cbn in *. auto.
Qed.
Lemma span_prefix f a b :
  Forall (fun c => f c = true) a ->
  match b with [] => True | x :: _ => f x = false end ->
  span f (a ++ b) = (a, b).
Proof.
  induction 1 as [|x a Hx Ha IH]; intros Hb; cbn.
  - destruct b as [|y b]; cbn; auto. now rewrite Hb.
  - rewrite Hx, IH; auto.
Qed.

Lemma wf_bytes_app a b : wf_bytes (a ++ b) <-> wf_bytes a /\ wf_bytes b.
Proof. apply Forall_app. Qed.

(** No leading zero. *)
Lemma dec_rev_last fuel v : v < 2 ^ N.of_nat fuel ->
  forall l c, dec_rev (S fuel) v = l ++ [c] -> l = [] \/ c <> 48.
Proof.
  revert v; induction fuel as [|f IH]; intros v Hv l c.
  - cbn in Hv. assert (v = 0) by lia. subst. cbn. intros E.
    destruct l as [|? [|? ?]]; auto; discriminate.
  - remember (S f) as g. cbn [dec_rev]. subst g.
    destruct (v / 10 =? 0) eqn:E.
    + intros H. destruct l as [|? [|? ?]]; auto; discriminate.
    + intros H. destruct l as [|x l]; auto. apply (f_equal (@tl N)) in H. cbn [tl app] in H.
      assert (Hv' : v / 10 < 2 ^ N.of_nat f).
      { rewrite Nat2N.inj_succ, N.pow_succ_r' in Hv. lia. }
      destruct (IH _ Hv' l c H) as [->|]; auto.
      right. cbn [app] in H. cbn [dec_rev] in H. 
      assert (H1 : 48 + (v / 10) mod 10 = c) by congruence.
      assert (H2 : (if v / 10 / 10 =? 0 then [] else dec_rev f (v / 10 / 10)) = []) by congruence.
      destruct f as [|f]; [cbn in Hv'; lia|].
      destruct (v / 10 / 10 =? 0) eqn:E2; [|discriminate H2]. lia.
Qed.
Lemma dec_no_leading_zero v d : dec v = 48 :: d -> d = [].
Proof.
  unfold dec. intros H. apply (f_equal (@rev N)) in H. rewrite rev_involutive in H. cbn [rev] in H.
  destruct (dec_rev_last _ _ (size_nat_bound v) _ _ H) as [E|E]; [|congruence].
  rewrite <- (rev_involutive d), E. reflexivity.
Qed.
