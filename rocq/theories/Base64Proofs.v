From Coq Require Import ZArith NArith List Bool Lia String.
From Coq Require Import ZifyBool ZifyNat ZifyN.
From Verif Require Import Base BaseLemmas Base64Model.
Import ListNotations.
Local Open Scope N_scope.
Ltac Zify.zify_post_hook ::= Z.div_mod_to_equations.

(** Finite sweeps over a byte. *)
Fixpoint below (n : nat) : list N := match n with O => [] | S n' => N.of_nat n' :: below n' end.
Lemma below_in n x : x < N.of_nat n -> In x (below n).
Proof.
  induction n as [|n IH]; intros H; [lia|]. cbn [below].
  destruct (N.eq_dec x (N.of_nat n)) as [->|]; [now left|right; apply IH; lia].
Qed.
Lemma sweep n (P : N -> bool) x : forallb P (below n) = true -> x < N.of_nat n -> P x = true.
Proof. intros H Hx. rewrite forallb_forall in H. apply H, below_in, Hx. Qed.

Ltac by_sweep n x Hx :=
  match goal with |- ?l = ?r =>
    let P := eval pattern x in (N.eqb l r) in
    match P with ?f _ => apply N.eqb_eq; exact (sweep n f x ltac:(vm_compute; reflexivity) Hx) end
  end.

Lemma land252 a : a < 256 -> N.shiftr (N.land a 252) 2 = a / 4. Proof. intros H. by_sweep 256%nat a H. Qed.
Lemma land3_4 a : a < 256 -> N.shiftl (N.land a 3) 4 = (a mod 4) * 16. Proof. intros H. by_sweep 256%nat a H. Qed.
Lemma land240 a : a < 256 -> N.shiftr (N.land a 240) 4 = a / 16. Proof. intros H. by_sweep 256%nat a H. Qed.
Lemma land15_2 a : a < 256 -> N.shiftl (N.land a 15) 2 = (a mod 16) * 4. Proof. intros H. by_sweep 256%nat a H. Qed.
Lemma land192 a : a < 256 -> N.shiftr (N.land a 192) 6 = a / 64. Proof. intros H. by_sweep 256%nat a H. Qed.
Lemma land63 a : a < 256 -> N.land a 63 = a mod 64. Proof. intros H. by_sweep 256%nat a H. Qed.
Lemma shl2 a : a < 64 -> N.shiftl a 2 = a * 4. Proof. intros H. by_sweep 64%nat a H. Qed.
Lemma land48 a : a < 64 -> N.shiftr (N.land a 48) 4 = a / 16. Proof. intros H. by_sweep 64%nat a H. Qed.
Lemma land15_4 a : a < 64 -> N.shiftl (N.land a 15) 4 = (a mod 16) * 16. Proof. intros H. by_sweep 64%nat a H. Qed.
Lemma land60 a : a < 64 -> N.shiftr (N.land a 60) 2 = a / 4. Proof. intros H. by_sweep 64%nat a H. Qed.
Lemma land3_6 a : a < 64 -> N.shiftl (N.land a 3) 6 = (a mod 4) * 64. Proof. intros H. by_sweep 64%nat a H. Qed.
Lemma dec_enc_char t : t < 64 -> dec_val64 (enc_char t) = t. Proof. intros H. by_sweep 64%nat t H. Qed.
Lemma enc_char_not_eq t : t < 64 -> (enc_char t =? 61) = false.
Proof.
  intros H. apply negb_true_iff. exact (sweep 64 (fun t => negb (enc_char t =? 61)) t ltac:(vm_compute; reflexivity) H).
Qed.

Lemma text0_spec a : a < 256 -> text0 a = a / 4. Proof. apply land252. Qed.
Lemma text1_spec a b : a < 256 -> b < 256 -> text1 a b = (a mod 4) * 16 + b / 16.
Proof. intros Ha Hb. unfold text1, u8. rewrite land3_4, land240 by auto. lia. Qed.
Lemma text2_spec b c : b < 256 -> c < 256 -> text2 b c = (b mod 16) * 4 + c / 64.
Proof. intros Ha Hb. unfold text2, u8. rewrite land15_2, land192 by auto. lia. Qed.
Lemma text3_spec c : c < 256 -> text3 c = c mod 64. Proof. apply land63. Qed.
Lemma bin0_spec x y : x < 64 -> y < 64 -> bin0 x y = x * 4 + y / 16.
Proof. intros Hx Hy. unfold bin0, u8. rewrite shl2, land48 by auto. lia. Qed.
Lemma bin1_spec x y : x < 64 -> y < 64 -> bin1 x y = (x mod 16) * 16 + y / 4.
Proof. intros Hx Hy. unfold bin1, u8. rewrite land15_4, land60 by auto. lia. Qed.
Lemma bin2_spec x y : x < 64 -> y < 64 -> bin2 x y = (x mod 4) * 64 + y.
Proof. intros Hx Hy. unfold bin2, u8. rewrite land3_6 by auto. lia. Qed.

(** Induction in steps of three. *)
Lemma list_ind3 (P : bytes -> Prop) : P [] -> (forall a, P [a]) -> (forall a b, P [a; b]) ->
  (forall a b c l, P l -> P (a :: b :: c :: l)) -> forall l, P l.
Proof.
  intros H0 H1 H2 H3. fix IH 1. intros [|a [|b [|c l]]]; [exact H0|apply H1|apply H2|apply H3, IH].
Qed.

Lemma b64_roundtrip x : wf_bytes x -> b64_decode (b64_encode x) = x.
Proof.
  unfold b64_decode. induction x as [|a|a b|a b c l IH] using list_ind3; intros H; try reflexivity.
  - inversion_clear H as [|? ? Ha _]. red in Ha.
    assert (T0 : text0 a < 64) by (rewrite text0_spec by auto; lia).
    assert (T1 : text1 a 0 < 64) by (rewrite text1_spec by lia; lia).
    cbn [b64_encode upto_eq]. rewrite !enc_char_not_eq by auto. change (61 =? 61) with true. cbn [dec_groups].
    rewrite !dec_enc_char by auto. rewrite bin0_spec by auto. rewrite text0_spec, text1_spec by lia. f_equal. lia.
  - inversion_clear H as [|? ? Ha H']. inversion_clear H' as [|? ? Hb _]. red in Ha, Hb.
    assert (T0 : text0 a < 64) by (rewrite text0_spec by auto; lia).
    assert (T1 : text1 a b < 64) by (rewrite text1_spec by lia; lia).
    assert (T2 : text2 b 0 < 64) by (rewrite text2_spec by lia; lia).
    cbn [b64_encode upto_eq]. rewrite !enc_char_not_eq by auto. change (61 =? 61) with true. cbn [dec_groups].
    rewrite !dec_enc_char by auto. rewrite bin0_spec, bin1_spec by auto.
    rewrite text0_spec, text1_spec, text2_spec by lia. f_equal; [lia|]. f_equal. lia.
  - inversion_clear H as [|? ? Ha H']. inversion_clear H' as [|? ? Hb H'']. inversion_clear H'' as [|? ? Hc Hl]. red in Ha, Hb, Hc.
    assert (T0 : text0 a < 64) by (rewrite text0_spec by auto; lia).
    assert (T1 : text1 a b < 64) by (rewrite text1_spec by lia; lia).
    assert (T2 : text2 b c < 64) by (rewrite text2_spec by lia; lia).
    assert (T3 : text3 c < 64) by (rewrite text3_spec by lia; lia).
    cbn [b64_encode upto_eq]. rewrite !enc_char_not_eq by auto. cbn [dec_groups].
    rewrite !dec_enc_char by auto. rewrite bin0_spec, bin1_spec, bin2_spec by auto.
    rewrite text0_spec, text1_spec, text2_spec, text3_spec by lia. rewrite (IH Hl).
    f_equal; [lia|]. f_equal; [lia|]. f_equal. lia.
Qed.

(** The output fits in the [new char[src_size]] buffer. *)
Lemma list_ind4 (P : bytes -> Prop) : P [] -> (forall a, P [a]) -> (forall a b, P [a; b]) -> (forall a b c, P [a; b; c]) ->
  (forall a b c d l, P l -> P (a :: b :: c :: d :: l)) -> forall l, P l.
Proof.
  intros H0 H1 H2 H3 H4. fix IH 1. intros [|a [|b [|c [|d l]]]]; [exact H0|apply H1|apply H2|apply H3|apply H4, IH].
Qed.
Lemma b64_decode_fits x : (List.length (b64_decode x) <= List.length x)%nat.
Proof.
  unfold b64_decode.
  assert (H1 : forall l, (List.length (dec_groups l) <= List.length l)%nat)
    by (intros l; induction l as [|a|a b|a b c|a b c d l IH] using list_ind4; cbn; lia).
  assert (H2 : forall l, (List.length (upto_eq l) <= List.length l)%nat)
    by (intros l; induction l as [|a l IH]; cbn; [lia|]; destruct (a =? 61); cbn; lia).
  etransitivity; [apply H1|apply H2].
Qed.

(** Encoded text: four letters per three bytes, all printable ASCII. *)
Lemma b64_encode_length x : List.length (b64_encode x) = (4 * ((List.length x + 2) / 3))%nat.
Proof.
  induction x as [|a|a b|a b c l IH] using list_ind3; try reflexivity.
  cbn [b64_encode List.length]. rewrite IH. lia.
Qed.
Lemma enc_char_ascii t : t < 64 -> 43 <= enc_char t <= 122.
Proof.
  intros H. assert ((43 <=? enc_char t) && (enc_char t <=? 122) = true)
    by exact (sweep 64 (fun t => (43 <=? enc_char t) && (enc_char t <=? 122)) t ltac:(vm_compute; reflexivity) H).
  lia.
Qed.
Lemma b64_encode_ascii x : wf_bytes x -> Forall (fun c => 43 <= c <= 122) (b64_encode x).
Proof.
  induction x as [|a|a b|a b c l IH] using list_ind3; intros H; try constructor.
  - inversion_clear H as [|? ? Ha _]. red in Ha. apply enc_char_ascii. rewrite text0_spec by auto. lia.
  - inversion_clear H as [|? ? Ha _]. red in Ha. repeat constructor; try apply enc_char_ascii; try rewrite text1_spec by lia; lia.
  - inversion_clear H as [|? ? Ha _]. red in Ha. apply enc_char_ascii. rewrite text0_spec by auto. lia.
  - inversion_clear H as [|? ? Ha H']. inversion_clear H' as [|? ? Hb _]. red in Ha, Hb.
    repeat constructor; try apply enc_char_ascii; try rewrite text1_spec by lia; try rewrite text2_spec by lia; lia.
  - inversion_clear H as [|? ? Ha _]. red in Ha. apply enc_char_ascii. rewrite text0_spec by auto. lia.
  - inversion_clear H as [|? ? Ha H']. inversion_clear H' as [|? ? Hb H'']. inversion_clear H'' as [|? ? Hc Hl]. red in Ha, Hb, Hc.
    constructor; [apply enc_char_ascii; rewrite text1_spec by lia; lia|].
    constructor; [apply enc_char_ascii; rewrite text2_spec by lia; lia|].
    constructor; [apply enc_char_ascii; rewrite text3_spec by lia; lia|]. auto.
Qed.
