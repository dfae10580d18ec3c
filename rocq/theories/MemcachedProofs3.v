(** Values stay as short as what the requests carry. *)
From Coq Require Import String.
From stdpp Require Import gmap.
From Coq Require Import ZifyBool ZifyNat ZifyN.
From Verif Require Import Base BaseLemmas StorageModel StorageSpec TextModel TextSpec ClientSpec MemcachedSpec.
Local Open Scope N_scope.
Local Open Scope list_scope.

Lemma dec_val_grows l a : a * 10 ^ N.of_nat (length l) <= fold_left (fun n d => n * 10 + (d - 48)) l a.
Proof.
  revert a. induction l as [|d l IH]; intros a; cbn [length fold_left]; [change (10 ^ N.of_nat 0) with 1; lia|].
  specialize (IH (a * 10 + (d - 48))). rewrite Nat2N.inj_succ, N.pow_succ_r'. 
  eapply N.le_trans; [|exact IH]. rewrite N.mul_assoc. apply N.mul_le_mono_r. lia.
Qed.
Lemma numeral_length d n : is_numeral d n -> n < 2 ^ 64 -> blen d <= 20.
Proof.
  intros (Hne & Hd & Hv & H0) Hn. destruct d as [|c d]; [congruence|]. inversion Hd as [|? ? Hc _]; subst.
  destruct (N.eq_dec c 48) as [->|Hc0]; [rewrite (H0 d eq_refl); unfold blen; cbn; lia|].
  unfold dec_val in Hn. cbn [fold_left] in Hn.
  pose proof (dec_val_grows d (0 * 10 + (c - 48))) as G.
  assert (10 ^ N.of_nat (length d) < 2 ^ 64).
  { eapply N.le_lt_trans; [|exact Hn]. eapply N.le_trans; [|exact G]. transitivity (1 * 10 ^ N.of_nat (length d)); [lia|]. apply N.mul_le_mono_r. lia. }
  destruct (N.le_gt_cases (N.of_nat (length d)) 19) as [Hl|Hl]; [unfold blen; cbn [length]; lia|].
  exfalso. assert (10 ^ 20 <= 10 ^ N.of_nat (length d)) by (apply N.pow_le_mono_r; lia).
  change (10 ^ 20) with 100000000000000000000 in *. change (2 ^ 64) with 18446744073709551616 in *. lia.
Qed.

Definition within (b : N) (m : memory) : Prop := forall k r, m k = Some r -> blen (r_data r) <= b.
Definition weight (c : call) : N :=
  match c with Store _ _ _ _ d _ | Cas _ _ _ d _ _ => blen d | Count _ _ _ _ => 20 | _ => 0 end.
Lemma within_look b m now k r : within b m -> look m now k = Some r -> blen (r_data r) <= b.
Proof. intros H. unfold look. destruct (m k) eqn:E; [|discriminate]. destruct (_ && _); [discriminate|]. intros [= <-]. eauto. Qed.
Lemma within_update b b' m k o : within b m -> b <= b' -> (forall r, o = Some r -> blen (r_data r) <= b') -> within b' (update m k o).
Proof.
  intros H Hb Ho k' r. unfold update. destruct (beq k k'); [apply Ho|]. intros E. specialize (H _ _ E). lia.
Qed.
Lemma within_mono b b' m : within b m -> b <= b' -> within b' m.
Proof. intros H Hb k r E. specialize (H _ _ E). lia. Qed.
Lemma within_does b asked now m c m' a : does asked now m c m' a -> legal_call c -> within b m -> within (b + weight c) m'.
Proof.
  intros H Hc W. destruct H; cbn [weight]; try (eapply within_mono; [exact W|lia]); try (intros ? ? E; discriminate E); (eapply within_update; [exact W|lia|]).
  - intros r [= <-]. destruct (look m now k) as [r|] eqn:L; [pose proof (within_look _ _ _ _ _ W L)|]; destruct md; cbn [written r_data]; unfold blen in *; rewrite ?app_length; lia.
  - intros r0 [= <-]. cbn. lia.
  - intros r0 [= <-]. cbn. pose proof (within_look _ _ _ _ _ W H). lia.
  - intros r0 [= <-]. cbn. pose proof (within_look _ _ _ _ _ W H). lia.
  - discriminate.
  - intros r0 [= <-]. cbn [r_data]. assert (blen d <= 20); [|lia]. eapply numeral_length; [exact H1|].
    destruct H0 as (ds & rest & _ & _ & _ & ->). change (2 ^ 64) with 18446744073709551616. destruct up; [|destruct (_ <? _) eqn:E]; lia.
Qed.

(** The bytes of all values the requests carry; a counter has at most 20. *)
Lemma conversation_within l : forall b m m' out, conversation m l m' out -> Forall (fun p => legal_call (snd p)) l -> within b m ->
  within (b + carried l) m'.
Proof.
  induction l as [|[now c] l IH]; intros b m m' out H Hl W; inversion H; subst.
  - eapply within_mono; [exact W|]. cbn. lia.
  - eapply within_mono; [exact W|]. cbn. lia.
  - inversion Hl as [|? ? Hc Hl']; subst. cbn [snd] in Hc.
    match goal with D : does _ _ _ _ ?x _ |- _ => pose proof (within_does _ _ _ _ _ _ _ D Hc W) as W1 end.
    eapply within_mono; [eapply IH; eauto|]. destruct c; cbn [carried weight]; lia.
Qed.
Lemma carried_app l1 l2 : carried (l1 ++ l2) = carried l1 + carried l2.
Proof. induction l1 as [|[now c] l1 IH]; [reflexivity|]. cbn [app]. destruct c; cbn [carried]; rewrite IH; lia. Qed.
Lemma carried_short l1 now c l2 m' out : Forall (fun p => legal_call (snd p)) l1 -> conversation (fun _ => None) l1 m' out ->
  carried (l1 ++ (now, c) :: l2) <= max_value -> ~ too_long now m' c.
Proof.
  intros Hl Hc Hcar Hlong. rewrite carried_app in Hcar.
  pose proof (conversation_within l1 0 _ _ _ Hc Hl) as W. specialize (W ltac:(intros ? ? H; discriminate H)).
  destruct c as [md k f x d nr|k f x d t nr| | | | | | | | | | |]; cbn [too_long carried] in *; try contradiction; try lia.
  destruct Hlong as [H|(_ & r & L & H)]; [lia|]. pose proof (within_look _ _ _ _ _ W L). lia.
Qed.
