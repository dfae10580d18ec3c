From Coq Require Import ZArith NArith List Bool Lia String.
From Coq Require Import ZifyBool ZifyNat ZifyN.
From Verif Require Import Base BaseLemmas StorageModel TextModel TextSpec.
Import ListNotations.
Local Open Scope N_scope.
Local Open Scope list_scope.
Ltac Zify.zify_post_hook ::= Z.div_mod_to_equations.

Lemma blen_cons x l : blen (x :: l) = 1 + blen l.
Proof. unfold blen. cbn [List.length]. lia. Qed.
Lemma blen_nil : blen [] = 0. Proof. reflexivity. Qed.
Lemma blen_app a b : blen (a ++ b) = blen a + blen b.
Proof. unfold blen. rewrite app_length. lia. Qed.

(** * Tokenizers (C21) *)
Lemma skip_spaces_split p : exists n, p = repeat 32 n ++ skip_spaces p.
Proof.
  induction p as [|c p [n IH]]; [exists 0%nat; reflexivity|]. cbn [skip_spaces].
  destruct (N.eqb_spec c 32) as [->|]; [|exists 0%nat; reflexivity].
  exists (S n). cbn [repeat app]. now rewrite <- IH.
Qed.
Lemma skip_spaces_stop p : match skip_spaces p with [] => True | c :: _ => c <> 32 end.
Proof. induction p as [|c p IH]; cbn [skip_spaces]; [exact I|]. destruct (N.eqb_spec c 32); auto. Qed.
Lemma skip_spaces_id c p : c <> 32 -> skip_spaces (c :: p) = c :: p.
Proof. intros H. cbn [skip_spaces]. destruct (N.eqb_spec c 32); congruence. Qed.
Lemma skip_spaces_length p : blen (skip_spaces p) <= blen p.
Proof. induction p as [|c p IH]; cbn [skip_spaces]; [lia|]. destruct (c =? 32); rewrite ?blen_cons in *; lia. Qed.

Lemma word_loop_app len n p : fst (word_loop len n p) ++ snd (word_loop len n p) = p.
Proof.
  revert n. induction p as [|c p IH]; intros n; [reflexivity|]. cbn [word_loop].
  destruct (_ || _); [reflexivity|]. specialize (IH (n + 1)). destruct (word_loop _ _ _) as [w r]. cbn [fst snd app] in *. congruence.
Qed.
Lemma word_loop_bytes len n p : Forall word_byte (fst (word_loop len n p)).
Proof.
  revert n. induction p as [|c p IH]; intros n; [constructor|]. cbn [word_loop].
  destruct (_ || _) eqn:E; [constructor|]. specialize (IH (n + 1)). destruct (word_loop _ _ _) as [w r]. cbn [fst snd] in *.
  constructor; auto. unfold word_byte. lia.
Qed.
Lemma word_loop_bound len n p : n + 1 <= len -> n + blen (fst (word_loop len n p)) + 1 <= len.
Proof.
  revert n. induction p as [|c p IH]; intros n H; [cbn; lia|]. cbn [word_loop].
  destruct (_ || _) eqn:E; [cbn; lia|]. specialize (IH (n + 1)). destruct (word_loop _ _ _) as [w r]. cbn [fst] in *.
  rewrite blen_cons. lia.
Qed.
(** The word ends where the input does, at a delimiter, or when the buffer is full. *)
Lemma word_loop_stop len n p :
  match snd (word_loop len n p) with
  | [] => True
  | c :: _ => ~ word_byte c \/ len <= n + blen (fst (word_loop len n p)) + 1
  end.
Proof.
  revert n. induction p as [|c p IH]; intros n; [exact I|]. cbn [word_loop].
  destruct (_ || _) eqn:E.
  - cbn [fst snd]. unfold word_byte. rewrite blen_nil. lia.
  - specialize (IH (n + 1)). destruct (word_loop _ _ _) as [w r]. cbn [fst snd] in *.
    destruct r; auto. rewrite blen_cons. destruct IH as [?|?]; [now left|right; lia].
Qed.

Lemma next_word_safe len p : 1 <= len -> blen (fst (next_word len p)) + 1 <= len.
Proof. intros H. pose proof (word_loop_bound len 0 (skip_spaces p)). unfold next_word. lia. Qed.
Lemma next_word_spec len p :
  let '(w, r) := next_word len p in
  (exists n, p = repeat 32 n ++ w ++ r) /\ Forall word_byte w
  /\ match r with [] => True | c :: _ => ~ word_byte c \/ len <= blen w + 1 end
  /\ (w = [] -> match r with [] => True | c :: _ => c <> 32 end).
Proof.
  unfold next_word. pose proof (word_loop_app len 0 (skip_spaces p)) as H1.
  pose proof (word_loop_bytes len 0 (skip_spaces p)) as H2. pose proof (word_loop_stop len 0 (skip_spaces p)) as H3.
  destruct (skip_spaces_split p) as [n H4]. pose proof (skip_spaces_stop p) as H5.
  destruct (word_loop _ _ _) as [w r]. cbn [fst snd] in *. repeat split.
  - exists n. now rewrite H1.
  - exact H2.
  - destruct r; auto.
  - intros ->. cbn [app] in H1. now rewrite H1.
Qed.

Lemma word_loop_token len n k r :
  Forall word_byte k -> n + blen k + 1 <= len -> match r with [] => True | c :: _ => ~ word_byte c end ->
  word_loop len n (k ++ r) = (k, r).
Proof.
  intros Hk. revert n. induction Hk as [|c k Hc Hk IH]; intros n Hn Hr.
  - cbn [app]. destruct r as [|c r]; [reflexivity|]. cbn [word_loop].
    destruct (_ || _) eqn:E; [reflexivity|]. exfalso. apply Hr. unfold word_byte. lia.
  - rewrite blen_cons in Hn. cbn [app word_loop]. unfold word_byte in Hc.
    replace (_ || _) with false by lia. rewrite IH by (auto; lia). reflexivity.
Qed.
Lemma next_word_token len m k r :
  Forall word_byte k -> k <> [] -> blen k + 1 <= len -> match r with [] => True | c :: _ => ~ word_byte c end ->
  next_word len (repeat 32 m ++ k ++ r) = (k, r).
Proof.
  intros Hk Hn Hl Hr. unfold next_word.
  assert (skip_spaces (repeat 32 m ++ k ++ r) = k ++ r) as ->.
  { induction m as [|m IH]; cbn [repeat app]; [|cbn [skip_spaces]; exact IH].
    destruct k as [|c k]; [congruence|]. inversion_clear Hk. cbn [app]. apply skip_spaces_id. unfold word_byte in *. tauto. }
  apply word_loop_token; auto.
Qed.
Lemma call_word_ok len p : 1 <= len -> call_word len p = Ok (next_word len p).
Proof.
  intros H. unfold call_word. pose proof (next_word_safe len p H) as Hs. destruct (next_word len p) as [w r]. cbn [fst] in Hs.
  replace (_ <=? _) with true by lia. reflexivity.
Qed.

(** next_digit. *)
Definition num_byte (c : N) : Prop := 48 <= c <= 57 \/ c = 45.
Lemma is_digit_unfold c : is_digit c = (48 <=? c) && (c <=? 57). Proof. reflexivity. Qed.
Ltac dig := unfold num_byte in *; rewrite ?is_digit_unfold in *; lia.
Lemma digit_loop_app len n p : fst (digit_loop len n p) ++ snd (digit_loop len n p) = p.
Proof.
  revert n. induction p as [|c p IH]; intros n; [reflexivity|]. cbn [digit_loop].
  destruct (_ && _); [|reflexivity]. specialize (IH (n + 1)). destruct (digit_loop _ _ _) as [w r]. cbn [fst snd app] in *. congruence.
Qed.
Lemma digit_loop_bytes len n p : Forall num_byte (fst (digit_loop len n p)).
Proof.
  revert n. induction p as [|c p IH]; intros n; [constructor|]. cbn [digit_loop].
  destruct (_ && _) eqn:E; [|constructor]. specialize (IH (n + 1)). destruct (digit_loop _ _ _) as [w r]. cbn [fst snd] in *.
  constructor; auto. dig.
Qed.
Lemma digit_loop_bound len n p : n <= len -> n + blen (fst (digit_loop len n p)) <= len.
Proof.
  revert n. induction p as [|c p IH]; intros n H; [cbn; lia|]. cbn [digit_loop].
  destruct (_ && _) eqn:E; [|cbn; lia]. specialize (IH (n + 1)). destruct (digit_loop _ _ _) as [w r]. cbn [fst] in *.
  rewrite blen_cons. lia.
Qed.
Lemma digit_loop_len len n p : blen (fst (digit_loop len n p)) <= len - n.
Proof.
  revert n. induction p as [|c p IH]; intros n; [cbn; lia|]. cbn [digit_loop].
  destruct (_ && _) eqn:E; [|cbn; lia]. specialize (IH (n + 1)). destruct (digit_loop _ _ _) as [w r]. cbn [fst] in *.
  rewrite blen_cons. lia.
Qed.
Lemma digit_loop_stop len n p :
  match snd (digit_loop len n p) with
  | [] => True
  | c :: _ => ~ num_byte c \/ len <= n + blen (fst (digit_loop len n p))
  end.
Proof.
  revert n. induction p as [|c p IH]; intros n; [exact I|]. cbn [digit_loop].
  destruct (_ && _) eqn:E.
  - specialize (IH (n + 1)). destruct (digit_loop _ _ _) as [w r]. cbn [fst snd] in *.
    destruct r; auto. rewrite blen_cons. destruct IH as [?|?]; [now left|right; lia].
  - cbn [fst snd]. rewrite blen_nil. apply andb_false_iff in E. destruct E as [E|E]; [left|right; lia].
    dig.
Qed.
Lemma next_digit_spec len p :
  let '(w, r) := next_digit len p in
  exists n, p = repeat 32 n ++ w ++ r /\ Forall num_byte w
  /\ match r with [] => True | c :: _ => ~ num_byte c \/ len <= N.of_nat n + blen w end
  /\ blen w <= len - N.of_nat n
  /\ match w ++ r with [] => True | c :: _ => c <> 32 end.
Proof.
  unfold next_digit. destruct (skip_spaces_split p) as [n H4].
  assert (Hn : blen p - blen (skip_spaces p) = N.of_nat n).
  { rewrite H4 at 1. rewrite blen_app. unfold blen at 1. rewrite repeat_length. lia. }
  rewrite Hn.
  pose proof (digit_loop_app len (N.of_nat n) (skip_spaces p)) as H1.
  pose proof (digit_loop_bytes len (N.of_nat n) (skip_spaces p)) as H2.
  pose proof (digit_loop_stop len (N.of_nat n) (skip_spaces p)) as H3.
  pose proof (digit_loop_len len (N.of_nat n) (skip_spaces p)) as H5.
  pose proof (skip_spaces_stop p) as H6.
  destruct (digit_loop _ _ _) as [w r]. cbn [fst snd] in *. exists n. repeat split; auto; now rewrite H1.
Qed.
(** Safe whenever the token is preceded by a space, or the input is shorter than
    the buffer. *)
Lemma next_digit_safe len p :
  1 <= len -> hd 0 p = 32 \/ blen p < len -> blen (fst (next_digit len p)) + 1 <= len.
Proof.
  intros Hl H. pose proof (next_digit_spec len p) as S. destruct (next_digit len p) as [w r]. cbn [fst].
  destruct S as (n & Hp & _ & _ & Hb & Hs). destruct H as [H|H].
  - destruct n as [|n]; [|lia]. cbn [repeat app] in Hp. subst p. destruct (w ++ r); cbn [hd] in H; [lia|congruence].
  - rewrite Hp, !blen_app in H. lia.
Qed.
Lemma call_digit_ok len p : 1 <= len -> hd 0 p = 32 \/ blen p < len -> call_digit len p = Ok (next_digit len p).
Proof.
  intros Hl H. unfold call_digit. pose proof (next_digit_safe len p Hl H) as Hs. destruct (next_digit len p) as [w r]. cbn [fst] in Hs.
  replace (_ <=? _) with true by lia. reflexivity.
Qed.

Lemma digit_loop_token len n k r :
  Forall (fun c => is_digit c = true) k -> n + blen k <= len -> match r with [] => True | c :: _ => ~ num_byte c end ->
  digit_loop len n (k ++ r) = (k, r).
Proof.
  intros Hk. revert n. induction Hk as [|c k Hc Hk IH]; intros n Hn Hr.
  - cbn [app]. destruct r as [|c r]; [reflexivity|]. cbn [digit_loop].
    destruct (_ && _) eqn:E; [|reflexivity]. exfalso. apply Hr. dig.
  - rewrite blen_cons in Hn. cbn [app digit_loop].
    replace (_ && _) with true by dig. rewrite IH by (auto; lia). reflexivity.
Qed.

Lemma skip_spaces_repeat m p : match p with [] => True | c :: _ => c <> 32 end -> skip_spaces (repeat 32 m ++ p) = p.
Proof.
  intros H. induction m as [|m IH]; cbn [repeat app]; [|cbn [skip_spaces]; exact IH].
  destruct p as [|c p]; [reflexivity|]. now apply skip_spaces_id.
Qed.
Lemma call_digit_token len k r :
  Forall (fun c => is_digit c = true) k -> k <> [] -> blen k + 1 <= len -> match r with [] => True | c :: _ => ~ num_byte c end ->
  call_digit len (32 :: k ++ r) = Ok (k, r).
Proof.
  intros Hk Hn Hl Hr. rewrite call_digit_ok by (auto; lia). unfold next_digit.
  assert (skip_spaces (32 :: k ++ r) = k ++ r) as ->.
  { cbn [skip_spaces]. change (32 =? 32) with true. cbn match. destruct k as [|c k]; [congruence|]. inversion_clear Hk as [|? ? Hc Hk'].
    cbn [app]. apply skip_spaces_id. apply is_digit_range in Hc. lia. }
  rewrite digit_loop_token; auto. rewrite blen_cons. lia.
Qed.
Lemma digit_loop_none len n p : match p with [] => True | c :: _ => ~ num_byte c end -> digit_loop len n p = ([], p).
Proof.
  destruct p as [|c p]; intros H; [reflexivity|]. cbn [digit_loop]. destruct (_ && _) eqn:E; [|reflexivity].
  exfalso. apply H. dig.
Qed.
Lemma call_digit_none len p : 1 <= len ->
  match skip_spaces p with [] => True | c :: _ => ~ num_byte c end -> call_digit len p = Ok ([], skip_spaces p).
Proof.
  intros Hl H. unfold call_digit, next_digit. rewrite digit_loop_none by exact H. rewrite blen_nil.
  replace (_ <=? _) with true by lia. reflexivity.
Qed.
Lemma call_word_token len m k r :
  Forall word_byte k -> k <> [] -> blen k + 1 <= len -> match r with [] => True | c :: _ => ~ word_byte c end ->
  call_word len (repeat 32 m ++ k ++ r) = Ok (k, r).
Proof. intros. rewrite call_word_ok by lia. f_equal. now apply next_word_token. Qed.
