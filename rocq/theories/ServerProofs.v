(** What the text parser lets through: ranges of the fields of a request. *)
From Coq Require Import ZArith NArith List Bool Lia String.
From Coq Require Import ZifyBool ZifyNat ZifyN.
From Verif Require Import Base BaseLemmas StorageModel StorageSpec TextModel TextSpec TextProofs TextProofs2 TextProofs3 SessionModel ServerModel.
Import ListNotations.
Local Open Scope N_scope.
Local Open Scope list_scope.

(** The clock of a node: some time between February 1970 and the far future. *)
Definition sane_clock (now : Z) : Prop := (2592000 <= now < 2 ^ 62)%Z.

Lemma call_word_inv len p w r : call_word len p = Ok (w, r) -> Forall word_byte w /\ blen w + 1 <= len.
Proof.
  unfold call_word, next_word. pose proof (word_loop_bytes len 0 (skip_spaces p)) as H.
  destruct (word_loop len 0 (skip_spaces p)) as [w' r']. destruct (N.leb_spec (blen w' + 1) len); [|discriminate].
  intros [= <- <-]. auto.
Qed.
Lemma legal_word w p r : call_word BUFSIZ p = Ok (w, r) -> w <> [] -> legal_key w.
Proof. intros H Hn. apply call_word_inv in H as [H1 H2]. unfold BUFSIZ in H2. split; [auto|split; [auto|lia]]. Qed.

Lemma lex_u_range m w v : lex_u m w = Ok v -> v <= m.
Proof.
  intros H.
  assert (K : forall d, (if is_unsigned d && (dec_val d <=? m) then Ok (dec_val d) else Err) = Ok v -> v <= m).
  { intros d. destruct (is_unsigned d); [|discriminate]. destruct (N.leb_spec (dec_val d) m); cbn; [|discriminate]. intros [= <-]. auto. }
  unfold lex_u in H. destruct w as [|c w]; [exact (K [] H)|].
  destruct (N.eq_dec c 45) as [->|Hn].
  - destruct (is_unsigned w && _); [|discriminate]. injection H as <-.
    assert ((m + 1 - dec_val w) mod (m + 1) < m + 1) by (apply N.mod_lt; lia). lia.
  - apply (K (c :: w)). destruct c as [|p]; [exact H|].
    repeat (destruct p as [p|p|]; try exact H; try (exfalso; apply Hn; reflexivity)).
Qed.
Lemma unsigned_field_range m w v : unsigned_field m w = Ok v -> v <= m.
Proof. unfold unsigned_field. destruct (is_unsigned w); [apply lex_u_range|discriminate]. Qed.
Lemma lex_i64_range w v : is_unsigned w = true -> lex_i64 w = Ok v -> (0 <= v < 2 ^ 63)%Z.
Proof.
  intros U H.
  assert (K : forall d, (if is_unsigned d && (dec_val d <=? i64_max) then Ok (Z.of_N (dec_val d)) else Err) = Ok v -> (0 <= v < 2 ^ 63)%Z).
  { intros d. destruct (is_unsigned d); [|discriminate]. destruct (N.leb_spec (dec_val d) i64_max); cbn [andb]; [|discriminate]. intros [= <-].
    unfold i64_max in *. lia. }
  unfold lex_i64 in H. destruct w as [|c w]; [exact (K [] H)|].
  destruct (N.eq_dec c 45) as [->|Hn]; [discriminate U|].
  apply (K (c :: w)). destruct c as [|p]; [exact H|].
  repeat (destruct p as [p|p|]; try exact H; try (exfalso; apply Hn; reflexivity)).
Qed.
Lemma realtime_range now v : sane_clock now -> (0 <= v < 2 ^ 63)%Z -> absolute_expire (realtime now v).
Proof.
  unfold sane_clock, absolute_expire, realtime, max_realtime_delta. intros H1 H2.
  destruct (Z.eqb_spec v 0); [auto|]. destruct (Z.leb_spec v 2592000); right; lia.
Qed.

Lemma option_range w o : option_of_word w = Ok o -> o < 8.
Proof.
  unfold option_of_word. repeat match goal with |- (if ?c then _ else _) = _ -> _ => destruct c; [intros [= <-]; reflexivity|] end.
  discriminate.
Qed.
Lemma lor8 a b : a < 8 -> b < 8 -> N.lor a b < 8.
Proof.
  intros Ha Hb. revert b Hb. revert a Ha.
  refine (below8 _ _ _ _ _ _ _ _ _); refine (below8 _ _ _ _ _ _ _ _ _); reflexivity.
Qed.
Lemma parse_options_range fuel p o v : o < 8 -> parse_options fuel p o = Ok v -> v < 8.
Proof.
  revert p o. induction fuel as [|f IH]; intros p o Ho; cbn; [discriminate|].
  destruct (call_word BUFSIZ p) as [| |[w r]]; cbn; try discriminate.
  destruct w as [|c w]; [intros [= <-]; auto|].
  destruct (option_of_word (c :: w)) as [| |o'] eqn:E; cbn; try discriminate.
  apply IH. apply lor8; eauto using option_range.
Qed.

(** Fields of an entry that comes out of entry::parse. *)
Record parsed (e : entry) : Prop := {
  d_key : legal_key (e_key e); d_flag : e_flag e < 2 ^ 32; d_expire : absolute_expire (e_expire e);
  d_version : e_version e < 2 ^ 64; d_option : e_option e < 8; d_data : e_data e = [];
}.
Lemma parse_entry_range now t p e : sane_clock now -> t <> parse_get -> parse_entry now t p = Ok e ->
  parsed e /\ e_size e <= max_data_size /\ (is_short t = true -> e_size e = 0 /\ e_flag e = 0).
Proof.
  intros Hn Ht. unfold parse_entry.
  destruct (call_word BUFSIZ p) as [| |[w p1]] eqn:E1; cbn [bind]; try discriminate.
  destruct w as [|c0 w0]; [discriminate|]. set (w := c0 :: w0) in *.
  assert (H0 : parsed (empty_entry w)).
  { assert (legal_key w) by (eapply legal_word; eauto; discriminate). split; cbn; auto; try (left; reflexivity); try reflexivity; lia. }
  destruct (parse_flag t (empty_entry w) p1) as [| |[e1 p2]] eqn:E2; cbn [bind]; try discriminate.
  assert (H1 : parsed e1 /\ e_size e1 = 0 /\ (is_short t = true -> e_flag e1 = 0)).
  { unfold parse_flag in E2. destruct (is_short t); [injection E2 as <- <-; auto|].
    destruct (call_digit BUFSIZ p1) as [| |[x q]]; cbn [bind] in E2; try discriminate. destruct x as [|y x]; [discriminate|].
    destruct (unsigned_field _ _) as [| |v] eqn:F; cbn [bind] in E2; try discriminate. injection E2 as <- <-.
    apply unsigned_field_range in F. unfold u32_max in F. split; [|split; [reflexivity|discriminate]].
    destruct H0; split; cbn in *; auto. lia. }
  destruct (parse_expire now t e1 p2) as [| |[e2 p3]] eqn:E3; cbn [bind]; try discriminate.
  assert (H2 : parsed e2 /\ e_size e2 = 0 /\ (is_short t = true -> e_flag e2 = 0)).
  { destruct H1 as (H & Hs & Hf). unfold parse_expire in E3. destruct (is_get t); [injection E3 as <- <-; auto|].
    destruct (call_digit BUFSIZ p2) as [| |[x q]]; cbn [bind] in E3; try discriminate. destruct x as [|y x].
    - destruct t; try discriminate; injection E3 as <- <-; auto.
    - destruct (is_unsigned (y :: x)) eqn:U; [|discriminate]. destruct (lex_i64 (y :: x)) as [| |v] eqn:F; cbn [bind] in E3; try discriminate.
      injection E3 as <- <-. apply lex_i64_range in F; auto.
      split; [|split; auto]. destruct H; split; cbn in *; auto. now apply realtime_range. }
  destruct (parse_size t e2 p3) as [| |[e3 p4]] eqn:E4; cbn [bind]; try discriminate.
  assert (H3 : parsed e3 /\ e_size e3 <= max_data_size /\ (is_short t = true -> e_size e3 = 0 /\ e_flag e3 = 0)).
  { destruct H2 as (H & Hs & Hf). unfold parse_size in E4. destruct (is_short t); [injection E4 as <- <-; rewrite Hs; repeat split; auto; try apply H; discriminate|].
    destruct (call_digit BUFSIZ p3) as [| |[x q]]; cbn [bind] in E4; try discriminate. destruct x as [|y x]; [discriminate|].
    destruct (unsigned_field _ _) as [| |v] eqn:F; cbn [bind] in E4; try discriminate.
    destruct (N.ltb_spec max_data_size v); [discriminate|]. injection E4 as <- <-.
    split; [|split; [exact H2|discriminate]]. destruct H; split; cbn in *; auto. }
  destruct (parse_version t e3 p4) as [| |[e4 p5]] eqn:E5; cbn [bind]; try discriminate.
  assert (H4 : parsed e4 /\ e_size e4 <= max_data_size /\ (is_short t = true -> e_size e4 = 0 /\ e_flag e4 = 0)).
  { destruct H3 as (H & Hs & Hf). unfold parse_version in E5.
    destruct (call_digit BUFSIZ p4) as [| |[x q]]; cbn [bind] in E5; try discriminate. destruct x as [|y x].
    - destruct t; try discriminate; injection E5 as <- <-; auto.
    - destruct (unsigned_field _ _) as [| |v] eqn:F; cbn [bind] in E5; try discriminate. injection E5 as <- <-.
      apply unsigned_field_range in F. unfold u64_max in F.
      split; [|split; auto]. destruct H; split; cbn in *; auto. lia. }
  unfold parse_tail. destruct (is_get t) eqn:G; [destruct t; try discriminate; now elim Ht|].
  destruct (parse_options (S (List.length p5)) p5 0) as [| |o] eqn:E6; cbn [bind]; try discriminate.
  intros [= <-]. destruct H4 as (H & Hs & Hf). split; [|split; auto]. destruct H; split; cbn in *; auto. apply (parse_options_range (S (List.length p5)) p5 0 o); [reflexivity|exact E6].
Qed.

(** Requests of the data path as they come out of the parser. *)
Definition request_ok (r : request) : Prop :=
  match r with
  | RStore ident e => In ident store_idents /\ wf_entry e /\ legal_key (e_key e) /\ absolute_expire (e_expire e) /\ e_option e < 8
  | RDelete e => wf_entry e /\ legal_key (e_key e) /\ absolute_expire (e_expire e) /\ e_option e < 8
  | RTouch ident e => In ident [s2b "touch"; s2b "gat"] /\ wf_entry e /\ legal_key (e_key e) /\ absolute_expire (e_expire e)
      /\ (e_option e = 0 \/ e_option e = 1)
  | RIncr ident e v => In ident [s2b "incr"; s2b "decr"] /\ wf_entry e /\ legal_key (e_key e) /\ e_option e < 8 /\ v < 2 ^ 64
  | RGet ident keys => In ident [s2b "get"; s2b "gets"] /\ keys <> [] /\ Forall legal_key keys
  | RPlain _ | RFlush _ | RVerbosity _ | ROther _ => True
  end.

Lemma absolute_i64 t : absolute_expire t -> is_i64 t.
Proof. unfold absolute_expire, is_i64. lia. Qed.
Lemma mem_inv w l : mem w l = true -> In w l.
Proof. unfold mem. intros H. apply existsb_exists in H as (x & H & E). apply beq_eq in E. now subst. Qed.
Lemma words_legal fuel p l : words fuel p = Ok l -> Forall legal_key l.
Proof.
  revert p l. induction fuel as [|f IH]; intros p l; cbn; [discriminate|].
  destruct (call_word BUFSIZ p) as [| |[w r]] eqn:E; cbn; try discriminate.
  destruct w as [|c w]; [intros [= <-]; constructor|].
  destruct (words f r) as [| |l'] eqn:F; cbn; try discriminate. intros [= <-].
  constructor; [eapply legal_word; eauto; discriminate|eauto].
Qed.

Lemma wf_cut s l r : wf_bytes s -> cut_line s = Some (l, r) -> wf_bytes r.
Proof.
  revert l r. induction s as [|c s IH]; intros l r H; cbn; [discriminate|].
  inversion_clear H. destruct (c =? 10); [intros [= <- <-]; auto|].
  destruct (cut_line s) as [[l' r']|]; [|discriminate]. intros [= <- <-]. eapply IH; eauto.
Qed.
Lemma wf_skipn n l : wf_bytes l -> wf_bytes (skipn n l).
Proof. unfold wf_bytes. revert n. induction l as [|c l IH]; intros [|n] H; cbn; auto. inversion_clear H. auto. Qed.
Lemma wf_firstn n l : wf_bytes l -> wf_bytes (firstn n l).
Proof. unfold wf_bytes. revert n. induction l as [|c l IH]; intros [|n] H; cbn; auto. inversion_clear H. constructor; auto. Qed.
Lemma blen_firstn n l : n <= blen l -> blen (firstn (N.to_nat n) l) = n.
Proof. unfold blen. intros H. rewrite firstn_length_le; lia. Qed.

Lemma parsed_wf e : parsed e -> e_size e = 0 -> wf_entry e.
Proof.
  intros [Hk Hf Hx Hv Ho Hd] Hs. split; [auto|]. split; [now apply absolute_i64|]. split; [auto|]. rewrite Hs, Hd. split; [reflexivity|constructor].
Qed.

Lemma serve_request_ok now s c r s' : sane_clock now -> wf_bytes s -> serve_request now s = Ok (c, r, s') ->
  request_ok r /\ wf_bytes s'.
Proof.
  intros Hn Hw. unfold serve_request.
  destruct (get_line s) as [| |[line s1]] eqn:G; cbn [bind]; try discriminate.
  assert (Hw1 : wf_bytes s1).
  { unfold get_line in G. destruct (cut_line s) as [[l r0]|] eqn:C; [|discriminate]. injection G as _ <-. eapply wf_cut; eauto. }
  destruct (parse_command line) as [| |[c0 rest]]; cbn [bind]; try discriminate.
  destruct (mem (c_word c0) store_idents) eqn:M1.
  { unfold serve_store. destruct (parse_entry now _ rest) as [| |e] eqn:P; cbn [bind]; try discriminate.
    apply parse_entry_range in P; [|auto|destruct (beq _ _); discriminate]. destruct P as (H & Hs & _).
    unfold get_bytes. destruct (int_max <? e_size e + 2) eqn:I; cbn [bind]; [discriminate|].
    destruct (N.leb_spec (e_size e + 2) (blen s1)); cbn [bind]; [|discriminate].
    intros [= <- <- <-]. split; [|now apply wf_skipn]. cbn [request_ok with_data e_key e_expire e_option].
    assert (Hl : blen (firstn (N.to_nat (e_size e)) (firstn (N.to_nat (e_size e + 2)) s1)) = e_size e).
    { apply blen_firstn. rewrite blen_firstn; lia. }
    destruct H. split; [now apply mem_inv|]. split; [|auto].
    split; [exact d_flag0|]. split; [now apply absolute_i64|]. split; [exact d_version0|]. split; [cbn; symmetry; exact Hl|].
    cbn. apply wf_firstn, wf_firstn, Hw1. }
  destruct (beq (c_word c0) (s2b "delete")) eqn:M2.
  { unfold serve_delete. destruct (parse_entry now _ rest) as [| |e] eqn:P; cbn [bind]; try discriminate.
    apply parse_entry_range in P; [|auto|discriminate]. destruct P as (H & Hs & Hz). intros [= <- <- <-]. split; auto.
    cbn. split; [apply parsed_wf; auto; now apply Hz|]. destruct H; auto. }
  destruct (mem (c_word c0) [s2b "touch"; s2b "gat"]) eqn:M3.
  { unfold serve_touch. destruct (parse_entry now _ rest) as [| |e] eqn:P; cbn [bind]; try discriminate.
    apply parse_entry_range in P; [|auto|discriminate]. destruct P as (H & Hs & Hz).
    destruct ((e_option e =? 0) || (e_option e =? option_noreply)) eqn:O; cbn [bind]; [|discriminate].
    intros [= <- <- <-]. split; auto. split; [now apply mem_inv|].
    split; [apply parsed_wf; auto; now apply Hz|]. destruct H. unfold option_noreply in O. repeat split; auto; try apply d_key0. lia. }
  destruct (mem (c_word c0) [s2b "incr"; s2b "decr"]) eqn:M4.
  { unfold serve_incr. destruct (call_word BUFSIZ rest) as [| |[w p]] eqn:W; cbn [bind]; try discriminate.
    destruct w as [|x w]; [discriminate|]. destruct (call_digit BUFSIZ p) as [| |[d q]]; cbn [bind]; try discriminate.
    destruct d as [|y d]; [discriminate|]. destruct (lex_u u64_max _) as [| |v] eqn:L; cbn [bind]; try discriminate.
    destruct (parse_options _ _ _) as [| |o] eqn:O; cbn [bind]; try discriminate. intros [= <- <- <-]. split; auto.
    apply lex_u_range in L. unfold u64_max in L. apply parse_options_range in O; [|lia].
    apply legal_word in W; [|discriminate].
    split; [now apply mem_inv|]. split; [repeat split; cbn; try lia; constructor|]. cbn. repeat split; try apply W; auto. lia. }
  destruct (mem (c_word c0) [s2b "get"; s2b "gets"]) eqn:M5.
  { unfold serve_get. destruct (words _ rest) as [| |l] eqn:W; cbn [bind]; try discriminate.
    destruct l as [|k l]; cbn [bind]; [discriminate|]. intros [= <- <- <-]. split; auto.
    apply words_legal in W. split; [now apply mem_inv|]. split; [discriminate|auto]. }
  destruct (serve_other (c_word c0) rest) as [| |r0] eqn:O; cbn [bind]; try discriminate. intros [= <- <- <-]. split; auto.
  unfold serve_other, serve_plain, serve_number in O. repeat match type of O with
  | (if ?b then _ else _) = _ => destruct b
  | bind (if ?b then _ else _) _ = _ => destruct b
  | bind (bind ?x _) _ = _ => destruct x as [| |[]]; cbn [bind] in O
  | bind ?x _ = _ => destruct x as [| |]; cbn [bind] in O
  | match ?x with [] => _ | _ :: _ => _ end = _ => destruct x
  | Ok _ = Ok _ => injection O as <-; exact I
  | (let (_, _) := ?x in _) = _ => destruct x
  end; try discriminate.
Qed.
