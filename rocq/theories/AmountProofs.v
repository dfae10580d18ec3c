(** The amount of incr and decr: what is refused, what is taken. *)
From Coq Require Import NArith ZArith List Bool Lia String ZifyBool ZifyNat ZifyN.
From Verif Require Import Base BaseLemmas StorageModel StorageSpec TextModel TextSpec TextProofs TextProofs2 TextProofs3 ClientSpec TextProofs4 SessionModel SessionProofs OtherProofs AmountSpec.
Import ListNotations.
Local Open Scope N_scope.
Lemma digit_word w r : w <> [] -> Forall (fun c => is_digit c = true \/ c = 45) w -> blen w < 1000 -> match r with [] => True | c :: _ => ~ num_byte c end ->
  call_digit BUFSIZ (32 :: w ++ r) = Ok (w, r).
Proof.
  intros Hn Hw Hl Hr. rewrite call_digit_ok by (unfold BUFSIZ; cbn; auto; lia). unfold next_digit.
  assert (skip_spaces (32 :: w ++ r) = w ++ r) as ->.
  { cbn [skip_spaces]. change (32 =? 32) with true. cbn match. destruct w as [|c w]; [congruence|]. inversion_clear Hw as [|? ? Hc Hw'].
    cbn [app]. apply skip_spaces_id. destruct Hc as [Hc| ->]; [apply is_digit_range in Hc; lia|lia]. }
  rewrite blen_cons.
  assert (K : forall n, n + blen w < BUFSIZ -> digit_loop BUFSIZ n (w ++ r) = (w, r)).
  { clear Hn Hl. induction Hw as [|c w Hc Hw IH]; intros n Hb; [now apply digit_loop_none|]. rewrite blen_cons in Hb. cbn [app digit_loop].
    replace ((is_digit c || (c =? 45)) && (n <? BUFSIZ)) with true by (destruct Hc as [-> | ->]; [|rewrite orb_true_r]; cbn [orb andb]; symmetry; apply N.ltb_lt; lia).
    rewrite IH by lia. reflexivity. }
  match goal with |- context [digit_loop BUFSIZ ?n _] => replace n with 1 by lia end. rewrite K by (unfold BUFSIZ; lia). reflexivity.
Qed.

Lemma unsigned_number w : is_unsigned w && (dec_val w <=? u64_max) = true -> w <> [] /\ Forall (fun c => 48 <= c <= 57) w /\ dec_val w < 2 ^ 64.
Proof.
  intros H. apply andb_true_iff in H as [H1 H2]. apply N.leb_le in H2. split; [destruct w; discriminate|]. split.
  - destruct w as [|c w]; [constructor|]. apply Forall_forall. intros x Hx. unfold is_unsigned in H1. rewrite forallb_forall in H1. specialize (H1 x Hx). unfold is_digit in H1. lia.
  - unfold u64_max in H2. change (2 ^ 64) with 18446744073709551616. lia.
Qed.
Lemma lex_no_number w : ~ number_word w -> lex_u u64_max w = Err.
Proof.
  intros H. assert (G : lex_u u64_max w = Err \/ lex_u u64_max w <> Err) by (destruct (lex_u u64_max w); auto; right; discriminate).
  destruct G as [G|G]; [exact G|]. exfalso. apply H. clear H.
  assert (A : is_unsigned w && (dec_val w <=? u64_max) = true \/ exists d, w = 45 :: d /\ is_unsigned d && (dec_val d <=? u64_max) = true).
  { unfold lex_u in G. destruct w as [|c w]; [elim G; reflexivity|].
    destruct (N.eq_dec c 45) as [->|Hc].
    - right. exists w. split; [reflexivity|]. destruct (is_unsigned w && _); [reflexivity|congruence].
    - left. destruct (is_unsigned (c :: w) && _); [reflexivity|]. exfalso. apply G. destruct c as [|p]; [reflexivity|]. repeat (destruct p as [p|p|]; try reflexivity). congruence. }
  destruct A as [A|(d & -> & A)]; apply unsigned_number in A; [exists w|exists d]; tauto.
Qed.

Lemma amount_request now up k w nr rest : legal_key k -> w <> [] -> Forall (fun c => 48 <= c <= 57 \/ c = 45) w -> blen w < 1000 ->
  let ident := if up : bool then s2b "incr" else s2b "decr" in
  let s := ident ++ space k ++ space w ++ noreply_word nr ++ line_end ++ rest in
  get_line s = Ok (ident ++ space k ++ space w ++ print_options (opt nr) ++ [10], rest)
  /\ parse_command (ident ++ space k ++ space w ++ print_options (opt nr) ++ [10]) = Ok (mkCommand false [] ident, space k ++ space w ++ print_options (opt nr) ++ [10])
  /\ serve_request now s = match lex_u u64_max w with Ok v => Ok (mkCommand false [] ident, RIncr ident (with_option (empty_entry k) (opt nr)) v, rest) | Err => Err | Undef => Undef end.
Proof.
  intros Hk Hn Hw Hl ident s. set (L := space k ++ space w ++ print_options (opt nr)).
  assert (ES : s = ident ++ L ++ crlf ++ rest).
  { unfold s, L. rewrite noreply_print. unfold line_end, crlf. repeat (rewrite <- ?app_assoc; cbn [app]). reflexivity. }
  assert (HL : no_lf L).
  { unfold L, space. destruct Hk as (_ & Hk & _). pose proof (no_lf_print (opt nr) (opt_small nr)).
    assert (no_lf w) by (eapply List.Forall_impl; [|exact Hw]; cbn; intros; lia). nolf. }
  assert (Hi : In ident words_all) by (unfold ident, words_all; apply in_or_app; right; destruct up; cbn; tauto).
  destruct (command_plain ident L rest Hi HL eq_refl) as [G1 G2].
  assert (EL : ident ++ L ++ [10] = ident ++ space k ++ space w ++ print_options (opt nr) ++ [10]) by (unfold L; now rewrite <- !app_assoc).
  assert (EL' : L ++ [10] = space k ++ space w ++ print_options (opt nr) ++ [10]) by (unfold L; now rewrite <- !app_assoc).
  rewrite ES. rewrite <- EL, <- EL'. split; [exact G1|]. split; [exact G2|].
  unfold serve_request. rewrite G1. cbn [bind]. rewrite G2. cbn [bind c_word].
  replace (mem ident store_idents) with false by (unfold ident; destruct up; reflexivity).
  replace (beq ident (s2b "delete")) with false by (unfold ident; destruct up; reflexivity).
  replace (mem ident [s2b "touch"; s2b "gat"]) with false by (unfold ident; destruct up; reflexivity).
  replace (mem ident [s2b "incr"; s2b "decr"]) with true by (unfold ident; destruct up; reflexivity).
  unfold serve_incr. rewrite EL'. unfold space. cbn [app]. rewrite <- ?app_assoc. cbn [app].
  rewrite key_step by auto. cbn [bind]. destruct k as [|c k0] eqn:Ek; [destruct Hk; congruence|]. rewrite <- Ek in *.
  fold (opt_tail (opt nr)). rewrite digit_word; auto; [|eapply List.Forall_impl; [|exact Hw]; cbn; unfold is_digit; intros; lia|apply opt_tail_head, opt_small].
  cbn [bind]. destruct w as [|c' w'] eqn:Ew; [congruence|]. rewrite <- Ew in *.
  destruct (lex_u u64_max w) as [| |v]; cbn [bind]; try reflexivity. rewrite opt_tail_parse by apply opt_small. reflexivity.
Qed.
Lemma amount_rejected now up k w nr rest : legal_key k -> w <> [] -> Forall (fun c => 48 <= c <= 57 \/ c = 45) w -> blen w < 1000 -> ~ number_word w ->
  serve_next now ((if up : bool then s2b "incr" else s2b "decr") ++ space k ++ space w ++ noreply_word nr ++ line_end ++ rest) = Ok (Rejected, rest).
Proof.
  intros Hk Hn Hw Hl Hno. destruct (amount_request now up k w nr rest Hk Hn Hw Hl) as (G1 & G2 & G3). unfold serve_next. rewrite G1. cbn [bind]. rewrite G2. cbn [bind c_word].
  rewrite G3, (lex_no_number w Hno). destruct up; reflexivity.
Qed.
Lemma minus_taken now up k n nr rest : legal_key k -> 0 < n < 2 ^ 64 ->
  serve_request now ((if up : bool then s2b "incr" else s2b "decr") ++ space k ++ space (45 :: dec n) ++ noreply_word nr ++ line_end ++ rest)
  = Ok (mkCommand false [] (if up then s2b "incr" else s2b "decr"), RIncr (if up then s2b "incr" else s2b "decr") (with_option (empty_entry k) (opt nr)) (2 ^ 64 - n), rest).
Proof.
  intros Hk Hn. destruct (amount_request now up k (45 :: dec n) nr rest Hk) as (_ & _ & G3); [discriminate| | |].
  - constructor; [now right|]. eapply List.Forall_impl; [|apply dec_digits]. cbn. unfold is_digit. intros. left. lia.
  - rewrite blen_cons. pose proof (dec_length_u64 n ltac:(lia)). unfold blen in *. lia.
  - rewrite G3. assert (E : lex_u u64_max (45 :: dec n) = Ok (2 ^ 64 - n)); [|now rewrite E].
    unfold lex_u. rewrite is_unsigned_dec, dec_val_dec. change (2 ^ 64) with 18446744073709551616 in *. unfold u64_max.
    replace (n <=? 18446744073709551615) with true by lia. cbn [andb]. f_equal. rewrite N.mod_small by lia. lia.
Qed.

(** ** Flags, times and tokens out of range *)
Lemma lex_plain m c w : c <> 45 -> lex_u m (c :: w) = if is_unsigned (c :: w) && (dec_val (c :: w) <=? m) then Ok (dec_val (c :: w)) else Err.
Proof. intros Hc. unfold lex_u. destruct c as [|p]; [reflexivity|]. repeat (destruct p as [p|p|]; try reflexivity). congruence. Qed.
Lemma lex_i64_plain c w : c <> 45 -> lex_i64 (c :: w) = if is_unsigned (c :: w) && (dec_val (c :: w) <=? i64_max) then Ok (Z.of_N (dec_val (c :: w))) else Err.
Proof. intros Hc. unfold lex_i64. destruct c as [|p]; [reflexivity|]. repeat (destruct p as [p|p|]; try reflexivity). congruence. Qed.
Lemma unsigned_big m v : m < v -> unsigned_field m (dec v) = Err.
Proof.
  intros H. unfold unsigned_field. rewrite is_unsigned_dec. destruct (dec_head v) as (c & d & E & Hc). rewrite E, lex_plain by lia. rewrite <- E, dec_val_dec.
  replace (v <=? m) with false by lia. now rewrite andb_false_r.
Qed.
Lemma i64_big v : i64_max < v -> lex_i64 (dec v) = Err.
Proof.
  intros H. destruct (dec_head v) as (c & d & E & Hc). rewrite E, lex_i64_plain by lia. rewrite <- E, dec_val_dec.
  replace (v <=? i64_max) with false by lia. now rewrite andb_false_r.
Qed.
Lemma dec_word v r : blen (dec v) < 1000 -> match r with [] => True | c :: _ => ~ num_byte c end -> call_digit BUFSIZ (32 :: dec v ++ r) = Ok (dec v, r).
Proof.
  intros Hl Hr. apply digit_word; auto using dec_nonnil. eapply List.Forall_impl; [|apply dec_digits]. cbn. auto.
Qed.
Lemma flag_refused t e f r : is_short t = false -> 2 ^ 32 <= f -> blen (dec f) < 1000 -> match r with [] => True | c :: _ => ~ num_byte c end -> parse_flag t e (32 :: dec f ++ r) = Err.
Proof.
  intros Ht Hf Hl Hr. unfold parse_flag. rewrite Ht, dec_word by auto. cbn [bind]. destruct (dec_head f) as (c & d & E & _). rewrite E. rewrite <- E. rewrite unsigned_big; [reflexivity|]. unfold u32_max. change (2 ^ 32) with 4294967296 in Hf. lia.
Qed.
Lemma expire_refused now t e x r : is_get t = false -> 2 ^ 63 <= x -> blen (dec x) < 1000 -> match r with [] => True | c :: _ => ~ num_byte c end -> parse_expire now t e (32 :: dec x ++ r) = Err.
Proof.
  intros Ht Hx Hl Hr. unfold parse_expire. rewrite Ht, dec_word by auto. cbn [bind]. destruct (dec_head x) as (c & d & E & _). rewrite E. rewrite <- E. rewrite is_unsigned_dec, i64_big; [reflexivity|].
  unfold i64_max. change (2 ^ 63) with 9223372036854775808 in Hx. lia.
Qed.
Lemma field_refused now ident k f x tail rest : In ident store_idents -> legal_key k -> 2 ^ 32 <= f \/ f < 2 ^ 32 /\ 2 ^ 63 <= x ->
  blen (dec f) < 1000 -> blen (dec x) < 1000 -> Forall (fun c => c <> 10) tail -> match tail with [] => True | c :: _ => c = 32 end ->
  serve_next now (ident ++ space k ++ space (dec f) ++ space (dec x) ++ tail ++ line_end ++ rest) = Ok (Rejected, rest).
Proof.
  intros Hi Hk Hb Hf Hx Ht Hs. set (L := space k ++ space (dec f) ++ space (dec x) ++ tail).
  replace (ident ++ space k ++ space (dec f) ++ space (dec x) ++ tail ++ line_end ++ rest) with (ident ++ L ++ crlf ++ rest).
  2:{ unfold L. rewrite <- !app_assoc. reflexivity. }
  assert (HL : no_lf L). { unfold L, space. destruct Hk as (_ & Hk & _). change (Forall (fun c => c <> 10) tail) with (no_lf tail) in Ht. nolf. }
  apply next_of_line; auto. unfold parse_entry, L, space. cbn [app]. repeat (rewrite <- ?app_assoc; cbn [app]).
  rewrite key_step by auto. cbn [bind]. destruct k as [|c k0] eqn:Ek; [destruct Hk; congruence|]. rewrite <- Ek in *.
  set (t := if beq ident (s2b "cas") then parse_cas else parse_set). assert (T1 : is_short t = false) by (unfold t; destruct (beq _ _); reflexivity). assert (T2 : is_get t = false) by (unfold t; destruct (beq _ _); reflexivity).
  assert (N1 : match tail ++ [10] with [] => True | c :: _ => ~ num_byte c end) by (destruct tail; cbn [app]; [|subst]; dig).
  destruct Hb as [Hb|[Hb Hb']].
  - rewrite flag_refused; auto. dig.
  - rewrite flag_step by (auto; dig). cbn [bind]. rewrite expire_refused; auto.
Qed.
(** The time of flush_all. *)
Lemma lex_i64_decZ z : lex_i64 (decZ z) = if ((- 2 ^ 63 <=? z) && (z <? 2 ^ 63))%Z then Ok z else Err.
Proof.
  change (2 ^ 63)%Z with 9223372036854775808%Z. unfold decZ. destruct (z <? 0)%Z eqn:Ez.
  - unfold lex_i64. rewrite is_unsigned_dec, dec_val_dec. unfold i64_max. cbn [andb].
    destruct (- (9223372036854775808) <=? z)%Z eqn:E1.
    + replace (Z.to_N (- z) <=? 9223372036854775807 + 1) with true by lia. replace (z <? 9223372036854775808)%Z with true by lia. cbn [andb]. f_equal. lia.
    + replace (Z.to_N (- z) <=? 9223372036854775807 + 1) with false by lia. reflexivity.
  - replace (- (9223372036854775808) <=? z)%Z with true by lia. cbn [andb]. destruct (z <? 9223372036854775808)%Z eqn:E1.
    + rewrite lex_i64_dec by (unfold i64_max; lia). f_equal. lia.
    + apply i64_big. unfold i64_max. lia.
Qed.
Lemma flush_time now z nr rest : blen (decZ z) < 1000 ->
  serve_next now (s2b "flush_all" ++ space (decZ z) ++ noreply_word nr ++ line_end ++ rest)
  = Ok (if ((- 2 ^ 63 <=? z) && (z <? 2 ^ 63))%Z then Accepted (mkCommand false [] (s2b "flush_all")) (RFlush nr) else Rejected, rest).
Proof.
  intros Hl. assert (Hd : decZ z <> [] /\ Forall (fun c => is_digit c = true \/ c = 45) (decZ z)).
  { unfold decZ. destruct (z <? 0)%Z; (split; [discriminate || apply dec_nonnil|]).
    - constructor; [now right|]. eapply List.Forall_impl; [|apply dec_digits]. cbn. auto.
    - eapply List.Forall_impl; [|apply dec_digits]. cbn. auto. }
  destruct Hd as (Hne & Hdig).
  assert (HL : no_lf (space (decZ z) ++ noreply_word nr)).
  { apply Forall_app. split; [|apply opt_nolf]. constructor; [discriminate|]. eapply List.Forall_impl; [|exact Hdig]. cbn. intros a [H| ->]; [apply is_digit_range in H; lia|discriminate]. }
  rewrite (app_assoc (space (decZ z))). change line_end with crlf.
  assert (R : serve_request now (s2b "flush_all" ++ (space (decZ z) ++ noreply_word nr) ++ crlf ++ rest) = let* r := serve_other (s2b "flush_all") ((space (decZ z) ++ noreply_word nr) ++ [10]) in Ok (mkCommand false [] (s2b "flush_all"), r, rest)).
  { apply serve_word; [apply plainb_ok; vm_compute; reflexivity|exact HL|reflexivity|vm_compute; reflexivity]. }
  assert (Q : serve_other (s2b "flush_all") ((space (decZ z) ++ noreply_word nr) ++ [10]) = if ((- 2 ^ 63 <=? z) && (z <? 2 ^ 63))%Z then Ok (RFlush nr) else Err).
  { unfold serve_other. change (mem (s2b "flush_all") _) with false. cbv iota. change (beq (s2b "flush_all") (s2b "flush_all")) with true. cbv iota. unfold serve_number. rewrite <- app_assoc.
    unfold space. cbn [app]. rewrite noreply_print. change (print_options (opt nr) ++ [10]) with (opt_tail (opt nr)).
    rewrite digit_word; auto; [|apply opt_tail_head, opt_small]. cbn [bind]. destruct (decZ z) as [|c d] eqn:E; [congruence|]. rewrite <- E, lex_i64_decZ.
    destruct ((- 2 ^ 63 <=? z) && (z <? 2 ^ 63))%Z; [|reflexivity]. cbn [bind]. rewrite opt_tail_parse by apply opt_small. destruct nr; reflexivity. }
  destruct (command_any (s2b "flush_all") (space (decZ z) ++ noreply_word nr) rest) as [G1 G2]; [apply plainb_ok; vm_compute; reflexivity|exact HL|reflexivity|].
  unfold serve_next. rewrite G1. cbn [bind]. rewrite G2. cbn [bind c_word]. change (mem (s2b "flush_all") store_idents) with false. cbv iota. rewrite R, Q.
  destruct ((- 2 ^ 63 <=? z) && (z <? 2 ^ 63))%Z; reflexivity.
Qed.
(** The level of verbosity. *)
Lemma lex_i32_decZ z : lex_i32 (decZ z) = if ((- 2 ^ 31 <=? z) && (z <? 2 ^ 31))%Z then Ok z else Err.
Proof.
  unfold lex_i32. rewrite lex_i64_decZ. change (2 ^ 63)%Z with 9223372036854775808%Z. change (2 ^ 31)%Z with 2147483648%Z.
  destruct ((- (9223372036854775808) <=? z) && (z <? 9223372036854775808))%Z eqn:E; cbn [bind].
  - replace (z <=? 2147483647)%Z with (z <? 2147483648)%Z by lia. reflexivity.
  - replace ((- (2147483648) <=? z) && (z <? 2147483648))%Z with false by lia. reflexivity.
Qed.
Lemma verbosity_level now z nr rest : blen (decZ z) < 1000 ->
  serve_next now (s2b "verbosity" ++ space (decZ z) ++ noreply_word nr ++ line_end ++ rest)
  = Ok (if ((- 2 ^ 31 <=? z) && (z <? 2 ^ 31))%Z then Accepted (mkCommand false [] (s2b "verbosity")) (RVerbosity nr) else Rejected, rest).
Proof.
  intros Hl. assert (Hd : decZ z <> [] /\ Forall (fun c => is_digit c = true \/ c = 45) (decZ z)).
  { unfold decZ. destruct (z <? 0)%Z; (split; [discriminate || apply dec_nonnil|]).
    - constructor; [now right|]. eapply List.Forall_impl; [|apply dec_digits]. cbn. auto.
    - eapply List.Forall_impl; [|apply dec_digits]. cbn. auto. }
  destruct Hd as (Hne & Hdig).
  assert (HL : no_lf (space (decZ z) ++ noreply_word nr)).
  { apply Forall_app. split; [|apply opt_nolf]. constructor; [discriminate|]. eapply List.Forall_impl; [|exact Hdig]. cbn. intros a [H| ->]; [apply is_digit_range in H; lia|discriminate]. }
  rewrite (app_assoc (space (decZ z))). change line_end with crlf.
  assert (R : serve_request now (s2b "verbosity" ++ (space (decZ z) ++ noreply_word nr) ++ crlf ++ rest) = let* r := serve_other (s2b "verbosity") ((space (decZ z) ++ noreply_word nr) ++ [10]) in Ok (mkCommand false [] (s2b "verbosity"), r, rest)).
  { apply serve_word; [apply plainb_ok; vm_compute; reflexivity|exact HL|reflexivity|vm_compute; reflexivity]. }
  assert (Q : serve_other (s2b "verbosity") ((space (decZ z) ++ noreply_word nr) ++ [10]) = if ((- 2 ^ 31 <=? z) && (z <? 2 ^ 31))%Z then Ok (RVerbosity nr) else Err).
  { unfold serve_other. change (mem (s2b "verbosity") _) with false. cbv iota. change (beq (s2b "verbosity") (s2b "flush_all")) with false. cbv iota. change (beq (s2b "verbosity") (s2b "verbosity")) with true. cbv iota. unfold serve_number. rewrite <- app_assoc.
    unfold space. cbn [app]. rewrite noreply_print. change (print_options (opt nr) ++ [10]) with (opt_tail (opt nr)).
    rewrite digit_word; auto; [|apply opt_tail_head, opt_small]. cbn [bind]. destruct (decZ z) as [|c d] eqn:E; [congruence|]. rewrite <- E, lex_i32_decZ.
    destruct ((- 2 ^ 31 <=? z) && (z <? 2 ^ 31))%Z; [|reflexivity]. cbn [bind]. rewrite opt_tail_parse by apply opt_small. destruct nr; reflexivity. }
  destruct (command_any (s2b "verbosity") (space (decZ z) ++ noreply_word nr) rest) as [G1 G2]; [apply plainb_ok; vm_compute; reflexivity|exact HL|reflexivity|].
  unfold serve_next. rewrite G1. cbn [bind]. rewrite G2. cbn [bind c_word]. change (mem (s2b "verbosity") store_idents) with false. cbv iota. rewrite R, Q.
  destruct ((- 2 ^ 31 <=? z) && (z <? 2 ^ 31))%Z; reflexivity.
Qed.
(** Without one. *)
Lemma verbosity_none now nr rest : serve_next now (s2b "verbosity" ++ noreply_word nr ++ line_end ++ rest) = Ok (Rejected, rest).
Proof.
  change line_end with crlf. assert (HL : no_lf (noreply_word nr)) by apply opt_nolf.
  assert (R : serve_request now (s2b "verbosity" ++ noreply_word nr ++ crlf ++ rest) = let* r := serve_other (s2b "verbosity") (noreply_word nr ++ [10]) in Ok (mkCommand false [] (s2b "verbosity"), r, rest)).
  { apply serve_word; [apply plainb_ok; vm_compute; reflexivity|exact HL|destruct nr; reflexivity|vm_compute; reflexivity]. }
  assert (Q : serve_other (s2b "verbosity") (noreply_word nr ++ [10]) = Err) by (destruct nr; vm_compute; reflexivity).
  destruct (command_any (s2b "verbosity") (noreply_word nr) rest) as [G1 G2]; [apply plainb_ok; vm_compute; reflexivity|exact HL|destruct nr; reflexivity|].
  unfold serve_next. rewrite G1. cbn [bind]. rewrite G2. cbn [bind c_word]. change (mem (s2b "verbosity") store_idents) with false. cbv iota. rewrite R, Q. reflexivity.
Qed.
