From Coq Require Import ZArith NArith List Bool Lia String.
From Coq Require Import ZifyBool ZifyNat ZifyN.
From Verif Require Import Base BaseLemmas StorageModel TextModel TextSpec TextProofs.
Import ListNotations.
Local Open Scope N_scope.
Local Open Scope list_scope.
Ltac Zify.zify_post_hook ::= Z.div_mod_to_equations.

(** * Numbers *)
Lemma bind_ok {A B} (a : A) (f : A -> res B) : bind (Ok a) f = f a. Proof. reflexivity. Qed.

Lemma is_unsigned_dec v : is_unsigned (dec v) = true.
Proof.
  unfold is_unsigned. pose proof (dec_nonnil v). destruct (dec v) eqn:E; [congruence|]. rewrite <- E.
  apply forallb_forall. intros c Hc. pose proof (dec_digits v) as D. rewrite Forall_forall in D. auto.
Qed.
Lemma dec_head v : exists c d, dec v = c :: d /\ 48 <= c <= 57.
Proof.
  pose proof (dec_nonnil v). pose proof (dec_digits v) as D. destruct (dec v) as [|c d]; [congruence|].
  inversion_clear D as [|? ? Hc _]. exists c, d. split; auto. now apply is_digit_range.
Qed.
Lemma lex_u_dec m v : v <= m -> lex_u m (dec v) = Ok v.
Proof.
  intros H. destruct (dec_head v) as (c & d & E & Hc). unfold lex_u.
  assert (G : is_unsigned (dec v) && (dec_val (dec v) <=? m) = true) by (rewrite is_unsigned_dec, dec_val_dec; lia).
  rewrite E in *. destruct (N.eq_dec c 45) as [->|Hn]; [lia|].
  assert (lex_u m (c :: d) = if is_unsigned (c :: d) && (dec_val (c :: d) <=? m) then Ok (dec_val (c :: d)) else Err) as K.
  { unfold lex_u. destruct c as [|p]; [reflexivity|]. repeat (destruct p as [p|p|]; try reflexivity; try (exfalso; apply Hn; reflexivity)). }
  unfold lex_u in K. rewrite K, G. f_equal. rewrite <- E. apply dec_val_dec.
Qed.
Lemma lex_i64_dec v : v <= i64_max -> lex_i64 (dec v) = Ok (Z.of_N v).
Proof.
  intros H. destruct (dec_head v) as (c & d & E & Hc). unfold lex_i64.
  assert (G : is_unsigned (dec v) && (dec_val (dec v) <=? i64_max) = true) by (rewrite is_unsigned_dec, dec_val_dec; lia).
  rewrite E in *. destruct (N.eq_dec c 45) as [->|Hn]; [lia|].
  assert (lex_i64 (c :: d) = if is_unsigned (c :: d) && (dec_val (c :: d) <=? i64_max) then Ok (Z.of_N (dec_val (c :: d))) else Err) as K.
  { unfold lex_i64. destruct c as [|p]; [reflexivity|]. repeat (destruct p as [p|p|]; try reflexivity; try (exfalso; apply Hn; reflexivity)). }
  unfold lex_i64 in K. rewrite K, G. rewrite <- E. now rewrite dec_val_dec.
Qed.
Lemma unsigned_field_dec m v : v <= m -> unsigned_field m (dec v) = Ok v.
Proof. intros H. unfold unsigned_field. rewrite is_unsigned_dec. now apply lex_u_dec. Qed.
Lemma dec_short v : v < 2 ^ 64 -> blen (dec v) + 1 <= BUFSIZ.
Proof. intros H. pose proof (dec_length_u64 v H). unfold blen, BUFSIZ. lia. Qed.

Lemma field_step v r : v < 2 ^ 64 -> match r with [] => True | c :: _ => ~ num_byte c end ->
  call_digit BUFSIZ (32 :: dec v ++ r) = Ok (dec v, r).
Proof. intros Hv Hr. apply call_digit_token; auto using dec_digits, dec_nonnil, dec_short. Qed.
Lemma match_dec {A} v (x : A) (f : bytes -> A) : match dec v with [] => x | _ => f (dec v) end = f (dec v).
Proof. pose proof (dec_nonnil v). destruct (dec v); congruence. Qed.

Lemma realtime_absolute now t : absolute_expire t -> realtime now t = t.
Proof.
  unfold absolute_expire, realtime, max_realtime_delta. intros [->|H]; [reflexivity|].
  destruct (Z.eqb_spec t 0); [lia|]. destruct (Z.leb_spec t 2592000); lia.
Qed.
Lemma decZ_absolute t : absolute_expire t -> decZ t = dec (Z.to_N t) /\ Z.to_N t <= i64_max /\ Z.of_N (Z.to_N t) = t.
Proof.
  unfold absolute_expire, decZ, i64_max. intros H. destruct (Z.ltb_spec t 0); [lia|]. repeat split; lia.
Qed.

(** * Options *)
Lemma below8 (P : N -> Prop) : P 0 -> P 1 -> P 2 -> P 3 -> P 4 -> P 5 -> P 6 -> P 7 -> forall o, o < 8 -> P o.
Proof.
  intros. assert (o = 0 \/ o = 1 \/ o = 2 \/ o = 3 \/ o = 4 \/ o = 5 \/ o = 6 \/ o = 7) as C by lia.
  repeat (destruct C as [->|C]; [assumption|]). now subst.
Qed.
Definition opt_tail (o : N) : bytes := print_options o ++ [10].
Lemma opt_tail_parse o : o < 8 -> parse_options (S (List.length (opt_tail o))) (opt_tail o) 0 = Ok o.
Proof. revert o. apply below8; vm_compute; reflexivity. Qed.
Lemma opt_tail_parse_skip o : o < 8 ->
  parse_options (S (List.length (skip_spaces (opt_tail o)))) (skip_spaces (opt_tail o)) 0 = Ok o.
Proof. revert o. apply below8; vm_compute; reflexivity. Qed.
Lemma opt_tail_cons o : o < 8 -> exists c r, opt_tail o = c :: r /\ (c = 32 \/ c = 10).
Proof. revert o. apply below8; eexists _, _; (split; [vm_compute; reflexivity|lia]). Qed.
Lemma opt_tail_skip_cons o : o < 8 -> exists c r, skip_spaces (opt_tail o) = c :: r /\ (c = 10 \/ 97 <= c <= 122).
Proof. revert o. apply below8; eexists _, _; (split; [vm_compute; reflexivity|lia]). Qed.
Lemma opt_tail_head o : o < 8 -> match opt_tail o with [] => True | c :: _ => ~ num_byte c end.
Proof. intros H. destruct (opt_tail_cons o H) as (c & r & -> & Hc). dig. Qed.
Lemma opt_tail_skip_head o : o < 8 -> match skip_spaces (opt_tail o) with [] => True | c :: _ => ~ num_byte c end.
Proof. intros H. destruct (opt_tail_skip_cons o H) as (c & r & -> & Hc). dig. Qed.
Lemma opt_tail_digit o : o < 8 -> call_digit BUFSIZ (opt_tail o) = Ok ([], skip_spaces (opt_tail o)).
Proof. intros H. apply call_digit_none; [unfold BUFSIZ; lia|now apply opt_tail_skip_head]. Qed.

(** * Entry lines *)
Lemma flag_step t e v r : is_short t = false -> v < 2 ^ 32 -> match r with [] => True | c :: _ => ~ num_byte c end ->
  parse_flag t e (32 :: dec v ++ r) = Ok (with_flag e v, r).
Proof.
  intros Ht Hv Hr. unfold parse_flag. rewrite Ht, field_step by (auto; lia). cbn [bind].
  pose proof (dec_nonnil v). destruct (dec v) eqn:E; [congruence|]. rewrite <- E, unsigned_field_dec by (unfold u32_max; lia). reflexivity.
Qed.
Lemma expire_step now t e x r : is_get t = false -> absolute_expire x -> match r with [] => True | c :: _ => ~ num_byte c end ->
  parse_expire now t e (32 :: decZ x ++ r) = Ok (with_expire e x, r).
Proof.
  intros Ht Hx Hr. destruct (decZ_absolute x Hx) as (E1 & E2 & E3). unfold parse_expire.
  rewrite Ht, E1, field_step by (unfold i64_max in *; auto; lia). cbn [bind].
  pose proof (dec_nonnil (Z.to_N x)). destruct (dec (Z.to_N x)) eqn:E; [congruence|]. rewrite <- E.
  rewrite is_unsigned_dec, lex_i64_dec by auto. cbn [bind]. rewrite E3, realtime_absolute by auto. reflexivity.
Qed.
Lemma size_step t e v r : is_short t = false -> v <= 2147483647 -> match r with [] => True | c :: _ => ~ num_byte c end ->
  parse_size t e (32 :: dec v ++ r) = Ok (with_size e v, r).
Proof.
  intros Ht Hv Hr. unfold parse_size. rewrite Ht, field_step by (auto; lia). cbn [bind].
  pose proof (dec_nonnil v). destruct (dec v) eqn:E; [congruence|]. rewrite <- E, unsigned_field_dec by (unfold u64_max; lia). cbn [bind].
  unfold max_data_size. replace (_ <? _) with false by lia. reflexivity.
Qed.
Lemma version_step t e v r : v < 2 ^ 64 -> match r with [] => True | c :: _ => ~ num_byte c end ->
  parse_version t e (32 :: dec v ++ r) = Ok (with_version e v, r).
Proof.
  intros Hv Hr. unfold parse_version. rewrite field_step by (auto; lia). cbn [bind].
  pose proof (dec_nonnil v). destruct (dec v) eqn:E; [congruence|]. rewrite <- E, unsigned_field_dec by (unfold u64_max; lia). reflexivity.
Qed.
Lemma version_absent t e o : o < 8 -> t <> parse_cas -> parse_version t e (opt_tail o) = Ok (e, skip_spaces (opt_tail o)).
Proof. intros Ho Ht. unfold parse_version. rewrite opt_tail_digit by auto. cbn [bind]. destruct t; congruence. Qed.

(** version (written only if [b]) and options *)
Definition vpart (b : bool) (v : N) : bytes := if b then 32 :: dec v else [].
Lemma version_options now t b v o e :
  v < 2 ^ 64 -> o < 8 -> is_get t = false -> (b = false -> v = e_version e /\ t <> parse_cas) ->
  (let* (e', p) := parse_version t e (vpart b v ++ opt_tail o) in parse_tail now t e' p)
  = Ok (with_option (with_version e v) o).
Proof.
  intros Hv Ho Ht Hb. unfold vpart. destruct b.
  - cbn [app]. rewrite version_step by (auto; now apply opt_tail_head). cbn [bind]. unfold parse_tail. rewrite Ht, opt_tail_parse by auto. reflexivity.
  - destruct (Hb eq_refl) as [-> Hc]. cbn [app]. rewrite version_absent by auto. cbn [bind].
    unfold parse_tail. rewrite Ht, opt_tail_parse_skip by auto. destruct e; reflexivity.
Qed.

Lemma vpart_head b v o : o < 8 -> match vpart b v ++ opt_tail o with [] => True | c :: _ => ~ num_byte c end.
Proof. intros Ho. destruct b; cbn [vpart app]; [dig|now apply opt_tail_head]. Qed.
Lemma key_step k r : legal_key k -> call_word BUFSIZ (32 :: k ++ 32 :: r) = Ok (k, 32 :: r).
Proof.
  intros (Hn & Hk & Hl). change (32 :: k ++ 32 :: r) with (repeat 32 1 ++ k ++ 32 :: r).
  apply call_word_token; auto; unfold BUFSIZ, word_byte; lia.
Qed.
Lemma cstr_key k : Forall word_byte k -> cstr k = k.
Proof. induction 1 as [|c k Hc _ IH]; [reflexivity|]. cbn [cstr]. unfold word_byte in Hc. replace (c =? 0) with false by lia. now rewrite IH. Qed.

(** set/add/replace/append/prepend/cas *)
Definition store_line (b : bool) (e : entry) : bytes :=
  32 :: e_key e ++ 32 :: dec (e_flag e) ++ 32 :: decZ (e_expire e) ++ 32 :: dec (e_size e) ++ vpart b (e_version e) ++ opt_tail (e_option e).
Lemma parse_store_line now t b e :
  is_short t = false -> is_get t = false -> sendable e -> (b = false -> e_version e = 0 /\ t <> parse_cas) ->
  parse_entry now t (store_line b e) = Ok (with_data e []).
Proof.
  intros Ht1 Ht2 [Hk Hf Hx Hs Hm Hv Ho] Hb. unfold parse_entry, store_line.
  rewrite key_step by auto. cbn [bind]. destruct (e_key e) eqn:Ek; [destruct Hk; congruence|]. rewrite <- Ek.
  rewrite flag_step by (auto; dig). cbn [bind].
  rewrite expire_step by (auto; dig). cbn [bind].
  assert (Hm' : e_size e <= 2147483647) by lia. clear Hm.
  rewrite size_step by (auto; now apply vpart_head). cbn [bind].
  rewrite version_options by auto. destruct e; reflexivity.
Qed.
(** delete *)
Definition delete_line (b : bool) (e : entry) : bytes :=
  32 :: e_key e ++ 32 :: decZ (e_expire e) ++ vpart b (e_version e) ++ opt_tail (e_option e).
Lemma parse_short_line now t b e :
  is_short t = true -> legal_key (e_key e) -> absolute_expire (e_expire e) -> e_version e < 2 ^ 64 -> e_option e < 8 ->
  (b = false -> e_version e = 0) ->
  parse_entry now t (delete_line b e) = Ok (mkEntry (e_key e) 0 (e_expire e) 0 (e_version e) (e_option e) []).
Proof.
  intros Ht Hk Hx Hv Ho Hb. unfold parse_entry, delete_line.
  rewrite key_step by auto. cbn [bind]. destruct (e_key e) eqn:Ek; [destruct Hk; congruence|]. rewrite <- Ek.
  unfold parse_flag. rewrite Ht. cbn [bind].
  assert (is_get t = false) by (destruct t; cbn in *; congruence).
  rewrite expire_step by (auto; now apply vpart_head). cbn [bind].
  unfold parse_size. rewrite Ht. cbn [bind].
  rewrite version_options; auto.
  intros E. split; [now apply Hb|]. destruct t; cbn in Ht; congruence.
Qed.

(** * Streams *)
Lemma cut_line_ok l r : Forall (fun c => c <> 10) l -> cut_line (l ++ 10 :: r) = Some (l, r).
Proof.
  induction 1 as [|c l Hc _ IH]; [reflexivity|]. cbn [app cut_line]. rewrite IH. replace (c =? 10) with false by lia. reflexivity.
Qed.
Lemma drop_cr_snoc l : drop_cr (l ++ [13]) = l.
Proof. unfold drop_cr. rewrite rev_app_distr. cbn [rev app]. apply rev_involutive. Qed.
Lemma get_line_ok l r : Forall (fun c => c <> 10) l -> get_line (l ++ crlf ++ r) = Ok (l ++ [10], r).
Proof.
  intros H. unfold get_line, crlf. change ([13; 10] ++ r) with ([13] ++ 10 :: r). rewrite app_assoc, cut_line_ok.
  - now rewrite drop_cr_snoc.
  - apply Forall_app. split; [exact H|]. repeat constructor. lia.
Qed.
Lemma get_bytes_ok d r : blen d <= 2147483645 -> get_bytes (blen d + 2) (d ++ crlf ++ r) = Ok (d ++ crlf, r).
Proof.
  intros Hd. unfold get_bytes.
  assert (E0 : (int_max <? blen d + 2) = false) by (apply N.ltb_ge; unfold int_max; lia). rewrite E0.
  assert (E1 : (blen d + 2 <=? blen (d ++ crlf ++ r)) = true) by (apply N.leb_le; rewrite !blen_app; change (blen crlf) with 2; lia). rewrite E1.
  unfold crlf.
  assert (E : N.to_nat (blen d + 2) = List.length (d ++ [13; 10])) by (rewrite app_length; unfold blen; cbn [List.length]; lia).
  rewrite E, app_assoc. rewrite firstn_app, Nat.sub_diag, firstn_all, skipn_app, Nat.sub_diag, skipn_all. cbn [firstn skipn].
  now rewrite app_nil_r.
Qed.

(** * The proxy prefix *)
Lemma join_acc acc g l : acc <> [] -> join_from acc g l = acc ++ flat_map (fun x => g ++ x) l.
Proof.
  revert acc. induction l as [|x l IH]; intros acc H; cbn [join_from flat_map]; [now rewrite app_nil_r|].
  destruct acc as [|a acc]; [congruence|]. rewrite IH by (cbn; congruence). now rewrite !app_assoc.
Qed.
Lemma vector_join_cons x l g : x <> [] -> vector_join (x :: l) g = x ++ flat_map (fun x => g ++ x) l.
Proof. intros H. unfold vector_join. cbn [join_from app]. now apply join_acc. Qed.

Lemma split_go_token c cur x s : Forall (fun d => d <> c) x -> split_go c cur (x ++ s) = split_go c (cur ++ x) s.
Proof.
  intros H. revert cur. induction H as [|d x Hd _ IH]; intros cur; cbn [app]; [now rewrite app_nil_r|].
  cbn [split_go]. replace (d =? c) with false by lia. rewrite IH, <- app_assoc. reflexivity.
Qed.
Lemma split_go_rest c cur l : cur <> [] -> Forall (fun x => x <> [] /\ Forall (fun d => d <> c) x) l ->
  split_go c cur (flat_map (fun x => [c] ++ x) l) = cur :: l.
Proof.
  intros Hc H. revert cur Hc. induction H as [|x l [Hx Hd] _ IH]; intros cur Hc; cbn [flat_map split_go app].
  - destruct cur; congruence.
  - rewrite N.eqb_refl. destruct cur; [congruence|]. f_equal. rewrite split_go_token by auto. cbn [app]. now apply IH.
Qed.
Lemma split_join c l : Forall (fun x => x <> [] /\ Forall (fun d => d <> c) x) l -> vector_split (vector_join l [c]) c = l.
Proof.
  intros H. destruct l as [|x l]; [reflexivity|]. inversion_clear H as [|? ? [Hx Hd] Hl].
  rewrite vector_join_cons by auto. unfold vector_split. rewrite split_go_token by auto. cbn [app]. now apply split_go_rest.
Qed.
Lemma find_char_ok c a b : Forall (fun d => d <> c /\ d <> 0) a -> find_char c (a ++ c :: b) = Some (a, b).
Proof.
  induction 1 as [|d a [H1 H2] _ IH]; cbn [app find_char]; [now rewrite N.eqb_refl|].
  replace (d =? c) with false by lia. replace (d =? 0) with false by lia. now rewrite IH.
Qed.
Lemma join_bytes (P : N -> Prop) l : P 44 -> Forall (fun x => x <> [] /\ Forall P x) l -> Forall P (vector_join l [44]).
Proof.
  intros Hc H. destruct l as [|x l]; [constructor|]. inversion_clear H as [|? ? [Hx Hd] Hl].
  rewrite vector_join_cons by auto. apply Forall_app. split; auto.
  induction Hl as [|y l [Hy1 Hy2] _ IH]; cbn [flat_map]; [constructor|]. cbn [app]. constructor; auto. apply Forall_app. auto.
Qed.

(** A request line: proxy prefix, command word, rest. *)
Lemma parse_command_ok trail w r :
  Forall legal_node_name trail -> Forall word_byte w -> w <> [] -> blen w + 1 <= 1024 -> hd 0 w <> 60 ->
  match r with [] => True | c :: _ => ~ word_byte c end ->
  parse_command (proxy_ident trail ++ w ++ r)
  = Ok (mkCommand (match trail with [] => false | _ => true end) trail w, r).
Proof.
  intros Ht Hw Hn Hl H60 Hr. destruct trail as [|x trail]; cbn [proxy_ident app].
  - unfold parse_command. destruct w as [|c w]; [congruence|]. cbn [hd] in H60. cbn [app].
    assert (forall X (a b : X) rest, match c :: rest with 60 :: _ => a | _ => b end = b) as M.
    { intros. destruct c as [|p]; [reflexivity|]. repeat (destruct p as [p|p|]; try reflexivity; try (exfalso; apply H60; reflexivity)). }
    assert (forall f, match c :: w ++ r with 60 :: line' => f line' | _ => (false, @nil bytes, c :: w ++ r) end = (false, [], c :: w ++ r)) as M2.
    { intros. destruct c as [|p]; [reflexivity|]. repeat (destruct p as [p|p|]; try reflexivity; try (exfalso; apply H60; reflexivity)). }
    rewrite (M2 (fun line' => match find_char 62 line' with Some (t, r0) => (true, vector_split t 44, r0) | None => (false, [], c :: w ++ r) end)).
    change (c :: w ++ r) with (repeat 32 0 ++ (c :: w) ++ r). rewrite call_word_token by auto. reflexivity.
  - unfold parse_command. rewrite <- !app_assoc. cbn [app].
    rewrite find_char_ok.
    2:{ apply join_bytes; [lia|]. eapply Forall_impl; [|exact Ht]. intros a [Ha1 Ha2]. split; auto.
        eapply Forall_impl; [|exact Ha2]. cbn. intros; lia. }
    rewrite split_join.
    2:{ eapply Forall_impl; [|exact Ht]. intros a [Ha1 Ha2]. split; auto. eapply Forall_impl; [|exact Ha2]. cbn. intros; lia. }
    change (w ++ r) with (repeat 32 0 ++ w ++ r). rewrite call_word_token by auto. reflexivity.
Qed.
