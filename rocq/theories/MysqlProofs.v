(** Statements: what a slave reads is what was meant. *)
From Coq Require Import String.
From stdpp Require Import gmap.
From Coq Require Import ZifyBool ZifyNat ZifyN.
From Verif Require Import Base BaseLemmas StorageModel StorageSpec TextModel TextProofs MysqlModel MysqlSpec.
Local Open Scope N_scope.
Local Open Scope list_scope.

(** ** Strings *)
Lemma escaped_some c e : escaped c = Some e -> unescaped e = c.
Proof.
  unfold escaped. repeat match goal with |- context [?a =? ?b] => destruct (N.eqb_spec a b) end; intros [= <-]; subst; reflexivity.
Qed.
Lemma escaped_none c : escaped c = None -> c <> 92 /\ c <> 39.
Proof.
  unfold escaped. repeat match goal with |- context [?a =? ?b] => destruct (N.eqb_spec a b) end; try discriminate; auto.
Qed.
Definition ends (r : bytes) : Prop := match r with [] => True | c :: _ => c <> 39 end.
Lemma literal_end r : ends r -> literal (39 :: r) = Some ([], r).
Proof. destruct r as [|c r]; cbn; auto. intros H. destruct (N.eqb_spec c 39); [contradiction|auto]. Qed.
Lemma literal_escape d r : ends r -> literal (escape d ++ 39 :: r) = Some (d, r).
Proof.
  intros Hr. induction d as [|c d IH]; [now apply literal_end|].
  cbn [escape flat_map]. fold (escape d). destruct (escaped c) as [e|] eqn:E.
  - change ([92; e] ++ escape d) with (92 :: e :: escape d). cbn [app literal]. change (92 =? 92) with true. cbn match. rewrite IH.
    cbn [add]. now rewrite (escaped_some _ _ E).
  - apply escaped_none in E as [E1 E2]. cbn [app literal].
    destruct (N.eqb_spec c 92); [contradiction|]. destruct (N.eqb_spec c 39); [contradiction|]. now rewrite IH.
Qed.
Lemma literal_plain k r : Forall (fun c => c <> 39 /\ c <> 92) k -> ends r -> literal (k ++ 39 :: r) = Some (k, r).
Proof.
  intros Hk Hr. induction Hk as [|c k [H1 H2] Hk IH]; [now apply literal_end|]. cbn [app literal].
  destruct (N.eqb_spec c 92); [contradiction|]. destruct (N.eqb_spec c 39); [contradiction|]. now rewrite IH.
Qed.
Lemma literal_shorter n s d r : (length s <= n)%nat -> literal s = Some (d, r) -> (length r < length s)%nat.
Proof.
  revert s d r. induction n as [|n IH]; intros s d r Hn; (destruct s as [|c s]; [discriminate|]); cbn [length] in Hn; [lia|]. cbn [literal].
  destruct (c =? 92).
  - destruct s as [|e s]; [discriminate|]. destruct (literal s) as [[d' r']|] eqn:E; cbn [add]; [|discriminate]. intros [= <- <-].
    apply IH in E; cbn [length] in *; lia.
  - destruct (c =? 39).
    + destruct s as [|e s]; [intros [= <- <-]; cbn; lia|]. destruct (e =? 39).
      * destruct (literal s) as [[d' r']|] eqn:E; cbn [add]; [|discriminate]. intros [= <- <-]. apply IH in E; cbn [length] in *; lia.
      * intros [= <- <-]. cbn. lia.
    + destruct (literal s) as [[d' r']|] eqn:E; cbn [add]; [|discriminate]. intros [= <- <-]. apply IH in E; cbn [length] in *; lia.
Qed.

(** ** Tokens *)
Lemma tokens_more f f' s l : tokens f s = Some l -> (f <= f')%nat -> tokens f' s = Some l.
Proof.
  revert f' s l. induction f as [|f IH]; intros f' s l H Hf; [discriminate|]. destruct f' as [|f']; [lia|].
  cbn [tokens] in *. destruct s as [|c s]; auto. cbv zeta in *.
  assert (G : forall t r, match tokens f r with Some x => Some (t :: x) | None => None end = Some l ->
                          match tokens f' r with Some x => Some (t :: x) | None => None end = Some l).
  { intros t r. destruct (tokens f r) as [x|] eqn:E; [|discriminate]. rewrite (IH f' _ _ E) by lia. auto. }
  destruct (c =? 32); [apply (IH f' _ _ H); lia|]. destruct (c =? 35); auto. destruct (c =? 39).
  { destruct (literal s) as [[d r]|]; auto. }
  destruct (c =? 96). { destruct (span _ s) as [n [|x r]]; auto. }
  destruct (is_digit c). { destruct (span is_digit (c :: s)); auto. }
  destruct (is_letter c). { destruct (span is_letter (c :: s)); auto. }
  auto.
Qed.
Lemma lex_nil : all_tokens [] = Some []. Proof. reflexivity. Qed.
Lemma lex_blank r l : all_tokens r = Some l -> all_tokens (32 :: r) = Some l.
Proof. unfold all_tokens. intros H. exact H. Qed.
Lemma lex_str s d r l : literal s = Some (d, r) -> all_tokens r = Some l -> all_tokens (39 :: s) = Some (Str d :: l).
Proof.
  unfold all_tokens. intros E H. pose proof (literal_shorter _ _ _ _ (le_n _) E). cbn [length].
  remember (S (length s)) as f. cbn [tokens]. change (39 =? 32) with false. change (39 =? 35) with false. change (39 =? 39) with true. cbv zeta. cbn match.
  rewrite E. rewrite (tokens_more _ f _ _ H) by lia. reflexivity.
Qed.
Lemma lex_name n r l : Forall (fun c => c <> 96) n -> all_tokens r = Some l -> all_tokens (96 :: n ++ 96 :: r) = Some (Name n :: l).
Proof.
  unfold all_tokens. intros Hn H. cbn [length].
  remember (S (length (n ++ 96 :: r))) as f. cbn [tokens]. change (96 =? 32) with false. change (96 =? 35) with false. change (96 =? 39) with false.
  change (96 =? 96) with true. cbv zeta. cbn match.
  rewrite span_prefix; [|eapply Forall_impl; [exact Hn|]; intros c Hc; cbn; destruct (N.eqb_spec c 96); [contradiction|reflexivity]|reflexivity].
  rewrite (tokens_more _ f _ _ H); [reflexivity|]. rewrite app_length in Heqf. cbn [length] in Heqf. lia.
Qed.
Definition stops (f : N -> bool) (r : bytes) : Prop := match r with [] => True | x :: _ => f x = false end.
Lemma lex_word w r l : w <> [] -> Forall (fun c => is_letter c = true) w -> stops is_letter r -> all_tokens r = Some l -> all_tokens (w ++ r) = Some (Word w :: l).
Proof.
  unfold all_tokens. intros Hn Hw Hr H. destruct w as [|c w]; [congruence|]. pose proof (List.Forall_inv Hw) as Hc. cbv beta in Hc.
  remember (length ((c :: w) ++ r)) as f. cbn [app tokens]. cbv zeta.
  assert (c <> 32 /\ c <> 35 /\ c <> 39 /\ c <> 96 /\ is_digit c = false) as (E1 & E2 & E3 & E4 & E5) by (unfold is_letter, is_digit in *; lia).
  destruct (N.eqb_spec c 32); [contradiction|]. destruct (N.eqb_spec c 35); [contradiction|]. destruct (N.eqb_spec c 39); [contradiction|].
  destruct (N.eqb_spec c 96); [contradiction|]. rewrite E5, Hc. change (c :: w ++ r) with ((c :: w) ++ r). rewrite span_prefix by auto.
  rewrite (tokens_more _ f _ _ H); [reflexivity|]. rewrite app_length in Heqf. cbn [length] in Heqf. lia.
Qed.
Lemma lex_num n r l : stops is_digit r -> all_tokens r = Some l -> all_tokens (dec n ++ r) = Some (Num n :: l).
Proof.
  unfold all_tokens. intros Hr H. pose proof (dec_nonnil n) as Hn. pose proof (dec_digits n) as Hd. rewrite <- (dec_val_dec n) at 3.
  destruct (dec n) as [|c w]; [congruence|]. pose proof (List.Forall_inv Hd) as Hc. cbv beta in Hc.
  remember (length ((c :: w) ++ r)) as f. cbn [app tokens]. cbv zeta.
  assert (c <> 32 /\ c <> 35 /\ c <> 39 /\ c <> 96) as (E1 & E2 & E3 & E4) by (unfold is_digit in *; lia).
  destruct (N.eqb_spec c 32); [contradiction|]. destruct (N.eqb_spec c 35); [contradiction|]. destruct (N.eqb_spec c 39); [contradiction|].
  destruct (N.eqb_spec c 96); [contradiction|]. rewrite Hc. change (c :: w ++ r) with ((c :: w) ++ r). rewrite span_prefix by auto.
  rewrite (tokens_more _ f _ _ H); [reflexivity|]. rewrite app_length in Heqf. cbn [length] in Heqf. lia.
Qed.
Lemma lex_sym c r l : c = 40 \/ c = 41 \/ c = 44 \/ c = 61 -> all_tokens r = Some l -> all_tokens (c :: r) = Some (Sym c :: l).
Proof.
  unfold all_tokens. intros Hc H. cbn [length]. remember (S (length r)) as f. cbn [tokens]. cbv zeta.
  destruct Hc as [->|[->|[->| ->]]]; cbn - [tokens]; rewrite H; reflexivity.
Qed.

(** ** The statements *)
Lemma cstr_id k : Forall (fun c => c <> 0) k -> cstr k = k.
Proof. induction 1 as [|c k Hc Hk IH]; auto. cbn [cstr]. destruct c; [contradiction|]. now rewrite IH. Qed.
Lemma quotable_cstr k : quotable k -> cstr k = k.
Proof. intros H. apply cstr_id. eapply Forall_impl; [exact H|]. cbv beta. tauto. Qed.
Lemma nameable_cstr k : nameable k -> cstr k = k.
Proof. intros [H _]. apply cstr_id. eapply Forall_impl; [exact H|]. cbv beta. tauto. Qed.
Lemma quotable_plain k : quotable k -> Forall (fun c => c <> 39 /\ c <> 92) k.
Proof. intros H. eapply Forall_impl; [exact H|]. cbv beta. tauto. Qed.
Lemma nameable_name k : nameable k -> Forall (fun c => c <> 96) k.
Proof. intros [H _]. eapply Forall_impl; [exact H|]. cbv beta. tauto. Qed.
Ltac letters := repeat (apply List.Forall_cons; [reflexivity|]); apply List.Forall_nil.
Lemma lex_word' (w : bytes) r l : w <> [] -> forallb is_letter w = true -> stops is_letter r -> all_tokens r = Some l -> all_tokens (w ++ r) = Some (Word w :: l).
Proof. intros H1 H2. apply lex_word; auto. apply List.Forall_forall. now apply forallb_forall. Qed.

Lemma statement_delete table k : nameable table -> quotable k ->
  statement_of table (s2b "DELETE FROM `" ++ table ++ s2b "` WHERE k='" ++ k ++ s2b "'") = Some (Delete k []).
Proof.
  intros Ht Hk. unfold statement_of.
  replace (all_tokens _) with (Some [Word (s2b "DELETE"); Word (s2b "FROM"); Name table; Word (s2b "WHERE"); Word (s2b "k"); Sym 61; Str k]).
  { cbv iota beta. rewrite !beq_refl. reflexivity. }
  symmetry. change (s2b "DELETE FROM `") with (s2b "DELETE" ++ 32 :: s2b "FROM" ++ [32; 96]).
  change (s2b "` WHERE k='") with (96 :: 32 :: s2b "WHERE" ++ 32 :: s2b "k" ++ [61; 39]). change (s2b "'") with [39].
  repeat (rewrite <- app_assoc || rewrite <- app_comm_cons). cbn [app].
  apply lex_word'; [discriminate|reflexivity|reflexivity|]. apply lex_blank.
  apply lex_word'; [discriminate|reflexivity|reflexivity|]. apply lex_blank.
  apply lex_name; [now apply nameable_name|]. apply lex_blank.
  apply lex_word'; [discriminate|reflexivity|reflexivity|]. apply lex_blank.
  apply lex_word'; [discriminate|reflexivity|reflexivity|]. apply lex_sym; [tauto|].
  eapply lex_str; [apply literal_plain; [now apply quotable_plain|exact Logic.I]|apply lex_nil].
Qed.

Definition expire_text (time_text : Z -> bytes) (x : Z) : bytes :=
  if (0 <? x)%Z then s2b "'" ++ time_text x ++ s2b "')" else s2b "0)".
Lemma statement_replace table time_text k d f v x : nameable table -> quotable k -> quotable (time_text x) ->
  statement_of table (s2b "REPLACE INTO `" ++ table ++ s2b "` VALUES ('" ++ k ++ s2b "', '" ++ escape d ++ s2b "', " ++ dec f ++ s2b ", " ++ dec v ++ s2b ", "
                      ++ expire_text time_text x)
  = Some (Replace k (mkRow d f v (if (0 <? x)%Z then Some (time_text x) else None))).
Proof.
  intros Ht Hk Hx. unfold statement_of.
  replace (all_tokens _) with (Some [Word (s2b "REPLACE"); Word (s2b "INTO"); Name table; Word (s2b "VALUES"); Sym 40; Str k; Sym 44; Str d; Sym 44; Num f;
    Sym 44; Num v; Sym 44; if (0 <? x)%Z then Str (time_text x) else Num 0; Sym 41]).
  { cbv iota beta. rewrite !beq_refl. destruct (0 <? x)%Z; reflexivity. }
  symmetry. change (s2b "REPLACE INTO `") with (s2b "REPLACE" ++ 32 :: s2b "INTO" ++ [32; 96]).
  change (s2b "` VALUES ('") with (96 :: 32 :: s2b "VALUES" ++ [32; 40; 39]). change (s2b "', '") with [39; 44; 32; 39]. change (s2b "', ") with [39; 44; 32].
  change (s2b ", ") with [44; 32].
  repeat (rewrite <- app_assoc || rewrite <- app_comm_cons). cbn [app].
  apply lex_word'; [discriminate|reflexivity|reflexivity|]. apply lex_blank.
  apply lex_word'; [discriminate|reflexivity|reflexivity|]. apply lex_blank.
  apply lex_name; [now apply nameable_name|]. apply lex_blank.
  apply lex_word'; [discriminate|reflexivity|reflexivity|]. apply lex_blank. apply lex_sym; [tauto|].
  eapply lex_str; [apply literal_plain; [now apply quotable_plain|cbn; lia]|]. apply lex_sym; [tauto|]. apply lex_blank.
  eapply lex_str; [apply literal_escape; cbn; lia|]. apply lex_sym; [tauto|]. apply lex_blank.
  apply lex_num; [reflexivity|]. apply lex_sym; [tauto|]. apply lex_blank.
  apply lex_num; [reflexivity|]. apply lex_sym; [tauto|]. apply lex_blank.
  unfold expire_text. destruct (0 <? x)%Z.
  - change (s2b "'") with [39]. change (s2b "')") with [39; 41]. cbn [app].
    eapply lex_str; [apply literal_plain; [now apply quotable_plain|cbn; lia]|]. apply lex_sym; [tauto|]. apply lex_nil.
  - reflexivity.
Qed.

Lemma escape_length d : blen (escape d) <= 2 * blen d.
Proof.
  induction d as [|c d IH]; [reflexivity|]. cbn [escape flat_map]. fold (escape d). rewrite blen_app.
  change (c :: d) with ([c] ++ d). rewrite blen_app. destruct (escaped c); unfold blen in *; cbn [length] in *; lia.
Qed.

(** What stands for an operation. *)
Definition meant (time_text : Z -> bytes) (f : bytes * entry) : statement :=
  if beq (fst f) (s2b "delete") then Delete (e_key (snd f)) []
  else Replace (e_key (snd f)) (row_of time_text (rec_of (snd f))).

Lemma query_meant table time_text ident e : nameable table -> quotable (e_key e) -> blen (e_key e) < 2 ^ 20 -> e_size e <= 2 ^ 29 ->
  quotable (time_text (e_expire e)) -> blen (time_text (e_expire e)) <= 100 ->
  (beq ident (s2b "delete") = false -> e_size e = blen (e_data e) /\ e_flag e < 2 ^ 32 /\ e_version e < 2 ^ 64) ->
  exists q, query table time_text (ident, e) = Ok q /\ statement_of table q = Some (meant time_text (ident, e)) /\ blen q < 2 ^ 30 + 2 ^ 21.
Proof.
  intros Ht Hk Hkl Hs Hx Hxl Hd. unfold query, meant. cbn [fst snd]. rewrite (nameable_cstr _ Ht), (quotable_cstr _ Hk). destruct Ht as [Ht Htl].
  destruct (N.ltb_spec int_max (BUFSIZ + blen (e_key e) + e_size e * 2)) as [H|_]; [unfold int_max, BUFSIZ in H; lia|].
  assert (L : forall x y, blen (x ++ y) = blen x + blen y) by apply blen_app.
  destruct (beq ident (s2b "delete")) eqn:E.
  - match goal with |- context [blen ?x <? _] => assert (Hq : blen x <= blen table + blen (e_key e) + 25) end.
    { rewrite !L. change (blen (s2b "DELETE FROM `")) with 13. change (blen (s2b "` WHERE k='")) with 11. change (blen (s2b "'")) with 1. lia. }
    match goal with |- context [?a <? ?b] => destruct (N.ltb_spec a b) as [_|H]; [|unfold BUFSIZ in H; lia] end.
    eexists. split; [reflexivity|]. split; [|lia]. apply statement_delete; auto. split; auto.
  - destruct (Hd eq_refl) as (Hsz & Hf & Hv). unfold memcpy. rewrite Hsz. rewrite N.leb_refl.
    rewrite (firstn_all2 (e_data e)) by (unfold blen; lia). fold (expire_text time_text (e_expire e)).
    pose proof (escape_length (e_data e)) as He.
    assert (blen (expire_text time_text (e_expire e)) <= 103) as Hel.
    { unfold expire_text. destruct (0 <? e_expire e)%Z; [rewrite !L; change (blen (s2b "')")) with 2; change (blen (s2b "'")) with 1; lia|cbv; discriminate]. }
    assert (Hfl : blen (dec (e_flag e)) <= 20) by (pose proof (dec_length_u64 (e_flag e) ltac:(lia)); unfold blen; lia).
    assert (Hvl : blen (dec (e_version e)) <= 20) by (pose proof (dec_length_u64 (e_version e) Hv); unfold blen; lia).
    assert (Hhead : blen (s2b "REPLACE INTO `" ++ table ++ s2b "` VALUES ('" ++ e_key e ++ s2b "', '") <= blen table + blen (e_key e) + 29).
    { rewrite !L. change (blen (s2b "REPLACE INTO `")) with 14. change (blen (s2b "` VALUES ('")) with 11. change (blen (s2b "', '")) with 4. lia. }
    cbv zeta. set (head := s2b "REPLACE INTO `" ++ table ++ s2b "` VALUES ('" ++ e_key e ++ s2b "', '") in *.
    match goal with |- context [(_ <? _) && (blen ?x <? _)] => assert (Hq : blen x <= blen head + 2 * blen (e_data e) + 150) end.
    { rewrite !L. change (blen (s2b "', ")) with 3. change (blen (s2b ", ")) with 2. clearbody head. lia. }
    match goal with |- context [(?a <? ?b) && (?c <? ?d)] => destruct (N.ltb_spec a b) as [_|H]; [|unfold BUFSIZ in H; lia];
       destruct (N.ltb_spec c d) as [_|H]; [|unfold BUFSIZ in H; lia] end. cbn [andb].
    eexists. split; [reflexivity|]. split; [|lia]. subst head. rewrite <- !app_assoc. apply statement_replace; auto. split; auto.
Qed.
