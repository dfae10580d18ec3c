From Coq Require Import NArith ZArith List Bool Lia String ZifyBool ZifyNat ZifyN.
From Verif Require Import Base BaseLemmas StorageModel StorageSpec TextModel TextSpec TextProofs TextProofs2 TextProofs3 ClientSpec TextProofs4 SessionModel.
Import ListNotations.
Local Open Scope N_scope.

Lemma next_accepted now s c r s' : serve_next now s = Ok (Accepted c r, s') <-> serve_request now s = Ok (c, r, s').
Proof.
  unfold serve_next. destruct (get_line s) as [| |[line s1]] eqn:G; cbn [bind].
  1,2: unfold serve_request; rewrite G; cbn; split; discriminate.
  destruct (parse_command line) as [| |[c0 rest]] eqn:P; cbn [bind].
  1,2: unfold serve_request; rewrite G; cbn [bind]; rewrite P; cbn; split; discriminate.
  destruct (mem (c_word c0) store_idents) eqn:M.
  - unfold serve_request. rewrite G. cbn [bind]. rewrite P. cbn [bind]. rewrite M. unfold serve_store.
    destruct (parse_entry _ _ _) as [| |e]; cbn [bind]; try (split; discriminate).
    destruct (get_bytes _ _) as [| |[d s2]]; cbn [bind]; try (split; discriminate).
    split; intros [= <- <- <-]; reflexivity.
  - destruct (serve_request now s) as [| |[[c1 r1] s2]]; split; try discriminate; intros [= <- <- <-]; reflexivity.
Qed.
Lemma next_undef now s : serve_next now s = Undef <-> serve_request now s = Undef.
Proof.
  unfold serve_next. destruct (get_line s) as [| |[line s1]] eqn:G; cbn [bind].
  1,2: unfold serve_request; rewrite G; cbn; split; congruence.
  destruct (parse_command line) as [| |[c0 rest]] eqn:P; cbn [bind].
  1,2: unfold serve_request; rewrite G; cbn [bind]; rewrite P; cbn; split; congruence.
  destruct (mem (c_word c0) store_idents) eqn:M.
  - unfold serve_request. rewrite G. cbn [bind]. rewrite P. cbn [bind]. rewrite M. unfold serve_store.
    destruct (parse_entry _ _ _) as [| |e]; cbn [bind]; try (split; congruence).
    destruct (get_bytes _ _) as [| |[d s2]]; cbn [bind]; split; congruence.
  - destruct (serve_request now s) as [| |[[c1 r1] s2]]; split; congruence.
Qed.
Lemma get_line_raw L rest : no_lf L -> get_line (L ++ 10 :: rest) = Ok (drop_cr L ++ [10], rest).
Proof. intros H. unfold get_line. now rewrite cut_line_ok. Qed.
Lemma next_rejected now L rest s' : no_lf L -> serve_next now (L ++ 10 :: rest) = Ok (Rejected, s') ->
  s' = rest \/ (s' = [] /\ exists c p e, parse_command (drop_cr L ++ [10]) = Ok (c, p) /\ In (c_word c) store_idents /\
    parse_entry now (if beq (c_word c) (s2b "cas") then parse_cas else parse_set) p = Ok e /\ blen rest < e_size e + 2).
Proof.
  intros HL. unfold serve_next. rewrite get_line_raw by exact HL. cbn [bind].
  destruct (parse_command _) as [| |[c p]] eqn:P; cbn [bind]; try discriminate.
  destruct (mem (c_word c) store_idents) eqn:M.
  - destruct (parse_entry _ _ _) as [| |e] eqn:E; try discriminate.
    + intros [= <-]. now left.
    + unfold get_bytes. destruct (_ <? _); [discriminate|]. destruct (N.leb_spec (e_size e + 2) (blen rest)) as [X|X]; [discriminate|].
      intros [= <-]. right. split; [reflexivity|]. exists c, p, e. repeat split; auto.
      apply existsb_exists in M as (w & I & B). apply beq_eq in B. now rewrite B.
  - destruct (serve_request _ _) as [| |[[c1 r1] s2]]; try discriminate. intros [= <-]. now left.
Qed.

Lemma expire_negative now t e x r : t = parse_set \/ t = parse_cas -> (- 2 ^ 63 <= x < 0)%Z -> match r with [] => True | c :: _ => ~ num_byte c end ->
  parse_expire now t e (32 :: decZ x ++ r) = Err.
Proof.
  intros Ht Hx Hr. unfold parse_expire. assert (G : is_get t = false) by (destruct Ht; subst; reflexivity). rewrite G.
  assert (D : decZ x = 45 :: dec (Z.to_N (- x))).
  { unfold decZ. destruct (Z.ltb_spec x 0); [reflexivity|lia]. }
  rewrite D.
  assert (Q : call_digit BUFSIZ (32 :: (45 :: dec (Z.to_N (- x))) ++ r) = Ok (45 :: dec (Z.to_N (- x)), r)).
  { rewrite call_digit_ok by (unfold BUFSIZ; cbn; auto; lia). unfold next_digit.
    change (skip_spaces (32 :: (45 :: dec (Z.to_N (- x))) ++ r)) with (45 :: dec (Z.to_N (- x)) ++ r).
    rewrite !blen_cons, !blen_app, blen_cons. pose proof (dec_length_u64 (Z.to_N (- x)) ltac:(lia)) as DL.
    cbn [digit_loop]. match goal with |- context [if ?b then _ else _] => replace b with true by (unfold BUFSIZ; lia) end.
    rewrite digit_loop_token; auto using dec_digits. unfold blen, BUFSIZ in *. lia. }
  rewrite Q. cbn [bind]. reflexivity.
Qed.

Lemma parse_negative now t k f x r : t = parse_set \/ t = parse_cas -> legal_key k -> f < 2 ^ 32 -> (- 2 ^ 63 <= x < 0)%Z -> match r with [] => True | c :: _ => ~ num_byte c end ->
  parse_entry now t (32 :: k ++ 32 :: dec f ++ 32 :: decZ x ++ r) = Err.
Proof.
  intros Ht Hk Hf Hx Hr. unfold parse_entry.
  rewrite key_step by auto. cbn [bind]. destruct k as [|c k0] eqn:Ek; [destruct Hk; congruence|]. rewrite <- Ek in *.
  rewrite flag_step by (auto; try dig; destruct Ht; subst; reflexivity). cbn [bind].
  now rewrite expire_negative.
Qed.
Lemma next_of_line now w L rest : In w store_idents -> no_lf L -> hd 32 L = 32 ->
  parse_entry now (if beq w (s2b "cas") then parse_cas else parse_set) (L ++ [10]) = Err ->
  serve_next now (w ++ L ++ crlf ++ rest) = Ok (Rejected, rest).
Proof.
  intros Hi HL Hh E. assert (Hw : In w words_all) by (unfold words_all; apply in_or_app; auto).
  destruct (command_plain w L rest Hw HL Hh) as [G1 G2]. unfold serve_next. rewrite G1. cbn [bind]. rewrite G2. cbn [bind c_word].
  now rewrite (mem_in _ _ Hi), E.
Qed.
Lemma negative_rejected now ident k f x d cas nr rest :
  In ident store_idents -> legal_key k -> f < 2 ^ 32 -> (- 2 ^ 63 <= x < 0)%Z ->
  serve_next now (client_store ident k f x d cas nr ++ rest) = Ok (Rejected, d ++ line_end ++ rest).
Proof.
  intros Hi Hk Hf Hx.
  set (L := 32 :: k ++ 32 :: dec f ++ 32 :: decZ x ++ 32 :: dec (blen d) ++ cas_part cas ++ print_options (opt nr)).
  assert (ER : client_store ident k f x d cas nr ++ rest = ident ++ L ++ crlf ++ d ++ line_end ++ rest).
  { unfold client_store, L, space, line_end, crlf. fold (cas_part cas). rewrite noreply_print. repeat (rewrite <- ?app_assoc; cbn [app]). reflexivity. }
  assert (HL : no_lf L).
  { unfold L. destruct Hk as (_ & Hk & _). pose proof (no_lf_print (opt nr) (opt_small nr)). destruct cas; cbn [cas_part]; nolf. }
  rewrite ER. apply next_of_line; auto. unfold L.
  replace ((32 :: k ++ 32 :: dec f ++ 32 :: decZ x ++ 32 :: dec (blen d) ++ cas_part cas ++ print_options (opt nr)) ++ [10])
    with (32 :: k ++ 32 :: dec f ++ 32 :: decZ x ++ (32 :: dec (blen d) ++ cas_part cas ++ print_options (opt nr) ++ [10]))
    by (repeat (rewrite <- ?app_assoc; cbn [app]); reflexivity).
  apply parse_negative; auto; [destruct (beq _ _); auto|dig].
Qed.
Lemma oversize_rejected now ident k f x n d nr rest :
  In ident store_idents -> legal_key k -> f < 2 ^ 32 -> wire_time x -> 2147483647 < n < 2 ^ 64 ->
  serve_next now (ident ++ space k ++ space (dec f) ++ space (decZ x) ++ space (dec n) ++ noreply_word nr ++ line_end ++ d ++ rest) = Ok (Rejected, d ++ rest).
Proof.
  intros Hi Hk Hf Hx Hn. rewrite noreply_print.
  set (L := 32 :: k ++ 32 :: dec f ++ 32 :: decZ x ++ 32 :: dec n ++ print_options (opt nr)).
  match goal with |- serve_next _ ?s = _ => replace s with (ident ++ L ++ crlf ++ d ++ rest) by (unfold L, space, line_end, crlf; repeat (rewrite <- ?app_assoc; cbn [app]); reflexivity) end.
  assert (HL : no_lf L).
  { unfold L. destruct Hk as (_ & Hk & _). pose proof (no_lf_print (opt nr) (opt_small nr)). nolf. }
  apply next_of_line; auto. unfold L.
  replace ((32 :: k ++ 32 :: dec f ++ 32 :: decZ x ++ 32 :: dec n ++ print_options (opt nr)) ++ [10])
    with (32 :: k ++ 32 :: dec f ++ 32 :: decZ x ++ 32 :: dec n ++ opt_tail (opt nr)) by (unfold opt_tail; repeat (rewrite <- ?app_assoc; cbn [app]); reflexivity).
  apply refuse_client_store; auto; try (destruct (beq _ _); reflexivity). apply opt_tail_head, opt_small.
Qed.
