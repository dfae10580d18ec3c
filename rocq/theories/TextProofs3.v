From Coq Require Import ZArith NArith List Bool Lia String.
From Coq Require Import ZifyBool ZifyNat ZifyN.
From Verif Require Import Base BaseLemmas StorageModel TextModel TextSpec TextProofs TextProofs2.
Import ListNotations.
Local Open Scope N_scope.
Local Open Scope list_scope.
Ltac Zify.zify_post_hook ::= Z.div_mod_to_equations.

Notation no_lf := (Forall (fun c : N => c <> 10)).
Lemma no_lf_dec v : no_lf (dec v).
Proof. eapply Forall_impl; [|apply dec_digits]. intros c Hc. apply is_digit_range in Hc. lia. Qed.
Lemma no_lf_decZ z : no_lf (decZ z).
Proof. unfold decZ. destruct (z <? 0)%Z; [constructor; [lia|]|]; apply no_lf_dec. Qed.
Lemma no_lf_word k : Forall word_byte k -> no_lf k.
Proof. apply Forall_impl. unfold word_byte. intros; tauto. Qed.
Lemma no_lf_opts o : no_lf (print_options o).
Proof.
  unfold print_options. repeat (apply Forall_app; split);
    (destruct (has _ _); [vm_compute; repeat constructor; discriminate|constructor]).
Qed.
Lemma no_lf_proxy trail : Forall legal_node_name trail -> no_lf (proxy_ident trail).
Proof.
  intros H. destruct trail as [|x l]; [constructor|]. cbn [proxy_ident]. apply Forall_app. split; [repeat constructor; lia|].
  apply Forall_app. split; [|repeat constructor; lia]. apply join_bytes; [lia|].
  eapply Forall_impl; [|exact H]. intros a [Ha1 Ha2]. split; auto. eapply Forall_impl; [|exact Ha2]. cbn. intros; lia.
Qed.
Lemma no_lf_sp : no_lf sp. Proof. repeat constructor. lia. Qed.
Ltac nolf := repeat match goal with
  | H : ?g |- ?g => exact H
  | |- Forall _ (_ ++ _) => apply Forall_app; split
  | |- Forall _ (_ :: _) => constructor; [lia|]
  | |- Forall _ [] => constructor
  | |- Forall _ (dec _) => apply no_lf_dec
  | |- Forall _ (decZ _) => apply no_lf_decZ
  | |- Forall _ (print_options _) => apply no_lf_opts
  | |- Forall _ sp => apply no_lf_sp
  | |- Forall _ (proxy_ident _) => apply no_lf_proxy; assumption
  | |- Forall _ _ => apply no_lf_word; assumption
  end.

(** The command words. *)
Definition plain_word (w : bytes) : Prop := Forall word_byte w /\ w <> [] /\ blen w + 1 <= 1024 /\ hd 0 w <> 60.
Definition plainb (w : bytes) : bool :=
  forallb (fun c => negb (c =? 0) && negb (c =? 32) && negb (c =? 10)) w
  && negb (beq w []) && (blen w + 1 <=? 1024) && negb (hd 0 w =? 60).
Lemma plainb_ok w : plainb w = true -> plain_word w.
Proof.
  unfold plainb, plain_word. rewrite !andb_true_iff, forallb_forall. intros [[[H1 H2] H3] H4]. repeat split.
  - apply Forall_forall. intros c Hc. specialize (H1 c Hc). unfold word_byte. lia.
  - intros ->. discriminate.
  - lia.
  - lia.
Qed.
Definition words_all : list bytes := store_idents ++ [s2b "delete"; s2b "touch"; s2b "gat"; s2b "incr"; s2b "decr"; s2b "get"; s2b "gets"].
Lemma words_all_plain w : In w words_all -> plain_word w.
Proof.
  intros H. apply plainb_ok. revert w H. apply forallb_forall. vm_compute. reflexivity.
Qed.

Lemma command_line trail w L rest :
  Forall legal_node_name trail -> In w words_all -> no_lf L -> hd 32 L = 32 ->
  get_line (proxy_ident trail ++ w ++ L ++ crlf ++ rest) = Ok (proxy_ident trail ++ w ++ L ++ [10], rest)
  /\ parse_command (proxy_ident trail ++ w ++ L ++ [10])
     = Ok (mkCommand (match trail with [] => false | _ => true end) trail w, L ++ [10]).
Proof.
  intros Ht Hw HL H32. destruct (words_all_plain w Hw) as (P1 & P2 & P3 & P4). split.
  - replace (proxy_ident trail ++ w ++ L ++ crlf ++ rest) with ((proxy_ident trail ++ w ++ L) ++ crlf ++ rest) by now rewrite <- !app_assoc.
    rewrite get_line_ok; [now rewrite <- !app_assoc|]. nolf.
  - apply parse_command_ok; auto. destruct L as [|c L]; cbn [app hd] in *; unfold word_byte; lia.
Qed.

Lemma firstn_blen d r : firstn (N.to_nat (blen d)) (d ++ r) = d.
Proof.
  unfold blen. rewrite Nnat.Nat2N.id, firstn_app, Nat.sub_diag, firstn_all. cbn [firstn]. apply app_nil_r.
Qed.

Definition proxied (trail : list bytes) : bool := match trail with [] => false | _ => true end.

Lemma mem_in w l : In w l -> mem w l = true.
Proof. intros H. unfold mem. apply existsb_exists. exists w. split; auto. apply beq_refl. Qed.

Lemma store_roundtrip now trail ident e rest :
  Forall legal_node_name trail -> In ident store_idents -> sendable e ->
  serve_request now (store_request trail ident e ++ rest) = Ok (mkCommand (proxied trail) trail ident, RStore ident e, rest).
Proof.
  intros Ht Hi He. pose proof He as [Hk Hf Hx Hs Hm Hv Ho].
  set (b := (0 <? e_version e) || beq ident (s2b "cas")).
  set (L := 32 :: e_key e ++ 32 :: dec (e_flag e) ++ 32 :: decZ (e_expire e) ++ 32 :: dec (e_size e)
            ++ vpart b (e_version e) ++ print_options (e_option e)).
  assert (EL : L ++ [10] = store_line b e).
  { unfold L, store_line, opt_tail. cbn [app]. rewrite <- !app_assoc. cbn [app]. rewrite <- !app_assoc. cbn [app]. rewrite <- !app_assoc. cbn [app]. now rewrite <- !app_assoc. }
  assert (Hw : In ident words_all) by (unfold words_all; apply in_or_app; auto).
  assert (HL : no_lf L).
  { unfold L, vpart. destruct Hk as (_ & Hk & _). repeat match goal with |- context [if ?b then _ else _] => destruct b end; nolf. }
  destruct (command_line trail ident L ((e_data e ++ crlf ++ rest)) Ht Hw HL eq_refl) as [G1 G2].
  assert (ER : store_request trail ident e ++ rest = proxy_ident trail ++ ident ++ L ++ crlf ++ e_data e ++ crlf ++ rest).
  { unfold store_request. rewrite (cstr_key (e_key e)) by apply Hk.
    replace (firstn (N.to_nat (e_size e)) (e_data e)) with (e_data e)
      by (rewrite Hs; symmetry; rewrite <- (app_nil_r (e_data e)) at 2; apply firstn_blen).
    unfold L, sp, vpart. fold b. destruct b; repeat (rewrite <- ?app_assoc; cbn [app]); reflexivity. }
  rewrite ER. unfold serve_request. rewrite G1. cbn [bind]. rewrite G2. cbn [bind c_word].
  rewrite (mem_in _ _ Hi). unfold serve_store. rewrite EL, parse_store_line; auto.
  - cbn [bind]. replace (e_size (with_data e [])) with (blen (e_data e)) by (now rewrite <- Hs). rewrite get_bytes_ok by lia. cbn [bind].
    rewrite firstn_blen. destruct e; reflexivity.
  - destruct (beq _ _); reflexivity.
  - destruct (beq _ _); reflexivity.
  - intros E. unfold b in E. apply orb_false_iff in E. destruct E as [E1 E2]. rewrite E2. split; [lia|congruence].
Qed.

Lemma delete_roundtrip now trail e rest :
  Forall legal_node_name trail -> legal_key (e_key e) -> absolute_expire (e_expire e) -> e_version e < 2 ^ 64 -> e_option e < 8 ->
  serve_request now (delete_request trail e ++ rest)
  = Ok (mkCommand (proxied trail) trail (s2b "delete"),
        RDelete (mkEntry (e_key e) 0 (e_expire e) 0 (e_version e) (e_option e) []), rest).
Proof.
  intros Ht Hk Hx Hv Ho. set (b := 0 <? e_version e).
  set (L := 32 :: e_key e ++ 32 :: decZ (e_expire e) ++ vpart b (e_version e) ++ print_options (e_option e)).
  assert (EL : L ++ [10] = delete_line b e).
  { unfold L, delete_line, opt_tail. cbn [app]. repeat (rewrite <- ?app_assoc; cbn [app]). reflexivity. }
  assert (Hw : In (s2b "delete") words_all) by (unfold words_all; apply in_or_app; right; now left).
  assert (HL : no_lf L).
  { unfold L, vpart. destruct Hk as (_ & Hk & _). repeat match goal with |- context [if ?b then _ else _] => destruct b end; nolf. }
  destruct (command_line trail (s2b "delete") L rest Ht Hw HL eq_refl) as [G1 G2].
  assert (ER : delete_request trail e ++ rest = proxy_ident trail ++ s2b "delete" ++ L ++ crlf ++ rest).
  { unfold delete_request. rewrite (cstr_key (e_key e)) by apply Hk.
    unfold L, sp, vpart. change (s2b "delete ") with (s2b "delete" ++ [32]). fold b. destruct b; cbn [app];
      repeat (rewrite <- ?app_assoc; cbn [app]); reflexivity. }
  rewrite ER. unfold serve_request. rewrite G1. cbn [bind]. rewrite G2. cbn [bind c_word].
  change (mem (s2b "delete") store_idents) with false. change (beq (s2b "delete") (s2b "delete")) with true. cbn match.
  unfold serve_delete. rewrite EL, parse_short_line; auto. intros E. unfold b in E. lia.
Qed.

Lemma touch_opts o : o = 0 \/ o = 1 -> (if has o option_noreply then s2b " noreply" else []) = print_options o.
Proof. intros [-> | ->]; reflexivity. Qed.
Lemma touch_roundtrip now trail ident e rest :
  Forall legal_node_name trail -> In ident [s2b "touch"; s2b "gat"] -> legal_key (e_key e) -> absolute_expire (e_expire e) ->
  e_option e = 0 \/ e_option e = 1 ->
  serve_request now (touch_request trail ident e ++ rest)
  = Ok (mkCommand (proxied trail) trail ident,
        RTouch ident (mkEntry (e_key e) 0 (e_expire e) 0 0 (e_option e) []), rest).
Proof.
  intros Ht Hi Hk Hx Ho. set (e0 := mkEntry (e_key e) 0 (e_expire e) 0 0 (e_option e) []).
  set (L := 32 :: e_key e ++ 32 :: decZ (e_expire e) ++ print_options (e_option e)).
  assert (EL : L ++ [10] = delete_line false e0).
  { unfold L, delete_line, opt_tail. cbn [app vpart e0 e_key e_expire e_option]. repeat (rewrite <- ?app_assoc; cbn [app]). reflexivity. }
  assert (Hw : In ident words_all) by (unfold words_all; apply in_or_app; right; right; cbn in Hi |- *; tauto).
  assert (HL : no_lf L).
  { unfold L, vpart. destruct Hk as (_ & Hk & _). repeat match goal with |- context [if ?b then _ else _] => destruct b end; nolf. }
  destruct (command_line trail ident L rest Ht Hw HL eq_refl) as [G1 G2].
  assert (ER : touch_request trail ident e ++ rest = proxy_ident trail ++ ident ++ L ++ crlf ++ rest).
  { unfold touch_request. rewrite (cstr_key (e_key e)) by apply Hk. rewrite touch_opts by auto.
    unfold L, sp. repeat (rewrite <- ?app_assoc; cbn [app]). reflexivity. }
  rewrite ER. unfold serve_request. rewrite G1. cbn [bind]. rewrite G2. cbn [bind c_word].
  replace (mem ident store_idents) with false by (destruct Hi as [<-|[<-|[]]]; reflexivity).
  replace (beq ident (s2b "delete")) with false by (destruct Hi as [<-|[<-|[]]]; reflexivity).
  rewrite (mem_in _ _ Hi). unfold serve_touch. rewrite EL, parse_short_line; auto; cbn [e0 e_key e_expire e_version e_option]; try lia; auto.
  cbn [bind e_option]. replace (_ || _) with true by (unfold option_noreply; lia). reflexivity.
Qed.

Lemma incr_roundtrip now trail ident e value rest :
  Forall legal_node_name trail -> In ident [s2b "incr"; s2b "decr"] -> legal_key (e_key e) -> value < 2 ^ 64 -> e_option e < 8 ->
  serve_request now (incr_request trail ident e value ++ rest)
  = Ok (mkCommand (proxied trail) trail ident,
        RIncr ident (mkEntry (e_key e) 0 0 0 0 (e_option e) []) value, rest).
Proof.
  intros Ht Hi Hk Hv Ho.
  set (L := 32 :: e_key e ++ 32 :: dec value ++ print_options (e_option e)).
  assert (Hw : In ident words_all) by (unfold words_all; apply in_or_app; right; do 3 right; cbn in Hi |- *; tauto).
  assert (HL : no_lf L).
  { unfold L, vpart. destruct Hk as (_ & Hk & _). repeat match goal with |- context [if ?b then _ else _] => destruct b end; nolf. }
  destruct (command_line trail ident L rest Ht Hw HL eq_refl) as [G1 G2].
  assert (ER : incr_request trail ident e value ++ rest = proxy_ident trail ++ ident ++ L ++ crlf ++ rest).
  { unfold incr_request. rewrite (cstr_key (e_key e)) by apply Hk. unfold L, sp. repeat (rewrite <- ?app_assoc; cbn [app]). reflexivity. }
  rewrite ER. unfold serve_request. rewrite G1. cbn [bind]. rewrite G2. cbn [bind c_word].
  replace (mem ident store_idents) with false by (destruct Hi as [<-|[<-|[]]]; reflexivity).
  replace (beq ident (s2b "delete")) with false by (destruct Hi as [<-|[<-|[]]]; reflexivity).
  replace (mem ident [s2b "touch"; s2b "gat"]) with false by (destruct Hi as [<-|[<-|[]]]; reflexivity).
  rewrite (mem_in _ _ Hi). unfold serve_incr, L. cbn [app]. repeat (rewrite <- ?app_assoc; cbn [app]).
  rewrite key_step by auto. cbn [bind]. destruct (e_key e) eqn:Ek; [destruct Hk; congruence|]. rewrite <- Ek.
  fold (opt_tail (e_option e)). rewrite field_step by (auto; now apply opt_tail_head). cbn [bind].
  pose proof (dec_nonnil value). destruct (dec value) eqn:E; [congruence|]. rewrite <- E.
  rewrite lex_u_dec by (unfold u64_max; lia). cbn [bind]. rewrite opt_tail_parse by auto. reflexivity.
Qed.

(** get *)
Lemma words_ok fuel ks : Forall legal_key ks -> (List.length ks < fuel)%nat ->
  words fuel (flat_map (fun k => sp ++ k) ks ++ [10]) = Ok ks.
Proof.
  intros H. revert fuel. induction H as [|k ks (Hn & Hk & Hl) _ IH]; intros [|f] Hf; cbn [List.length] in Hf; try lia.
  - reflexivity.
  - cbn [words flat_map]. rewrite <- !app_assoc. change (sp ++ k ++ flat_map (fun k => sp ++ k) ks ++ [10])
      with (repeat 32 1 ++ k ++ (flat_map (fun k => sp ++ k) ks ++ [10])).
    rewrite call_word_token; auto.
    + cbn [bind]. destruct k as [|c k]; [congruence|]. rewrite IH by lia. reflexivity.
    + unfold BUFSIZ. lia.
    + destruct ks; cbn; unfold word_byte; lia.
Qed.
Lemma get_roundtrip now ident ks rest :
  In ident [s2b "get"; s2b "gets"] -> ks <> [] -> Forall legal_key ks ->
  serve_request now (get_request ident ks ++ rest) = Ok (mkCommand false [] ident, RGet ident ks, rest).
Proof.
  intros Hi Hn Hk. set (L := flat_map (fun k => sp ++ k) ks).
  assert (Hw : In ident words_all) by (unfold words_all; apply in_or_app; right; do 5 right; cbn in Hi |- *; tauto).
  assert (HL : no_lf L).
  { unfold L. clear Hn. induction Hk as [|k ks (_ & Hk1 & _) _ IH]; cbn [flat_map]; [constructor|]. nolf. }
  assert (H32 : hd 32 L = 32) by (unfold L; destruct ks; reflexivity).
  destruct (command_line [] ident L rest (Forall_nil _) Hw HL H32) as [G1 G2]. cbn [proxy_ident app] in G1, G2.
  assert (ER : get_request ident ks ++ rest = ident ++ L ++ crlf ++ rest) by (unfold get_request; now rewrite <- !app_assoc).
  rewrite ER. unfold serve_request. rewrite G1. cbn [bind]. rewrite G2. cbn [bind c_word].
  replace (mem ident store_idents) with false by (destruct Hi as [<-|[<-|[]]]; reflexivity).
  replace (beq ident (s2b "delete")) with false by (destruct Hi as [<-|[<-|[]]]; reflexivity).
  replace (mem ident [s2b "touch"; s2b "gat"]) with false by (destruct Hi as [<-|[<-|[]]]; reflexivity).
  replace (mem ident [s2b "incr"; s2b "decr"]) with false by (destruct Hi as [<-|[<-|[]]]; reflexivity).
  rewrite (mem_in _ _ Hi). unfold serve_get, L. rewrite words_ok; auto.
  - cbn [bind]. destruct ks; [congruence|]. reflexivity.
  - clear. rewrite app_length. induction ks as [|k ks IH]; cbn [flat_map List.length] in *; [lia|]. rewrite !app_length. cbn [sp List.length]. lia.
Qed.

(** * Responses (C18) *)
Definition visible_version (t : response_type) (e : entry) : N := match t with response_get => 0 | _ => e_version e end.
Definition visible_expire (t : response_type) (e : entry) : Z := match t with response_dump => e_expire e | _ => 0%Z end.
(** What the reader of a response of type [t] gets to know about [e]. *)
Definition seen (t : response_type) (e : entry) : entry :=
  mkEntry (e_key e) (e_flag e) (visible_expire t e) (e_size e) (visible_version t e) 0 (e_data e).

Lemma digit_lf : call_digit BUFSIZ [10] = Ok ([], [10]). Proof. reflexivity. Qed.
Lemma value_line now t e : sendable e ->
  parse_entry now parse_get (32 :: e_key e ++ 32 :: dec (e_flag e) ++ 32 :: dec (e_size e)
     ++ match t with response_get => [] | _ => 32 :: dec (e_version e) end
     ++ match t with response_dump => 32 :: decZ (e_expire e) | _ => [] end ++ [10])
  = Ok (with_data (seen t e) []).
Proof.
  intros [Hk Hf Hx Hs Hm Hv Ho]. unfold parse_entry. rewrite key_step by auto. cbn [bind].
  destruct (e_key e) eqn:Ek; [destruct Hk; congruence|]. rewrite <- Ek.
  rewrite flag_step by (auto; dig). cbn [bind]. unfold parse_expire. cbn [is_get bind].
  assert (Hm' : e_size e <= 2147483647) by lia. clear Hm.
  rewrite size_step by (auto; destruct t; cbn [app]; dig). cbn [bind].
  destruct (decZ_absolute _ Hx) as (E1 & E2 & E3).
  destruct t; cbn [app].
  - unfold parse_version. rewrite digit_lf. cbn [bind]. unfold parse_tail. cbn [is_get]. rewrite digit_lf. reflexivity.
  - rewrite version_step by (auto; dig). cbn [bind]. unfold parse_tail. cbn [is_get]. rewrite digit_lf. reflexivity.
  - rewrite version_step by (auto; dig). cbn [bind]. unfold parse_tail. cbn [is_get]. rewrite E1.
    rewrite field_step by (unfold i64_max in *; auto; first [lia|dig]). cbn [bind].
    pose proof (dec_nonnil (Z.to_N (e_expire e))). destruct (dec (Z.to_N (e_expire e))) eqn:E; [congruence|]. rewrite <- E.
    rewrite lex_i64_dec by auto. cbn [bind]. rewrite E3, realtime_absolute by auto. reflexivity.
Qed.

Lemma client_get_value fuel now t e0 e s : sendable e -> e_key e0 = e_key e ->
  client_get (S fuel) now e0 (print_response t e ++ s)
  = client_get fuel now (with_option (seen t e) (e_option e0)) s.
Proof.
  intros He Hk. pose proof He as [Hl Hf Hx Hs Hm Hv Ho].
  set (L := 32 :: e_key e ++ 32 :: dec (e_flag e) ++ 32 :: dec (e_size e)
     ++ match t with response_get => [] | _ => 32 :: dec (e_version e) end
     ++ match t with response_dump => 32 :: decZ (e_expire e) | _ => [] end).
  assert (HL : no_lf L).
  { unfold L. destruct Hl as (_ & Hl & _). destruct t; nolf. }
  assert (ER : print_response t e ++ s = (s2b "VALUE" ++ L) ++ crlf ++ (e_data e ++ crlf ++ s)).
  { unfold print_response. rewrite (cstr_key (e_key e)) by apply Hl.
    replace (firstn (N.to_nat (e_size e)) (e_data e)) with (e_data e)
      by (rewrite Hs; symmetry; rewrite <- (app_nil_r (e_data e)) at 2; apply firstn_blen).
    unfold L, sp. change (s2b "VALUE ") with (s2b "VALUE" ++ [32]).
    destruct t; cbn [app]; repeat (rewrite <- ?app_assoc; cbn [app]); reflexivity. }
  rewrite ER. cbn [client_get]. rewrite get_line_ok.
  2:{ apply Forall_app. split; auto. vm_compute. repeat constructor; discriminate. }
  cbn [bind]. replace (beq (cstr ((s2b "VALUE" ++ L) ++ [10])) (s2b "END" ++ [10])) with false by (vm_compute; reflexivity).
  rewrite <- app_assoc. change (s2b "VALUE" ++ L ++ [10]) with (repeat 32 0 ++ s2b "VALUE" ++ (L ++ [10])).
  rewrite call_word_token.
  2:{ vm_compute; repeat constructor; discriminate. } 2:{ discriminate. } 2:{ vm_compute; discriminate. }
  2:{ unfold L. cbn [app]. unfold word_byte. lia. }
  cbn [bind]. change (negb (beq (s2b "VALUE") (s2b "VALUE"))) with false. cbn match.
  assert (EP : parse_entry now parse_get (L ++ [10]) = Ok (with_data (seen t e) [])).
  { rewrite <- (value_line now t e He). f_equal. unfold L. repeat (rewrite <- ?app_assoc; cbn [app]). reflexivity. }
  rewrite EP. cbn [bind]. rewrite Hk. change (e_key (with_data (seen t e) [])) with (e_key e). rewrite beq_refl. cbn [negb].
  match goal with |- bind (get_bytes ?n _) _ = _ => replace n with (blen (e_data e) + 2) by (rewrite <- Hs; reflexivity) end.
  rewrite get_bytes_ok by lia. cbn [bind].
  f_equal. unfold with_data, with_version, with_size, with_expire, with_flag, with_option, seen; cbn [e_key e_flag e_expire e_size e_version e_option e_data].
  f_equal; auto. rewrite Hs. apply firstn_blen.
Qed.
Lemma client_get_end fuel now e s : client_get (S fuel) now e (s2b "END" ++ crlf ++ s) = Ok (e, s).
Proof.
  cbn [client_get]. rewrite get_line_ok by (vm_compute; repeat constructor; discriminate). cbn [bind].
  now replace (beq (cstr (s2b "END" ++ [10])) (s2b "END" ++ [10])) with true by (vm_compute; reflexivity).
Qed.
Lemma get_response_roundtrip now t e rest : sendable e ->
  client_get_response now (e_key e) (print_response t e ++ s2b "END" ++ crlf ++ rest) = Ok (seen t e, rest).
Proof.
  intros He. unfold client_get_response. rewrite client_get_value by auto.
  remember (List.length _) as n eqn:E. destruct n as [|n].
  { exfalso. rewrite app_length in E. cbn [List.length s2b crlf app] in E. cbn in E. rewrite app_length in E. cbn in E. lia. }
  rewrite client_get_end. reflexivity.
Qed.
Lemma get_miss_roundtrip now k rest : client_get_response now k (s2b "END" ++ crlf ++ rest) = Ok (empty_entry k, rest).
Proof. unfold client_get_response. apply client_get_end. Qed.

(** * Fuel never runs out (no spurious [Undef]) *)
Lemma call_word_shrinks len p w r : call_word len p = Ok (w, r) -> w <> [] -> (List.length r < List.length p)%nat.
Proof.
  unfold call_word. pose proof (next_word_spec len p) as S. destruct (next_word len p) as [w' r'].
  destruct (_ <=? _); [|discriminate]. intros E Hw. injection E as -> ->. destruct S as ((n & ->) & _).
  rewrite !app_length. destruct w; [congruence|]. cbn [List.length]. lia.
Qed.
Lemma parse_options_defined fuel p o : (List.length p < fuel)%nat -> parse_options fuel p o <> Undef.
Proof.
  revert p o. induction fuel as [|f IH]; intros p o H; [lia|]. cbn [parse_options].
  destruct (call_word BUFSIZ p) as [| |[w r]] eqn:E.
  - rewrite call_word_ok in E by (unfold BUFSIZ; lia). discriminate.
  - discriminate.
  - cbn [bind]. destruct w as [|c w]; [discriminate|]. apply call_word_shrinks in E; [|congruence].
    destruct (option_of_word _) as [| |] eqn:E2; cbn [bind]; [|discriminate|apply IH; lia].
    unfold option_of_word in E2. repeat (destruct (beq _ _) in E2; try discriminate).
Qed.
Lemma words_defined fuel p : (List.length p < fuel)%nat -> words fuel p <> Undef.
Proof.
  revert p. induction fuel as [|f IH]; intros p H; [lia|]. cbn [words].
  destruct (call_word BUFSIZ p) as [| |[w r]] eqn:E.
  - rewrite call_word_ok in E by (unfold BUFSIZ; lia). discriminate.
  - discriminate.
  - cbn [bind]. destruct w as [|c w]; [discriminate|]. apply call_word_shrinks in E; [|congruence].
    specialize (IH r). destruct (words f r); cbn [bind]; [|discriminate|discriminate]. apply IH. lia.
Qed.
(** Parsing is defined for every line that fits in the token buffer. *)
Lemma call_digit_short p : blen p < BUFSIZ -> exists w r, call_digit BUFSIZ p = Ok (w, r) /\ blen r <= blen p.
Proof.
  intros H. rewrite call_digit_ok by (unfold BUFSIZ in *; lia). pose proof (next_digit_spec BUFSIZ p) as S.
  destruct (next_digit BUFSIZ p) as [w r]. destruct S as (n & -> & _). exists w, r. split; auto. rewrite !blen_app. lia.
Qed.
Lemma call_word_short p : exists w r, call_word BUFSIZ p = Ok (w, r) /\ blen r <= blen p.
Proof.
  rewrite call_word_ok by (unfold BUFSIZ in *; lia). pose proof (next_word_spec BUFSIZ p) as S.
  destruct (next_word BUFSIZ p) as [w r]. destruct S as ((n & ->) & _). exists w, r. split; auto. rewrite !blen_app. lia.
Qed.
Lemma lex_u_defined m w : lex_u m w <> Undef.
Proof.
  unfold lex_u. destruct w as [|c w]; [destruct (_ && _); discriminate|]. destruct c as [|p]; [destruct (_ && _); discriminate|].
  repeat (destruct p as [p|p|]; try (destruct (_ && _); discriminate)).
Qed.
Lemma lex_i64_defined w : lex_i64 w <> Undef.
Proof.
  unfold lex_i64. destruct w as [|c w]; [destruct (_ && _); discriminate|]. destruct c as [|p]; [destruct (_ && _); discriminate|].
  repeat (destruct p as [p|p|]; try (destruct (_ && _); discriminate)).
Qed.
Lemma unsigned_field_defined m w : unsigned_field m w <> Undef.
Proof. unfold unsigned_field. destruct (is_unsigned w); [apply lex_u_defined|discriminate]. Qed.
Definition defined_rest (p : bytes) (x : res (entry * bytes)) : Prop :=
  match x with Undef => False | Err => True | Ok (_, r) => blen r <= blen p end.
Lemma parse_flag_defined t e p : blen p < BUFSIZ -> defined_rest p (parse_flag t e p).
Proof.
  intros H. unfold parse_flag. destruct (is_short t); [cbn; lia|]. destruct (call_digit_short p H) as (w & r & -> & Hr). cbn [bind].
  destruct w as [|c w]; [exact I|]. pose proof (unsigned_field_defined u32_max (c :: w)). destruct (unsigned_field _ _); cbn; auto.
Qed.
Lemma parse_expire_defined now t e p : blen p < BUFSIZ -> defined_rest p (parse_expire now t e p).
Proof.
  intros H. unfold parse_expire. destruct (is_get t); [cbn; lia|]. destruct (call_digit_short p H) as (w & r & -> & Hr). cbn [bind].
  destruct w as [|c w]; [destruct t; cbn; auto|]. destruct (is_unsigned _); [|exact I].
  pose proof (lex_i64_defined (c :: w)). destruct (lex_i64 _); cbn; auto.
Qed.
Lemma parse_size_defined t e p : blen p < BUFSIZ -> defined_rest p (parse_size t e p).
Proof.
  intros H. unfold parse_size. destruct (is_short t); [cbn; lia|]. destruct (call_digit_short p H) as (w & r & -> & Hr). cbn [bind].
  destruct w as [|c w]; [exact I|]. pose proof (unsigned_field_defined u64_max (c :: w)). destruct (unsigned_field _ _); cbn [bind]; try tauto; [exact I|].
  destruct (_ <? _); cbn; auto.
Qed.
Lemma parse_version_defined t e p : blen p < BUFSIZ -> defined_rest p (parse_version t e p).
Proof.
  intros H. unfold parse_version. destruct (call_digit_short p H) as (w & r & -> & Hr). cbn [bind].
  destruct w as [|c w]; [destruct t; cbn; auto|]. pose proof (unsigned_field_defined u64_max (c :: w)). destruct (unsigned_field _ _); cbn; auto.
Qed.
Lemma parse_tail_defined now t e p : blen p < BUFSIZ -> parse_tail now t e p <> Undef.
Proof.
  intros H. unfold parse_tail. destruct (is_get t).
  - destruct (call_digit_short p H) as (w & r & -> & Hr). cbn [bind]. destruct w as [|c w]; [discriminate|].
    pose proof (lex_i64_defined (c :: w)). destruct (lex_i64 _); cbn; congruence.
  - pose proof (parse_options_defined (S (List.length p)) p 0 ltac:(lia)). destruct (parse_options _ _ _); cbn; congruence.
Qed.
Lemma parse_entry_defined now t p : blen p < BUFSIZ -> parse_entry now t p <> Undef.
Proof.
  intros H. unfold parse_entry. destruct (call_word_short p) as (w & r & -> & Hr). cbn [bind]. destruct w as [|c w]; [discriminate|].
  pose proof (parse_flag_defined t (empty_entry (c :: w)) r ltac:(lia)) as D. destruct (parse_flag _ _ _) as [| |[e1 r1]]; cbn in D |- *; [tauto|discriminate|].
  pose proof (parse_expire_defined now t e1 r1 ltac:(lia)) as D1. destruct (parse_expire _ _ _ _) as [| |[e2 r2]]; cbn in D1 |- *; [tauto|discriminate|].
  pose proof (parse_size_defined t e2 r2 ltac:(lia)) as D2. destruct (parse_size _ _ _) as [| |[e3 r3]]; cbn in D2 |- *; [tauto|discriminate|].
  pose proof (parse_version_defined t e3 r3 ltac:(lia)) as D3. destruct (parse_version _ _ _) as [| |[e4 r4]]; cbn in D3 |- *; [tauto|discriminate|].
  apply parse_tail_defined. lia.
Qed.

(** * Buffer of the request writer: snprintf never truncates *)
Lemma print_options_length o : blen (print_options o) <= 19.
Proof. unfold print_options. rewrite !blen_app. destruct (has o option_noreply), (has o option_sync), (has o option_async); apply N.leb_le; vm_compute; reflexivity. Qed.
Lemma decZ_length z : is_i64 z -> blen (decZ z) <= 21.
Proof.
  unfold is_i64, decZ. intros H. destruct (z <? 0)%Z eqn:E.
  - rewrite blen_cons. pose proof (dec_length_u64 (Z.to_N (- z)) ltac:(lia)). unfold blen. lia.
  - pose proof (dec_length_u64 (Z.to_N z) ltac:(lia)). unfold blen. lia.
Qed.
Lemma cstr_length k : blen (cstr k) <= blen k.
Proof. induction k as [|c k IH]; cbn [cstr]; [lia|]. destruct (c =? 0); rewrite ?blen_cons, ?blen_nil; lia. Qed.
Lemma store_request_fits trail ident e :
  In ident store_idents -> e_flag e < 2 ^ 32 -> is_i64 (e_expire e) -> e_size e < 2 ^ 64 -> e_version e < 2 ^ 64 ->
  blen (store_request trail ident e) < blen (proxy_ident trail) + blen (e_key e) + e_size e + BUFSIZ.
Proof.
  intros Hi Hf Hx Hs Hv. unfold store_request. rewrite !blen_app.
  pose proof (cstr_length (e_key e)). pose proof (print_options_length (e_option e)). pose proof (decZ_length _ Hx).
  pose proof (dec_length_u64 (e_flag e) ltac:(lia)). pose proof (dec_length_u64 (e_size e) Hs). pose proof (dec_length_u64 (e_version e) Hv).
  assert (blen ident <= 7).
  { assert (forallb (fun w => blen w <=? 7) store_idents = true) as F by reflexivity. rewrite forallb_forall in F. specialize (F _ Hi). lia. }
  assert (blen (firstn (N.to_nat (e_size e)) (e_data e)) <= e_size e) by (unfold blen; rewrite firstn_length; lia).
  assert (blen (if (0 <? e_version e) || beq ident (s2b "cas") then sp ++ dec (e_version e) else []) <= 21)
    by (destruct (_ || _); rewrite ?blen_app; unfold blen in *; cbn [sp List.length]; lia).
  assert (blen (dec (e_flag e)) <= 20) by (unfold blen; lia). assert (blen (dec (e_size e)) <= 20) by (unfold blen; lia).
  assert (blen sp = 1) by reflexivity. assert (blen crlf = 2) by reflexivity. unfold BUFSIZ. lia.
Qed.
