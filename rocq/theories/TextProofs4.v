From Coq Require Import NArith ZArith List Bool Lia String ZifyBool ZifyNat ZifyN.
From Verif Require Import Base BaseLemmas StorageModel StorageSpec TextModel TextSpec TextProofs TextProofs2 TextProofs3 ClientSpec.
Import ListNotations.
Local Open Scope N_scope.

Definition wire_time (t : Z) : Prop := (0 <= t < 2 ^ 63)%Z.
Lemma realtime_due now t : (0 <= t)%Z -> realtime now t = due now t.
Proof. intros H. unfold realtime, due, max_realtime_delta. change (30 * 24 * 60 * 60)%Z with 2592000%Z. destruct (t =? 0)%Z; [reflexivity|]. destruct (t <=? 2592000)%Z; lia. Qed.
Lemma decZ_wire t : wire_time t -> decZ t = dec (Z.to_N t) /\ Z.to_N t <= i64_max /\ Z.of_N (Z.to_N t) = t.
Proof. unfold wire_time, decZ, i64_max. intros H. destruct (Z.ltb_spec t 0); [lia|]. repeat split; lia. Qed.
Lemma expire_due now t e x r : is_get t = false -> wire_time x -> match r with [] => True | c :: _ => ~ num_byte c end ->
  parse_expire now t e (32 :: decZ x ++ r) = Ok (with_expire e (due now x), r).
Proof.
  intros Ht Hx Hr. destruct (decZ_wire x Hx) as (E1 & E2 & E3). unfold parse_expire.
  rewrite Ht, E1, field_step by (unfold i64_max in *; auto; lia). cbn [bind].
  pose proof (dec_nonnil (Z.to_N x)). destruct (dec (Z.to_N x)) eqn:E; [congruence|]. rewrite <- E.
  rewrite is_unsigned_dec, lex_i64_dec by auto. cbn [bind]. rewrite E3, realtime_due by (destruct Hx; lia). reflexivity.
Qed.

Definition opt (b : bool) : N := if b then 1 else 0.
Lemma opt_small b : opt b < 8. Proof. destruct b; cbn; lia. Qed.
Lemma noreply_print b : noreply_word b = print_options (opt b). Proof. destruct b; reflexivity. Qed.
Definition cas_part (cas : option N) : bytes := match cas with Some v => 32 :: dec v | None => [] end.
Lemma cas_vpart cas : cas_part cas = vpart (match cas with Some _ => true | None => false end) (match cas with Some v => v | None => 0 end).
Proof. destruct cas; reflexivity. Qed.

Lemma parse_client_store now t k f x n cas o :
  is_short t = false -> is_get t = false -> legal_key k -> f < 2 ^ 32 -> wire_time x -> n <= 2147483647 ->
  match cas with Some v => v < 2 ^ 64 | None => t <> parse_cas end -> o < 8 ->
  parse_entry now t (32 :: k ++ 32 :: dec f ++ 32 :: decZ x ++ 32 :: dec n ++ cas_part cas ++ opt_tail o)
  = Ok (mkEntry k f (due now x) n (match cas with Some v => v | None => 0 end) o []).
Proof.
  intros Ht1 Ht2 Hk Hf Hx Hn Hc Ho. unfold parse_entry.
  rewrite key_step by auto. cbn [bind]. destruct k as [|c k0] eqn:Ek; [destruct Hk; congruence|]. rewrite <- Ek in *.
  rewrite flag_step by (auto; dig). cbn [bind].
  rewrite expire_due by (auto; dig). cbn [bind]. rewrite cas_vpart.
  rewrite size_step by (auto; now apply vpart_head). cbn [bind].
  rewrite version_options; auto; destruct cas; auto; try lia.
Qed.
Lemma refuse_client_store now t k f x n r :
  is_short t = false -> is_get t = false -> legal_key k -> f < 2 ^ 32 -> wire_time x -> 2147483647 < n < 2 ^ 64 -> match r with [] => True | c :: _ => ~ num_byte c end ->
  parse_entry now t (32 :: k ++ 32 :: dec f ++ 32 :: decZ x ++ 32 :: dec n ++ r) = Err.
Proof.
  intros Ht1 Ht2 Hk Hf Hx Hn Hr. unfold parse_entry.
  rewrite key_step by auto. cbn [bind]. destruct k as [|c k0] eqn:Ek; [destruct Hk; congruence|]. rewrite <- Ek in *.
  rewrite flag_step by (auto; dig). cbn [bind].
  rewrite expire_due by (auto; dig). cbn [bind].
  unfold parse_size. rewrite Ht1, field_step by (auto; lia). cbn [bind].
  pose proof (dec_nonnil n). destruct (dec n) eqn:E; [congruence|]. rewrite <- E, unsigned_field_dec by (unfold u64_max; lia). cbn [bind].
  unfold max_data_size. now replace (_ <? _) with true by lia.
Qed.
Lemma parse_client_short now t k x o :
  is_short t = true -> legal_key k -> wire_time x -> o < 8 ->
  parse_entry now t (32 :: k ++ 32 :: decZ x ++ opt_tail o) = Ok (mkEntry k 0 (due now x) 0 0 o []).
Proof.
  intros Ht Hk Hx Ho. unfold parse_entry.
  rewrite key_step by auto. cbn [bind]. destruct k as [|c k0] eqn:Ek; [destruct Hk; congruence|]. rewrite <- Ek in *.
  unfold parse_flag. rewrite Ht. cbn [bind].
  assert (G : is_get t = false) by (destruct t; cbn in *; congruence).
  rewrite expire_due by (auto; now apply opt_tail_head). cbn [bind].
  unfold parse_size. rewrite Ht. cbn [bind].
  change (opt_tail o) with (vpart false 0 ++ opt_tail o). rewrite version_options; auto; [lia|].
  intros E. split; [reflexivity|]. destruct t; cbn in Ht; congruence.
Qed.
Lemma key_last k o : legal_key k -> o < 8 -> call_word BUFSIZ (32 :: k ++ opt_tail o) = Ok (k, opt_tail o).
Proof.
  intros (Hn & Hk & Hl) Ho. destruct (opt_tail_cons o Ho) as (c & r & -> & Hc). change (32 :: k ++ c :: r) with (repeat 32 1 ++ k ++ c :: r).
  apply call_word_token; auto; unfold BUFSIZ, word_byte; lia.
Qed.
Lemma parse_client_delete now k o : legal_key k -> o < 8 ->
  parse_entry now parse_delete (32 :: k ++ opt_tail o) = Ok (mkEntry k 0 0 0 0 o []).
Proof.
  intros Hk Ho. unfold parse_entry. rewrite key_last by auto. cbn [bind]. destruct k as [|c k0] eqn:Ek; [destruct Hk; congruence|]. rewrite <- Ek in *.
  unfold parse_flag. cbn [is_short bind]. unfold parse_expire. cbn [is_get]. rewrite opt_tail_digit by auto. cbn [bind].
  unfold parse_size. cbn [is_short bind]. unfold parse_version.
  assert (D : call_digit BUFSIZ (skip_spaces (opt_tail o)) = Ok ([], skip_spaces (opt_tail o))).
  { revert o Ho. apply below8; vm_compute; reflexivity. }
  rewrite D. cbn [bind]. unfold parse_tail. cbn [is_get]. rewrite opt_tail_parse_skip by auto. reflexivity.
Qed.

Lemma command_plain w L rest : In w words_all -> no_lf L -> hd 32 L = 32 ->
  get_line (w ++ L ++ crlf ++ rest) = Ok (w ++ L ++ [10], rest) /\ parse_command (w ++ L ++ [10]) = Ok (mkCommand false [] w, L ++ [10]).
Proof. intros A B C. exact (command_line [] w L rest (Forall_nil _) A B C). Qed.
Lemma print_line o L : L ++ opt_tail o = (L ++ print_options o) ++ [10].
Proof. unfold opt_tail. now rewrite app_assoc. Qed.
Lemma no_lf_print o : o < 8 -> no_lf (print_options o).
Proof. revert o. apply below8; vm_compute; repeat constructor; discriminate. Qed.

Lemma client_store_served now ident k f x d cas nr rest :
  In ident store_idents -> legal_key k -> f < 2 ^ 32 -> wire_time x -> blen d <= 2147483645 ->
  match cas with Some v => v < 2 ^ 64 | None => ident <> s2b "cas" end ->
  serve_request now (client_store ident k f x d cas nr ++ rest)
  = Ok (mkCommand false [] ident, RStore ident (mkEntry k f (due now x) (blen d) (match cas with Some v => v | None => 0 end) (opt nr) d), rest).
Proof.
  intros Hi Hk Hf Hx Hd Hc.
  set (L := 32 :: k ++ 32 :: dec f ++ 32 :: decZ x ++ 32 :: dec (blen d) ++ cas_part cas ++ print_options (opt nr)).
  assert (ER : client_store ident k f x d cas nr ++ rest = ident ++ L ++ crlf ++ d ++ crlf ++ rest).
  { unfold client_store, L, space, line_end, crlf. fold (cas_part cas). rewrite noreply_print. repeat (rewrite <- ?app_assoc; cbn [app]). reflexivity. }
  assert (EL : L ++ [10] = 32 :: k ++ 32 :: dec f ++ 32 :: decZ x ++ 32 :: dec (blen d) ++ cas_part cas ++ opt_tail (opt nr)).
  { unfold L, opt_tail. repeat (rewrite <- ?app_assoc; cbn [app]). reflexivity. }
  assert (Hw : In ident words_all) by (unfold words_all; apply in_or_app; auto).
  assert (HL : no_lf L).
  { unfold L. destruct Hk as (_ & Hk & _). pose proof (no_lf_print (opt nr) (opt_small nr)). destruct cas; cbn [cas_part]; nolf. }
  destruct (command_plain ident L (d ++ crlf ++ rest) Hw HL eq_refl) as [G1 G2].
  rewrite ER. unfold serve_request. rewrite G1. cbn [bind]. rewrite G2. cbn [bind c_word].
  rewrite (mem_in _ _ Hi). unfold serve_store. rewrite EL.
  assert (Hd' : blen d <= 2147483647) by (clear - Hd; lia).
  rewrite parse_client_store; try assumption; try apply opt_small.
  - cbn [bind e_size]. rewrite get_bytes_ok by lia. cbn [bind]. rewrite firstn_blen. reflexivity.
  - destruct (beq _ _); reflexivity.
  - destruct (beq _ _); reflexivity.
  - destruct cas; auto. rewrite (proj2 (beq_neq _ _) Hc). discriminate.
Qed.
Lemma client_store_refused now ident k f x n tail rest :
  In ident store_idents -> legal_key k -> f < 2 ^ 32 -> wire_time x -> 2147483647 < n < 2 ^ 64 -> no_lf tail -> match tail with [] => True | c :: _ => c = 32 end ->
  serve_request now (ident ++ space k ++ space (dec f) ++ space (decZ x) ++ space (dec n) ++ tail ++ line_end ++ rest) = Err.
Proof.
  intros Hi Hk Hf Hx Hn Ht Hh.
  set (L := 32 :: k ++ 32 :: dec f ++ 32 :: decZ x ++ 32 :: dec n ++ tail).
  assert (ER : ident ++ space k ++ space (dec f) ++ space (decZ x) ++ space (dec n) ++ tail ++ line_end ++ rest = ident ++ L ++ crlf ++ rest).
  { unfold L, space, line_end, crlf. repeat (rewrite <- ?app_assoc; cbn [app]). reflexivity. }
  assert (EL : L ++ [10] = 32 :: k ++ 32 :: dec f ++ 32 :: decZ x ++ 32 :: dec n ++ tail ++ [10]).
  { unfold L. repeat (rewrite <- ?app_assoc; cbn [app]). reflexivity. }
  assert (Hw : In ident words_all) by (unfold words_all; apply in_or_app; auto).
  assert (HL : no_lf L) by (unfold L; destruct Hk as (_ & Hk & _); nolf).
  destruct (command_plain ident L rest Hw HL eq_refl) as [G1 G2].
  rewrite ER. unfold serve_request. rewrite G1. cbn [bind]. rewrite G2. cbn [bind c_word].
  rewrite (mem_in _ _ Hi). unfold serve_store. rewrite EL, refuse_client_store; try assumption; try reflexivity.
  - destruct (beq _ _); reflexivity.
  - destruct (beq _ _); reflexivity.
  - destruct tail; cbn [app]; [dig|]. subst. dig.
Qed.
Lemma client_touch_served now ident k x nr rest :
  In ident [s2b "touch"; s2b "gat"] -> legal_key k -> wire_time x ->
  serve_request now (client_touch ident k x nr ++ rest)
  = Ok (mkCommand false [] ident, RTouch ident (mkEntry k 0 (due now x) 0 0 (opt nr) []), rest).
Proof.
  intros Hi Hk Hx.
  set (L := 32 :: k ++ 32 :: decZ x ++ print_options (opt nr)).
  assert (ER : client_touch ident k x nr ++ rest = ident ++ L ++ crlf ++ rest).
  { unfold client_touch, L, space, line_end, crlf. rewrite noreply_print. repeat (rewrite <- ?app_assoc; cbn [app]). reflexivity. }
  assert (EL : L ++ [10] = 32 :: k ++ 32 :: decZ x ++ opt_tail (opt nr)).
  { unfold L, opt_tail. repeat (rewrite <- ?app_assoc; cbn [app]). reflexivity. }
  assert (Hw : In ident words_all) by (unfold words_all; apply in_or_app; right; cbn in Hi |- *; tauto).
  assert (HL : no_lf L).
  { unfold L. destruct Hk as (_ & Hk & _). pose proof (no_lf_print (opt nr) (opt_small nr)). nolf. }
  destruct (command_plain ident L rest Hw HL eq_refl) as [G1 G2].
  rewrite ER. unfold serve_request. rewrite G1. cbn [bind]. rewrite G2. cbn [bind c_word].
  assert (M1 : mem ident store_idents = false) by (destruct Hi as [<-|[<-|[]]]; reflexivity).
  assert (M2 : beq ident (s2b "delete") = false) by (destruct Hi as [<-|[<-|[]]]; reflexivity).
  rewrite M1, M2, (mem_in _ _ Hi). unfold serve_touch. rewrite EL, parse_client_short by (assumption || reflexivity || apply opt_small). cbn [bind e_option].
  destruct nr; reflexivity.
Qed.
Lemma client_delete_served now k time nr rest :
  legal_key k -> match time with Some x => wire_time x | None => True end ->
  serve_request now (client_delete k time nr ++ rest)
  = Ok (mkCommand false [] (s2b "delete"), RDelete (mkEntry k 0 (match time with Some x => due now x | None => 0%Z end) 0 0 (opt nr) []), rest).
Proof.
  intros Hk Hx.
  set (T := match time with Some t => 32 :: decZ t | None => [] end).
  set (L := 32 :: k ++ T ++ print_options (opt nr)).
  assert (ER : client_delete k time nr ++ rest = s2b "delete" ++ L ++ crlf ++ rest).
  { unfold client_delete, L, space, line_end, crlf. fold T. rewrite noreply_print. repeat (rewrite <- ?app_assoc; cbn [app]). reflexivity. }
  assert (EL : L ++ [10] = 32 :: k ++ T ++ opt_tail (opt nr)).
  { unfold L, opt_tail. repeat (rewrite <- ?app_assoc; cbn [app]). reflexivity. }
  assert (Hw : In (s2b "delete") words_all) by (unfold words_all; apply in_or_app; right; now left).
  assert (HL : no_lf L).
  { unfold L, T. destruct Hk as (_ & Hk & _). pose proof (no_lf_print (opt nr) (opt_small nr)). destruct time; nolf. }
  destruct (command_plain (s2b "delete") L rest Hw HL eq_refl) as [G1 G2].
  rewrite ER. unfold serve_request. rewrite G1. cbn [bind]. rewrite G2. cbn [bind c_word].
  change (mem (s2b "delete") store_idents) with false. change (beq (s2b "delete") (s2b "delete")) with true. cbn match.
  unfold serve_delete. rewrite EL. unfold T. destruct time as [x|].
  - cbn [app]. rewrite parse_client_short by (assumption || reflexivity || apply opt_small). reflexivity.
  - cbn [app]. rewrite parse_client_delete by (assumption || apply opt_small). reflexivity.
Qed.

(** * Answers for other keys *)
Lemma client_get_other fuel now t e0 e s : sendable e -> e_key e0 <> e_key e ->
  client_get (S fuel) now e0 (print_response t e ++ s) = Err.
Proof.
  intros He Hk. pose proof He as [Hl Hf Hx Hs Hm Hv Ho].
  set (L := 32 :: e_key e ++ 32 :: dec (e_flag e) ++ 32 :: dec (e_size e)
     ++ match t with response_get => [] | _ => 32 :: dec (e_version e) end
     ++ match t with response_dump => 32 :: decZ (e_expire e) | _ => [] end).
  assert (HL : no_lf L).
  { unfold L. destruct Hl as (_ & Hl & _). destruct t; nolf. }
  assert (ER : print_response t e ++ s = (s2b "VALUE" ++ L) ++ crlf ++ (e_data e ++ crlf ++ s)).
  { unfold print_response. rewrite (cstr_key (e_key e)) by apply Hl.
    replace (firstn (N.to_nat (e_size e)) (e_data e)) with (e_data e)
      by (rewrite Hs; symmetry; rewrite <- (app_nil_r (e_data e)) at 2; apply firstn_blen).
    unfold L, sp. change (s2b "VALUE ") with (s2b "VALUE" ++ [32]).
    destruct t; cbn [app]; repeat (rewrite <- ?app_assoc; cbn [app]); reflexivity. }
  rewrite ER. cbn [client_get]. rewrite get_line_ok.
  2:{ apply Forall_app. split; auto. vm_compute. repeat constructor; discriminate. }
  cbn [bind]. replace (beq (cstr ((s2b "VALUE" ++ L) ++ [10])) (s2b "END" ++ [10])) with false by (vm_compute; reflexivity).
  rewrite <- app_assoc. change (s2b "VALUE" ++ L ++ [10]) with (repeat 32 0 ++ s2b "VALUE" ++ (L ++ [10])).
  rewrite call_word_token.
  2:{ vm_compute; repeat constructor; discriminate. } 2:{ discriminate. } 2:{ vm_compute; discriminate. }
  2:{ unfold L. cbn [app]. unfold word_byte. lia. }
  cbn [bind]. change (negb (beq (s2b "VALUE") (s2b "VALUE"))) with false. cbn match.
  assert (EP : parse_entry now parse_get (L ++ [10]) = Ok (with_data (seen t e) [])).
  { rewrite <- (value_line now t e He). f_equal. unfold L. repeat (rewrite <- ?app_assoc; cbn [app]). reflexivity. }
  rewrite EP. cbn [bind]. change (e_key (with_data (seen t e) [])) with (e_key e). now rewrite (proj2 (beq_neq _ _) Hk).
Qed.

(** * Splitting *)
Lemma split_pieces c s : forall cur, ~ In c cur -> pieces c (cur ++ s) (split_go c cur s).
Proof.
  induction s as [|x s IH]; intros cur H; cbn [split_go].
  - rewrite app_nil_r. destruct cur; [constructor|]. apply pieces_one; [discriminate|exact H].
  - destruct (N.eqb_spec x c) as [->|X].
    + destruct cur as [|y cur]; [cbn [app]; apply pieces_skip, (IH []); tauto|].
      apply pieces_sep; [discriminate|exact H|apply (IH []); tauto].
    + replace (cur ++ x :: s) with ((cur ++ [x]) ++ s) by now rewrite <- app_assoc. apply IH. rewrite in_app_iff. cbn. intuition.
Qed.
Lemma sep_unique (c : N) (w w' s s' : bytes) : ~ In c w -> ~ In c w' -> w ++ c :: s = w' ++ c :: s' -> w = w' /\ s = s'.
Proof.
  revert w'. induction w as [|x w IH]; intros [|x' w'] H H' E; cbn in *.
  - now injection E.
  - injection E as -> _. tauto.
  - injection E as -> _. tauto.
  - injection E as -> E. destruct (IH w') as (-> & ->); auto.
Qed.
Lemma pieces_unique c s l : pieces c s l -> forall l', pieces c s l' -> l = l'.
Proof.
  induction 1 as [|w N I|w s l N I P IH|s l P IH]; intros l' H'.
  - inversion H'; subst; auto; try congruence. destruct w; discriminate.
  - inversion H' as [E|w' N' I' E|w' s' l0 N' I' P' E|s' l0 P' E]; subst; auto; try congruence.
    + elim I. apply in_or_app. right. now left.
    + elim I. now left.
  - inversion H' as [E|w' N' I' E|w' s' l0 N' I' P' E|s' l0 P' E]; subst; auto; try congruence.
    + destruct w; discriminate.
    + elim I'. apply in_or_app. right. now left.
    + apply sep_unique in E as (<- & <-); auto. f_equal. now apply IH.
    + destruct w as [|y w]; [congruence|]. injection E as <- E. elim I. now left.
  - inversion H' as [E|w' N' I' E|w' s' l0 N' I' P' E|s' l0 P' E]; subst; auto; try congruence.
    + elim I'. now left.
    + destruct w' as [|y w]; [congruence|]. injection E as -> E. elim I'. now left.
Qed.
Lemma split_iff c s l : vector_split s c = l <-> pieces c s l.
Proof.
  pose proof (split_pieces c s [] (fun H => H)) as P. cbn [app] in P. fold (vector_split s c) in P.
  split; [now intros <-|]. intros H. exact (pieces_unique c s _ P _ H).
Qed.
