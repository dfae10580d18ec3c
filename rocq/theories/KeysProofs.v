(** The order of the keys, and the listing of one store. *)
From Coq Require Import String Sorted Permutation.
From stdpp Require Import gmap.
From Coq Require Import ZifyBool ZifyNat ZifyN.
From Verif Require Import Base BaseLemmas StorageModel TextModel TextSpec TextProofs TextProofs2 TextProofs3 TextProofs4 SessionModel SessionProofs
  ClusterModel ClusterProofs KeysModel KeysSpec.
Local Open Scope N_scope.
Local Open Scope list_scope.

Lemma blt_before a b : blt a b = true <-> before a b.
Proof.
  split.
  - revert b. induction a as [|x a IH]; intros [|y b] H; cbn [blt] in H; try discriminate; [constructor|].
    destruct (x <? y) eqn:E1; [constructor; lia|]. destruct (y <? x) eqn:E2; [discriminate|].
    assert (x = y) as -> by lia. apply before_same. auto.
  - induction 1; cbn [blt]; auto.
    + now replace (a <? b) with true by lia.
    + now rewrite N.ltb_irrefl.
Qed.
Lemma before_irrefl a : ~ before a a.
Proof. intros H. apply blt_before in H. rewrite blt_irrefl in H. discriminate. Qed.
Lemma before_trans a b c : before a b -> before b c -> before a c.
Proof. rewrite <- !blt_before. apply blt_trans. Qed.
Lemma before_total a b : blt a b = false -> a <> b -> before b a.
Proof. intros H N. apply blt_before, blt_total; auto. destruct (beq a b) eqn:E; auto. apply beq_eq in E. contradiction. Qed.
Lemma starts_begins p k : starts p k = true <-> begins p k.
Proof.
  split.
  - revert k. induction p as [|a p IH]; intros k H; [now exists k|]. destruct k as [|b k]; [discriminate|].
    cbn [starts] in H. apply andb_prop in H. destruct H as [H1 H2]. apply N.eqb_eq in H1. subst. destruct (IH _ H2) as [r ->]. now exists r.
  - intros [r ->]. induction p as [|a p IH]; [reflexivity|]. cbn [starts app]. now rewrite N.eqb_refl.
Qed.

Lemma insert_perm k l : Permutation (insert k l) (k :: l).
Proof.
  induction l as [|a l IH]; cbn [insert]; auto. destruct (blt k a); auto.
  eapply Permutation_trans; [apply perm_skip, IH|apply perm_swap].
Qed.
Lemma in_order_perm l : Permutation (in_order l) l.
Proof. induction l as [|a l IH]; cbn [in_order fold_right]; auto. eapply Permutation_trans; [apply insert_perm|now apply perm_skip]. Qed.
Lemma insert_sorted k l : StronglySorted before l -> ~ In k l -> StronglySorted before (insert k l).
Proof.
  induction 1 as [|a l Hs IH Ha]; intros Hk; cbn [insert].
  - repeat constructor.
  - destruct (blt k a) eqn:E.
    + apply blt_before in E. constructor; [now constructor|]. constructor; auto.
      eapply List.Forall_impl; [|exact Ha]. intros b. now apply before_trans.
    + constructor; [apply IH; intros H; apply Hk; now right|].
      apply List.Forall_forall. intros b Hb. apply (Permutation_in _ (insert_perm k l)) in Hb. destruct Hb as [<-|Hb].
      * apply before_total; auto. intros ->. apply Hk. now left.
      * rewrite List.Forall_forall in Ha. auto.
Qed.
Lemma in_order_sorted l : List.NoDup l -> StronglySorted before (in_order l).
Proof.
  induction 1 as [|a l Ha Hn IH]; cbn [in_order fold_right]; [constructor|]. apply insert_sorted; auto.
  intros H. apply Ha. eapply Permutation_in; [apply in_order_perm|exact H].
Qed.
Lemma sorted_filter f l : StronglySorted before l -> StronglySorted before (List.filter f l).
Proof.
  induction 1 as [|a l Hs IH Ha]; cbn [List.filter]; [constructor|]. destruct (f a); auto. constructor; auto.
  rewrite List.Forall_forall in *. intros b Hb. apply filter_In in Hb. now apply Ha.
Qed.
Lemma sorted_app l1 l2 : StronglySorted before (l1 ++ l2) ->
  StronglySorted before l1 /\ forall a b, In a l1 -> In b l2 -> before a b.
Proof.
  induction l1 as [|x l1 IH]; cbn [app]; intros H; [split; [constructor|easy]|].
  inversion H as [|? ? H1 H2]; subst. destruct (IH H1) as [H3 H4]. rewrite List.Forall_forall in H2. split.
  - constructor; auto. apply List.Forall_forall. intros b Hb. apply H2, in_or_app. now left.
  - intros a b [<-|Ha] Hb; [apply H2, in_or_app; now right|auto].
Qed.

Lemma stored_in s k : In k (map fst (map_to_list (db s))) <-> held s k.
Proof.
  rewrite in_map_iff. split.
  - intros ([k' v] & <- & H). apply elem_of_list_In, elem_of_map_to_list in H. now exists v.
  - intros [v H]. exists (k, v). split; auto. now apply elem_of_list_In, elem_of_map_to_list.
Qed.
Lemma forward_listing s p n : (0 <= n)%Z -> listing (held s) p n (forward_keys s p n).
Proof.
  intros Hn. unfold forward_keys. set (L := List.filter (starts p) (in_order (map fst (map_to_list (db s))))).
  assert (HL : StronglySorted before L).
  { apply sorted_filter, in_order_sorted. apply NoDup_ListNoDup, NoDup_fst_map_to_list. }
  assert (HI : forall k, In k L <-> held s k /\ begins p k).
  { intros k. unfold L. rewrite filter_In, starts_begins, <- stored_in. split; intros [H1 H2]; split; auto.
    - eapply Permutation_in; [apply in_order_perm|exact H1].
    - eapply Permutation_in; [apply Permutation_sym, in_order_perm|exact H1]. }
  clearbody L. pose proof (firstn_skipn (Z.to_nat n) L) as E.
  assert (H2 : StronglySorted before (firstn (Z.to_nat n) L ++ skipn (Z.to_nat n) L)) by (rewrite E; exact HL).
  apply sorted_app in H2. destruct H2 as [H2 H3]. split.
  - exact H2.
  - intros k Hk. apply HI. rewrite <- E. apply in_or_app. now left.
  - pose proof (firstn_le_length (Z.to_nat n) L). lia.
  - intros k Hk Hp. assert (HkL : In k L) by (apply HI; auto). rewrite <- E in HkL. apply in_app_or in HkL. destruct HkL as [H|H]; [now left|].
    right. split; [|intros k' Hk'; now apply H3].
    assert (Z.to_nat n < List.length L)%nat.
    { destruct (Nat.lt_ge_cases (Z.to_nat n) (List.length L)) as [|G]; auto. rewrite skipn_all2 in H by exact G. destruct H. }
    rewrite firstn_length_le by lia. lia.
Qed.
(** There is one such list. *)
Lemma sorted_same l l' : StronglySorted before l -> StronglySorted before l' -> (forall k, In k l <-> In k l') -> l = l'.
Proof.
  intros H. revert l'. induction H as [|a l Hs IH Ha]; intros l' H' HI.
  - destruct l' as [|b l']; auto. exfalso. apply (HI b). now left.
  - inversion H' as [|b l'' Hs' Hb]; subst; [exfalso; apply (HI a); now left|].
    rewrite List.Forall_forall in Ha, Hb.
    assert (a = b) as <-.
    { destruct (proj1 (HI a) (or_introl eq_refl)) as [|Ha']; auto. destruct (proj2 (HI b) (or_introl eq_refl)) as [|Hb']; auto.
      exfalso. apply (before_irrefl a). eapply before_trans; [apply Ha, Hb'|apply Hb, Ha']. }
    f_equal. apply IH; auto. intros k. specialize (HI k). cbn [In] in HI. split; intros Hk.
    + destruct (proj1 HI (or_intror Hk)) as [<-|]; auto. exfalso. apply (before_irrefl a). auto.
    + destruct (proj2 HI (or_intror Hk)) as [<-|]; auto. exfalso. apply (before_irrefl a). auto.
Qed.
Lemma sorted_nodup l : StronglySorted before l -> List.NoDup l.
Proof.
  induction 1 as [|a l Hs IH Ha]; constructor; auto. intros H. rewrite List.Forall_forall in Ha. apply (before_irrefl a). auto.
Qed.
Lemma listing_unique ks p n l l' : listing ks p n l -> listing ks p n l' -> l = l'.
Proof.
  assert (HH : forall l l', listing ks p n l -> listing ks p n l' -> forall k, In k l -> In k l').
  { clear l l'. intros l l' [S1 O1 N1 C1] [S2 O2 N2 C2] k Hk. destruct (O1 _ Hk) as [K1 K2].
    destruct (C2 k K1 K2) as [|[Hn Hlt]]; auto. destruct (in_dec (List.list_eq_dec N.eq_dec) k l') as [|Hno]; auto. exfalso.
    (* every element of l' is before k, so it is in l; l would be longer than l' *)
    assert (Hinc : incl (k :: l') l).
    { intros b [<-|Hb]; auto. destruct (O2 _ Hb) as [B1 B2]. destruct (C1 b B1 B2) as [|[_ Hb']]; auto.
      exfalso. apply (before_irrefl b). eapply before_trans; [apply Hlt, Hb|apply Hb', Hk]. }
    assert (Hnd : List.NoDup (k :: l')) by (constructor; auto; now apply sorted_nodup).
    pose proof (NoDup_incl_length Hnd Hinc) as G. cbn [List.length] in G. lia. }
  intros H1 H2. apply sorted_same; [apply H1|apply H2|]. intros k. split; eapply HH; eauto.
Qed.

(** ** The wire *)
Definition chars (l : bytes) : bool := forallb (fun c => negb (c =? 10)) l.
Lemma chars_ok l : chars l = true -> no_lf l.
Proof. intros H. apply List.Forall_forall. intros c Hc. unfold chars in H. rewrite forallb_forall in H. specialize (H _ Hc). lia. Qed.
Lemma key_line k r : no_lf k -> get_line (s2b "KEY " ++ k ++ crlf ++ r) = Ok (s2b "KEY " ++ k ++ [10], r).
Proof.
  intros Hk. rewrite app_assoc, get_line_ok; [now rewrite <- app_assoc|].
  apply Forall_app. split; [|exact Hk]. now apply chars_ok.
Qed.
Lemma legal_no_lf k : legal_key k -> no_lf k.
Proof. intros (_ & Hk & _). eapply List.Forall_impl; [|exact Hk]. unfold word_byte. intros c H. lia. Qed.
Lemma legal_no_nul k : legal_key k -> cstr k = k.
Proof. intros (_ & Hk & _). now apply cstr_key. Qed.

Lemma KEY_plain : plain_word (s2b "KEY").
Proof. apply plainb_ok. vm_compute. reflexivity. Qed.
Lemma read_lines l : forall fuel r, Forall legal_key l -> (List.length l < fuel)%nat ->
  read_keys fuel (key_lines l ++ keys_end ++ r) = Ok (l, true).
Proof.
  induction l as [|k l IH]; intros [|f] r Hl Hf; cbn [List.length] in Hf; try lia; inversion Hl as [|? ? Hk Hl']; subst; cbn [read_keys].
  - cbn [key_lines flat_map app]. change (keys_end ++ r) with (s2b "END" ++ crlf ++ r). rewrite get_line_ok by now apply chars_ok.
    now replace (beq (cstr (s2b "END" ++ [10])) (s2b "END" ++ [10])) with true by (vm_compute; reflexivity).
  - cbn [key_lines flat_map]. fold (key_lines l).
    replace (((s2b "KEY " ++ k ++ crlf) ++ key_lines l) ++ keys_end ++ r) with (s2b "KEY " ++ k ++ crlf ++ (key_lines l ++ keys_end ++ r)) by now rewrite <- !app_assoc.
    rewrite key_line by now apply legal_no_lf.
    replace (beq (cstr (s2b "KEY " ++ k ++ [10])) (s2b "END" ++ [10])) with false by reflexivity.
    change (s2b "KEY " ++ k ++ [10]) with (repeat 32 0 ++ s2b "KEY" ++ (sp ++ k ++ [10])).
    destruct Hk as (Kn & Kb & Kl).
    destruct KEY_plain as (P1 & P2 & P3 & _). rewrite call_word_token; [|exact P1|exact P2|unfold BUFSIZ; lia|unfold sp; cbn [app]; unfold word_byte; lia].
    cbn [bind]. replace (negb (beq (s2b "KEY") (s2b "KEY"))) with false by reflexivity.
    change (sp ++ k ++ [10]) with (repeat 32 1 ++ k ++ [10]).
    rewrite call_word_token; [|auto|auto|unfold BUFSIZ; lia|unfold word_byte; lia].
    cbn [bind]. destruct k as [|b k]; [congruence|]. rewrite IH; auto. lia.
Qed.
Lemma key_lines_length l : (List.length l <= List.length (key_lines l))%nat.
Proof. induction l as [|k l IH]; cbn [key_lines flat_map List.length]; [lia|]. fold (key_lines l). rewrite app_length. change (s2b "KEY " ++ k ++ crlf) with (75 :: s2b "EY " ++ k ++ crlf). cbn [List.length]. lia. Qed.
Lemma read_answer l : Forall legal_key l -> let s := key_lines l ++ keys_end in read_keys (S (List.length s)) s = Ok (l, true).
Proof.
  intros H. cbv zeta. replace (key_lines l ++ keys_end) with (key_lines l ++ keys_end ++ []) at 2 by now rewrite app_nil_r.
  apply read_lines; auto. rewrite app_length. pose proof (key_lines_length l). lia.
Qed.
Lemma key_lines_app l l' : key_lines (l ++ l') = key_lines l ++ key_lines l'.
Proof. unfold key_lines. apply flat_map_app. Qed.

(** ** The request *)
Lemma limit_word n : (0 < n <= 2147483647)%Z -> legal_key (decZ n) /\ lex_i32 (decZ n) = Ok n.
Proof.
  intros [H1 H2]. assert (E : decZ n = dec (Z.to_N n)) by (unfold decZ; now replace (n <? 0)%Z with false by lia). rewrite E. split.
  - split; [apply dec_nonnil|]. split.
    + eapply List.Forall_impl; [|apply dec_digits]. intros c Hc. apply is_digit_range in Hc. unfold word_byte. lia.
    + pose proof (dec_short (Z.to_N n) ltac:(lia)). unfold BUFSIZ in *. lia.
  - unfold lex_i32. rewrite lex_i64_dec by (unfold i64_max; lia). cbn [bind]. rewrite Z2N.id by lia.
    now replace ((-2147483648 <=? n) && (n <=? 2147483647))%Z with true by lia.
Qed.
Lemma keys_plain : plain_word (s2b "keys").
Proof. apply plainb_ok. vm_compute. reflexivity. Qed.
Definition raw_request (ws : list bytes) : bytes := s2b "keys" ++ flat_map (fun k => sp ++ k) ws ++ crlf.
Lemma keys_raw ps n : keys_request ps n = raw_request (ps ++ [decZ n]).
Proof. unfold keys_request, raw_request. rewrite flat_map_app. cbn [flat_map]. now rewrite app_nil_r, <- !app_assoc. Qed.
Lemma raw_line ws rest : Forall legal_key ws -> exists line p, get_line (raw_request ws ++ rest) = Ok (line, rest)
    /\ parse_command line = Ok (mkCommand false [] (s2b "keys"), p) /\ words (S (List.length p)) p = Ok ws.
Proof.
  intros HK. set (L := flat_map (fun k => sp ++ k) ws).
  assert (ER : raw_request ws ++ rest = s2b "keys" ++ L ++ crlf ++ rest) by (unfold raw_request; now rewrite <- !app_assoc).
  assert (HL : no_lf L).
  { unfold L. clear -HK. induction HK as [|k ks Hk _ IH]; cbn [flat_map]; [constructor|]. apply Forall_app. split; [|exact IH].
    apply Forall_app. split; [now apply chars_ok|now apply legal_no_lf]. }
  exists (s2b "keys" ++ L ++ [10]), (L ++ [10]). rewrite ER. split; [|split].
  - rewrite app_assoc, get_line_ok; [now rewrite <- app_assoc|]. apply Forall_app. split; [now apply chars_ok|exact HL].
  - destruct keys_plain as (P1 & P2 & P3 & P4).
    change (s2b "keys" ++ L ++ [10]) with (proxy_ident [] ++ s2b "keys" ++ L ++ [10]).
    rewrite (parse_command_ok [] (s2b "keys") (L ++ [10])); auto.
    assert (hd 32 L = 32) by (unfold L; destruct ws; reflexivity).
    destruct L as [|c L']; cbn [app hd] in *; unfold word_byte; lia.
  - unfold L. rewrite words_ok; auto.
    clear. rewrite app_length. cbn [List.length].
    induction ws as [|k ks IH]; cbn [flat_map List.length]; [lia|]. rewrite app_length. change (sp ++ k) with (32 :: k). cbn [List.length]. lia.
Qed.
Lemma request_line ps n rest : ps <> [] -> Forall legal_key ps -> (0 < n <= 2147483647)%Z ->
  exists line p, get_line (keys_request ps n ++ rest) = Ok (line, rest)
    /\ parse_command line = Ok (mkCommand false [] (s2b "keys"), p) /\ parse_keys p = Ok (ps, n).
Proof.
  intros Hn Hp Hl. destruct (limit_word n Hl) as [Hd Hi]. rewrite keys_raw.
  destruct (raw_line (ps ++ [decZ n]) rest) as (line & p & G & P & W).
  { apply Forall_app; split; [exact Hp|constructor; [exact Hd|constructor]]. }
  exists line, p. split; [exact G|]. split; [exact P|]. unfold parse_keys. rewrite W.
  cbn [bind]. rewrite rev_app_distr. cbn [rev app]. destruct (rev ps) as [|q qs] eqn:E.
  - apply (f_equal (@rev _)) in E. rewrite rev_involutive in E. contradiction.
  - rewrite Hi. cbn [bind]. replace (0 <? n)%Z with true by lia. change (rev (q :: qs)) with (rev qs ++ [q]). apply (f_equal (@rev _)) in E. rewrite rev_involutive in E. cbn [rev] in E. now rewrite E.
Qed.
(** No prefix, or no limit, or one that is not positive. *)
Lemma bad_line ws rest : Forall legal_key ws -> (List.length ws < 2)%nat \/ (forall n, lex_i32 (List.last ws []) = Ok n -> (n <= 0)%Z) ->
  exists line p, get_line (raw_request ws ++ rest) = Ok (line, rest)
    /\ parse_command line = Ok (mkCommand false [] (s2b "keys"), p) /\ parse_keys p = Err.
Proof.
  intros Hw H. destruct (raw_line ws rest Hw) as (line & p & G & P & W). exists line, p. split; [exact G|]. split; [exact P|].
  unfold parse_keys. rewrite W. cbn [bind]. destruct (rev ws) as [|a [|b r]] eqn:E; auto.
  apply (f_equal (@rev _)) in E. rewrite rev_involutive in E. cbn [rev] in E. subst ws. destruct H as [H|H].
  - rewrite !app_length in H. cbn [List.length] in H. lia.
  - rewrite last_last in H. destruct (lex_i32 a) as [| |n] eqn:EL; cbn [bind].
    + exfalso. revert EL. unfold lex_i32, lex_i64. clear.
      destruct a as [|c a]; [vm_compute; discriminate|]. 
      assert (D : forall (b : bool) (x y : Z), (let* v := (if b then Ok x else Err) in if ((- 2147483648 <=? v) && (v <=? 2147483647))%Z then Ok v else Err) <> Undef).
      { intros [|] x y; cbn [bind]; [destruct (_ && _)|]; discriminate. }
      intros HU. revert HU. repeat match goal with |- context [match ?x with _ => _ end] => destruct x; cbn [bind]; try discriminate end.
    + reflexivity.
    + specialize (H n eq_refl). now replace (0 <? n)%Z with false by lia.
Qed.
