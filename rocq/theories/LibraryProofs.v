(** Proofs for the client library. *)
From Coq Require Import String.
From stdpp Require Import gmap.
From Coq Require Import ZifyBool ZifyNat ZifyN.
From Verif Require Import Base BaseLemmas StorageModel StorageSpec StorageProofs StorageProofs4 TextModel ServerProofs ServerProofs2 TextSpec TextProofs TextProofs2 TextProofs3 TextProofs4 ClientSpec NamesModel SessionModel ServerModel
  ReplicaProofs MemcachedSpec MemcachedProofs MemcachedProofs2 MemcachedProofs3 GatewayModel GatewayProofs GatewayProofs2 DumpProofs LibraryModel LibrarySpec.
Local Open Scope N_scope.
Local Open Scope list_scope.

Lemma serve_one now s q p m : legal_call q -> ~ too_long now m q -> wire q <> [] -> (forall rest, run_line now s (wire q ++ rest) = Ok (p, rest)) ->
  q <> Quit -> forall n, serve_all (S n) now s (wire q) = Ok (p_store p, p_answer p).
Proof.
  intros Hq Hs Hne R Hn n. pose proof (R []) as R0. rewrite app_nil_r in R0. pose proof (quits_call now q [] m Hq Hs) as U. rewrite app_nil_r in U.
  destruct (wire q) as [|b w] eqn:W; [congruence|]. cbn [serve_all]. rewrite R0. cbn [bind]. rewrite U.
  replace (match q with Quit => true | _ => false end) with false by (destruct q; congruence || reflexivity).
  destruct n; cbn [serve_all bind]; now rewrite app_nil_r.
Qed.

Lemma add_request k d f : legal_key k -> store_request [] (s2b "add") (lib_entry k d f 0) = wire (Store Add k (Z.to_N (f mod 2 ^ 32)) 0 d false).
Proof.
  intros Hk. cbn [wire mode_word]. unfold store_request, client_store, proxy_ident, space, line_end, sp, crlf, noreply_word, lib_entry.
  cbn [e_key e_flag e_expire e_size e_version e_option e_data]. rewrite (legal_cstr _ Hk). change ((0 <? 0) || beq (s2b "add") (s2b "cas")) with false. change (print_options 0) with (@nil N).
  replace (N.to_nat (blen d)) with (length d) by (unfold blen; lia). rewrite firstn_all. cbn [app]. reflexivity.
Qed.
Lemma cas_request k d f v : legal_key k -> store_request [] (s2b "cas") (lib_entry k d f v) = wire (Cas k (Z.to_N (f mod 2 ^ 32)) 0 d v false).
Proof.
  intros Hk. cbn [wire]. unfold store_request, client_store, proxy_ident, space, line_end, sp, crlf, noreply_word, lib_entry.
  cbn [e_key e_flag e_expire e_size e_version e_option e_data]. rewrite (legal_cstr _ Hk). change (beq (s2b "cas") (s2b "cas")) with true. rewrite orb_true_r. change (print_options 0) with (@nil N).
  replace (N.to_nat (blen d)) with (length d) by (unfold blen; lia). rewrite firstn_all. cbn [app]. reflexivity.
Qed.
Lemma get_wire (tk : bool) k : legal_key k -> get_request (if tk then s2b "gets" else s2b "get") [cstr k] = wire (Get tk [k]).
Proof. intros Hk. rewrite (legal_cstr _ Hk). reflexivity. Qed.

Definition read_word (s : bytes) : res (oresult * bytes) :=
  let* (line, rest) := get_line s in let* (r, _) := parse_text_response line in Ok (r, rest).
Lemma read_words r : In r [res_stored; res_not_stored; res_exists; res_not_found] -> read_word (say false (oresult_name r)) = Ok (r, []).
Proof. cbn [In]. intros [<-|[<-|[<-|[<-|[]]]]]; vm_compute; reflexivity. Qed.

Lemma lib_store_word can now ident e st q p m r : legal_call q -> ~ too_long now m q -> wire q <> [] -> q <> Quit ->
  store_request [] ident e = wire q -> (l_up st = true \/ can = true) -> (l_up st = true -> l_unread st = []) ->
  (forall rest, run_line now (l_store st) (wire q ++ rest) = Ok (p, rest)) -> p_answer p = say false (oresult_name r) ->
  In r [res_stored; res_not_stored; res_exists; res_not_found] ->
  lib_store can now ident e st = Ok (Result r, mkLib true [] (p_store p)).
Proof.
  intros Hq Hs Hne Hnq Hreq Hup Hun R Ha Hr. unfold lib_store.
  assert (E : exists st', reconnected can st = Some st' /\ l_up st' = true /\ l_unread st' = [] /\ l_store st' = l_store st).
  { unfold reconnected. destruct (l_up st) eqn:U; [exists st; auto|]. destruct Hup as [?|Hc]; [discriminate|]. subst can. exists (opened st). auto. }
  destruct E as (st' & -> & U & N0 & S0). unfold exchange. rewrite Hreq, S0.
  rewrite (serve_one now (l_store st) q p m) by auto. cbn [bind l_unread l_up l_store]. rewrite N0. cbn [app]. rewrite Ha.
  pose proof (read_words r Hr) as W. unfold read_word in W. destruct (get_line (say false (oresult_name r))) as [| |[line rest]]; try discriminate W.
  cbn [bind] in W |- *. destruct (parse_text_response line) as [| |[r' x]]; try discriminate W. cbn [bind] in W |- *. injection W as -> ->. now rewrite U.
Qed.

Lemma client_get_found fuel now (tk : bool) k e r : legal_key k -> wf_rec r -> e_key e = k -> (2 <= fuel)%nat ->
  client_get fuel now e (item_lines tk k r ++ s2b "END" ++ line_end)
  = Ok (mkEntry k (r_flag r) 0 (blen (r_data r)) (if tk then r_version r else 0) (e_option e) (r_data r), []).
Proof.
  intros Hk Hw He Hf. destruct fuel as [|[|f]]; [lia|lia|]. rewrite <- (item_print tk k r Hk).
  rewrite client_get_value; [|now apply item_sendable|exact He].
  change (s2b "END" ++ line_end) with (s2b "END" ++ crlf ++ []). rewrite client_get_end. destruct tk; reflexivity.
Qed.

Lemma lib_get_found now (tk : bool) k e st p m r : legal_key k -> wf_rec r -> l_up st = true -> l_unread st = [] ->
  (forall rest, run_line now (l_store st) (wire (Get tk [k]) ++ rest) = Ok (p, rest)) -> p_answer p = item_lines tk k r ++ s2b "END" ++ line_end ->
  lib_get now tk k e m st = Ok (Entry res_ok (mkEntry k (r_flag r) 0 (blen (r_data r)) (if tk then r_version r else 0) (e_option e) (r_data r)) true, mkLib true [] (p_store p)).
Proof.
  intros Hk Hw U N0 R Ha. unfold lib_get. rewrite U. cbn [negb]. unfold exchange. rewrite (get_wire tk k Hk).
  assert (Hl : legal_call (Get tk [k])) by (split; [discriminate|repeat constructor; auto; apply Hk]).
  rewrite (serve_one now (l_store st) (Get tk [k]) p (fun _ => None)) by (auto; first [exact (fun H => H)|destruct tk; discriminate|discriminate]).
  cbn [bind l_unread l_up l_store]. rewrite N0. cbn [app]. rewrite Ha.
  rewrite client_get_found; auto.
  2:{ rewrite app_length. unfold item_lines. rewrite app_length. cbn. lia. }
  cbn [bind]. destruct (item_first_line tk k r (s2b "END" ++ line_end) Hk) as (l & s' & ->). cbn [bind].
  replace (beq (cstr (86 :: l)) (s2b "END" ++ [10])) with false by reflexivity. cbn [negb]. rewrite orb_true_r, U. reflexivity.
Qed.
Lemma lib_get_missing now (tk : bool) k e have st p : legal_key k -> l_up st = true -> l_unread st = [] ->
  (forall rest, run_line now (l_store st) (wire (Get tk [k]) ++ rest) = Ok (p, rest)) -> p_answer p = s2b "END" ++ line_end ->
  lib_get now tk k e have st = Ok (Entry (if have then res_ok else res_not_found) (mkEntry k (e_flag e) (e_expire e) (e_size e) (e_version e) (e_option e) (e_data e)) have, mkLib true [] (p_store p)).
Proof.
  intros Hk U N0 R Ha. unfold lib_get. rewrite U. cbn [negb]. unfold exchange. rewrite (get_wire tk k Hk).
  assert (Hl : legal_call (Get tk [k])) by (split; [discriminate|repeat constructor; auto; apply Hk]).
  rewrite (serve_one now (l_store st) (Get tk [k]) p (fun _ => None)) by (auto; first [exact (fun H => H)|destruct tk; discriminate|discriminate]).
  cbn [bind l_unread l_up l_store]. rewrite N0. cbn [app]. rewrite Ha.
  change (s2b "END" ++ line_end) with (s2b "END" ++ crlf ++ []). rewrite client_get_end. cbn [bind].
  rewrite get_line_ok by (vm_compute; repeat constructor; discriminate). cbn [bind].
  replace (beq (cstr (s2b "END" ++ [10])) (s2b "END" ++ [10])) with true by (vm_compute; reflexivity). cbn [negb]. rewrite orb_false_r, U. reflexivity.
Qed.

Lemma flag_small f : Z.to_N (f mod 2 ^ 32) < 2 ^ 32.
Proof. pose proof (Z.mod_pos_bound f (2 ^ 32)) as H. change (2 ^ 32)%Z with 4294967296%Z in *. change (2 ^ 32) with 4294967296. lia. Qed.
Lemma decZ_bytes i : wf_bytes (decZ i).
Proof.
  unfold decZ, wf_bytes. destruct (i <? 0)%Z; [constructor; [reflexivity|]|]; (eapply List.Forall_impl; [|apply dec_digits]); intros c Hc; cbv beta in *; unfold is_digit in Hc; unfold is_byte; clear - Hc; lia.
Qed.

Lemma decZ_short i : (- 2 ^ 31 <= i < 2 ^ 31)%Z -> blen (decZ i) <= 21.
Proof.
  intros H. change (2 ^ 31)%Z with 2147483648%Z in H.
  assert (K : forall n, n <= 2147483648 -> blen (dec n) <= 20).
  { intros n Hn. apply (numeral_length (dec n) n (dec_numeral n)). change (2 ^ 64) with 18446744073709551616. lia. }
  unfold decZ. destruct (i <? 0)%Z eqn:E.
  - assert (blen (dec (Z.to_N (- i))) <= 20) by (apply K; lia). unfold blen in *. cbn [length]. lia.
  - assert (blen (dec (Z.to_N i)) <= 20) by (apply K; lia). lia.
Qed.
Lemma as_call_legal c q : legal_lib c -> as_call c = Some q -> legal_call q /\ wire q <> [] /\ q <> Quit /\ (forall now m, ~ too_long now m q).
Proof.
  intros Hc Hq. destruct c; try discriminate Hq; cbn [as_call] in Hq; injection Hq as <-; cbn [legal_lib] in Hc; cbn [legal_call].
  - destruct Hc as (Hk & Hd & Hs). repeat split; try (apply Hk || apply flag_small || exact Hd || lia || discriminate).
    intros now m [H|[[H|H] _]]; [lia|discriminate H|discriminate H].
  - destruct Hc as [Hk Hi]. pose proof (decZ_short i Hi). repeat split; try (apply Hk || apply flag_small || apply decZ_bytes || lia || discriminate).
    intros now m [G|[[G|G] _]]; [unfold max_value in G; lia|discriminate G|discriminate G].
  - destruct Hc as (Hk & Hd & Hs & Hv). repeat split; try (apply Hk || apply flag_small || exact Hd || exact Hv || lia || discriminate).
    intros now m G. cbn [too_long] in G. lia.
  - destruct Hc as [Hk ->]. repeat split; try (discriminate || lia).
    + repeat constructor; auto; apply Hk.
    + destruct tokens; discriminate.
    + intros now m G. exact G.
Qed.
Lemma add_answer asked now m k f x d m1 a : does asked now m (Store Add k f x d false) m1 a ->
  a = say false (oresult_name (match look m now k with None => res_stored | Some _ => res_not_stored end)).
Proof. intros D. inversion D; subst; cbn [stores] in *; destruct (look _ now k); congruence || reflexivity. Qed.
Lemma cas_answer asked now m k f x d v m1 a : does asked now m (Cas k f x d v false) m1 a ->
  a = say false (oresult_name (match look m now k with None => res_not_found | Some r => if r_version r =? v then res_stored else res_exists end)).
Proof.
  intros D. inversion D; subst; match goal with E : look _ now k = _ |- _ => rewrite E end; [rewrite N.eqb_refl; reflexivity| |reflexivity].
  match goal with G : _ <> v |- _ => apply N.eqb_neq in G; rewrite G end. reflexivity.
Qed.
Lemma get_answer asked now m tk k m1 a : does asked now m (Get tk [k]) m1 a -> a = found_lines m now tk k ++ s2b "END" ++ line_end.
Proof. intros D. inversion D; subst. cbn [flat_map]. now rewrite app_nil_r. Qed.

(** One call that puts a request to the node. *)
Lemma step_call T M st m now can c q : quiet T M (l_store st) -> shows (fun _ => True) T m (l_store st) -> (T <= now)%Z -> sane_clock now -> M + 1 < 2 ^ 64 ->
  l_up st = true -> l_unread st = [] -> legal_lib c -> as_call c = Some q ->
  exists st' m1 a, lib_step can now c st = Ok (tells m now c, st') /\ does now now m q m1 a /\ l_up st' = true /\ l_unread st' = []
    /\ quiet now (M + 1) (l_store st') /\ shows (fun _ => True) now m1 (l_store st').
Proof.
  intros Q Sh HT Hsn HM U N0 Hc Hq. destruct (as_call_legal c q Hc Hq) as (Lq & Wq & Nq & Tq).
  destruct (line_call (fun _ => True) T M (l_store st) m now q Q Sh HT Hsn HM Lq (fun _ _ => Logic.I) (Tq now m)) as (p & m1 & R & D & Q1 & S1).
  exists (mkLib true [] (p_store p)), m1, (p_answer p). cbn [l_up l_unread l_store]. split; [|split; [exact D|split; [reflexivity|split; [reflexivity|split; [exact Q1|exact S1]]]]].
  assert (UU : l_up st = true \/ can = true) by auto. assert (NN : l_up st = true -> l_unread st = []) by auto.
  destruct c as [| |k d f|k i f|k d f v|tk k e have]; try discriminate Hq; cbn [as_call] in Hq; injection Hq as <-; cbn [lib_step tells].
  - apply add_answer in D. eapply (lib_store_word _ _ _ _ _ _ _ m); eauto; [apply add_request, Hc|]. destruct (look m now k); cbn; auto.
  - apply add_answer in D. eapply (lib_store_word _ _ _ _ _ _ _ m); eauto; [apply add_request, Hc|]. destruct (look m now k); cbn; auto.
  - apply cas_answer in D. eapply (lib_store_word _ _ _ _ _ _ _ m); eauto; [apply cas_request, Hc|]. destruct (look m now k) as [r|]; [destruct (_ =? _)|]; cbn; auto.
  - destruct Hc as [Hk ->]. pose proof (get_answer _ _ _ _ _ _ _ D) as A.
    unfold found_lines in A. destruct (look m now k) as [r|] eqn:L.
    + eapply lib_get_found; eauto. pose proof (shows_live _ _ _ _ _ _ _ Sh Logic.I HT L) as (_ & W & _). exact W.
    + exact (lib_get_missing now tk k e false st p Hk U N0 R A).
Qed.

Lemma lib_history l : forall T M st m, quiet T M (l_store st) -> shows (fun _ => True) T m (l_store st) -> sane_clock T -> rising_lib T l ->
  M + N.of_nat (length l) < 2 ^ 64 -> l_up st = true -> l_unread st = [] -> Forall (fun x => legal_lib (snd x)) l ->
  exists xs st' m', lib_run l st = Ok (xs, st') /\ history m l m' xs /\ l_up st' = true /\ l_unread st' = [] /\ exists T', shows (fun _ => True) T' m' (l_store st').
Proof.
  induction l as [|[[now can] c] l IH]; intros T M st m Q Sh HT Hr HM U N0 Hl.
  - exists [], st, m. repeat split; auto; [constructor|eauto].
  - destruct Hr as (Hnow & Hr). inversion Hl as [|? ? Hc Hl']; subst. cbn [snd] in Hc. cbn [length] in HM.
    assert (HM1 : M + 1 < 2 ^ 64 /\ M + N.of_nat (length l) < 2 ^ 64 /\ M + 1 + N.of_nat (length l) < 2 ^ 64).
    { clear - HM. change (2 ^ 64) with 18446744073709551616 in *. lia. }
    assert (Hsn : sane_clock now) by (unfold sane_clock in *; lia).
    destruct (as_call c) as [q|] eqn:E.
    + destruct (step_call T M st m now can c q Q Sh (proj1 Hnow) Hsn (proj1 HM1) U N0 Hc E) as (st1 & m1 & a & R & D & U1 & N1 & Q1 & S1).
      destruct (IH now (M + 1) st1 m1 Q1 S1 Hsn Hr (proj2 (proj2 HM1)) U1 N1 Hl') as (xs & st' & m' & R' & H' & F).
      exists (tells m now c :: xs), st', m'. split; [|split; [|exact F]].
      * cbn [lib_run]. rewrite R. cbn [bind]. rewrite R'. reflexivity.
      * eapply hist_call; eauto.
    + destruct c; try discriminate E; [|elim Hc].
      assert (Q1 : quiet now (M + 1) (l_store st)) by (eapply quiet_still; eauto; first [apply (proj1 Hnow)|apply (proj1 HM1)]).
      assert (S1 : shows (fun _ => True) now m (l_store st)) by (eapply shows_still; eauto; first [apply (proj1 Hnow)|apply (proj1 HM1)]).
      destruct (IH now (M + 1) st m Q1 S1 Hsn Hr (proj2 (proj2 HM1)) U N0 Hl') as (xs & st' & m' & R' & H' & F).
      exists (Code 0 :: xs), st', m'. split; [|split; [|exact F]].
      * cbn [lib_run lib_step]. unfold connect. rewrite U. cbn [bind]. rewrite R'. reflexivity.
      * apply (hist_none m now can LConnect); auto.
Qed.
