(** What is sent to the node that owns a key, and what is made of its answer. *)
From Coq Require Import String.
From stdpp Require Import gmap.
From Coq Require Import ZifyBool ZifyNat ZifyN.
From Verif Require Import Base BaseLemmas StorageModel StorageSpec StorageProofs StorageProofs2 StorageProofs3 StorageProofs4
  TextModel TextSpec TextProofs TextProofs2 TextProofs3 TextProofs4 ClientSpec SessionModel SessionProofs NamesModel ServerModel ServerProofs ServerProofs2 ReplicaProofs ReplicaProofs2
  MemcachedSpec MemcachedProofs MemcachedProofs2 MemcachedProofs3 KeyResolverModel ClusterModel ClusterSpec NodeModel RoutingModel RoutingSpec RoutingProofs RoutingProofs4 Props_Routing GatewayModel GatewaySpec ClientSpec.
Local Open Scope N_scope.
Local Open Scope list_scope.

(** ** Routing *)
Section Route.
Context (c : config) (s : index) (tab : bytes -> copy) (hash : bytes -> Z) (owner : bytes -> bytes) (Hs : settled c s tab hash owner).
Lemma active_unique h p p' x y : agreed c s tab h p p' -> active_master (i_map s) (Z.of_nat p) x -> active_master (i_map s) (Z.of_nat p) y -> x = y.
Proof.
  intros A H1 H2. pose proof (ag_good c s tab h p p' A) as G.
  apply (active_master_of _ _ _ _ G) in H1 as (n1 & H1); [|lia]. apply (active_master_of _ _ _ _ G) in H2 as (n2 & H2); [|lia]. congruence.
Qed.
Lemma owner_name k : legal_key k -> owner k <> [].
Proof. intros Hk. destruct (Hs k Hk) as (p & p' & A & (n & F & _) & _). exact (ag_key c s tab _ p p' A _ n F). Qed.
Lemma route_write k x : legal_key k -> x <> [] -> pre_write c (tab x) x (hash k) false = Ok (if beq x (owner k) then Here else Forward (owner k)).
Proof.
  intros Hk Hx. destruct (Hs k Hk) as (p & p' & A & O & _). destruct (c31_owner_partial c s tab (hash k) p p' x A Hx) as (H1 & _ & H3).
  destruct (beq x (owner k)) eqn:E.
  - apply beq_eq in E. subst x. now apply H1.
  - destruct (H3 false) as [(y & Hy & _ & ->)|(Hno & _)].
    + intros H. apply H1 in H. rewrite (active_unique _ _ _ _ _ A H O), beq_refl in E. discriminate.
    + now rewrite (active_unique _ _ _ _ _ A Hy O).
    + elim (Hno _ O).
Qed.
Lemma route_proxied k : legal_key k -> pre_write c (tab (owner k)) (owner k) (hash k) true = Ok Here.
Proof.
  intros Hk. destruct (Hs k Hk) as (p & p' & A & O & _). destruct (c31_owner_partial c s tab (hash k) p p' (owner k) A (owner_name k Hk)) as (_ & H2 & _).
  apply H2. left. exact O.
Qed.
Lemma route_read k x r : legal_key k -> x <> [] -> pre_read c (tab x) x (hash k) r = Ok (if beq x (owner k) then Here else Forward (owner k)).
Proof.
  intros Hk Hx. destruct (Hs k Hk) as (p & p' & A & O & B & Sl). destruct (ag_shows c s tab (hash k) p p' A x) as (near & SH).
  destruct (c33_balanced_partial c s tab (hash k) p p' x near A Hx SH) as (H1 & H2).
  assert (RD : forall y, reader (i_map s) (Z.of_nat p) y -> y = owner k).
  { intros y [Hy|(Hy & Hb)]; [exact (active_unique _ _ _ _ _ A Hy O)|]. specialize (Sl y Hy). lia. }
  destruct (beq x (owner k)) eqn:E.
  - apply beq_eq in E. subst x. apply H1. now left.
  - destruct H2 as [(Hz & _)|(l & Hl & Hf & _ & Hr)].
    + intros H. apply RD in H. subst x. rewrite beq_refl in E. discriminate.
    + specialize (Hz (owner k)). lia.
    + rewrite Hf. do 2 f_equal. apply RD, Hr, nth_In. apply Nat.mod_upper_bound. destruct l; [congruence|discriminate].
Qed.
End Route.

(** ** The forwarded request *)
Lemma due_absolute asked x : sane_clock asked -> (0 <= x < 2 ^ 63)%Z -> absolute_expire (due asked x).
Proof. intros Ha Hx. unfold absolute_expire, due, sane_clock in *. destruct (x =? 0)%Z eqn:E; [lia|]. destruct (x <=? 30 * 24 * 60 * 60)%Z eqn:E'; lia. Qed.
Lemma forwarded_served asked now c trail e req rest m : legal_call c -> ~ too_long now m c -> sane_clock asked -> Forall legal_node_name trail ->
  write_of (request_of asked c) = Some (e, req) ->
  serve_request now (req trail ++ rest) = Ok (mkCommand (proxied trail) trail (word_of c), request_of asked c, rest).
Proof.
  intros Hc Hl Ha Ht. apply too_long_size in Hl. unfold max_value in Hl.
  destruct c as [md k f x d nr|k f x d t nr|k x nr|k x nr|k nr|up k v nr|tk ks| | | | | |]; cbn [request_of write_of word_of]; intros H; try discriminate; apply Some_inv in H; apply (f_equal snd) in H; cbn [snd] in H; subst req.
  - destruct Hc as (Hk & Hf & Hx & Hd). apply store_roundtrip; [exact Ht|apply mode_ident|].
    split; cbn [e_key e_flag e_expire e_size e_data e_version e_option];
      [exact Hk|exact Hf|exact (due_absolute _ _ Ha Hx)|reflexivity|clear - Hl; lia|reflexivity|destruct nr; reflexivity].
  - destruct Hc as (Hk & Hf & Hx & Hd & Hv). apply store_roundtrip; [exact Ht|cbn; tauto|].
    split; cbn [e_key e_flag e_expire e_size e_data e_version e_option];
      [exact Hk|exact Hf|exact (due_absolute _ _ Ha Hx)|reflexivity|clear - Hl; lia|exact Hv|destruct nr; reflexivity].
  - destruct Hc as (Hk & Hx). apply (touch_roundtrip now trail (s2b "touch") (mkEntry k 0 (due asked x) 0 0 (opt nr) [])); cbn [e_key e_expire e_option]; auto using due_absolute; [cbn; tauto|destruct nr; auto].
  - destruct Hc as (Hk & Hx). apply (touch_roundtrip now trail (s2b "gat") (mkEntry k 0 (due asked x) 0 0 (opt nr) [])); cbn [e_key e_expire e_option]; auto using due_absolute; [cbn; tauto|destruct nr; auto].
  - apply (delete_roundtrip now trail (mkEntry k 0 0 0 0 (opt nr) [])); cbn [e_key e_expire e_option e_version]; auto; [now left|lia|destruct nr; reflexivity].
  - destruct Hc as (Hk & Hv). apply (incr_roundtrip now trail (if up then s2b "incr" else s2b "decr") (mkEntry k 0 0 0 0 (opt nr) []) v); cbn [e_key e_option]; auto; [destruct up; cbn; tauto|destruct nr; reflexivity].
Qed.

(** ** The answer *)
Lemma gat_value now e0 e s : sendable e -> e_key e0 = e_key e ->
  relay_gat now e0 (print_response response_get e ++ s) = Ok (print_response response_get e).
Proof.
  intros He Hk. pose proof He as [Hl Hf Hx Hs Hm Hv Ho].
  set (L := 32 :: e_key e ++ 32 :: dec (e_flag e) ++ 32 :: dec (e_size e)).
  assert (HL : no_lf L).
  { unfold L. destruct Hl as (_ & Hl & _). nolf. }
  assert (ED : firstn (N.to_nat (e_size e)) (e_data e) = e_data e) by (rewrite Hs; rewrite <- (app_nil_r (e_data e)) at 2; apply firstn_blen).
  assert (ER : print_response response_get e ++ s = (s2b "VALUE" ++ L) ++ crlf ++ (e_data e ++ crlf ++ s)).
  { unfold print_response. rewrite (cstr_key (e_key e)) by apply Hl. rewrite ED.
    unfold L, sp. change (s2b "VALUE ") with (s2b "VALUE" ++ [32]).
    cbn [app]; repeat (rewrite <- ?app_assoc; cbn [app]); reflexivity. }
  rewrite ER. unfold relay_gat. rewrite get_line_ok.
  2:{ apply Forall_app. split; auto. vm_compute. repeat constructor; discriminate. }
  cbn [bind]. replace (beq (cstr ((s2b "VALUE" ++ L) ++ [10])) (s2b "NOT_FOUND" ++ [10])) with false by (vm_compute; reflexivity).
  rewrite <- app_assoc. change (s2b "VALUE" ++ L ++ [10]) with (repeat 32 0 ++ s2b "VALUE" ++ (L ++ [10])).
  rewrite call_word_token.
  2:{ vm_compute; repeat constructor; discriminate. } 2:{ discriminate. } 2:{ vm_compute; discriminate. }
  2:{ unfold L. cbn [app]. unfold word_byte. lia. }
  cbn [bind]. change (negb (beq (s2b "VALUE") (s2b "VALUE"))) with false. cbn match.
  assert (EP : parse_entry now parse_get (L ++ [10]) = Ok (with_data (seen response_get e) [])).
  { rewrite <- (value_line now response_get e He). f_equal. unfold L. repeat (rewrite <- ?app_assoc; cbn [app]). reflexivity. }
  rewrite EP. cbn [bind]. rewrite Hk. change (e_key (with_data (seen response_get e) [])) with (e_key e). rewrite beq_refl. cbn [negb].
  match goal with |- bind (get_bytes ?n _) _ = _ => replace n with (blen (e_data e) + 2) by (rewrite <- Hs; reflexivity) end.
  rewrite get_bytes_ok by lia. cbn [bind]. f_equal.
  unfold print_response, with_data, with_version, with_size, with_flag, seen; cbn [e_key e_flag e_expire e_size e_version e_option e_data].
  rewrite Hk. replace (firstn (N.to_nat (e_size e)) (e_data e ++ crlf)) with (e_data e); [reflexivity|]. rewrite Hs. symmetry. apply firstn_blen.
Qed.

Definition pass_line (s : bytes) : res bytes :=
  let* (line, _) := get_line s in let* (r, message) := parse_text_response line in Ok (text_result r message).
Definition plain_words : list bytes := [s2b "STORED"; s2b "NOT_STORED"; s2b "EXISTS"; s2b "NOT_FOUND"; s2b "DELETED"; s2b "TOUCHED"].
Lemma pass_word w : In w plain_words -> pass_line (w ++ line_end) = Ok (w ++ line_end).
Proof. cbn [plain_words In]. intros H. repeat (destruct H as [<-|H]; [vm_compute; reflexivity|]). contradiction. Qed.
Lemma strip_digits d : d <> [] -> Forall (fun c => 48 <= c <= 57) d -> strip_blanks (d ++ [10]) = d.
Proof.
  intros Hne Hd. unfold strip_blanks. rewrite rev_app_distr. cbn [rev app strip_front].
  destruct (rev d) as [|c l] eqn:E.
  { apply (f_equal (@rev N)) in E. rewrite rev_involutive in E. cbn in E. congruence. }
  change ((10 =? 10) || (10 =? 32)) with true. cbn iota.
  assert (Hc : 48 <= c <= 57). { rewrite List.Forall_forall in Hd. apply Hd. rewrite in_rev, E. now left. }
  replace (strip_front (c :: l)) with (c :: l); [rewrite <- E, rev_involutive; reflexivity|].
  cbn [strip_front]. destruct l; [reflexivity|]. replace ((c =? 10) || (c =? 32)) with false by lia. reflexivity.
Qed.
Lemma lex_digits d n : is_numeral d n -> n <= u64_max -> lex_u u64_max d = Ok n.
Proof.
  intros (Hne & Hd & Hv & _) Hn. destruct d as [|c d]; [congruence|]. inversion Hd as [|? ? Hc Hd']; subst.
  assert (G : is_unsigned (c :: d) && (dec_val (c :: d) <=? u64_max) = true).
  { apply andb_true_intro. split; [|now apply N.leb_le]. cbn [is_unsigned]. apply forallb_forall. rewrite List.Forall_forall in Hd.
    intros x Hx. specialize (Hd x Hx). unfold is_digit. lia. }
  unfold lex_u. destruct c as [|p]; [lia|]. repeat (destruct p as [p|p|]; try (rewrite G; reflexivity); try lia).
Qed.
Lemma cstr_digits d : Forall (fun c => 48 <= c <= 57) d -> cstr (d ++ [10]) = d ++ [10].
Proof. induction 1 as [|c d Hc _ IH]; [reflexivity|]. cbn [app cstr]. replace (c =? 0) with false by lia. now rewrite IH. Qed.
Lemma pass_number d n : is_numeral d n -> n < 2 ^ 64 ->
  (let* (line, _) := get_line (d ++ line_end) in relay_incr line) = Ok (d ++ line_end).
Proof.
  intros H Hn. pose proof (numeral_length d n H Hn) as Hl. pose proof H as (Hne & Hd & _).
  change (d ++ line_end) with (d ++ crlf ++ []) at 1. rewrite get_line_ok.
  2:{ eapply List.Forall_impl; [|exact Hd]. cbn. intros; lia. }
  cbn [bind]. unfold relay_incr. rewrite cstr_digits, strip_digits by auto.
  rewrite (lex_digits d n H). 2:{ clear - Hn. unfold u64_max. change (2 ^ 64) with 18446744073709551616 in Hn. lia. }
  replace (BUFSIZ <=? blen d) with false; [reflexivity|]. symmetry. apply N.leb_gt. unfold BUFSIZ. lia.
Qed.
Lemma incr_word w : In w plain_words -> (let* (line, _) := get_line (w ++ line_end) in relay_incr line) = Ok (w ++ line_end).
Proof. cbn [plain_words In]. intros H. repeat (destruct H as [<-|H]; [vm_compute; reflexivity|]). contradiction. Qed.

(** The entry that stands for a record in an answer. *)
Definition item (k : bytes) (r : rec) : entry := mkEntry k (r_flag r) 0 (blen (r_data r)) (r_version r) 0 (r_data r).
Lemma item_sendable k r : legal_key k -> wf_rec r -> sendable (item k r).
Proof.
  intros Hk (Hf & _ & Hv & Hd & _).
  split; cbn [item e_key e_flag e_expire e_size e_data e_version e_option]; [exact Hk|exact Hf|now left|reflexivity|clear - Hd; lia|exact Hv|reflexivity].
Qed.
Lemma item_print (tk : bool) k r : legal_key k -> print_response (if tk then response_gets else response_get) (item k r) = item_lines tk k r.
Proof.
  intros Hk. unfold print_response, item_lines. cbn [item e_key e_flag e_size e_version e_data]. rewrite (cstr_key k) by apply Hk.
  replace (N.to_nat (blen (r_data r))) with (length (r_data r)) by (unfold blen; lia). rewrite firstn_all.
  unfold space, sp, line_end, crlf. change (s2b "VALUE ") with (s2b "VALUE" ++ [32]). rewrite <- !app_assoc. destruct tk; cbn [app]; rewrite <- ?app_assoc; reflexivity.
Qed.

Lemma relayed asked now now' m c m' a e req : does asked now m c m' a -> replied c -> legal_call c -> (forall k r, In k (keys_of c) -> look m now k = Some r -> wf_rec r) ->
  write_of (request_of asked c) = Some (e, req) -> relay now' (request_of asked c) a = Ok a.
Proof.
  intros H Hr Hc Hw Hq. destruct H; cbn [replied] in Hr; subst; try discriminate Hq; cbn [request_of relay say];
    try (apply pass_word; cbn [plain_words In]; tauto);
    try (apply incr_word; cbn [plain_words In]; tauto).
  - change (beq (s2b "gat") (s2b "gat")) with true. cbn iota. rewrite <- (item_print false k r) by apply Hc.
    rewrite <- (app_nil_r (print_response _ _)) at 1. apply gat_value; [|reflexivity]. apply item_sendable; [apply Hc|]. apply (Hw k); auto. now left.
  - reflexivity.
  - eapply pass_number; [eassumption|].
    match goal with X : starts_with_number _ _ |- _ => destruct X as (ds & rest & _ & _ & _ & ->) end.
    change (2 ^ 64) with 18446744073709551616. destruct up; [|destruct (_ <? _) eqn:E]; lia.
Qed.
