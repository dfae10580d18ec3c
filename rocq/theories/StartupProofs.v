(** Lemmas on the start of a node. *)
From Coq Require Import NArith ZArith List Bool String Lia ZifyBool ZifyNat ZifyN.
From Verif Require Import Base BaseLemmas TextModel TextSpec TextProofs TextProofs2 TextProofs3 KeyResolverModel NamesModel NamesProofs ClusterModel ClusterSpec ClusterProofs
  ClusterProofs2 ClusterProofs3 ClusterProofs4 ClusterProofs5 ClusterProofs8 NodeModel NodeSpec NodeProofs NodeProofs2 StartupModel StartupSpec.
Import ListNotations.
Local Open Scope N_scope.
Local Open Scope list_scope.

(** ** The answer to 'meta' *)
Lemma short_line k v : blen k <= 40 -> blen v <= 40 -> snprintf (k ++ v) = k ++ v.
Proof. intros A B. apply snprintf_id. rewrite blen_app. lia. Qed.
Lemma meta_head k r : Forall word_byte k -> k <> [] -> blen k <= 40 ->
  call_word BUFSIZ (s2b "META" ++ 32 :: k ++ 32 :: r) = Ok (s2b "META", 32 :: k ++ 32 :: r) /\
  call_word BUFSIZ (32 :: k ++ 32 :: r) = Ok (k, 32 :: r).
Proof.
  intros A B C. split.
  - apply word_first; [vm_compute; repeat constructor; discriminate|discriminate|vm_compute; discriminate|apply not_word_32].
  - apply word_arg; auto using not_word_32. unfold BUFSIZ. lia.
Qed.
Lemma meta_number_ok old z : is_i32 z -> meta_number old (32 :: decZ z ++ [10]) = Ok z.
Proof.
  intros H. unfold meta_number. pose proof (int_arg_ok BUFSIZ z 10 [] H bufsiz_22 not_num_10) as I. unfold int_arg in I.
  destruct (call_digit BUFSIZ (32 :: decZ z ++ [10])) as [| |[w p]]; try discriminate I. cbn [bind] in *.
  destruct w as [|c w]; [discriminate I|]. destruct (lex_int (c :: w)) as [| |z']; try discriminate I. cbn [bind] in I. congruence.
Qed.
Lemma decZ_short z : is_i32 z -> blen (decZ z) <= 40.
Proof. intros H. pose proof (decZ_length _ (i32_i64 _ H)). lia. Qed.

Ltac wordy := vm_compute; repeat constructor; discriminate.
Ltac head K r := let A := fresh in let B := fresh in destruct (meta_head K r) as (A & B); [wordy|discriminate|vm_compute; discriminate|];
  unfold meta_line; rewrite A; cbn [bind]; change (beq (s2b "META") (s2b "META")) with true; cbn [negb]; rewrite B; cbn [bind].
Lemma meta_size h z : is_i32 z -> meta_line h (s2b "META" ++ 32 :: s2b "partition-size" ++ 32 :: decZ z ++ [10]) = Ok (mkHeard z (h_hash h) (h_type h) (h_hint h) (h_virtual h)).
Proof. intros H. head (s2b "partition-size") (decZ z ++ [10]). rewrite !meta_number_ok by auto. reflexivity. Qed.
Lemma meta_hint h z : is_i32 z -> meta_line h (s2b "META" ++ 32 :: s2b "partition-modular-hint" ++ 32 :: decZ z ++ [10]) = Ok (mkHeard (h_size h) (h_hash h) (h_type h) z (h_virtual h)).
Proof. intros H. head (s2b "partition-modular-hint") (decZ z ++ [10]). rewrite !meta_number_ok by auto. reflexivity. Qed.
Lemma meta_virtual h z : is_i32 z -> meta_line h (s2b "META" ++ 32 :: s2b "partition-modular-virtual" ++ 32 :: decZ z ++ [10]) = Ok (mkHeard (h_size h) (h_hash h) (h_type h) (h_hint h) z).
Proof. intros H. head (s2b "partition-modular-virtual") (decZ z ++ [10]). rewrite !meta_number_ok by auto. reflexivity. Qed.
Lemma meta_hash h a : meta_line h (s2b "META" ++ 32 :: s2b "key-hash-algorithm" ++ 32 :: hashing_name a ++ [10]) = Ok (mkHeard (h_size h) a (h_type h) (h_hint h) (h_virtual h)).
Proof. now destruct a. Qed.
Lemma meta_type h t : meta_line h (s2b "META" ++ 32 :: s2b "partition-type" ++ 32 :: resolver_name t ++ [10]) = Ok (mkHeard (h_size h) (h_hash h) (Some t) (h_hint h) (h_virtual h)).
Proof. now destruct t. Qed.

Lemma read_meta_step fuel h k v h' rest : no_lf k -> no_lf v -> meta_line h (s2b "META" ++ 32 :: k ++ 32 :: v ++ [10]) = Ok h' ->
  read_meta (S fuel) h ((s2b "META" ++ 32 :: k ++ 32 :: v) ++ crlf ++ rest) = read_meta fuel h' rest.
Proof.
  intros A B M. cbn [read_meta]. rewrite get_line_ok.
  2:{ apply Forall_app. split; [wordy|]. constructor; [lia|]. apply Forall_app. split; [exact A|]. constructor; [lia|exact B]. }
  cbn [bind]. replace ((s2b "META" ++ 32 :: k ++ 32 :: v) ++ [10]) with (s2b "META" ++ 32 :: k ++ 32 :: v ++ [10]) by (nf; reflexivity).
  assert (beq (s2b "META" ++ 32 :: k ++ 32 :: v ++ [10]) (s2b "END" ++ [10]) = false) as -> by reflexivity. rewrite M. reflexivity.
Qed.
Lemma meta_answer_text m : int_settings m -> meta_answer m =
  (s2b "META" ++ 32 :: s2b "partition-size" ++ 32 :: decZ (t_size m)) ++ crlf ++
  (s2b "META" ++ 32 :: s2b "key-hash-algorithm" ++ 32 :: hashing_name (t_hash m)) ++ crlf ++
  (s2b "META" ++ 32 :: s2b "partition-type" ++ 32 :: resolver_name (t_type m)) ++ crlf ++
  (s2b "META" ++ 32 :: s2b "partition-modular-hint" ++ 32 :: decZ (t_hint m)) ++ crlf ++
  (s2b "META" ++ 32 :: s2b "partition-modular-virtual" ++ 32 :: decZ (t_virtual m)) ++ crlf ++ s2b "END" ++ crlf.
Proof.
  intros (A & B & C). unfold meta_answer. rewrite !short_line; auto using decZ_short; try (vm_compute; discriminate);
    [destruct (t_type m)|destruct (t_hash m)]; vm_compute; discriminate.
Qed.
Lemma meta_heard m h rest : int_settings m ->
  read_meta (S (List.length (meta_answer m ++ rest))) h (meta_answer m ++ rest) = Ok (hears m, rest).
Proof.
  intros H. assert (exists f, S (List.length (meta_answer m ++ rest)) = (6 + f)%nat) as (f & ->).
  { exists (List.length (meta_answer m ++ rest) - 5)%nat. rewrite meta_answer_text by auto. rewrite !app_length. change (List.length crlf) with 2%nat. lia. }
  destruct H as (A & B & C). rewrite meta_answer_text by (repeat split; auto; apply A || apply B || apply C).
  cbn [Nat.add]. match goal with |- context [read_meta _ _ ?x] => replace x
   with ((s2b "META" ++ 32 :: s2b "partition-size" ++ 32 :: decZ (t_size m)) ++ crlf ++
  (s2b "META" ++ 32 :: s2b "key-hash-algorithm" ++ 32 :: hashing_name (t_hash m)) ++ crlf ++
  (s2b "META" ++ 32 :: s2b "partition-type" ++ 32 :: resolver_name (t_type m)) ++ crlf ++
  (s2b "META" ++ 32 :: s2b "partition-modular-hint" ++ 32 :: decZ (t_hint m)) ++ crlf ++
  (s2b "META" ++ 32 :: s2b "partition-modular-virtual" ++ 32 :: decZ (t_virtual m)) ++ crlf ++ s2b "END" ++ crlf ++ rest) by (rewrite <- !app_assoc; reflexivity) end.
  erewrite read_meta_step; [|wordy|apply no_lf_decZ|apply meta_size, A].
  erewrite read_meta_step; [|wordy|destruct (t_hash m); wordy|apply meta_hash].
  erewrite read_meta_step; [|wordy|destruct (t_type m); wordy|apply meta_type].
  erewrite read_meta_step; [|wordy|apply no_lf_decZ|apply meta_hint, B].
  erewrite read_meta_step; [|wordy|apply no_lf_decZ|apply meta_virtual, C].
  cbn [read_meta]. rewrite get_line_ok by wordy. reflexivity.
Qed.
Lemma meta_served rest : serve_meta (meta_request ++ rest) = Ok rest.
Proof.
  unfold serve_meta, meta_request. rewrite <- app_assoc. change (snprintf (s2b "meta")) with (s2b "meta"). rewrite get_line_ok by wordy. reflexivity.
Qed.

(** ** Settings *)
Lemma lex_int_i32 w z : lex_int w = Ok z -> is_i32 z.
Proof.
  unfold lex_int, is_i32, int_max. intros H.
  assert (P : (if is_unsigned w && (dec_val w <=? 2147483647) then Ok (Z.of_N (dec_val w)) else Err) = Ok z -> (-2147483648 <= z < 2147483648)%Z).
  { destruct (is_unsigned w && _) eqn:E; [|discriminate]. intros [= <-]. lia. }
  destruct w as [|c w]; [discriminate H|]. destruct (N.eq_dec c 45) as [->|N0].
  - destruct (is_unsigned w && _) eqn:E; [|discriminate H]. injection H as <-. lia.
  - apply P. rewrite <- H. destruct c as [|p]; [reflexivity|]. repeat (destruct p as [p|p|]; try reflexivity; try congruence).
Qed.
Lemma lex_string_i32 w z : lex_string w = Ok z -> is_i32 z.
Proof.
  unfold lex_string. intros H. destruct w as [|c w]; [discriminate H|]. destruct (N.eq_dec c 43) as [->|N0].
  - destruct (is_unsigned w && _) eqn:E; [|discriminate H]. injection H as <-. unfold is_i32, int_max in *. lia.
  - apply (lex_int_i32 (c :: w)). rewrite <- H. destruct c as [|p]; [reflexivity|]. repeat (destruct p as [p|p|]; try reflexivity; try congruence).
Qed.
Lemma int_var_i32 vars k d z : is_i32 d -> int_var vars k d = Ok z -> is_i32 z.
Proof. unfold int_var. destruct (var vars k); [intros _; apply lex_string_i32|congruence]. Qed.
Lemma index_settings_ok o vars m : int_options o -> index_settings o vars = Ok m ->
  int_settings m /\ exists c, make_resolver (t_size m) (t_hint m) (t_virtual m) = Ok c.
Proof.
  intros (A & B & C) H. unfold index_settings in H.
  destruct (int_var vars (s2b "partition-modular-hint") (o_hint o)) as [| |hint] eqn:E1; try discriminate H.
  destruct (int_var vars (s2b "partition-modular-virtual") (o_virtual o)) as [| |virt] eqn:E2; try discriminate H.
  destruct (int_var vars (s2b "partition-size") (o_size o)) as [| |size] eqn:E3; try discriminate H. cbn [bind] in H.
  apply int_var_i32 in E1, E2, E3; auto.
  assert (X : exists a t c, make_resolver size hint virt = Ok c /\ m = mkSettings size a t hint virt).
  { destruct (hashing_cast _) as [[]|]; try discriminate H; (destruct (resolver_cast _) as [t|]; [|discriminate H]);
      (destruct (make_resolver size hint virt) as [| |c]; try discriminate H); cbn [bind] in H; injection H as <-; eauto. }
  destruct X as (a & t & c & M & ->). split; [repeat split; auto|]; cbn; eauto; first [apply E1|apply E2|apply E3].
Qed.
Lemma index_start_ok o ch m : int_options o -> index_start o ch = Ok m -> int_settings m /\ exists c, make_resolver (t_size m) (t_hint m) (t_virtual m) = Ok c.
Proof. unfold index_start. intros A H. destruct (get_meta ch); [|discriminate H]. eapply index_settings_ok; eauto. Qed.
Lemma make_resolver_conf size hint virt c : make_resolver size hint virt = Ok c -> c = mkConfig (Z.to_nat size) hint (Z.to_nat virt).
Proof. unfold make_resolver. destruct (_ || _)%Z; [discriminate|]. destruct (startup_ok _); [|discriminate]. congruence. Qed.

Lemma beq_eq a b : beq a b = true -> a = b. Proof. apply beq_iff. Qed.
Lemma var_all vals ch vars : get_meta (Some ch) = Some vars -> NoDup (map fst ch) -> forall k, In (k, Some (vals k)) ch -> var vars k = Some (vals k : bytes).
Proof.
  unfold get_meta. destruct (match last _ _ with Some _ => true | None => false end); [|discriminate]. intros [= <-] ND k I. unfold var.
  induction ch as [|[k0 v0] ch IH]; [destruct I|]. cbn [map fst] in ND. inversion_clear ND as [|? ? NI ND']. cbn [flat_map snd fst].
  destruct I as [[= -> ->]|I].
  - cbn [app find fst]. now rewrite beq_refl.
  - assert (k <> k0) by (intros ->; apply NI; change k0 with (fst (k0, Some (vals k0))); now apply in_map).
    specialize (IH ND' I). destruct v0 as [v0|]; cbn [app]; auto. cbn [find fst].
    destruct (beq k0 k) eqn:E; [apply beq_eq in E; congruence|]. exact IH.
Qed.
Lemma settings_agree vals o1 o2 ch1 ch2 m1 m2 : reads_all vals ch1 -> reads_all vals ch2 ->
  index_start o1 (Some ch1) = Ok m1 -> index_start o2 (Some ch2) = Ok m2 -> m1 = m2.
Proof.
  intros (N1 & A1) (N2 & A2) H1 H2. unfold index_start in *.
  destruct (get_meta (Some ch1)) as [v1|] eqn:E1; [|discriminate H1]. destruct (get_meta (Some ch2)) as [v2|] eqn:E2; [|discriminate H2].
  assert (V1 : forall k, In k setting_names -> var v1 k = Some (vals k)) by (intros k I; eapply var_all; eauto).
  assert (V2 : forall k, In k setting_names -> var v2 k = Some (vals k)) by (intros k I; eapply var_all; eauto).
  unfold index_settings, int_var in *. unfold setting_names in *.
  rewrite !V1 in H1 by (cbn [In]; tauto). rewrite !V2 in H2 by (cbn [In]; tauto). rewrite H1 in H2. congruence.
Qed.

(** ** The start *)
Lemma fresh_shows near s : history s -> exists t, take_sync near fresh_copy (map snd (i_map s)) 0 = (true, t) /\ shows near t (i_map s) /\ c_version t = 0.
Proof.
  intros H. destruct (history_inv s H) as (P & IP). destruct (good_reconstruct P (i_map s) near (v_good _ _ IP)) as (a & b & E & O1 & O2 & A & C).
  exists (mkCopy (i_map s) 0 a b). pose proof (map_of_values P _ (v_good _ _ IP)) as M. split; [|split; [|reflexivity]].
  - rewrite (take_full near fresh_copy (map snd (i_map s)) 0 a b true), M; [reflexivity|cbn; lia|now rewrite M].
  - split; [reflexivity|]. split; [exact O1|]. split; [exact O2|]. split; auto.
Qed.
Lemma start_ok near o ch m s : int_options o -> index_start o ch = Ok m -> history s -> Forall int_node (map snd (i_map s)) ->
  exists d, started_on near m s d /\ shows near (d_copy d) (i_map s) /\ c_version (d_copy d) = 0 /\
    d_hash d = algorithm (t_hash m) /\ d_conf d = mkConfig (Z.to_nat (t_size m)) (t_hint m) (Z.to_nat (t_virtual m)).
Proof.
  intros IO IS H F. destruct (index_start_ok o ch m IO IS) as (SI & c & MC). destruct (fresh_shows near s H) as (t & TS & SH & V).
  exists (mkStarted t (algorithm (t_hash m)) c). split; [|cbn; auto using make_resolver_conf].
  unfold started_on, start_node, add_answer. change (0 <? 0)%Z with false. cbv iota. rewrite add_reply_roundtrip by auto. cbn [bind].
  pose proof (meta_heard m heard_start [] SI) as R. rewrite app_nil_r in R. rewrite R. cbn [bind hears h_type h_size h_hash h_hint h_virtual].
  destruct (t_type m). rewrite MC. cbn [bind]. rewrite TS. reflexivity.
Qed.
Lemma refused near s rest : start_node near (add_answer (-1) s ++ rest) = Err.
Proof.
  unfold start_node, add_answer. change (-1 <? 0)%Z with true. cbv iota. rewrite <- app_assoc. cbn [read_nodes]. rewrite get_line_ok by wordy. reflexivity.
Qed.
