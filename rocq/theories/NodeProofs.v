(** Lemmas on node lines and administrative requests. *)
From Coq Require Import ZArith NArith List Bool Lia String.
From Coq Require Import ZifyBool ZifyNat ZifyN.
From Verif Require Import Base BaseLemmas TextModel TextSpec TextProofs TextProofs2 TextProofs3 ClusterModel ClusterSpec ClusterProofs NodeModel NodeSpec.
Import ListNotations.
Local Open Scope N_scope.
Local Open Scope list_scope.

(** ** Names *)
Lemma role_cast_iff w r : role_cast w = Some r <-> w = role_name r.
Proof.
  unfold role_cast. split.
  - destruct (beq_spec w (s2b "master")) as [->|]; [intros [= <-]; reflexivity|]. destruct (beq_spec w (s2b "slave")) as [->|]; [intros [= <-]; reflexivity|].
    destruct (beq_spec w (s2b "proxy")) as [->|]; [intros [= <-]; reflexivity|easy].
  - intros ->. now destruct r.
Qed.
Lemma state_cast_iff w s : state_cast w = Some s <-> w = state_name s.
Proof.
  unfold state_cast. split.
  - destruct (beq_spec w (s2b "active")) as [->|]; [intros [= <-]; reflexivity|]. destruct (beq_spec w (s2b "prepare")) as [->|]; [intros [= <-]; reflexivity|].
    destruct (beq_spec w (s2b "down")) as [->|]; [intros [= <-]; reflexivity|]. destruct (beq_spec w (s2b "ready")) as [->|]; [intros [= <-]; reflexivity|easy].
  - intros ->. now destruct s.
Qed.
Lemma replication_cast_iff w t : replication_cast w = Some t <-> w = replication_name t.
Proof.
  unfold replication_cast. split.
  - destruct (beq_spec w (s2b "async")) as [->|]; [intros [= <-]; reflexivity|]. destruct (beq_spec w (s2b "sync")) as [->|]; [intros [= <-]; reflexivity|easy].
  - intros ->. now destruct t.
Qed.
Lemma num_role_num r : num_role (role_num r) = Ok r. Proof. now destruct r. Qed.
Lemma num_state_num s : num_state (state_num s) = Ok s. Proof. now destruct s. Qed.
Lemma role_num_i32 r : is_i32 (role_num r). Proof. unfold is_i32. destruct r; cbn; lia. Qed.
Lemma state_num_i32 s : is_i32 (state_num s). Proof. unfold is_i32. destruct s; cbn; lia. Qed.

(** ** Integers *)
Lemma lex_int_pos d : d <= int_max -> lex_int (dec d) = Ok (Z.of_N d).
Proof.
  intros H. destruct (dec_head d) as (c & t & E & Hc). unfold lex_int.
  assert (G : is_unsigned (dec d) && (dec_val (dec d) <=? int_max) = true) by (rewrite is_unsigned_dec, dec_val_dec; lia).
  rewrite E in *. destruct (N.eq_dec c 45) as [->|Hn]; [lia|].
  assert (lex_int (c :: t) = if is_unsigned (c :: t) && (dec_val (c :: t) <=? int_max) then Ok (Z.of_N (dec_val (c :: t))) else Err) as K.
  { unfold lex_int. destruct c as [|p]; [reflexivity|]. repeat (destruct p as [p|p|]; try reflexivity; try (exfalso; apply Hn; reflexivity)). }
  unfold lex_int in K. rewrite K, G. rewrite <- E. now rewrite dec_val_dec.
Qed.
Lemma lex_int_decZ z : is_i32 z -> lex_int (decZ z) = Ok z.
Proof.
  unfold is_i32, decZ. intros H. destruct (Z.ltb_spec z 0).
  - unfold lex_int. rewrite is_unsigned_dec, dec_val_dec. unfold int_max. replace (_ <=? _) with true by lia. cbn [andb]. f_equal. lia.
  - rewrite lex_int_pos; [f_equal; lia|]. unfold int_max. lia.
Qed.
Lemma digit_loop_num len n k r :
  Forall num_byte k -> n + blen k <= len -> match r with [] => True | c :: _ => ~ num_byte c end -> digit_loop len n (k ++ r) = (k, r).
Proof.
  intros Hk. revert n. induction Hk as [|c k Hc Hk IH]; intros n Hn Hr.
  - cbn [app]. now rewrite digit_loop_none.
  - rewrite blen_cons in Hn. cbn [app digit_loop].
    replace (_ && _) with true by (unfold num_byte in Hc; rewrite is_digit_unfold; lia). rewrite IH by (auto; lia). reflexivity.
Qed.
Lemma call_digit_num len k r :
  Forall num_byte k -> k <> [] -> blen k + 1 <= len -> match r with [] => True | c :: _ => ~ num_byte c end ->
  call_digit len (32 :: k ++ r) = Ok (k, r).
Proof.
  intros Hk Hn Hl Hr. rewrite call_digit_ok by (auto; lia). unfold next_digit.
  assert (skip_spaces (32 :: k ++ r) = k ++ r) as ->.
  { cbn [skip_spaces]. change (32 =? 32) with true. cbn match. destruct k as [|c k]; [congruence|]. inversion_clear Hk as [|? ? Hc Hk'].
    cbn [app]. apply skip_spaces_id. unfold num_byte in Hc. lia. }
  rewrite digit_loop_num; auto. rewrite blen_cons. lia.
Qed.
Lemma decZ_num z : Forall num_byte (decZ z) /\ decZ z <> [].
Proof.
  assert (D : forall v, Forall num_byte (dec v)). { intros v. eapply Forall_impl; [|apply dec_digits]. intros c Hc. apply is_digit_range in Hc. now left. }
  unfold decZ. destruct (z <? 0)%Z; split; auto using dec_nonnil; try easy. constructor; auto. now right.
Qed.
Lemma i32_i64 z : is_i32 z -> is_i64 z. Proof. unfold is_i32, is_i64. lia. Qed.
Lemma int_arg_ok len z c r : is_i32 z -> 22 <= len -> ~ num_byte c -> int_arg len (32 :: decZ z ++ c :: r) = Ok (z, c :: r).
Proof.
  intros H L R. unfold int_arg. destruct (decZ_num z) as (D & N0). pose proof (decZ_length z (i32_i64 _ H)).
  rewrite call_digit_num by (auto; lia). cbn [bind]. destruct (decZ z) eqn:E; [easy|]. rewrite <- E, lex_int_decZ by auto. reflexivity.
Qed.
Lemma opt_int_arg_ok z c r : is_i32 z -> ~ num_byte c -> opt_int_arg (32 :: decZ z ++ c :: r) = Ok (z, c :: r).
Proof.
  intros H R. unfold opt_int_arg. destruct (decZ_num z) as (D & N0). pose proof (decZ_length z (i32_i64 _ H)).
  rewrite call_digit_num by (auto; lia). cbn [bind]. destruct (decZ z) eqn:E; [easy|]. rewrite <- E, lex_int_decZ by auto. reflexivity.
Qed.
Lemma word_arg len w c r : Forall word_byte w -> w <> [] -> blen w + 1 <= len -> ~ word_byte c -> call_word len (32 :: w ++ c :: r) = Ok (w, c :: r).
Proof. intros. change (32 :: w ++ c :: r) with (repeat 32 1 ++ w ++ c :: r). now apply call_word_token. Qed.
Lemma word_first len w c r : Forall word_byte w -> w <> [] -> blen w + 1 <= len -> ~ word_byte c -> call_word len (w ++ c :: r) = Ok (w, c :: r).
Proof. intros. change (w ++ c :: r) with (repeat 32 0 ++ w ++ c :: r). now apply call_word_token. Qed.
Lemma call_word_lf len : 1 <= len -> call_word len [10] = Ok ([], [10]).
Proof. intros H. rewrite call_word_ok by lia. reflexivity. Qed.
Lemma not_word_32 : ~ word_byte 32. Proof. unfold word_byte. lia. Qed.
Lemma not_word_10 : ~ word_byte 10. Proof. unfold word_byte. lia. Qed.
Lemma not_num_32 : ~ num_byte 32. Proof. unfold num_byte. lia. Qed.
Lemma not_num_10 : ~ num_byte 10. Proof. unfold num_byte. lia. Qed.
Lemma snprintf_id s : blen s <= 8191 -> snprintf s = s.
Proof. intros H. unfold snprintf. apply firstn_all2. unfold blen in H. lia. Qed.

(** ** NODE lines *)
Definition line_of (n : node) : bytes :=
  s2b "NODE" ++ 32 :: n_name n ++ 32 :: decZ (n_port n) ++ 32 :: decZ (role_num (n_role n)) ++ 32 :: decZ (state_num (n_state n))
    ++ 32 :: decZ (n_partition n) ++ 32 :: decZ (n_balance n) ++ 32 :: decZ (n_thread n).
Lemma node_line_ok n : int_node n -> node_line n = line_of n /\ no_lf (line_of n).
Proof.
  intros ((N0 & W & L) & P1 & P2 & P3 & P4). unfold node_line. rewrite (cstr_key _ W). split.
  - rewrite snprintf_id; [reflexivity|]. rewrite !blen_app.
    pose proof (decZ_length _ (i32_i64 _ P1)). pose proof (decZ_length _ (i32_i64 _ P2)). pose proof (decZ_length _ (i32_i64 _ P3)). pose proof (decZ_length _ (i32_i64 _ P4)).
    pose proof (decZ_length _ (i32_i64 _ (role_num_i32 (n_role n)))). pose proof (decZ_length _ (i32_i64 _ (state_num_i32 (n_state n)))).
    change (blen (s2b "NODE ")) with 5. change (blen sp) with 1. lia.
  - unfold line_of. apply Forall_app. split; [vm_compute; repeat constructor; discriminate|]. constructor; [lia|]. apply Forall_app. split; [now apply no_lf_word|].
    repeat (constructor; [lia|]; try (apply no_lf_decZ); apply Forall_app; split; [apply no_lf_decZ|]). constructor; [lia|]. apply no_lf_decZ.
Qed.
Lemma bufsiz_22 : 22 <= BUFSIZ. Proof. unfold BUFSIZ. lia. Qed.
Lemma parse_node_ok n : int_node n -> parse_node (line_of n ++ [10]) = Ok n.
Proof.
  intros ((N0 & W & L) & P1 & P2 & P3 & P4). unfold parse_node, line_of. rewrite <- !app_assoc. cbn [app]. pose proof bufsiz_22 as B.
  rewrite word_first; [|vm_compute; repeat constructor; discriminate|discriminate|vm_compute; discriminate|apply not_word_32].
  cbn [bind]. change (beq (s2b "NODE") (s2b "NODE")) with true. cbn [negb].
  cbn [app]. rewrite <- !app_assoc. cbn [app].
  assert (LB : blen (n_name n) + 1 <= BUFSIZ) by (unfold BUFSIZ; lia).
  rewrite (word_arg _ _ _ _ W N0 LB not_word_32). cbn [bind].
  destruct (beq_spec (n_name n) []) as [|_]; [easy|].
  rewrite <- !app_assoc. cbn [app]. rewrite (int_arg_ok _ _ _ _ P1 B not_num_32). cbn [bind].
  rewrite <- !app_assoc. cbn [app]. rewrite (int_arg_ok _ _ _ _ (role_num_i32 _) B not_num_32). cbn [bind]. rewrite num_role_num. cbn [bind].
  rewrite <- !app_assoc. cbn [app]. rewrite (int_arg_ok _ _ _ _ (state_num_i32 _) B not_num_32). cbn [bind]. rewrite num_state_num. cbn [bind].
  rewrite <- !app_assoc. cbn [app]. rewrite (int_arg_ok _ _ _ _ P2 B not_num_32). cbn [bind].
  rewrite <- !app_assoc. cbn [app]. rewrite (int_arg_ok _ _ _ _ P3 B not_num_32). cbn [bind].
  rewrite (int_arg_ok _ _ _ _ P4 B not_num_10). cbn [bind]. now destruct n.
Qed.
Lemma read_nodes_ok ns : forall fuel rest, Forall int_node ns -> (List.length ns < fuel)%nat -> read_nodes fuel (node_lines ns ++ rest) = Ok (ns, rest).
Proof.
  induction ns as [|n ns IH]; intros fuel rest F Hf; (destruct fuel as [|fuel]; [cbn [List.length] in Hf; lia|]); cbn [read_nodes].
  - unfold node_lines. cbn [flat_map app]. rewrite <- app_assoc, get_line_ok by (vm_compute; repeat constructor; discriminate). reflexivity.
  - inversion_clear F as [|? ? Hn Hns]. unfold node_lines. cbn [flat_map]. destruct (node_line_ok n Hn) as (-> & NL).
    rewrite <- !app_assoc. rewrite get_line_ok by auto. cbn [bind].
    assert (beq (line_of n ++ [10]) (s2b "END" ++ [10]) = false) as -> by reflexivity.
    rewrite parse_node_ok by auto. cbn [bind].
    specialize (IH fuel rest Hns). unfold node_lines in IH. rewrite <- !app_assoc in IH. rewrite IH by (cbn [List.length] in Hf; lia). reflexivity.
Qed.
Lemma node_lines_length ns : (List.length ns <= List.length (node_lines ns))%nat.
Proof.
  unfold node_lines. rewrite app_length. enough (List.length ns <= List.length (flat_map (fun n => node_line n ++ crlf) ns))%nat by lia.
  induction ns as [|n ns IH]; cbn [flat_map List.length]; [lia|]. rewrite !app_length. change (List.length crlf) with 2%nat. lia.
Qed.

(** ** Requests *)
Ltac nf := repeat progress (rewrite <- ?app_assoc; cbn [app]).
Lemma node_command w r rest : Forall word_byte w -> w <> [] -> blen w + 1 <= BUFSIZ -> no_lf r -> hd 32 r = 32 ->
  get_line (s2b "node" ++ 32 :: w ++ r ++ crlf ++ rest) = Ok (s2b "node" ++ 32 :: w ++ r ++ [10], rest) /\
  parse_command (s2b "node" ++ 32 :: w ++ r ++ [10]) = Ok (mkCommand false [] (s2b "node"), 32 :: w ++ r ++ [10]) /\
  call_word BUFSIZ (32 :: w ++ r ++ [10]) = Ok (w, r ++ [10]).
Proof.
  intros W N0 L NL H. split; [|split].
  - replace (s2b "node" ++ 32 :: w ++ r ++ crlf ++ rest) with ((s2b "node" ++ 32 :: w ++ r) ++ crlf ++ rest) by (nf; reflexivity).
    rewrite get_line_ok; [nf; reflexivity|]. apply Forall_app. split; [vm_compute; repeat constructor; discriminate|].
    constructor; [lia|]. apply Forall_app. split; auto. now apply no_lf_word.
  - change (s2b "node" ++ 32 :: w ++ r ++ [10]) with (proxy_ident [] ++ s2b "node" ++ 32 :: w ++ r ++ [10]).
    rewrite parse_command_ok; [reflexivity|constructor|vm_compute; repeat constructor; discriminate|discriminate|vm_compute; discriminate|vm_compute; discriminate|apply not_word_32].
  - destruct r as [|c r]; cbn [app hd] in *; subst; apply word_arg; auto using not_word_10, not_word_32.
Qed.
Lemma sync_roundtrip ns v rest : Forall int_node ns -> v < 2 ^ 64 -> serve_sync (sync_request ns v ++ rest) = Ok (v, ns, rest).
Proof.
  intros F V. unfold sync_request, serve_sync. pose proof (dec_length_u64 v V) as DL.
  rewrite snprintf_id. 2:{ rewrite blen_app. unfold blen at 2. change (blen (s2b "node sync ")) with 10. lia. }
  destruct (node_command (s2b "sync") (32 :: dec v) (node_lines ns ++ rest)) as (A & B & C);
    [vm_compute; repeat constructor; discriminate|discriminate|vm_compute; discriminate|constructor; [lia|apply no_lf_dec]|reflexivity|].
  replace ((s2b "node sync " ++ dec v) ++ crlf ++ node_lines ns) with (s2b "node" ++ 32 :: s2b "sync" ++ (32 :: dec v) ++ crlf ++ node_lines ns) by (nf; reflexivity).
  replace ((s2b "node" ++ 32 :: s2b "sync" ++ (32 :: dec v) ++ crlf ++ node_lines ns) ++ rest) with (s2b "node" ++ 32 :: s2b "sync" ++ (32 :: dec v) ++ crlf ++ node_lines ns ++ rest) by (nf; reflexivity).
  rewrite A. cbn [bind]. rewrite B. cbn [bind c_word]. change (beq (s2b "node") (s2b "node")) with true. cbn [negb]. rewrite C. cbn [bind].
  change (beq (s2b "sync") (s2b "sync")) with true. cbn [negb].
  assert (SV : sync_version ((32 :: dec v) ++ [10]) = Ok v).
  { unfold sync_version. cbn [app]. rewrite call_digit_token; auto using dec_digits, dec_nonnil; [|unfold blen; lia|apply not_num_10]. cbn [bind].
    destruct (dec v) eqn:E; [now apply dec_nonnil in E|]. rewrite <- E, lex_u_dec by (unfold u64_max; lia). cbn [bind]. rewrite call_word_lf by lia. reflexivity. }
  rewrite SV. cbn [bind]. rewrite read_nodes_ok; auto. rewrite app_length. pose proof (node_lines_length ns). lia.
Qed.
Lemma add_reply_roundtrip ns rest : Forall int_node ns -> read_nodes (S (List.length (node_lines ns ++ rest))) (node_lines ns ++ rest) = Ok (ns, rest).
Proof. intros F. apply read_nodes_ok; auto. rewrite app_length. pose proof (node_lines_length ns). lia. Qed.

Lemma line_end_ok {A} (x : A) : line_end [10] x = Ok x. Proof. unfold line_end. now rewrite call_word_lf by lia. Qed.
Lemma admin_line w h p t rest : In w [s2b "add"; s2b "remove"; s2b "role"; s2b "state"] -> host_name h -> is_i32 p -> blen t <= 60 -> no_lf t -> hd 32 t = 32 ->
  snprintf (s2b "node " ++ w ++ 32 :: cstr h ++ sp ++ decZ p ++ t) = s2b "node" ++ 32 :: w ++ 32 :: h ++ 32 :: decZ p ++ t /\
  get_line ((s2b "node" ++ 32 :: w ++ 32 :: h ++ 32 :: decZ p ++ t) ++ crlf ++ rest) = Ok (s2b "node" ++ 32 :: w ++ (32 :: h ++ 32 :: decZ p ++ t) ++ [10], rest) /\
  parse_command (s2b "node" ++ 32 :: w ++ (32 :: h ++ 32 :: decZ p ++ t) ++ [10]) = Ok (mkCommand false [] (s2b "node"), 32 :: w ++ (32 :: h ++ 32 :: decZ p ++ t) ++ [10]) /\
  call_word BUFSIZ (32 :: w ++ (32 :: h ++ 32 :: decZ p ++ t) ++ [10]) = Ok (w, (32 :: h ++ 32 :: decZ p ++ t) ++ [10]).
Proof.
  intros Iw Hh Hp Lt NLt Ht. pose proof Hh as (N0 & W & L).
  assert (PW : Forall word_byte w /\ w <> [] /\ blen w <= 6).
  { cbn [In] in Iw. decompose [or] Iw; try tauto; subst w; (split; [vm_compute; repeat constructor; discriminate|split; [discriminate|vm_compute; discriminate]]). }
  destruct PW as (W1 & W2 & W3). rewrite (cstr_key _ W). split.
  - rewrite snprintf_id; [reflexivity|]. rewrite !blen_app, blen_cons, !blen_app. pose proof (decZ_length _ (i32_i64 _ Hp)). change (blen (s2b "node ")) with 5. change (blen sp) with 1. lia.
  - destruct (node_command w (32 :: h ++ 32 :: decZ p ++ t) rest) as (A & B & C); auto.
    + unfold BUFSIZ. lia.
    + constructor; [lia|]. apply Forall_app. split; [now apply no_lf_word|]. constructor; [lia|]. apply Forall_app. split; [apply no_lf_decZ|exact NLt].
    + split; [|auto]. rewrite <- A. f_equal. nf. reflexivity.
Qed.
Lemma role_name_word r : Forall word_byte (role_name r) /\ role_name r <> [] /\ blen (role_name r) <= 6.
Proof. destruct r; (split; [vm_compute; repeat constructor; discriminate|split; [discriminate|vm_compute; discriminate]]). Qed.
Lemma state_name_word r : Forall word_byte (state_name r) /\ state_name r <> [] /\ blen (state_name r) <= 7.
Proof. destruct r; (split; [vm_compute; repeat constructor; discriminate|split; [discriminate|vm_compute; discriminate]]). Qed.
Lemma host_rest h p t : host_name h -> is_i32 p -> hd 32 t = 32 -> host_args ((32 :: h ++ 32 :: decZ p ++ t) ++ [10]) = Ok (h, p, t ++ [10]).
Proof.
  intros Hh Hp Ht. cbn [app]. rewrite <- app_assoc. cbn [app]. rewrite <- app_assoc. pose proof Hh as (N0 & W & L).
  assert (LB : blen h + 1 <= 1024) by lia.
  unfold host_args. rewrite (word_arg _ _ _ _ W N0 LB not_word_32). cbn [bind]. destruct (beq_spec h []) as [|_]; [easy|].
  destruct t as [|c t]; cbn [app hd] in *; subst; rewrite int_arg_ok; auto using not_num_10, not_num_32; lia.
Qed.
Lemma some_inj {A} (a b : A) : Some a = Some b -> a = b. Proof. congruence. Qed.
Lemma admin_roundtrip e l rest : admin_ok e -> admin_request e = Some l -> serve_admin (l ++ rest) = Ok (e, rest).
Proof.
  intros OK R. destruct e as [h p|h p|h p ro b q|h p st|]; cbn [admin_ok admin_request] in *; [| | | |easy]; apply some_inj in R; rewrite <- R; clear R.
  - destruct OK as (Hh & Hp). destruct (admin_line (s2b "add") h p [] rest) as (A & B & C & D); cbn [In]; [auto 8|exact Hh|exact Hp|vm_compute; discriminate|constructor|reflexivity|].
    replace (s2b "node add " ++ cstr h ++ sp ++ decZ p) with (s2b "node " ++ s2b "add" ++ 32 :: cstr h ++ sp ++ decZ p ++ []) by (rewrite app_nil_r; reflexivity).
    rewrite A, <- app_assoc. unfold serve_admin. rewrite B. cbn [bind]. rewrite C. cbn [bind c_word]. change (beq (s2b "node") (s2b "node")) with true. cbn [negb].
    rewrite D. cbn [bind]. change (beq (s2b "add") (s2b "add")) with true. cbn match. rewrite host_rest by auto. cbn [bind app]. rewrite line_end_ok. reflexivity.
  - destruct OK as (Hh & Hp). destruct (admin_line (s2b "remove") h p [] rest) as (A & B & C & D); cbn [In]; [auto 8|exact Hh|exact Hp|vm_compute; discriminate|constructor|reflexivity|].
    replace (s2b "node remove " ++ cstr h ++ sp ++ decZ p) with (s2b "node " ++ s2b "remove" ++ 32 :: cstr h ++ sp ++ decZ p ++ []) by (rewrite app_nil_r; reflexivity).
    rewrite A, <- app_assoc. unfold serve_admin. rewrite B. cbn [bind]. rewrite C. cbn [bind c_word]. change (beq (s2b "node") (s2b "node")) with true. cbn [negb].
    rewrite D. cbn [bind]. change (beq (s2b "remove") (s2b "add")) with false. change (beq (s2b "remove") (s2b "remove")) with true. cbn match. rewrite host_rest by auto. cbn [bind app]. rewrite line_end_ok. reflexivity.
  - destruct OK as (Hh & Hp & Hb & Hq). destruct (role_name_word ro) as (W1 & W2 & W3).
    set (t := 32 :: role_name ro ++ 32 :: decZ b ++ 32 :: decZ q).
    destruct (admin_line (s2b "role") h p t rest) as (A & B & C & D); cbn [In]; [auto 8|exact Hh|exact Hp| | |reflexivity|].
    { unfold t. rewrite blen_cons, blen_app, blen_cons, blen_app, blen_cons. pose proof (decZ_length _ (i32_i64 _ Hb)). pose proof (decZ_length _ (i32_i64 _ Hq)). lia. }
    { unfold t. constructor; [lia|]. apply Forall_app. split; [now apply no_lf_word|]. constructor; [lia|]. apply Forall_app. split; [apply no_lf_decZ|]. constructor; [lia|apply no_lf_decZ]. }
    replace (s2b "node role " ++ (cstr h ++ sp ++ decZ p) ++ sp ++ role_name ro ++ sp ++ decZ b ++ sp ++ decZ q) with (s2b "node " ++ s2b "role" ++ 32 :: cstr h ++ sp ++ decZ p ++ t)
      by (unfold t; rewrite <- ?app_assoc; reflexivity).
    rewrite A, <- app_assoc. unfold serve_admin. rewrite B. cbn [bind]. rewrite C. cbn [bind c_word]. change (beq (s2b "node") (s2b "node")) with true. cbn [negb].
    rewrite D. cbn [bind]. change (beq (s2b "role") (s2b "add")) with false. change (beq (s2b "role") (s2b "remove")) with false. change (beq (s2b "role") (s2b "role")) with true. cbn match.
    unfold parse_role. rewrite host_rest by auto. cbn [bind]. unfold t. cbn [app]. rewrite <- !app_assoc. cbn [app].
    rewrite (word_arg 1024 _ _ _ W1 W2 ltac:(lia) not_word_32). cbn [bind]. rewrite (proj2 (role_cast_iff (role_name ro) ro) eq_refl).
    rewrite <- !app_assoc. cbn [app]. rewrite (opt_int_arg_ok _ _ _ Hb not_num_32). cbn [bind]. rewrite (opt_int_arg_ok _ _ _ Hq not_num_10). reflexivity.
  - destruct OK as (Hh & Hp). destruct (state_name_word st) as (W1 & W2 & W3).
    set (t := 32 :: state_name st).
    destruct (admin_line (s2b "state") h p t rest) as (A & B & C & D); cbn [In]; [auto 8|exact Hh|exact Hp| | |reflexivity|].
    { unfold t. rewrite blen_cons. lia. }
    { unfold t. constructor; [lia|]. now apply no_lf_word. }
    replace (s2b "node state " ++ (cstr h ++ sp ++ decZ p) ++ sp ++ state_name st) with (s2b "node " ++ s2b "state" ++ 32 :: cstr h ++ sp ++ decZ p ++ t)
      by (unfold t; rewrite <- ?app_assoc; reflexivity).
    rewrite A, <- app_assoc. unfold serve_admin. rewrite B. cbn [bind]. rewrite C. cbn [bind c_word]. change (beq (s2b "node") (s2b "node")) with true. cbn [negb].
    rewrite D. cbn [bind]. change (beq (s2b "state") (s2b "add")) with false. change (beq (s2b "state") (s2b "remove")) with false. change (beq (s2b "state") (s2b "role")) with false. change (beq (s2b "state") (s2b "state")) with true. cbn match.
    unfold parse_state. rewrite host_rest by auto. cbn [bind]. unfold t. cbn [app].
    rewrite (word_arg 1024 _ _ _ W1 W2 ltac:(lia) not_word_10). cbn [bind]. rewrite (proj2 (state_cast_iff (state_name st) st) eq_refl). rewrite line_end_ok. reflexivity.
Qed.

(** ** Node keys *)
Lemma split_colon_app a b : ~ In 58 a -> split_colon (a ++ 58 :: b) = Some (a, b).
Proof.
  induction a as [|c a IH]; intros H; cbn [app split_colon].
  - reflexivity.
  - destruct (N.eqb_spec c 58) as [->|]; [exfalso; apply H; now left|]. rewrite IH by (intros I; apply H; now right). reflexivity.
Qed.
Lemma node_key_roundtrip h p : ~ In 58 h -> is_i32 p -> from_node_key (to_node_key h p) = Ok (h, p).
Proof.
  intros H P. unfold from_node_key, to_node_key. cbn [app]. rewrite split_colon_app by auto. now rewrite lex_int_decZ.
Qed.

(** [int_node] by computation, for examples. *)
Definition int_node_b (n : node) : bool :=
  let i z := ((-2147483648 <=? z) && (z <? 2147483648))%Z in
  negb (beq (n_name n) []) && forallb (fun c => negb (c =? 0) && negb (c =? 32) && negb (c =? 10)) (n_name n) && (blen (n_name n) <? 1024) &&
  i (n_port n) && i (n_partition n) && i (n_balance n) && i (n_thread n).
Lemma int_nodes_compute ns : forallb int_node_b ns = true -> Forall int_node ns.
Proof.
  intros H. apply Forall_forall. intros n I. rewrite forallb_forall in H. specialize (H n I). unfold int_node_b in H.
  repeat (apply andb_prop in H as (H & ?)). unfold int_node, host_name, is_i32.
  split; [|lia]. split; [intros E; now rewrite E in H|]. split; [|lia]. apply Forall_forall. intros c J.
  match goal with X : forallb _ _ = true |- _ => rewrite forallb_forall in X; specialize (X c J) end. unfold word_byte. lia.
Qed.
