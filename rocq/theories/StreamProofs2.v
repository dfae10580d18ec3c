(** Proofs for the stream property (C20): whole requests. *)
From Coq Require Import ZArith NArith List Bool Lia ZifyBool ZifyNat ZifyN String.
From Verif Require Import Base BaseLemmas StorageModel TextModel TextSpec TextProofs TextProofs2 TextProofs3 StreamModel StreamSpec StreamProofs.
Import ListNotations.
Local Open Scope N_scope.
Local Open Scope list_scope.

Lemma app_lf a b l : a ++ b = l ++ [10] -> ~ In 10 a -> exists s, b = s ++ [10] /\ l = a ++ s.
Proof.
  intros E H. destruct b as [|x b _] using rev_ind.
  - rewrite app_nil_r in E. subst a. exfalso. apply H. rewrite in_app_iff. right. now left.
  - rewrite app_assoc in E. apply app_inj_tail in E as (E & ->). exists b. auto.
Qed.
Lemma word_no_lf w : Forall word_byte w -> ~ In 10 w.
Proof. intros H X. rewrite Forall_forall in H. specialize (H _ X). unfold word_byte in H. tauto. Qed.
Lemma find_char_split c s a b : find_char c s = Some (a, b) -> s = a ++ c :: b.
Proof.
  revert a b. induction s as [|x s IH]; cbn; [discriminate|]. intros a b. destruct (N.eqb_spec x c) as [->|].
  - now intros [= <- <-].
  - destruct (x =? 0); [discriminate|]. destruct (find_char c s) as [(a', b')|]; [|discriminate]. intros [= <- <-]. now rewrite (IH _ _ eq_refl).
Qed.
(** The rest of the line after the first word. *)
Lemma parse_command_rest l cmd rest : ~ In 10 l -> parse_command (l ++ [10]) = Ok (cmd, rest) ->
  exists q s, l = q ++ s /\ rest = s ++ [10] /\
    match s with [] => True | x :: _ => x = 0 \/ x = 32 \/ blen (c_word cmd) = 1023 end.
Proof.
  intros Hl. unfold parse_command.
  set (head := match l ++ [10] with
               | 60 :: line' => match find_char 62 line' with Some (t, r) => (true, vector_split t 44, r) | None => (false, [], l ++ [10]) end
               | _ => (false, [], l ++ [10]) end).
  assert (HP : exists q s, l = q ++ s /\ snd head = s ++ [10]).
  { assert (D : exists q s, l = q ++ s /\ l ++ [10] = s ++ [10]) by (exists [], l; auto).
    subst head. destruct l as [|c l]; [exact D|]. cbn [app].
    destruct c as [|p]; [exact D|]. repeat (destruct p as [p|p|]; try exact D).
    change (Npos 60) with 60 in *. destruct (find_char 62 (l ++ [10])) as [(t, r)|] eqn:F; [|exact D]. cbn [snd].
    apply find_char_split in F. change (t ++ 62 :: r) with (t ++ [62] ++ r) in F. rewrite app_assoc in F. symmetry in F.
    apply app_lf in F.
    - destruct F as (s & -> & ->). exists (60 :: t ++ [62]), s. auto.
    - intros X. apply Hl. right.
      destruct r as [|y r _] using rev_ind.
      + rewrite app_nil_r in F. apply app_inj_tail in F as (_ & F). discriminate.
      + rewrite app_assoc in F. apply app_inj_tail in F as (<- & _). rewrite in_app_iff. now left. }
  clearbody head. destruct head as [[proxied trail] p]. cbn [snd] in HP. destruct HP as (q & s & -> & ->).
  rewrite call_word_ok by lia. cbn [bind]. pose proof (next_word_spec 1024 (s ++ [10])) as S.
  pose proof (next_word_safe 1024 (s ++ [10])) as B. destruct (next_word 1024 (s ++ [10])) as [w r]. cbn [fst] in B. cbn [bind].
  intros [= <- <-]. cbn [c_word]. destruct S as ((n & S1) & S2 & S3 & _). symmetry in S1. rewrite app_assoc in S1. apply app_lf in S1.
  - destruct S1 as (s' & -> & ->). exists (q ++ repeat 32 n ++ w), s'. split; [now rewrite !app_assoc|]. split; [reflexivity|].
    destruct s' as [|x s']; auto. cbn [app] in S3. destruct S3 as [S3|S3]; [|right; right; lia].
    destruct (N.eq_dec x 0); [now left|]. destruct (N.eq_dec x 32); [right; now left|]. exfalso. apply S3. split; auto. split; auto.
    intros ->. apply Hl. rewrite !in_app_iff. right. right. now left.
  - rewrite in_app_iff. intros [X|X]; [apply repeat_spec in X; discriminate|now apply word_no_lf in X].
Qed.

(** ** The rest of the line pushed back and read again *)
Lemma readline_sock_shape ss r line c1 : readline_sock r None ss = Ok (line, c1) ->
  rbuf c1 = None \/ exists u, rbuf c1 = Some ([], u).
Proof.
  revert r. induction ss as [|seg ss IH]; intros r; cbn [readline_sock]; [discriminate|].
  destruct seg as [|x seg]; [discriminate|]. destruct (cut_line (x :: seg)) as [(l, rest)|].
  - intros [= <- <-]. cbn [rbuf]. destruct rest; [now left|]. right. cbn [add_read_buf]. eauto.
  - apply IH.
Qed.
Lemma readline_shape c line c1 : unread c <> [] -> readline c = Ok (line, c1) ->
  (exists pre l u, rbuf c1 = Some (pre ++ l ++ [10], u) /\ line = drop_cr l ++ [10])
  \/ rbuf c1 = None \/ exists u, rbuf c1 = Some ([], u).
Proof.
  destruct c as [[(pre, [|x u])|] ss]; unfold unread, readline; cbn [rbuf segs]; try easy. intros _.
  destruct (cut_line (x :: u)) as [(l, rest)|].
  - intros [= <- <-]. left. exists pre, l, rest. auto.
  - intros H. right. eapply readline_sock_shape; eauto.
Qed.
Lemma push_back_segs c p : segs (push_back c p) = segs c.
Proof. unfold push_back. destruct (rbuf c) as [(pre, u)|]; [|reflexivity]. destruct (_ <=? _); reflexivity. Qed.
Lemma drop_cr_cases l : drop_cr l = l \/ l = drop_cr l ++ [13].
Proof.
  destruct l as [|x l _] using rev_ind; [now left|]. rewrite drop_cr_app by easy. unfold drop_cr. cbn [rev app].
  destruct (N.eq_dec x 13) as [->|]; [right; cbn [rev]; now rewrite app_nil_r|].
  destruct x as [|[[[[]| |]|[[]| |]|]|[[[]| |]|[[]| |]|]|]]; try (now left); congruence.
Qed.
Lemma push_back_rest c line c1 q s : unread c <> [] -> readline c = Ok (line, c1) -> line = (q ++ s) ++ [10] ->
  exists p, stream (push_back c1 (s ++ [10])) = p ++ stream c1 /\
    (p = s ++ [10] \/ exists x s', s = x :: s' /\ p = s' ++ [13; 10]).
Proof.
  intros U R L. destruct (readline_shape _ _ _ U R) as [(pre & l & u & E & E')|[E|(u & E)]].
  - rewrite E' in L. apply app_inj_tail in L as (L & _). destruct c1 as [b ss]. cbn [rbuf] in E. subst b.
    destruct (drop_cr_cases l) as [D|D].
    + rewrite D in L. subst l. exists (s ++ [10]). split; [|now left].
      replace (pre ++ (q ++ s) ++ [10]) with ((pre ++ q) ++ (s ++ [10])) by now rewrite !app_assoc.
      rewrite push_back_lazy. unfold stream, unread. cbn [rbuf segs]. now rewrite app_assoc.
    + rewrite L in D. destruct s as [|x s].
      * exists [10]. split; [|now left]. subst l. replace (pre ++ ((q ++ []) ++ [13]) ++ [10]) with ((pre ++ q ++ [13]) ++ [10]) by now rewrite app_nil_r, !app_assoc.
        cbn [app]. rewrite push_back_lazy. reflexivity.
      * exists (s ++ [13; 10]). split; [|right; eauto]. subst l.
        replace (pre ++ ((q ++ x :: s) ++ [13]) ++ [10]) with ((pre ++ q ++ [x]) ++ s ++ [13; 10])
          by (rewrite <- !app_assoc; reflexivity).
        assert (PL : push_back (mkConn (Some ((pre ++ q ++ [x]) ++ s ++ [13; 10], u)) ss) ((x :: s) ++ [10])
                   = push_back (mkConn (Some ((pre ++ q ++ [x]) ++ s ++ [13; 10], u)) ss) (s ++ [13; 10])).
        { assert (LL : List.length ((x :: s) ++ [10]) = List.length (s ++ [13; 10])) by (rewrite !app_length; cbn [List.length]; lia).
          unfold push_back. cbn [rbuf segs]. unfold blen. rewrite LL.
          destruct (N.leb_spec (N.of_nat (List.length (s ++ [13; 10]))) (N.of_nat (List.length ((pre ++ q ++ [x]) ++ s ++ [13; 10])))) as [|X]; [reflexivity|].
          rewrite (app_length (pre ++ q ++ [x])) in X. lia. }
        rewrite PL, push_back_lazy. unfold stream, unread. cbn [rbuf segs]. now rewrite app_assoc.
  - exists (s ++ [10]). split; [|now left]. destruct c1 as [b ss]. cbn [rbuf] in E. subst b. reflexivity.
  - exists (s ++ [10]). split; [|now left]. destruct c1 as [b ss]. cbn [rbuf] in E. subst b. unfold push_back. cbn [rbuf segs].
    destruct (N.leb_spec (blen (s ++ [10])) (blen [])) as [X|X].
    + rewrite blen_app, blen_cons in X. rewrite blen_nil in X. lia.
    + unfold stream, unread. cbn [rbuf segs]. now rewrite app_assoc.
Qed.

Lemma get_line_shape s line rest : get_line s = Ok (line, rest) -> exists l, line = l ++ [10] /\ ~ In 10 l.
Proof.
  unfold get_line. destruct (cut_line s) as [(l, r)|] eqn:E; [|discriminate]. intros [= <- <-].
  apply cut_line_split in E as (_ & H). exists (drop_cr l). split; auto. intros X. apply H.
  destruct (drop_cr_cases l) as [D|D]; [now rewrite D in X|]. rewrite D, in_app_iff. now left.
Qed.

(** After the line is split, the operation reads the rest of it, maybe without the
    character that ended the first word. *)
Lemma conn_line_ok c line s' cmd rest :
  wf_conn c -> unread c <> [] -> plain_line (stream c) ->
  get_line (stream c) = Ok (line, s') -> parse_command line = Ok (cmd, rest) ->
  exists c1 c2 rest', conn_line c = Ok (cmd, c1) /\ readline c1 = Ok (rest', c2) /\ stream c2 = s' /\ wf_conn c2
    /\ (rest' = rest \/ exists x, rest = x :: rest' /\ (x = 32 \/ blen (c_word cmd) = 1023)).
Proof.
  intros W U PL G P. pose proof (readline_agrees c W) as A. rewrite G in A. unfold conn_line.
  destruct (readline c) as [| |(line', c0)] eqn:R; try easy. destruct A as (-> & A & W0). cbn [bind]. rewrite P. cbn [bind].
  destruct (get_line_shape _ _ _ G) as (l & -> & Hl). destruct (PL _ _ G) as (PN & PC & _).
  destruct (parse_command_rest _ _ _ Hl P) as (q & s & -> & -> & Hx).
  destruct (push_back_rest c _ c0 q s U R eq_refl) as (p & E & Hp).
  assert (W1 : wf_conn (push_back c0 (s ++ [10]))) by (unfold wf_conn; rewrite push_back_segs; exact W0).
  pose proof (readline_agrees _ W1) as A1. rewrite E in A1. rewrite in_app_iff in Hl.
  exists (push_back c0 (s ++ [10])). destruct Hp as [->|(x & s1 & -> & ->)].
  - rewrite <- app_assoc in A1. cbn [app] in A1. unfold get_line in A1. rewrite cut_line_ok' in A1 by tauto.
    destruct (readline (push_back c0 (s ++ [10]))) as [| |(r2, c2)]; try easy. destruct A1 as (-> & A1 & W2).
    exists c2, (s ++ [10]). split; [reflexivity|]. split.
    + f_equal. f_equal. destruct (drop_cr_cases s) as [D|D]; [now rewrite D|]. exfalso.
      apply (PC (q ++ drop_cr s)). rewrite D at 1. rewrite <- !app_assoc. reflexivity.
    + split; [congruence|]. split; [exact W2|now left].
  - replace ((s1 ++ [13; 10]) ++ stream c0) with ((s1 ++ [13]) ++ 10 :: stream c0) in A1 by (rewrite <- !app_assoc; reflexivity).
    unfold get_line in A1. rewrite cut_line_ok' in A1.
    2:{ rewrite in_app_iff. cbn [In] in *. intros [X|[X|X]]; [tauto|discriminate|tauto]. }
    rewrite drop_cr_snoc in A1. cbn [app] in *.
    destruct (readline (push_back c0 (x :: s1 ++ [10]))) as [| |(r2, c2)]; try easy. destruct A1 as (-> & A1 & W2).
    exists c2, (s1 ++ [10]). split; [reflexivity|]. split; [reflexivity|]. split; [congruence|]. split; [exact W2|]. right. exists x. split; [reflexivity|].
    destruct Hx as [->|[->|Hx]]; auto. exfalso. apply PN. rewrite !in_app_iff. left. right. now left.
Qed.

(** The operations skip leading spaces. *)
Lemma call_word_space len p : call_word len (32 :: p) = call_word len p. Proof. reflexivity. Qed.
Lemma parse_entry_space now t p : parse_entry now t (32 :: p) = parse_entry now t p. Proof. reflexivity. Qed.
Lemma words_fuel f1 f2 p : (List.length p < f1)%nat -> (List.length p < f2)%nat -> words f1 p = words f2 p.
Proof.
  revert f2 p. induction f1 as [|f1 IH]; intros f2 p H1 H2; [lia|]. destruct f2 as [|f2]; [lia|]. cbn [words].
  destruct (call_word BUFSIZ p) as [| |[w r]] eqn:E; cbn [bind]; auto.
  destruct w as [|c w]; [reflexivity|]. apply call_word_shrinks in E; [|congruence]. rewrite (IH f2 r) by lia. reflexivity.
Qed.
Lemma serve_get_space p : serve_get (32 :: p) = serve_get p.
Proof.
  unfold serve_get. cbn [words]. rewrite call_word_space. cbn [List.length].
  destruct (call_word BUFSIZ p) as [| |[w r]] eqn:E; cbn [bind]; auto. destruct w as [|c w]; [reflexivity|].
  apply call_word_shrinks in E; [|congruence]. rewrite (words_fuel (S (List.length p)) (List.length p) r) by lia. reflexivity.
Qed.
Lemma long_word_unknown w : blen w = 1023 ->
  mem w store_idents = false /\ beq w (s2b "delete") = false /\ mem w [s2b "touch"; s2b "gat"] = false
  /\ mem w [s2b "incr"; s2b "decr"] = false /\ mem w [s2b "get"; s2b "gets"] = false /\ forall l, serve_other w l = Err.
Proof.
  intros H. assert (N : forall k, blen k < 100 -> beq w k = false).
  { intros k Hk. destruct (beq w k) eqn:E; auto. apply beq_eq in E. subst. lia. }
  unfold serve_other, mem, store_idents, other_words. cbn [existsb]. rewrite !N by (vm_compute; reflexivity). auto 10.
Qed.

Lemma digit_loop_room len n n' p : n + blen p <= len -> n' + blen p <= len -> digit_loop len n p = digit_loop len n' p.
Proof.
  revert n n'. induction p as [|c p IH]; intros n n' H H'; [reflexivity|]. unfold blen in *. cbn [List.length digit_loop] in *.
  rewrite (proj2 (N.ltb_lt n len)), (proj2 (N.ltb_lt n' len)) by lia. rewrite (IH (n + 1) (n' + 1)) by lia. reflexivity.
Qed.
Lemma skip_spaces_le p : blen (skip_spaces p) <= blen p.
Proof. induction p as [|c p IH]; cbn [skip_spaces]; [lia|]. destruct (c =? 32); unfold blen in *; cbn [List.length] in *; lia. Qed.
Lemma call_digit_space l : blen l < 8192 -> call_digit BUFSIZ (32 :: l) = call_digit BUFSIZ l.
Proof.
  intros H. pose proof (skip_spaces_le l). unfold call_digit, next_digit, BUFSIZ. cbn [skip_spaces N.eqb Pos.eqb].
  rewrite (digit_loop_room 8192 (blen (32 :: l) - blen (skip_spaces l)) (blen l - blen (skip_spaces l)) (skip_spaces l)); [reflexivity| |];
    unfold blen in *; cbn [List.length]; lia.
Qed.
Lemma serve_other_space w l : (In w [s2b "flush_all"; s2b "verbosity"] -> blen l < 8192) -> serve_other w (32 :: l) = serve_other w l.
Proof.
  intros H. unfold serve_other. destruct (mem w _); [reflexivity|].
  destruct (beq w (s2b "flush_all")) eqn:E1.
  { apply beq_eq in E1. unfold serve_number. rewrite call_digit_space; [reflexivity|]. apply H. cbn [In]. auto. }
  destruct (beq w (s2b "verbosity")) eqn:E2; [|reflexivity].
  apply beq_eq in E2. unfold serve_number. rewrite call_digit_space; [reflexivity|]. apply H. cbn [In]. auto.
Qed.
Lemma conn_serve_agrees now c : wf_conn c -> ~ stale c -> hd 0 (stream c) <> magic_request -> plain_line (stream c) ->
  agrees (conn_serve now c) (serve_request now (stream c)).
Proof.
  intros W NS HM PL. pose proof (read_magic_ok c W NS) as M. unfold conn_serve.
  destruct (stream c) as [|x st] eqn:ES.
  - rewrite M. exact I.
  - destruct M as (c0 & -> & E0 & W0 & U0). cbn [bind]. cbn [hd] in HM. destruct (N.eqb_spec x magic_request) as [|_]; [easy|].
    rewrite <- E0 in *. unfold serve_request. destruct (get_line (stream c0)) as [| |(line, s')] eqn:G.
    + unfold get_line in G. destruct (cut_line _) as [(?, ?)|]; discriminate.
    + unfold conn_line. pose proof (readline_agrees c0 W0) as A. rewrite G in A. destruct (readline c0) as [| |[? ?]]; [easy|exact I|easy].
    + cbn [bind]. destruct (parse_command line) as [| |(cmd, rest)] eqn:P.
      * unfold conn_line. pose proof (readline_agrees c0 W0) as A. rewrite G in A. destruct (readline c0) as [| |(l2, c1)]; try easy.
        destruct A as (-> & _). cbn [bind]. rewrite P. exact I.
      * unfold conn_line. pose proof (readline_agrees c0 W0) as A. rewrite G in A. destruct (readline c0) as [| |(l2, c1)]; try easy.
        destruct A as (-> & _). cbn [bind]. rewrite P. exact I.
      * destruct (conn_line_ok c0 line s' cmd rest W0 U0 PL G P) as (c1 & c2 & rest' & C1 & C2 & S2 & W2 & HR).
        rewrite C1. cbn [bind]. rewrite !C2. cbn [bind].
        assert (X : rest' = rest \/ rest = 32 :: rest' \/ blen (c_word cmd) = 1023).
        { destruct HR as [HR|(y & HR & [HY|HY])]; subst; auto. }
        assert (HB : In (c_word cmd) [s2b "flush_all"; s2b "verbosity"] -> blen rest < 8192).
        { intros Hin. destruct (PL _ _ G) as (_ & _ & PB). specialize (PB _ _ P Hin).
          destruct (get_line_shape _ _ _ G) as (l & -> & Hl). destruct (parse_command_rest _ _ _ Hl P) as (q & s & -> & -> & _).
          unfold blen in *. rewrite ?app_length in *. cbn [List.length] in *. lia. }
        destruct X as [X|[X|X]].
        3:{ destruct (long_word_unknown _ X) as (-> & -> & -> & -> & -> & HO). rewrite !HO. exact I. }
        all: assert (PE : forall t, parse_entry now t rest' = parse_entry now t rest) by (intros; subst; reflexivity);
             assert (PI : serve_incr rest' = serve_incr rest) by (subst; reflexivity);
             assert (PG : serve_get rest' = serve_get rest) by (subst; try rewrite serve_get_space; reflexivity);
             unfold serve_store, serve_delete, serve_touch; assert (PO : serve_other (c_word cmd) rest' = serve_other (c_word cmd) rest) by
               (subst; first [reflexivity | symmetry; apply serve_other_space; intros Hin; specialize (HB Hin); unfold blen in *; cbn [List.length] in HB; lia]);
             rewrite ?PE, PI, PG, PO; clear PE PI PG PO HR X;
             destruct (mem (c_word cmd) store_idents).
        1,3: (destruct (parse_entry now _ rest) as [| |e]; [exact I|exact I|]; cbn [bind];
             pose proof (readsize_agrees (e_size e + 2) c2 W2) as RS; rewrite S2 in RS;
             destruct (readsize (e_size e + 2) c2) as [| |(d, c3)]; destruct (get_bytes (e_size e + 2) s') as [| |(d', s'')]; try easy;
             cbn [bind]; destruct RS as (-> & RS & W3); cbn [agrees]; auto).
        all: (destruct (beq (c_word cmd) (s2b "delete"));
             [destruct (parse_entry now parse_delete rest); cbn [bind agrees]; auto|];
             destruct (mem (c_word cmd) [s2b "touch"; s2b "gat"]);
             [destruct (parse_entry now parse_touch rest) as [| |e]; cbn [bind agrees]; auto;
              destruct ((e_option e =? 0) || (e_option e =? option_noreply)); cbn [bind agrees]; auto|];
             destruct (mem (c_word cmd) [s2b "incr"; s2b "decr"]);
             [destruct (serve_incr rest) as [| |(e, v)]; cbn [bind agrees]; auto|];
             destruct (mem (c_word cmd) [s2b "get"; s2b "gets"]);
             [destruct (serve_get rest); cbn [bind agrees]; auto|];
             destruct (serve_other (c_word cmd) rest); cbn [bind agrees]; auto).
Qed.
