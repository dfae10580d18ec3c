(** Proofs for the stream property (C20): sessions. *)
From Coq Require Import ZArith NArith List Bool Lia ZifyBool ZifyNat ZifyN String.
From Verif Require Import Base BaseLemmas StorageModel TextModel TextSpec TextProofs TextProofs2 TextProofs3 StreamModel StreamSpec StreamProofs StreamProofs2.
Import ListNotations.
Local Open Scope N_scope.
Local Open Scope list_scope.

Definition seg2 (c : conn) : Prop := Forall (fun s => (2 <= List.length s)%nat) (segs c).
Lemma seg2_wf c : seg2 c -> wf_conn c.
Proof. apply Forall_impl. intros [|? ?]; cbn; [lia|easy]. Qed.
Lemma seg2_fresh c : seg2 c -> ~ stale c.
Proof. intros H (pre & x & ss & _ & _ & E). unfold seg2 in H. rewrite E in H. inversion H as [|? ? X]. cbn in X. lia. Qed.

Lemma readline_sock_seg2 ss r b x c : Forall (fun s => (2 <= List.length s)%nat) ss -> readline_sock r b ss = Ok (x, c) -> seg2 c.
Proof.
  revert r. induction ss as [|seg ss IH]; intros r W; cbn [readline_sock]; [discriminate|]. inversion W; subst.
  destruct seg; [discriminate|]. destruct (cut_line _) as [(l, rest)|]; [|now apply IH]. intros [= <- <-]. assumption.
Qed.
Lemma readline_seg2 c x c' : seg2 c -> readline c = Ok (x, c') -> seg2 c'.
Proof.
  intros W. unfold readline. destruct (rbuf c) as [(pre, [|y u])|]; try (now apply readline_sock_seg2).
  destruct (cut_line _) as [(l, rest)|]; [|now apply readline_sock_seg2]. intros [= <- <-]. exact W.
Qed.
Lemma readsize_sock_seg2 ss d n b x c : (n <= 1024)%nat -> Forall (fun s => (2 <= List.length s)%nat) ss -> readsize_sock d n b ss = Ok (x, c) -> seg2 c.
Proof.
  revert d n. induction ss as [|seg ss IH]; intros d n Hn W; cbn [readsize_sock]; destruct (N.ltb_spec 1024 (N.of_nat n)); try lia; [discriminate|].
  inversion W; subst. destruct seg as [|y seg]; [discriminate|].
  destruct (_ <? _)%nat; [intros [= <- <-]; assumption|]. destruct (_ =? _)%nat; [intros [= <- <-]; assumption|]. apply IH; auto. lia.
Qed.
Lemma readsize_seg2 n c x c' : n <= 1024 -> seg2 c -> readsize n c = Ok (x, c') -> seg2 c'.
Proof.
  intros Hn W. unfold readsize. cbv zeta. destruct (int_max <? n); [discriminate|]. destruct (_ =? _); [now intros [= <- <-]|].
  destruct (rbuf c) as [(pre, [|y u])|]; try (apply readsize_sock_seg2; auto; lia).
  destruct (_ <? _)%nat; [intros [= <- <-]; exact W|]. destruct (_ =? _)%nat; [intros [= <- <-]; exact W|]. apply readsize_sock_seg2; auto. lia.
Qed.
Lemma push_back_seg2 c p : seg2 c -> seg2 (push_back c p).
Proof. unfold seg2. now rewrite push_back_segs. Qed.

Lemma conn_serve_seg2 now c cmd r c' : seg2 c -> hd 0 (stream c) <> magic_request -> conn_serve now c = Ok (cmd, r, c') -> small r -> seg2 c'.
Proof.
  intros W HM. unfold conn_serve, read_magic. destruct (readsize 1 c) as [| |(b, c0)] eqn:R; cbn [bind]; try discriminate.
  assert (W0 : seg2 (push_back c0 b)) by (apply push_back_seg2; apply (readsize_seg2 1 c b c0 ltac:(lia) W R)).
  pose proof (readsize_agrees 1 c (seg2_wf _ W)) as A. rewrite R in A. rewrite get_bytes_cut in A by (unfold int_max; lia). unfold cut in A. change (N.to_nat 1) with 1%nat in A.
  destruct (stream c) as [|y st] eqn:ES; [easy|]. cbn [List.length Nat.leb firstn] in A. destruct A as (-> & _).
  change (firstn 0 st) with (@nil N) in *. cbn [hd] in *. destruct (N.eqb_spec y magic_request) as [|_]; [easy|].
  unfold conn_line. destruct (readline (push_back c0 [y])) as [| |(line, c1)] eqn:R1; cbn [bind]; try discriminate.
  pose proof (readline_seg2 _ _ _ W0 R1) as W1.
  destruct (parse_command line) as [| |(cm, rest)]; cbn [bind]; try discriminate.
  pose proof (push_back_seg2 _ rest W1) as W2.
  destruct (readline (push_back c1 rest)) as [| |(line2, c2)] eqn:R2; cbn [bind].
  1,2: repeat match goal with |- (if ?b then _ else _) = _ -> _ => destruct b end; discriminate.
  pose proof (readline_seg2 _ _ _ W2 R2) as W3.
  destruct (mem (c_word cm) store_idents).
  - destruct (parse_entry now _ line2) as [| |e]; cbn [bind]; try discriminate.
    destruct (readsize (e_size e + 2) c2) as [| |(d, c3)] eqn:R3; cbn [bind]; try discriminate.
    intros [= <- <- <-]. cbn [small with_data e_size]. intros Hs. eapply readsize_seg2; [|exact W3|exact R3]. lia.
  - repeat match goal with
      | |- (if ?b then _ else _) = _ -> _ => destruct b
      | |- bind ?x _ = _ -> _ => destruct x as [| |[? ?]] || destruct x as [| |?]; cbn [bind]
      end; intros H; try discriminate H; injection H as <- <- <-; intros _; exact W3.
Qed.

Lemma session_agrees now s l s' : stream_session now s l s' ->
  forall c, stream c = s -> seg2 c -> exists c', conn_session now c l c' /\ stream c' = s' /\ seg2 c'.
Proof.
  induction 1 as [s|s cmd r s1 l s2 HM PL SM SR SS IH]; intros c E W.
  - exists c. split; [constructor|]. auto.
  - subst s. pose proof (conn_serve_agrees now c (seg2_wf _ W) (seg2_fresh _ W) HM PL) as A. rewrite SR in A.
    destruct (conn_serve now c) as [| |((cmd', r'), c1)] eqn:CS; try easy. destruct A as (A & S1 & W1). injection A as -> ->.
    pose proof (conn_serve_seg2 _ _ _ _ _ W HM CS SM) as W2.
    destruct (IH c1 S1 W2) as (c' & C & E' & W'). exists c'. split; auto. econstructor; eauto.
Qed.
Lemma conn_session_fun now c l1 c1 : conn_session now c l1 c1 -> forall l2 c2, conn_session now c l2 c2 ->
  List.length l1 = List.length l2 -> l1 = l2 /\ c1 = c2.
Proof.
  induction 1 as [c|c cmd r c1 l c' S SS IH]; intros l2 c2 H2 L; inversion H2; subst; cbn in L; try discriminate; auto.
  rewrite S in H. injection H as <- <- <-. injection L as L. destruct (IH _ _ H0 L) as (-> & ->). auto.
Qed.

(** ** A forwarded store request *)
Notation no_nul := (Forall (fun c : N => c <> 0)).
Lemma digits_all (P : N -> Prop) v : (forall c, 48 <= c <= 57 -> P c) -> Forall P (dec v).
Proof. intros H. eapply Forall_impl; [|apply dec_digits]. intros c Hc. apply H. now apply is_digit_range. Qed.
Lemma opts_all (P : N -> Prop) o : (forall c, c = 32 \/ 97 <= c <= 122 -> P c) -> Forall P (print_options o).
Proof.
  intros H. unfold print_options. repeat (apply Forall_app; split);
    (destruct (has _ _); [|constructor]); cbv - [N.lt N.le]; repeat constructor; apply H; (now left) || (right; lia).
Qed.
Lemma last_not (l : bytes) (x c : N) : l <> [] -> Forall (fun y => y <> c) l -> forall a b : bytes, a ++ l ++ [x] <> b ++ [c; x].
Proof.
  intros Hl F a b E. destruct l as [|y l _] using rev_ind; [easy|]. apply Forall_app in F as (_ & F). inversion F; subst.
  change [c; x] with ([c] ++ [x]) in E. rewrite !app_assoc in E. apply app_inj_tail in E as (E & _).
  apply app_inj_tail in E as (_ & E). congruence.
Qed.
Lemma store_plain trail ident e rest :
  Forall legal_node_name trail -> In ident store_idents -> sendable e ->
  plain_line (store_request trail ident e ++ rest).
Proof.
  intros Ht Hi [Sk Sf Se Ss Sm Sv So]. destruct Sk as (_ & Sk & _). rename Sk into Sk1.
  set (V := if (0 <? e_version e) || beq ident (s2b "cas") then sp ++ dec (e_version e) else []).
  set (L := sp ++ cstr (e_key e) ++ sp ++ dec (e_flag e) ++ sp ++ decZ (e_expire e) ++ sp ++ dec (e_size e) ++ V ++ print_options (e_option e)).
  set (R := firstn (N.to_nat (e_size e)) (e_data e) ++ crlf ++ rest).
  assert (E : store_request trail ident e ++ rest = proxy_ident trail ++ ident ++ L ++ crlf ++ R).
  { unfold store_request, L, R. fold V. rewrite <- !app_assoc. reflexivity. }
  rewrite E. intros line r' G.
  assert (HV : forall P : N -> Prop, P 32 -> (forall c, 48 <= c <= 57 -> P c) -> Forall P V).
  { intros P P1 P2. unfold V. destruct (_ || _); [|constructor]. apply Forall_app. split; [repeat constructor; auto|now apply digits_all]. }
  assert (HZ : forall P : N -> Prop, P 45 -> (forall c, 48 <= c <= 57 -> P c) -> Forall P (decZ (e_expire e))).
  { intros P P1 P2. unfold decZ. destruct (_ <? _)%Z; [constructor; auto|]; now apply digits_all. }
  destruct (command_line trail ident L R Ht) as (G' & GC).
  - unfold words_all. apply in_or_app. now left.
  - unfold L. rewrite cstr_key by auto.
    repeat (match goal with |- Forall _ (_ ++ _) => apply Forall_app; split end);
    try (apply HV; [lia|intros; lia]); nolf.
  - reflexivity.
  - rewrite G' in G. assert (HL : line = proxy_ident trail ++ ident ++ L ++ [10]) by congruence. clear G. rewrite HL. split; [|split].
    + assert (F : no_nul (proxy_ident trail ++ ident ++ L ++ [10])).
      { apply Forall_app. split.
        - destruct trail as [|x l]; [constructor|]. cbn [proxy_ident]. apply Forall_app. split; [repeat constructor; lia|].
          apply Forall_app. split; [|repeat constructor; lia]. apply join_bytes; [lia|].
          eapply Forall_impl; [|exact Ht]. intros a [Ha1 Ha2]. split; auto. eapply Forall_impl; [|exact Ha2]. cbn. intros; lia.
        - apply Forall_app. split.
          + destruct (words_all_plain ident) as (P1 & _); [unfold words_all; apply in_or_app; now left|]. eapply Forall_impl; [|exact P1]. unfold word_byte. intros; tauto.
          + apply Forall_app. split; [|repeat constructor; lia]. unfold L. rewrite cstr_key by auto.
            repeat (match goal with |- Forall _ (_ ++ _) => apply Forall_app; split end);
            try (repeat constructor; lia); try (apply digits_all; intros; lia); try (apply HV; [lia|intros; lia]); try (apply HZ; [lia|intros; lia]);
            try (apply opts_all; intros; lia). eapply Forall_impl; [|exact Sk1]. unfold word_byte. intros; tauto. }
      intros X. rewrite Forall_forall in F. now apply F in X.
    + intros q.
      set (A := proxy_ident trail ++ ident ++ sp ++ cstr (e_key e) ++ sp ++ dec (e_flag e) ++ sp ++ decZ (e_expire e) ++ sp).
      set (B := dec (e_size e) ++ V ++ print_options (e_option e)).
      assert (E2 : proxy_ident trail ++ ident ++ L ++ [10] = A ++ B ++ [10]) by (unfold L, A, B; rewrite <- !app_assoc; reflexivity).
      rewrite E2. clear E2.
      apply last_not.
      * unfold B. intros X. apply app_eq_nil in X as (X & _). now apply dec_nonnil in X.
      * unfold B. apply Forall_app. split; [apply digits_all; intros; lia|]. apply Forall_app. split; [apply HV; [lia|intros; lia]|]. apply opts_all; intros; lia.
    + intros cmd r0 P Hin. rewrite GC in P. injection P as <- _. cbn [c_word] in Hin.
      exfalso. cbn [store_idents In] in Hi, Hin. destruct Hin as [Hin|[Hin|[]]]; subst ident; intuition discriminate.
Qed.
Lemma store_head trail ident e : In ident store_idents -> Forall legal_node_name trail ->
  hd 0 (store_request trail ident e) <> magic_request /\ store_request trail ident e <> [].
Proof.
  intros Hi Ht. unfold store_request. destruct trail as [|x l]; [|cbn; split; easy].
  cbn [proxy_ident app]. unfold store_idents in Hi. cbn [In] in Hi. destruct Hi as [<-|[<-|[<-|[<-|[<-|[<-|[]]]]]]]; split; easy.
Qed.
Lemma store_any_chunks now trail ident e rest c :
  Forall legal_node_name trail -> In ident store_idents -> sendable e ->
  stream c = store_request trail ident e ++ rest -> wf_conn c -> ~ stale c ->
  exists c', conn_serve now c = Ok (mkCommand (match trail with [] => false | _ => true end) trail ident, RStore ident e, c')
    /\ stream c' = rest /\ wf_conn c'.
Proof.
  intros Ht Hi Se E W NS. pose proof (conn_serve_agrees now c W NS) as A. rewrite E in A.
  destruct (store_head trail ident e Hi Ht) as (H1 & H2).
  rewrite (store_roundtrip now trail ident e rest Ht Hi Se) in A.
  assert (A' := A ltac:(destruct (store_request trail ident e); easy) (store_plain _ _ _ _ Ht Hi Se)). clear A.
  destruct (conn_serve now c) as [| |((cm, r), c')]; try easy. destruct A' as (A & B & C). injection A as -> ->. eauto.
Qed.
