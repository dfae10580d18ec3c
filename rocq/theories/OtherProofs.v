(** The requests without a key: what the parser makes of their bytes. *)
From Coq Require Import NArith ZArith List Bool String Lia ZifyBool ZifyNat ZifyN.
From Verif Require Import Base BaseLemmas StorageModel StorageSpec TextModel TextSpec TextProofs TextProofs2 TextProofs3 ClientSpec TextProofs4 SessionModel SessionProofs MemcachedSpec.
Import ListNotations.
Local Open Scope N_scope.
Local Open Scope list_scope.

Lemma command_any w L rest : plain_word w -> no_lf L -> hd 32 L = 32 ->
  get_line (w ++ L ++ crlf ++ rest) = Ok (w ++ L ++ [10], rest) /\ parse_command (w ++ L ++ [10]) = Ok (mkCommand false [] w, L ++ [10]).
Proof.
  intros (P1 & P2 & P3 & P4) HL H32. split.
  - replace (w ++ L ++ crlf ++ rest) with ((w ++ L) ++ crlf ++ rest) by now rewrite <- !app_assoc.
    rewrite get_line_ok; [now rewrite <- !app_assoc|]. nolf.
  - apply (parse_command_ok [] w (L ++ [10])); auto. destruct L as [|c L]; cbn [app hd] in *; unfold word_byte; lia.
Qed.
Lemma serve_word now w L rest : plain_word w -> no_lf L -> hd 32 L = 32 -> mem w words_all = false ->
  serve_request now (w ++ L ++ crlf ++ rest) = let* r := serve_other w (L ++ [10]) in Ok (mkCommand false [] w, r, rest).
Proof.
  intros Hw HL H32 Hn. destruct (command_any w L rest Hw HL H32) as [G1 G2].
  unfold serve_request. rewrite G1. cbn [bind]. rewrite G2. cbn [bind c_word].
  unfold words_all, mem in Hn. rewrite existsb_app in Hn. apply orb_false_iff in Hn as [Hn1 Hn2]. unfold mem. rewrite Hn1.
  cbn [existsb] in *. repeat (apply orb_false_iff in Hn2 as [? Hn2]). repeat match goal with H : beq _ _ = false |- _ => rewrite H; clear H end. reflexivity.
Qed.

Lemma opt_tail_hd b : hd 32 (noreply_word b) = 32.
Proof. destruct b; reflexivity. Qed.
Lemma opt_nolf b : no_lf (noreply_word b).
Proof. rewrite noreply_print. apply no_lf_opts. Qed.
Lemma plain_served now w rest : In w [s2b "ping"; s2b "version"; s2b "quit"] ->
  serve_request now (w ++ line_end ++ rest) = Ok (mkCommand false [] w, RPlain w, rest).
Proof.
  intros H. change (w ++ line_end ++ rest) with (w ++ [] ++ crlf ++ rest). rewrite (serve_word now w [] rest).
  - cbn in H. destruct H as [<- | [<- | [<- | []]]]; vm_compute; reflexivity.
  - apply plainb_ok. cbn in H. destruct H as [<- | [<- | [<- | []]]]; vm_compute; reflexivity.
  - constructor.
  - reflexivity.
  - cbn in H. destruct H as [<- | [<- | [<- | []]]]; vm_compute; reflexivity.
Qed.
Lemma flush_served now nr rest :
  serve_request now (wire (Flush nr) ++ rest) = Ok (mkCommand false [] (s2b "flush_all"), RFlush nr, rest).
Proof.
  cbn [wire]. rewrite <- !app_assoc. change line_end with crlf. rewrite (serve_word now (s2b "flush_all") (noreply_word nr) rest).
  - destruct nr; vm_compute; reflexivity.
  - apply plainb_ok. vm_compute; reflexivity.
  - apply opt_nolf.
  - apply opt_tail_hd.
  - vm_compute; reflexivity.
Qed.
Lemma verbosity_served now v nr rest : v < 2 ^ 31 ->
  serve_request now (wire (Verbosity v nr) ++ rest) = Ok (mkCommand false [] (s2b "verbosity"), RVerbosity nr, rest).
Proof.
  intros Hv. cbn [wire]. rewrite <- !app_assoc. change line_end with crlf. rewrite (app_assoc (space (dec v))).
  rewrite (serve_word now (s2b "verbosity") (space (dec v) ++ noreply_word nr) rest).
  - unfold serve_other. change (mem (s2b "verbosity") _) with false. cbv iota. change (beq (s2b "verbosity") (s2b "flush_all")) with false. cbv iota.
    change (beq (s2b "verbosity") (s2b "verbosity")) with true. cbv iota. unfold serve_number. rewrite <- app_assoc.
    change (space (dec v)) with (32 :: dec v). cbn [app].
    rewrite noreply_print. change (print_options (opt nr) ++ [10]) with (opt_tail (opt nr)).
    rewrite field_step; [|change (2 ^ 64) with 18446744073709551616; change (2 ^ 31) with 2147483648 in Hv; lia|apply opt_tail_head, opt_small].
    cbn [bind]. pose proof (dec_nonnil v). destruct (dec v) as [|c d] eqn:E; [congruence|]. rewrite <- E. unfold lex_i32. rewrite lex_i64_dec.
    2:{ unfold i64_max. change (2 ^ 31) with 2147483648 in Hv. lia. }
    cbn [bind]. change (2 ^ 31) with 2147483648 in Hv.
    replace ((-2147483648 <=? Z.of_N v)%Z && (Z.of_N v <=? 2147483647)%Z) with true by lia.
    cbn [bind]. rewrite opt_tail_parse by apply opt_small. destruct nr; reflexivity.
  - apply plainb_ok. vm_compute; reflexivity.
  - apply Forall_app. split; [|apply opt_nolf]. constructor; [discriminate|].
    apply no_lf_dec.
  - reflexivity.
  - vm_compute; reflexivity.
Qed.
Lemma mem_false w l : ~ In w request_words -> (forall x, In x l -> In x request_words) -> mem w l = false.
Proof.
  intros H Hl. unfold mem. destruct (existsb _ _) eqn:E; [|reflexivity]. apply existsb_exists in E as (x & Hx & E).
  apply beq_eq in E. subst x. elim H. auto.
Qed.
Lemma sub_words l : forallb (fun x => existsb (beq x) request_words) l = true -> forall x, In x l -> In x request_words.
Proof.
  intros H x Hx. rewrite forallb_forall in H. specialize (H x Hx). apply existsb_exists in H as (y & Hy & E). apply beq_eq in E. now subst.
Qed.
Lemma unknown_served now w r rest : legal_call (Unknown w r) -> serve_next now (wire (Unknown w r) ++ rest) = Ok (Rejected, rest).
Proof.
  intros (Hk & Hl & Hn & H60 & _ & Hr & H32). cbn [wire]. rewrite <- !app_assoc. change line_end with crlf.
  assert (Hw : plain_word w) by (split; [apply Hk|]; split; [apply Hk|]; split; [lia|exact H60]).
  assert (F : forall l, forallb (fun x => existsb (beq x) request_words) l = true -> mem w l = false) by (intros l E; apply mem_false; [exact Hn|now apply sub_words]).
  unfold serve_next. rewrite (serve_word now w r rest Hw Hr H32) by (apply F; vm_compute; reflexivity).
  destruct (command_any w r rest Hw Hr H32) as [G1 G2]. rewrite G1. cbn [bind]. rewrite G2. cbn [bind c_word].
  rewrite (F store_idents) by (vm_compute; reflexivity). unfold serve_other.
  rewrite (F [s2b "ping"; s2b "version"; s2b "quit"]) by (vm_compute; reflexivity).
  assert (B : forall x, existsb (beq x) request_words = true -> beq w x = false).
  { intros x E. apply beq_neq. intros ->. apply Hn. apply existsb_exists in E as (y & Hy & E). apply beq_eq in E. now subst. }
  rewrite !B by (vm_compute; reflexivity). rewrite (F other_words) by (vm_compute; reflexivity). reflexivity.
Qed.
