(** Every request of a binary session does what the abstract memory says (C58). *)
From Coq Require Import String.
From stdpp Require Import gmap.
From Coq Require Import ZifyBool ZifyNat ZifyN.
From Verif Require Import Base BaseLemmas StorageModel StorageSpec StorageProofs StorageProofs2 StorageProofs3 StorageProofs4
  TextModel TextSpec TextProofs TextProofs2 TextProofs3 TextProofs4 ClientSpec SessionModel SessionProofs ServerModel ServerProofs ServerProofs2 ReplicaProofs ReplicaProofs2
  MemcachedSpec MemcachedProofs OtherProofs StorageProofs6 MemcachedProofs2 StreamModel BinaryModel BinarySpec BinaryProofs BinaryProofs2 BinaryServerModel BinaryServerSpec.
Local Open Scope N_scope.
Local Open Scope list_scope.

(** ** Reading *)
Lemma next_of_serve now s r rest : serve_binary now s = Ok (r, rest) -> binary_next now s = Ok (BAccepted r, rest).
Proof.
  unfold serve_binary, binary_next. destruct (read_header magic_request s) as [| |[h s1]]; cbn [bind]; try discriminate.
  destruct (body_of (get_field FTotal h) s1) as [| |[b s2]]; cbn [bind]; try discriminate.
  destruct (parse_binary now h b); cbn [bind]; try discriminate. intros [= -> ->]. reflexivity.
Qed.
Definition brequest_of (asked : Z) (a : bask) : brequest :=
  let o := opcode_of (a_quiet a) (a_call a) in
  match a_call a with
  | QStore Append k _ _ d | QStore Prepend k _ _ d => BStore o false (mkEntry k 0 0 (blen d) 0 0 d)
  | QStore _ k f x d => BStore o false (mkEntry k f (due asked (Z.of_N x)) (blen d) 0 0 d)
  | QCas k f x d t => BStore o true (mkEntry k f (due asked (Z.of_N x)) (blen d) t 0 d)
  | QTouch k x | QGat k x => BTouch o (mkEntry k 0 (due asked (Z.of_N x)) 0 0 0 [])
  | QDelete k => BDelete o (mkEntry k 0 0 0 0 0 [])
  | QCount _ k v None => BIncr o (mkEntry k 0 0 0 0 0 []) v None
  | QCount _ k v (Some (i, x)) => BIncr o (mkEntry k 0 (due asked (Z.of_N x)) (blen (dec i)) 0 0 (dec i)) v (Some i)
  | QGet _ k => BGet o (mkEntry k 0 0 0 0 0 [])
  | QFlush | QNoop | QVersion | QQuit => BOther o []
  end.
Lemma opcode_small q c : opcode_of q c < 2 ^ 8.
Proof. destruct c as [[] k f x d| | | | |[] k v i|[] k| | | |], q; reflexivity. Qed.
Definition fits (a : bask) : Prop :=
  let c := a_call a in blen (extras_of c) + blen (key_of c) + blen (value_of c) <= 2147483647.
Lemma extras_small c : blen (extras_of c) < 2 ^ 8.
Proof. destruct c as [[] k f x d| | | | |up k v [[i x]|]| | | | |]; cbn [extras_of]; rewrite ?blen_app, ?blen_be; vm_compute; reflexivity. Qed.
Lemma bmsg_sized a t : legal_ask a -> fits a -> t < 2 ^ 64 ->
  well_sized (mkMsg 128 (opcode_of (a_quiet a) (a_call a)) 0 (a_opaque a) t (extras_of (a_call a)) (key_of (a_call a)) (value_of (a_call a))).
Proof.
  intros (Ho & Hc) Hf Ht. constructor; cbn [m_magic m_opcode m_status m_opaque m_cas m_extras m_key m_value]; auto.
  - reflexivity.
  - apply opcode_small.
  - reflexivity.
  - apply extras_small.
  - destruct (a_call a); cbn [key_of]; try (vm_compute; reflexivity); solve [exact (proj2 (proj1 Hc))|exact (proj2 Hc)].
Qed.
Lemma other_served now a s : legal_ask a -> fits a -> extras_of (a_call a) = [] -> key_of (a_call a) = [] -> value_of (a_call a) = [] ->
  In (opcode_of (a_quiet a) (a_call a)) [7; 23; 8; 24; 10; 11] -> (match a_call a with QCas _ _ _ _ _ => False | _ => True end) ->
  serve_binary now (bwire a ++ s) = Ok (BOther (opcode_of (a_quiet a) (a_call a)) [], s).
Proof.
  intros Hl Hf HX HK HV HO Hc. pose proof (bmsg_sized a 0 Hl Hf eq_refl) as Z.
  unfold bwire. replace (match a_call a with QCas _ _ _ _ t => t | _ => 0 end) with 0 by (destruct (a_call a); auto; contradiction).
  set (mm := mkMsg 128 _ _ _ _ _ _ _) in *. unfold serve_binary, encode.
  rewrite <- app_assoc, read_header_spec by apply header_length.
  pose proof (header_fields mm Z) as (HM & HOp & _ & _ & _ & _ & HT & _). rewrite HM. change (m_magic mm =? magic_request) with true. cbn [bind].
  rewrite HT. assert (B : body mm = []) by (unfold body, mm; cbn; now rewrite HX, HK, HV).
  replace (blen (m_extras mm) + blen (m_key mm) + blen (m_value mm)) with 0 by (unfold mm; cbn [m_extras m_key m_value]; rewrite HX, HK, HV; reflexivity).
  rewrite B. cbn [app body_of bind N.eqb orb]. unfold parse_binary. rewrite HOp, HT. cbn [m_opcode mm].
  change (m_opcode mm) with (opcode_of (a_quiet a) (a_call a)).
  cbn [In] in HO. destruct HO as [<-|[<-|[<-|[<-|[<-|[<-|[]]]]]]]; reflexivity.
Qed.
Lemma bserved asked a s : legal_ask a -> fits a -> binary_next asked (bwire a ++ s) = Ok (BAccepted (brequest_of asked a), s).
Proof.
  intros Hl Hf. apply next_of_serve. pose proof Hl as (Ho & Hc).
  destruct a as [q op c]. cbn [a_quiet a_opaque a_call] in *. destruct c as [md k f x d|k f x d t|k x|k x|k|up k v i|wk k| | | |].
  - destruct Hc as (Hk & Hflag & Hx & Hd). pose proof (bmsg_sized _ 0 Hl Hf eq_refl) as Z. unfold bwire. cbn [a_quiet a_opaque a_call key_of value_of] in *.
    destruct md; cbn [extras_of] in *;
      [rewrite (binary_store_roundtrip asked _ f x); auto..|rewrite binary_append_roundtrip; auto|rewrite binary_append_roundtrip; auto];
      try (cbn [m_opcode]; destruct q; cbn; tauto);
      try (unfold body; cbn [m_extras m_key m_value app]; destruct Hk as (Hk & _); destruct k; [congruence|discriminate]);
      cbn [m_opcode m_key m_value m_cas brequest_of a_quiet a_call]; rewrite ?realtime_due by lia; reflexivity.
  - destruct Hc as (Hk & Hflag & Hx & Hd & Ht). pose proof (bmsg_sized _ t Hl Hf (proj2 Ht)) as Z. unfold bwire. cbn [a_quiet a_opaque a_call key_of value_of] in *.
    cbn [extras_of] in *. rewrite (binary_store_roundtrip asked _ f x); auto; [|cbn [m_opcode]; destruct q; cbn; tauto].
    cbn [m_opcode m_key m_value m_cas brequest_of a_quiet a_call]. rewrite realtime_due by lia.
    replace (0 <? t) with true by (symmetry; apply N.ltb_lt; lia). reflexivity.
  - destruct Hc as (Hk & Hx & Hq). pose proof (bmsg_sized _ 0 Hl Hf eq_refl) as Z. unfold bwire. cbn [a_quiet a_opaque a_call key_of value_of extras_of] in *.
    rewrite (binary_touch_roundtrip asked _ x); auto; [|cbn; tauto]. cbn [m_opcode m_key m_value m_cas brequest_of a_quiet a_call]. rewrite realtime_due by lia. reflexivity.
  - destruct Hc as (Hk & Hx). pose proof (bmsg_sized _ 0 Hl Hf eq_refl) as Z. unfold bwire. cbn [a_quiet a_opaque a_call key_of value_of extras_of] in *.
    rewrite (binary_touch_roundtrip asked _ x); auto; [|cbn [m_opcode]; destruct q; cbn; tauto]. cbn [m_opcode m_key m_value m_cas brequest_of a_quiet a_call]. rewrite realtime_due by lia. reflexivity.
  - pose proof (bmsg_sized _ 0 Hl Hf eq_refl) as Z. unfold bwire. cbn [a_quiet a_opaque a_call key_of value_of extras_of] in *.
    rewrite binary_delete_roundtrip; [reflexivity|exact Z|reflexivity|cbn [m_opcode]; destruct q; cbn; tauto|reflexivity|reflexivity|apply Hc].
  - destruct Hc as (Hk & Hv & Hi). pose proof (bmsg_sized _ 0 Hl Hf eq_refl) as Z. unfold bwire. cbn [a_quiet a_opaque a_call key_of value_of extras_of] in *.
    destruct i as [[i x]|].
    + rewrite (binary_incr_roundtrip asked _ v i x); auto; [|cbn [m_opcode]; destruct q, up; cbn; tauto|apply Hi|lia].
      cbn [m_opcode m_key m_value m_cas brequest_of a_quiet a_call].
      replace (x =? 4294967295) with false by (symmetry; apply N.eqb_neq; lia). rewrite realtime_due by lia. reflexivity.
    + rewrite (binary_incr_roundtrip asked _ v 0 4294967295); [|exact Z|reflexivity|cbn [m_opcode]; destruct q, up; cbn; tauto|exact Hv|reflexivity|reflexivity|reflexivity].
      reflexivity.
  - pose proof (bmsg_sized _ 0 Hl Hf eq_refl) as Z. unfold bwire. cbn [a_quiet a_opaque a_call key_of value_of extras_of] in *.
    rewrite binary_get_roundtrip; [reflexivity|exact Z|reflexivity|cbn [m_opcode]; destruct q, wk; cbn; tauto|reflexivity|reflexivity|apply Hc].
  - rewrite other_served; [reflexivity|auto..|]; [destruct q; cbn; tauto|exact I].
  - rewrite other_served; [reflexivity|auto..|]; [cbn; tauto|exact I].
  - rewrite other_served; [reflexivity|auto..|]; [cbn; tauto|exact I].
  - rewrite other_served; [reflexivity|auto..|]; [destruct q; cbn; tauto|exact I].
Qed.

(** ** Answers *)
Lemma one_byte o : exists x, be_enc 1 o = [x].
Proof. pose proof (be_enc_length 1 o) as L. destruct (be_enc 1 o) as [|x [|? ?]]; try discriminate. eauto. Qed.
Lemma two_bytes o : exists x y, be_enc 2 o = [x; y].
Proof. pose proof (be_enc_length 2 o) as L. destruct (be_enc 2 o) as [|x [|y [|? ?]]]; try discriminate. eauto. Qed.
Lemma four_bytes o : exists x y z w, be_enc 4 o = [x; y; z; w].
Proof. pose proof (be_enc_length 4 o) as L. destruct (be_enc 4 o) as [|x [|y [|z [|w [|? ?]]]]]; try discriminate. eauto 6. Qed.
Lemma number_encode opcode e n : opcode < 2 ^ 8 -> is_numeral (firstn (N.to_nat (e_size e)) (e_data e)) n -> n < 2 ^ 64 ->
  number_response opcode e = encode (mkMsg 129 opcode 0 0 0 [] [] (be_enc 8 n)).
Proof.
  intros HO (Hne & Hd & Hv & _) Hn. unfold number_response. cbn [quiet_opcode].
  set (d := firstn _ _) in *. assert (E : fst (span is_digit d) = d).
  { clear Hne Hv. induction Hd as [|c d Hc _ IH]; [reflexivity|]. cbn [span]. replace (is_digit c) with true by (symmetry; unfold is_digit; lia).
    destruct (span is_digit d) as [a b]. cbn [fst] in *. now rewrite IH. }
  rewrite E, Hv. replace (n <? 2 ^ 64) with true by (symmetry; now apply N.ltb_lt).
  unfold encode, body, header. cbn [m_magic m_opcode m_status m_opaque m_cas m_extras m_key m_value app].
  rewrite blen_be. rewrite !blen_nil. change (0 + 0 + N.of_nat 8) with 8. unfold new_header, set_field. cbn [offset width]. rewrite (mod_fit opcode) by exact HO.
  destruct (one_byte opcode) as (x & ->). set (v := be_enc 8 n). clearbody v. reflexivity.
Qed.
Lemma missing_encode opcode k : opcode < 2 ^ 8 -> blen k < 2 ^ 16 ->
  missing_response opcode k = encode (mkMsg 129 opcode 1 0 0 [] (if nmem opcode [12; 13] then k else []) (s2b "Not found")).
Proof.
  intros HO HK. unfold missing_response. cbn [quiet_opcode]. cbv zeta.
  unfold encode, body, header. cbn [m_magic m_opcode m_status m_opaque m_cas m_extras m_key m_value app].
  destruct (nmem opcode [12; 13]).
  - unfold new_header, set_field. cbn [offset width]. rewrite (mod_fit opcode) by exact HO. rewrite (mod_fit (blen k)) by exact HK.
    assert (E : (blen k + blen (s2b "Not found")) mod 256 ^ N.of_nat 4 = blen [] + blen k + blen (s2b "Not found")).
    { change (256 ^ N.of_nat 4) with 4294967296. change (blen (s2b "Not found")) with 9. rewrite N.mod_small, blen_nil; lia. }
    rewrite E. set (X := be_enc 4 _). destruct (four_bytes (blen [] + blen k + blen (s2b "Not found"))) as (a & b & c & d & HX). fold X in HX. rewrite HX.
    destruct (one_byte opcode) as (x & ->). destruct (two_bytes (blen k)) as (y & z & ->). reflexivity.
  - unfold new_header, set_field. cbn [offset width]. rewrite (mod_fit opcode) by exact HO. destruct (one_byte opcode) as (x & ->). reflexivity.
Qed.
Lemma result_encode opcode r st msg : opcode < 2 ^ 8 -> status (result_word r) = Some (st, msg) ->
  answer_result opcode r = encode (mkMsg 129 opcode st 0 0 [] [] msg).
Proof.
  intros HO H. unfold answer_result. cbn [quiet_opcode]. rewrite result_response_encode by exact HO.
  destruct r; vm_compute in H; try discriminate; injection H as <- <-; reflexivity.
Qed.
(** What the text session answers in one word is answered in the same sense here. *)
Lemma finish_status o done ident p w st msg opcode : finish o done ident answer_line = Ok p -> p_answer p = say false w ->
  status w = Some (st, msg) -> opcode < 2 ^ 8 ->
  bfinish opcode o (answer_result opcode) = Ok (p_store p, encode (mkMsg 129 opcode st 0 0 [] [] msg)).
Proof.
  intros Hf Hp Hw HO. unfold finish in Hf. unfold bfinish. unfold say in Hp. destruct (o_ret o <? 0)%Z.
  - injection Hf as <-. cbn [p_answer] in Hp. unfold io_error, crlf, line_end in Hp. apply app_inv_tail in Hp. subst w. vm_compute in Hw. discriminate.
  - destruct (o_res o) as [r|]; [|discriminate]. injection Hf as <-. cbn [p_answer p_store] in *. destruct (noreply (o_entry o)).
    + symmetry in Hp. apply app_eq_nil in Hp. destruct Hp. discriminate.
    + unfold answer_line, crlf, line_end in Hp. apply app_inv_tail in Hp. subst w. rewrite (result_encode _ _ _ _ HO Hw). reflexivity.
Qed.

(** Requests whose text form is answered in one word. *)
Definition one_word (t : call) : bool :=
  match t with
  | Store _ _ _ _ _ nr | Cas _ _ _ _ _ nr | Touch _ _ nr | Delete _ nr | Flush nr => negb nr
  | Ping | Quit => true
  | _ => false
  end.
Lemma does_word asked now m t m' out : does asked now m t m' out -> one_word t = true ->
  exists w st msg, out = say false w /\ status w = Some (st, msg).
Proof.
  intros H. destruct H; cbn [one_word]; intros E; try discriminate E; try (apply negb_true_iff in E; subst nr);
    eexists _, _, _; (split; [reflexivity|vm_compute; reflexivity]).
Qed.

Section Step.
Context (P : bytes -> Prop) (T : Z) (M : N) (s : store) (m : memory) (asked now : Z).
Context (Q : quiet T M s) (Sh : shows P T m s) (HT : (T <= now)%Z) (Hasked : sane_clock asked) (Hn : sane_clock now) (HM : M + 1 < 2 ^ 64).

Definition bfine (a : bask) : Prop := exists s' m' y, run_brequest now s (brequest_of asked a) = Ok (s', plain_answer a y)
  /\ bdoes asked now m (a_call a) m' y /\ quiet now (M + 1) s' /\ shows P now m' s'.

(** From the text request to the binary one. *)
Lemma word_fine a t : counterpart (a_call a) = Some t -> one_word t = true -> fine P M s m asked now t ->
  (forall p w st msg, run_request now s (request_of asked t) = Ok p -> p_answer p = say false w -> status w = Some (st, msg) ->
     run_brequest now s (brequest_of asked a) = Ok (p_store p, encode (mkMsg 129 (opcode_of (a_quiet a) (a_call a)) st 0 0 [] [] msg))) ->
  bfine a.
Proof.
  intros Hc Hw (p & m' & Hrun & Hdo & Hq & Hs) H. destruct (does_word _ _ _ _ _ _ Hdo Hw) as (w & st & msg & Ew & Est). rewrite Ew in Hdo.
  exists (p_store p), m', (mkSays st (if st =? 0 then token m' (key_of (a_call a)) else 0) [] [] msg).
  split; [exact (H p w st msg Hrun Ew Est)|]. split; [|split; [exact Hq|exact Hs]]. exact (b_status asked now m _ _ _ _ _ _ Hc Hdo Est).
Qed.
Lemma store_transfer ident e opcode cas p w st msg : opcode_behavior opcode cas = store_behavior ident -> opcode < 2 ^ 8 ->
  run_request now s (RStore ident e) = Ok p -> p_answer p = say false w -> status w = Some (st, msg) ->
  run_brequest now s (BStore opcode cas e) = Ok (p_store p, encode (mkMsg 129 opcode st 0 0 [] [] msg)).
Proof.
  intros Hb HO Hrun Hp Hw. cbn [run_request run_brequest] in *. unfold run_store in Hrun. unfold run_bstore. rewrite Hb.
  destruct (set s now e (store_behavior ident)) as [o|]; [|discriminate]. eapply finish_status; eauto.
Qed.
Lemma bfine_store q op md k f x d : P k -> f < 2 ^ 32 -> x < 2 ^ 32 -> wf_bytes d ->
  (forall t, counterpart (QStore md k f x d) = Some t -> ~ too_long now m t) -> bfine (mkAsk q op (QStore md k f x d)).
Proof.
  intros Hp0 Hf Hx Hd Hl.
  assert (Hx' : (0 <= Z.of_N x < 2 ^ 63)%Z) by lia.
  assert (Hz : (0 <= 0 < 2 ^ 63)%Z) by lia.
  destruct md; specialize (Hl _ eq_refl);
    (eapply word_fine; [reflexivity|reflexivity|apply fine_store with (T := T); auto; try exact I; reflexivity|]);
    intros p w st msg Hrun Hp Hw; (eapply store_transfer; [|apply opcode_small|exact Hrun|exact Hp|exact Hw]); destruct q; reflexivity.
Qed.
Lemma bfine_cas q op k f x d t : P k -> f < 2 ^ 32 -> x < 2 ^ 32 -> wf_bytes d -> t < 2 ^ 64 ->
  ~ too_long now m (Cas k f (Z.of_N x) d t false) -> bfine (mkAsk q op (QCas k f x d t)).
Proof.
  intros Hp0 Hf Hx Hd Ht Hl. assert (Hx' : (0 <= Z.of_N x < 2 ^ 63)%Z) by lia.
  eapply word_fine; [reflexivity|reflexivity|apply fine_cas with (T := T); auto|].
  intros p w st msg Hrun Hp Hw. eapply store_transfer; [|apply opcode_small|exact Hrun|exact Hp|exact Hw]. destruct q; reflexivity.
Qed.
Lemma bfine_touch q op k x : P k -> x < 2 ^ 32 -> bfine (mkAsk q op (QTouch k x)).
Proof.
  intros Hp0 Hx. assert (Hx' : (0 <= Z.of_N x < 2 ^ 63)%Z) by lia.
  eapply word_fine; [reflexivity|reflexivity|apply fine_touch with (T := T); auto|].
  intros p w st msg Hrun Hp Hw. cbn [run_request request_of run_brequest brequest_of a_call a_quiet] in *. unfold run_touch in Hrun. unfold run_btouch.
  change (opt false) with 0 in Hrun. destruct (set _ _ _ _) as [o|]; [|discriminate].
  change (beq (s2b "touch") (s2b "gat")) with false in Hrun. cbn [andb] in Hrun.
  replace (nmem (opcode_of q (QTouch k x)) [29; 30]) with false by (destruct q; reflexivity). cbn [andb].
  eapply finish_status; [exact Hrun|exact Hp|exact Hw|apply opcode_small].
Qed.
Lemma bfine_delete q op k : P k -> bfine (mkAsk q op (QDelete k)).
Proof.
  intros Hp0. eapply word_fine; [reflexivity|reflexivity|apply fine_delete with (T := T); auto|].
  intros p w st msg Hrun Hp Hw. cbn [run_request request_of run_brequest brequest_of a_call a_quiet] in *. unfold run_delete in Hrun. unfold run_bdelete.
  change (opt false) with 0 in Hrun. eapply finish_status; [exact Hrun|exact Hp|exact Hw|apply opcode_small].
Qed.
Lemma entry_sizes k e r : e_key e = k -> rec_of e = r -> e_size e = blen (e_data e) -> wf_rec r -> blen k < 2 ^ 16 ->
  blen (e_key e) < 2 ^ 16 /\ blen (e_key e) + e_size e + 4 < 2 ^ 32.
Proof. intros -> <- -> (_ & _ & _ & W & _) Hk. cbn [rec_of r_data] in W. split; [exact Hk|lia]. Qed.
Lemma bfine_gat q op k x : P k -> blen k < 2 ^ 16 -> x < 2 ^ 32 -> bfine (mkAsk q op (QGat k x)).
Proof.
  intros Hp0 Hk Hx. assert (Hx' : (0 <= Z.of_N x < 2 ^ 63)%Z) by lia.
  destruct (touch_state P T M s m asked now Q Sh HT Hasked Hn HM k (Z.of_N x) false Hp0 Hx') as (o & Hset & Hret & Hnr & Hq & Hm).
  change (opt false) with 0 in Hset.
  assert (Hop : nmem (opcode_of q (QGat k x)) [29; 30] = true) by (destruct q; reflexivity).
  assert (Hrun : forall r, o_res o = Some r -> run_brequest now s (brequest_of asked (mkAsk q op (QGat k x)))
    = Ok (o_store o, if is_stored r then value_response (opcode_of q (QGat k x)) false (o_entry o) else answer_result (opcode_of q (QGat k x)) r)).
  { intros r Hr. cbn [run_brequest brequest_of a_call a_quiet]. unfold run_btouch. rewrite Hset. unfold bfinish. rewrite Hret, Hr, Hnr, Hop.
    cbn [Z.ltb Z.compare andb]. reflexivity. }
  destruct (look m now k) as [r|] eqn:L.
  - destruct Hm as (Hres & Hs & Hkey & Hrec & Hsz). specialize (Hrun _ Hres). cbn [is_stored] in Hrun.
    assert (W : wf_rec (mkRec (r_flag r) (due asked (Z.of_N x)) (r_version r) (r_data r))).
    { assert (Lv : live s now k r) by (eapply look_live; eauto). destruct Lv as (_ & (W1 & W2 & W3) & _). split; [exact W1|]. split; [eapply due_i64; eauto|exact W3]. }
    destruct (entry_sizes k _ _ Hkey Hrec Hsz W Hk) as (Z1 & Z2).
    rewrite (value_response_encode _ false _ (opcode_small _ _) Z1 Hsz Z2) in Hrun.
    assert (Ef : e_flag (o_entry o) = r_flag r) by exact (f_equal r_flag Hrec).
    assert (Ed : e_data (o_entry o) = r_data r) by exact (f_equal r_data Hrec). rewrite Ef, Ed in Hrun.
    eexists _, _, (mkSays 0 (r_version r) (be_enc 4 (r_flag r)) [] (r_data r)). split; [exact Hrun|]. split; [|split; [exact Hq|exact Hs]].
    eapply b_gat; [exact L|]. apply gat_found. exact L.
  - destruct Hm as (Hres & Hs). specialize (Hrun _ Hres). cbn [is_stored] in Hrun.
    rewrite (result_encode _ result_not_found 1 (s2b "Not found") (opcode_small _ _) eq_refl) in Hrun.
    eexists _, _, (mkSays 1 0 [] [] (s2b "Not found")). split; [exact Hrun|]. split; [|split; [exact Hq|exact Hs]].
    exact (b_status asked now m (QGat k x) _ m (s2b "NOT_FOUND") 1 (s2b "Not found") eq_refl (gat_missing asked now m k _ false L) eq_refl).
Qed.
Lemma bfine_count q op up k v i : P k -> v < 2 ^ 64 -> (forall j, i = Some j -> look m now k <> None) -> bfine (mkAsk q op (QCount up k v i)).
Proof.
  intros Hp0 Hv Hi. set (o0 := opcode_of q (QCount up k v i)).
  assert (Hup : nmem o0 [5; 21] = up) by (unfold o0; destruct q, up; reflexivity).
  assert (exists e, e_key e = k /\ e_option e = 0 /\ brequest_of asked (mkAsk q op (QCount up k v i)) = BIncr o0 e v (option_map fst i)) as (e & He & Heo & Hreq).
  { destruct i as [[i x]|]; eexists; (split; [|split; [|reflexivity]]); reflexivity. }
  assert (Hnat : P (e_key e)) by (rewrite He; exact Hp0).
  destruct (count_state P T M s m now Q Sh HT Hn HM up e v false Heo Hv Hnat) as (o & Hinc & Hret & Hnr & Hq & Hm). rewrite He in Hm.
  assert (Hrun : forall r, o_res o = Some r -> run_brequest now s (brequest_of asked (mkAsk q op (QCount up k v i)))
    = Ok (o_store o, if is_stored r then number_response o0 (o_entry o) else answer_result o0 r)).
  { intros r Hr. rewrite Hreq. cbn [run_brequest]. unfold run_bincr. rewrite Hup, Hinc. unfold bfinish. rewrite Hret, Hr, Hnr. reflexivity. }
  destruct (look m now k) as [r|] eqn:L.
  - destruct Hm as (n & d & t & Hres & Hn1 & Hd & Ht & Hdd & Hs). specialize (Hrun _ Hres). cbn [is_stored] in Hrun.
    set (n' := if up then N.min (n + v) (2 ^ 64 - 1) else n - v) in *.
    assert (Hn' : n' < 2 ^ 64).
    { destruct Hn1 as (ds & rest & _ & _ & _ & ->). unfold n'. clear - Hv. change (2 ^ 64) with 18446744073709551616 in *.
      destruct up; destruct (N.ltb_spec (dec_val ds) 18446744073709551616); lia. }
    rewrite (number_encode o0 (o_entry o) n' (opcode_small _ _)) in Hrun by (rewrite ?Hdd; auto).
    eexists _, _, (mkSays 0 t [] [] (be_enc 8 n')). split; [exact Hrun|]. split; [|split; [exact Hq|exact Hs]].
    pose proof (b_counted asked now m up k v i _ d n' (counted asked now m up k v false r n d t L Hn1 Hd Ht) Hd) as B.
    replace (token (update m k (Some (mkRec (r_flag r) (r_expire r) t d))) k) with t in B by (unfold token, update; rewrite beq_refl; reflexivity). exact B.
  - destruct i as [i|]; [elim (Hi i eq_refl); reflexivity|]. destruct Hm as (Hres & Hs). specialize (Hrun _ Hres). cbn [is_stored] in Hrun.
    rewrite (result_encode o0 result_not_found 1 (s2b "Not found") (opcode_small _ _) eq_refl) in Hrun.
    eexists _, _, (mkSays 1 0 [] [] (s2b "Not found")). split; [exact Hrun|]. split; [|split; [exact Hq|exact Hs]].
    exact (b_status asked now m (QCount up k v None) _ m (s2b "NOT_FOUND") 1 (s2b "Not found") eq_refl (count_missing asked now m up k v false L) eq_refl).
Qed.
Lemma bfine_get q op wk k : P k -> blen k < 2 ^ 16 -> bfine (mkAsk q op (QGet wk k)).
Proof.
  intros Hp0 Hk. pose proof (q_wf _ _ _ Q) as Hwf. set (o0 := opcode_of q (QGet wk k)).
  assert (Hwk : nmem o0 [12; 13] = wk) by (unfold o0; destruct q, wk; reflexivity).
  change (mkEntry k 0 0 0 0 0 []) with (empty_entry k).
  pose proof (look_visible P T M s m now Q Sh HT k Hp0) as Hv.
  destruct (get_exact s now (empty_entry k) 0 (look m now k) Hwf eq_refl Hv) as [_ H].
  destruct (get_unchanged now s (empty_entry k) Hwf (clock_i64 now Hn)) as [_ Hun].
  assert (Hq : quiet now (M + 1) (o_store (get s now (empty_entry k) 0))).
  { eapply quiet_mono with (M := M); [apply Z.le_refl|clear; lia|]. exact (quiet_get T M s now Q HT (clock_i64 now Hn) (HM64 M HM) (empty_entry k) 0). }
  assert (Hs : shows P now m (o_store (get s now (empty_entry k) 0))) by (eapply shows_unchanged; eauto).
  destruct (look m now k) as [r|] eqn:L.
  - destruct H as (Hres & _ & Hrec & Hsz). pose proof (get_key s now k 0) as Hkey.
    assert (W : wf_rec r) by exact (proj1 (proj2 Hv)). rewrite <- Hrec in Hsz. cbn [rec_of r_data] in Hsz.
    destruct (entry_sizes k _ _ Hkey Hrec Hsz W Hk) as (Z1 & Z2).
    eexists _, _, (mkSays 0 (r_version r) (be_enc 4 (r_flag r)) (if wk then k else []) (r_data r)).
    split; [|split; [exact (b_got asked now m wk k r L)|split; [exact Hq|exact Hs]]].
    cbn [run_brequest brequest_of a_call a_quiet]. fold o0. unfold run_bget. change (mkEntry k 0 0 0 0 0 []) with (empty_entry k). rewrite Hres, Hwk.
    rewrite (value_response_encode o0 wk _ (opcode_small _ _) Z1 Hsz Z2), Hkey.
    assert (Ef : e_flag (o_entry (get s now (empty_entry k) 0)) = r_flag r) by exact (f_equal r_flag Hrec).
    assert (Ed : e_data (o_entry (get s now (empty_entry k) 0)) = r_data r) by exact (f_equal r_data Hrec). rewrite Ef, Ed. reflexivity.
  - destruct H as (Hres & _).
    eexists _, _, (mkSays 1 0 [] (if wk then k else []) (s2b "Not found")).
    split; [|split; [exact (b_missed asked now m wk k L)|split; [exact Hq|exact Hs]]].
    cbn [run_brequest brequest_of a_call a_quiet]. fold o0. unfold run_bget. change (mkEntry k 0 0 0 0 0 []) with (empty_entry k). rewrite Hres.
    rewrite (missing_encode o0 _ (opcode_small _ _)) by exact Hk. cbn [e_key empty_entry]. rewrite Hwk. reflexivity.
Qed.
Lemma bfine_plain q op c t : counterpart c = Some t -> In c [QFlush; QNoop; QQuit] -> bfine (mkAsk q op c).
Proof.
  intros Hc Hin. cbn [In] in Hin. destruct Hin as [<-|[<-|[<-|[]]]]; cbn [counterpart] in Hc; injection Hc as <-.
  - exists (truncate s), (fun _ => None), (mkSays 0 0 [] [] []). split; [destruct q; vm_compute; reflexivity|].
    destruct (fine_flush P M s m asked now false) as (p & m' & Hrun & _ & Hq & _). injection Hrun as <-. cbn [p_store] in Hq.
    split; [|split; [exact Hq|]]; [|intros k _ t _; cbn; left; apply truncate_empty].
    exact (b_status asked now m QFlush _ (fun _ => None) (s2b "OK") 0 [] eq_refl (flushed asked now m false) eq_refl).
  - exists s, m, (mkSays 0 (token m []) [] [] []). split; [destruct q; vm_compute; reflexivity|].
    split; [|split; [eapply quiet_still; eauto|eapply shows_still; eauto]].
    exact (b_status asked now m QNoop _ m (s2b "OK") 0 [] eq_refl (pinged asked now m) eq_refl).
  - exists s, m, (mkSays 0 (token m []) [] [] []). split; [destruct q; vm_compute; reflexivity|].
    split; [|split; [eapply quiet_still; eauto|eapply shows_still; eauto]].
    exact (b_status asked now m QQuit _ m (s2b "END") 0 [] eq_refl (left asked now m) eq_refl).
Qed.
Lemma bfine_version q op : bfine (mkAsk q op QVersion).
Proof.
  exists s, m, (mkSays 0 0 [] [] (s2b "flare-1.3.4")). split; [destruct q; vm_compute; reflexivity|].
  split; [apply b_version|]. split; [eapply quiet_still; eauto|eapply shows_still; eauto].
Qed.
Lemma bfine_ask a : (match a_call a with QFlush | QNoop | QVersion | QQuit => True | c => P (key_of c) end) ->
  legal_ask a -> ~ unfit now m (AskBinary a) -> bfine a.
Proof.
  intros Hp0 (_ & Hc) Hu. cbn [unfit] in Hu. apply Decidable.not_or in Hu as (_ & Hu). apply Decidable.not_or in Hu as (H1 & H2).
  assert (Hl : forall t, counterpart (a_call a) = Some t -> ~ too_long now m t) by (intros t Ht Htl; apply H1; eauto).
  destruct a as [q op c]. cbn [a_call a_quiet a_opaque] in *. destruct c as [md k f x d|k f x d t|k x|k x|k|up k v i|wk k| | | |].
  - destruct Hc as (_ & Hf & Hx & Hd). now apply bfine_store.
  - destruct Hc as (_ & Hf & Hx & Hd & Ht). apply bfine_cas; auto. apply Ht.
  - apply bfine_touch; [exact Hp0|apply Hc].
  - destruct Hc as (Hk & Hx). apply bfine_gat; [exact Hp0|apply Hk|exact Hx].
  - now apply bfine_delete.
  - destruct Hc as (Hk & Hv & Hi). apply bfine_count; [exact Hp0|exact Hv|]. intros j -> Hlk. apply H2. eauto 6.
  - apply bfine_get; [exact Hp0|apply Hc].
  - eapply bfine_plain; [reflexivity|cbn; tauto].
  - eapply bfine_plain; [reflexivity|cbn; tauto].
  - apply bfine_version.
  - eapply bfine_plain; [reflexivity|cbn; tauto].
Qed.
End Step.
