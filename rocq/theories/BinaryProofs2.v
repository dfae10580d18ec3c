(** Proofs for the binary protocol (C19, C43, C44): requests, responses, framing. *)
From Coq Require Import ZArith NArith List Bool Lia ZifyBool ZifyNat ZifyN.
From Verif Require Import Base BaseLemmas StorageModel TextModel TextProofs StreamModel StreamSpec StreamProofs StreamProofs2 BinaryModel BinarySpec BinaryProofs.
Import ListNotations.
Local Open Scope N_scope.
Local Open Scope list_scope.

Lemma serve_encode now m s : well_sized m -> m_magic m = magic_request -> body m <> [] ->
  serve_binary now (encode m ++ s) = let* r := parse_binary now (header m) (Some (body m)) in Ok (r, s).
Proof.
  intros Z M B. unfold serve_binary, encode. rewrite <- app_assoc, read_header_spec by apply header_length.
  pose proof (header_fields m Z) as (-> & _). rewrite M, N.eqb_refl. cbn [bind]. rewrite body_of_ok by auto. reflexivity.
Qed.
Lemma slice_at0 (a b : bytes) len : len = blen a -> slice 0 len (a ++ b) = Ok a.
Proof. intros E. change (a ++ b) with ([] ++ a ++ b). apply slice_ok; auto. Qed.
Lemma be4 v : v < 2 ^ 32 -> be_dec (be_enc 4 v) = v. Proof. intros. apply be_dec_enc. exact H. Qed.
Lemma be8 v : v < 2 ^ 64 -> be_dec (be_enc 8 v) = v. Proof. intros. apply be_dec_enc. exact H. Qed.
Lemma blen_be k v : blen (be_enc k v) = N.of_nat k. Proof. unfold blen. now rewrite be_enc_length. Qed.
Lemma nmem_in x l : In x l -> nmem x l = true.
Proof. intros H. apply existsb_exists. exists x. split; auto. apply N.eqb_refl. Qed.

Lemma binary_store_roundtrip now m flag exp s :
  well_sized m -> m_magic m = 128 -> In (m_opcode m) [1; 17; 2; 18; 3; 19] ->
  flag < 2 ^ 32 -> exp < 2 ^ 32 -> m_extras m = be_enc 4 flag ++ be_enc 4 exp ->
  serve_binary now (encode m ++ s)
  = Ok (BStore (m_opcode m) (0 <? m_cas m)
          (mkEntry (m_key m) flag (realtime now (Z.of_N exp)) (blen (m_value m)) (m_cas m) 0 (m_value m)), s).
Proof.
  intros Z M O F X E. rewrite serve_encode; auto.
  2:{ unfold body. rewrite E. intros H. apply app_eq_nil in H as (H & _). apply app_eq_nil in H as (H & _). apply (f_equal (@List.length N)) in H. rewrite be_enc_length in H. discriminate. }
  pose proof (header_fields m Z) as (_ & HO & _ & HX & _). unfold parse_binary. rewrite HO. rewrite nmem_in by exact O.
  unfold binary_set. rewrite HX, E, blen_app, !blen_be. change (N.of_nat 4 + N.of_nat 4 =? 8) with true. cbn [negb].
  rewrite parse_body_ok by auto. cbn [bind]. unfold body at 1. rewrite E, <- app_assoc.
  rewrite slice_at0 by now rewrite blen_be. cbn [bind]. unfold body at 1. rewrite E, <- app_assoc. rewrite slice_ok by now rewrite blen_be. cbn [bind].
  rewrite take_data_ok by auto. cbn [bind e_version with_data with_expire with_flag]. rewrite HO, !be4 by auto. reflexivity.
Qed.
Lemma binary_append_roundtrip now m s :
  well_sized m -> m_magic m = 128 -> In (m_opcode m) [14; 25; 15; 26] -> m_extras m = [] -> body m <> [] ->
  serve_binary now (encode m ++ s)
  = Ok (BStore (m_opcode m) false (mkEntry (m_key m) 0 0 (blen (m_value m)) (m_cas m) 0 (m_value m)), s).
Proof.
  intros Z M O E B. rewrite serve_encode; auto.
  pose proof (header_fields m Z) as (_ & HO & _ & HX & _). unfold parse_binary. rewrite HO.
  assert (H1 : nmem (m_opcode m) op_sets = false) by (cbn [In] in O; destruct O as [<-|[<-|[<-|[<-|[]]]]]; reflexivity).
  rewrite H1, nmem_in by exact O. unfold binary_append. rewrite HX, E. cbn [blen]. change (blen [] =? 0) with true. cbn [negb].
  rewrite parse_body_ok by auto. cbn [bind]. rewrite take_data_ok by auto. cbn [bind]. rewrite HO. reflexivity.
Qed.
Lemma binary_delete_roundtrip now m s :
  well_sized m -> m_magic m = 128 -> In (m_opcode m) [4; 20] -> m_extras m = [] -> m_value m = [] -> m_key m <> [] ->
  serve_binary now (encode m ++ s) = Ok (BDelete (m_opcode m) (mkEntry (m_key m) 0 0 0 (m_cas m) 0 []), s).
Proof.
  intros Z M O E V K. assert (B : body m = m_key m) by (unfold body; now rewrite E, V, app_nil_r).
  rewrite serve_encode; auto. 2:{ now rewrite B. }
  pose proof (header_fields m Z) as (_ & HO & _ & HX & _). unfold parse_binary. rewrite HO.
  assert (H1 : nmem (m_opcode m) op_sets = false /\ nmem (m_opcode m) op_appends = false) by (cbn [In] in O; destruct O as [<-|[<-|[]]]; split; reflexivity).
  destruct H1 as (-> & ->). rewrite nmem_in by exact O. unfold binary_delete. rewrite HX, E. change (blen [] =? 0) with true. cbn [negb].
  rewrite parse_body_ok by auto. cbn [bind]. rewrite HO, V. reflexivity.
Qed.
Lemma binary_get_roundtrip now m s :
  well_sized m -> m_magic m = 128 -> In (m_opcode m) [0; 9; 12; 13] -> m_extras m = [] -> m_value m = [] -> m_key m <> [] ->
  serve_binary now (encode m ++ s) = Ok (BGet (m_opcode m) (mkEntry (m_key m) 0 0 0 (m_cas m) 0 []), s).
Proof.
  intros Z M O E V K. assert (B : body m = m_key m) by (unfold body; now rewrite E, V, app_nil_r).
  rewrite serve_encode; auto. 2:{ now rewrite B. }
  pose proof (header_fields m Z) as (_ & HO & HK & HX & _). unfold parse_binary. rewrite HO.
  assert (H1 : nmem (m_opcode m) op_sets = false /\ nmem (m_opcode m) op_appends = false /\ nmem (m_opcode m) op_deletes = false)
    by (cbn [In] in O; destruct O as [<-|[<-|[<-|[<-|[]]]]]; repeat split; reflexivity).
  destruct H1 as (-> & -> & ->). rewrite nmem_in by exact O. unfold binary_get. rewrite HX, HK, E. change (blen [] =? 0) with true. cbn [negb].
  destruct (N.eqb_spec (blen (m_key m)) 0) as [X|_]; [destruct (m_key m); [easy|rewrite blen_cons in X; lia]|].
  rewrite parse_body_ok by auto. cbn [bind]. rewrite HO, V. reflexivity.
Qed.
Lemma binary_incr_roundtrip now m value initial exp s :
  well_sized m -> m_magic m = 128 -> In (m_opcode m) [5; 21; 6; 22] ->
  value < 2 ^ 64 -> initial < 2 ^ 64 -> exp < 2 ^ 32 -> m_extras m = be_enc 8 value ++ be_enc 8 initial ++ be_enc 4 exp ->
  serve_binary now (encode m ++ s)
  = Ok (BIncr (m_opcode m)
          (if exp =? 4294967295 then mkEntry (m_key m) 0 0 (blen (m_value m)) (m_cas m) 0 []
           else mkEntry (m_key m) 0 (realtime now (Z.of_N exp)) (blen (dec initial)) (m_cas m) 0 (dec initial))
          value (if exp =? 4294967295 then None else Some initial), s).
Proof.
  intros Z M O HV HI HE E. rewrite serve_encode; auto.
  2:{ unfold body. rewrite E. intros H. apply app_eq_nil in H as (H & _). apply app_eq_nil in H as (H & _). apply (f_equal (@List.length N)) in H. rewrite be_enc_length in H. discriminate. }
  pose proof (header_fields m Z) as (_ & HO & _ & HX & _). unfold parse_binary. rewrite HO.
  assert (H1 : nmem (m_opcode m) op_sets = false /\ nmem (m_opcode m) op_appends = false /\ nmem (m_opcode m) op_deletes = false /\ nmem (m_opcode m) op_gets = false)
    by (cbn [In] in O; destruct O as [<-|[<-|[<-|[<-|[]]]]]; repeat split; reflexivity).
  destruct H1 as (-> & -> & -> & ->). rewrite nmem_in by exact O.
  unfold binary_incr. rewrite HX, E, !blen_app, !blen_be. change (N.of_nat 8 + (N.of_nat 8 + N.of_nat 4) =? 20) with true. cbn [negb].
  rewrite parse_body_ok by auto. cbn [bind].
  assert (S0 : slice 0 8 (body m) = Ok (be_enc 8 value)) by (unfold body; rewrite E, <- !app_assoc; apply slice_at0; now rewrite blen_be).
  assert (S1 : slice 8 8 (body m) = Ok (be_enc 8 initial)) by (unfold body; rewrite E, <- !app_assoc; apply slice_ok; now rewrite blen_be).
  assert (S2 : slice 16 4 (body m) = Ok (be_enc 4 exp)).
  { unfold body. rewrite E, <- !app_assoc, app_assoc. apply slice_ok; rewrite ?blen_app, !blen_be; reflexivity. }
  rewrite S0. cbn [bind]. rewrite S2. cbn [bind]. rewrite be4 by auto. destruct (exp =? 4294967295).
  - cbn [bind]. rewrite HO, be8 by auto. reflexivity.
  - rewrite S1. cbn [bind]. rewrite HO, !be8 by auto. reflexivity.
Qed.
Lemma binary_touch_roundtrip now m exp s :
  well_sized m -> m_magic m = 128 -> In (m_opcode m) [28; 29; 30] -> exp < 2 ^ 32 -> m_extras m = be_enc 4 exp ->
  serve_binary now (encode m ++ s)
  = Ok (BTouch (m_opcode m) (mkEntry (m_key m) 0 (realtime now (Z.of_N exp)) (blen (m_value m)) (m_cas m) 0 []), s).
Proof.
  intros Z M O HE E. rewrite serve_encode; auto.
  2:{ unfold body. rewrite E. intros H. apply app_eq_nil in H as (H & _). apply (f_equal (@List.length N)) in H. rewrite be_enc_length in H. discriminate. }
  pose proof (header_fields m Z) as (_ & HO & _ & HX & _). unfold parse_binary. rewrite HO.
  assert (H1 : nmem (m_opcode m) op_sets = false /\ nmem (m_opcode m) op_appends = false /\ nmem (m_opcode m) op_deletes = false /\ nmem (m_opcode m) op_gets = false /\ nmem (m_opcode m) op_incrs = false)
    by (cbn [In] in O; destruct O as [<-|[<-|[<-|[]]]]; repeat split; reflexivity).
  destruct H1 as (-> & -> & -> & -> & ->). rewrite nmem_in by exact O.
  unfold binary_touch. rewrite HX, E, !blen_be. change (N.of_nat 4 =? 4) with true. cbn [negb].
  rewrite parse_body_ok by auto. cbn [bind].
  assert (S0 : slice 0 4 (body m) = Ok (be_enc 4 exp)) by (unfold body; rewrite E; apply slice_at0; now rewrite blen_be).
  rewrite S0. cbn [bind]. rewrite HO, be4 by auto. reflexivity.
Qed.

(** ** Lengths that add up are never read outside the body *)
Lemma slice_in off len b : off + len <= blen b -> exists d, slice off len b = Ok d /\ blen d = len.
Proof.
  intros H. unfold slice. destruct (N.leb_spec (off + len) (blen b)); [|lia]. eexists. split; [reflexivity|].
  unfold blen in *. rewrite firstn_length, skipn_length. lia.
Qed.
Lemma be_dec_small h f : List.length h = 24%nat -> wf_bytes h -> get_field f h < 256 ^ N.of_nat (width f).
Proof.
  intros L W. unfold get_field. set (x := firstn _ _).
  assert (LX : List.length x = width f). { unfold x. rewrite firstn_length, skipn_length. pose proof (fit f). lia. }
  rewrite <- LX. apply be_dec_bound. unfold x, wf_bytes in *. apply Forall_forall. intros y Hy. rewrite Forall_forall in W. apply W.
  assert (In y (skipn (offset f) h)).
  { rewrite <- (firstn_skipn (width f) (skipn (offset f) h)). apply in_or_app. now left. }
  rewrite <- (firstn_skipn (offset f) h). apply in_or_app. now right.
Qed.
Lemma parse_binary_safe now h b :
  List.length h = 24%nat -> wf_bytes h -> blen b = get_field FTotal h ->
  get_field FKeyLen h + get_field FExtras h <= get_field FTotal h ->
  parse_binary now h (Some b) <> Undef.
Proof.
  intros L W B K.
  assert (HT := be_dec_small h FTotal L W). assert (HK := be_dec_small h FKeyLen L W). assert (HX := be_dec_small h FExtras L W).
  change (256 ^ N.of_nat (width FTotal)) with 4294967296 in HT. change (256 ^ N.of_nat (width FKeyLen)) with 65536 in HK. change (256 ^ N.of_nat (width FExtras)) with 256 in HX.
  assert (P : exists k, parse_body h (Some b) = Ok (mkEntry k 0 0 (get_field FTotal h - get_field FKeyLen h - get_field FExtras h) (get_field FCas h) 0 [], b)).
  { unfold parse_body. destruct (slice_in (get_field FExtras h) (get_field FKeyLen h) b ltac:(lia)) as (k & -> & _). cbn [bind].
    exists k. do 3 f_equal. unfold u32. change (2 ^ 32) with 4294967296.
    replace (get_field FTotal h + 4294967296 - get_field FKeyLen h + 4294967296 - get_field FExtras h) with (get_field FTotal h - get_field FKeyLen h - get_field FExtras h + 2 * 4294967296) by lia.
    rewrite N.mod_add by lia. apply N.mod_small. lia. }
  destruct P as (k & P).
  assert (T : forall e, e_size e = get_field FTotal h - get_field FKeyLen h - get_field FExtras h -> exists d, take_data h e b = Ok (with_data e d)).
  { intros e E. unfold take_data. rewrite E. destruct (slice_in (get_field FExtras h + get_field FKeyLen h) (get_field FTotal h - get_field FKeyLen h - get_field FExtras h) b ltac:(lia)) as (d & -> & _).
    cbn [bind]. eauto. }
  unfold parse_binary. set (o := get_field FOpcode h).
  destruct (nmem o op_sets).
  { unfold binary_set. destruct (N.eqb_spec (get_field FExtras h) 8); [|discriminate]. cbn [negb]. rewrite P. cbn [bind].
    destruct (slice_in 0 4 b ltac:(lia)) as (f & -> & _). cbn [bind]. destruct (slice_in 4 4 b ltac:(lia)) as (x & -> & _). cbn [bind].
    destruct (T (with_expire (with_flag (mkEntry k 0 0 (get_field FTotal h - get_field FKeyLen h - get_field FExtras h) (get_field FCas h) 0 []) (be_dec f)) (realtime now (Z.of_N (be_dec x)))) eq_refl) as (d & ->). discriminate. }
  destruct (nmem o op_appends).
  { unfold binary_append. destruct (N.eqb_spec (get_field FExtras h) 0); [|discriminate]. cbn [negb]. rewrite P. cbn [bind].
    destruct (T (mkEntry k 0 0 (get_field FTotal h - get_field FKeyLen h - get_field FExtras h) (get_field FCas h) 0 []) eq_refl) as (d & ->). discriminate. }
  destruct (nmem o op_deletes).
  { unfold binary_delete. destruct (N.eqb_spec (get_field FExtras h) 0); [|discriminate]. cbn [negb]. rewrite P. discriminate. }
  destruct (nmem o op_gets).
  { unfold binary_get. destruct (N.eqb_spec (get_field FExtras h) 0); [|discriminate]. cbn [negb]. destruct (_ =? _); [discriminate|]. rewrite P. discriminate. }
  destruct (nmem o op_incrs).
  { unfold binary_incr. destruct (N.eqb_spec (get_field FExtras h) 20); [|discriminate]. cbn [negb]. rewrite P. cbn [bind].
    destruct (slice_in 0 8 b ltac:(lia)) as (f & -> & _). cbn [bind]. destruct (slice_in 16 4 b ltac:(lia)) as (x & -> & _). cbn [bind].
    destruct (_ =? _); [discriminate|]. destruct (slice_in 8 8 b ltac:(lia)) as (i & -> & _). discriminate. }
  destruct (nmem o op_touches).
  { unfold binary_touch. destruct (N.eqb_spec (get_field FExtras h) 4); [|discriminate]. cbn [negb]. rewrite P. cbn [bind].
    destruct (slice_in 0 4 b ltac:(lia)) as (x & -> & _). discriminate. }
  discriminate.
Qed.
Lemma serve_binary_safe now h s : List.length h = 24%nat -> wf_bytes h ->
  get_field FKeyLen h + get_field FExtras h <= get_field FTotal h <= 2147483647 ->
  serve_binary now (h ++ s) <> Undef.
Proof.
  intros L W K. unfold serve_binary. rewrite read_header_spec by auto. destruct (_ =? _); [|discriminate]. cbn [bind].
  unfold body_of. destruct (N.eqb_spec (get_field FTotal h) 0) as [E|E].
  - cbn [orb bind]. assert (KZ : get_field FKeyLen h = 0) by lia. clear K.
    unfold parse_binary. set (o := get_field FOpcode h).
    destruct (nmem o op_sets). { unfold binary_set. destruct (negb _); discriminate. }
    destruct (nmem o op_appends). { unfold binary_append. destruct (negb _); discriminate. }
    destruct (nmem o op_deletes). { discriminate. }
    destruct (nmem o op_gets). { unfold binary_get. destruct (negb _); [discriminate|]. destruct (_ =? _); discriminate. }
    destruct (nmem o op_incrs). { unfold binary_incr. destruct (negb _); discriminate. }
    destruct (nmem o op_touches). { discriminate. }
    rewrite E. change (0 <? 0) with false. rewrite andb_false_r. discriminate.
  - destruct (N.ltb_spec int_max (get_field FTotal h)); [unfold int_max in *; lia|]. cbn [orb].
    unfold get_bytes. destruct (N.ltb_spec int_max (get_field FTotal h)); [lia|].
    destruct (N.leb_spec (get_field FTotal h) (blen s)); [|discriminate]. cbn [bind].
    set (b := firstn _ s). assert (B : blen b = get_field FTotal h) by (unfold b, blen in *; rewrite firstn_length; lia).
    pose proof (parse_binary_safe now h b L W B ltac:(lia)) as X. destruct (parse_binary now h (Some b)); [easy|discriminate|discriminate].
Qed.

(** ** Responses *)
Lemma firstn_size d n : n = blen d -> firstn (N.to_nat n) d = d.
Proof. intros ->. unfold blen. now rewrite Nnat.Nat2N.id, firstn_all. Qed.
Lemma mod_fit v k : v < 256 ^ k -> v mod 256 ^ k = v. Proof. apply N.mod_small. Qed.
Lemma value_response_encode opcode (pk : bool) e :
  opcode < 2 ^ 8 -> blen (e_key e) < 2 ^ 16 -> e_size e = blen (e_data e) -> blen (e_key e) + e_size e + 4 < 2 ^ 32 ->
  value_response opcode pk e
  = encode (mkMsg 129 opcode 0 0 0 (be_enc 4 (e_flag e)) (if pk then e_key e else []) (e_data e)).
Proof.
  intros HO HK HS HT. unfold value_response, encode, body, header.
  cbn [m_magic m_opcode m_status m_opaque m_cas m_extras m_key m_value].
  rewrite firstn_size by auto. rewrite !app_assoc. do 3 f_equal. rewrite <- !app_assoc.
  rewrite blen_be. change (N.of_nat 4) with 4.
  unfold new_header, set_field. cbn [offset width]. 
  rewrite (mod_fit opcode) by exact HO.
  assert (T : u32 (4 + (if pk then blen (e_key e) else 0) + e_size e) mod 256 ^ N.of_nat 4 = 4 + blen (if pk then e_key e else []) + blen (e_data e)).
  { unfold u32. change (256 ^ N.of_nat 4) with 4294967296. change (2 ^ 32) with 4294967296 in *.
    rewrite N.mod_mod by lia. rewrite N.mod_small; destruct pk; rewrite ?blen_nil; lia. }
  rewrite T. set (X := be_enc 4 (4 + _ + _)). assert (LX : List.length X = 4%nat) by apply be_enc_length. clearbody X.
  assert (LO : exists x, be_enc 1 opcode = [x]). { pose proof (be_enc_length 1 opcode) as L. destruct (be_enc 1 opcode) as [|x [|? ?]]; try discriminate. eauto. }
  destruct LO as (x & ->). destruct X as [|x1 [|x2 [|x3 [|x4 [|? ?]]]]]; try discriminate.
  destruct pk.
  - rewrite (mod_fit (blen (e_key e))) by exact HK.
    assert (LK : exists y z, be_enc 2 (blen (e_key e)) = [y; z]). { pose proof (be_enc_length 2 (blen (e_key e))) as L. destruct (be_enc 2 (blen (e_key e))) as [|y [|z [|? ?]]]; try discriminate. eauto. }
    destruct LK as (y & z & ->). reflexivity.
  - reflexivity.
Qed.
Lemma result_response_encode opcode r :
  opcode < 2 ^ 8 ->
  result_response opcode false r = encode (mkMsg 129 opcode (status_of r) 0 0 [] [] (message_of r)).
Proof.
  intros HO. unfold result_response, encode, body, header. cbn [andb m_magic m_opcode m_status m_opaque m_cas m_extras m_key m_value].
  unfold new_header, set_field. cbn [offset width]. rewrite (mod_fit opcode) by exact HO.
  assert (LO : exists x, be_enc 1 opcode = [x]). { pose proof (be_enc_length 1 opcode) as L. destruct (be_enc 1 opcode) as [|x [|? ?]]; try discriminate. eauto. }
  destruct LO as (x & ->). destruct r; reflexivity.
Qed.

(** ** Any chunking *)
Lemma readsize_sock_none ss v k x c : readsize_sock v k None ss = Ok (x, c) ->
  (List.length v <= List.length x)%nat /\
  (rbuf c = None \/ exists p u, rbuf c = Some (p, u) /\ (List.length p + List.length v <= List.length x)%nat).
Proof.
  revert v k. induction ss as [|seg ss IH]; intros v k; cbn [readsize_sock].
  - destruct (1024 <? N.of_nat k); discriminate.
  - destruct (1024 <? N.of_nat k).
    + destruct (take_segs k (seg :: ss)) as [| |(z, r)]; cbn [bind]; try discriminate. intros [= <- <-]. rewrite app_length. split; [lia|now left].
    + destruct seg as [|y seg]; [discriminate|]. destruct (Nat.ltb_spec k (List.length (y :: seg))) as [HL|HL].
      * intros [= <- <-]. rewrite app_length. split; [lia|]. right. destruct (_ <? _); eexists _, _; (split; [reflexivity|]); cbn [List.length]; lia.
      * destruct (_ =? _)%nat; [intros [= <- <-]; rewrite app_length; split; [lia|now left]|].
        intros R. apply IH in R as (L & R). rewrite app_length in *. split; [lia|]. destruct R as [R|(p & u & R & LP)]; [now left|right].
        exists p, u. split; auto. lia.
Qed.
Lemma push_back_readsize n c x c' : wf_conn c -> unread c <> [] -> n <> 0 -> readsize n c = Ok (x, c') ->
  stream (push_back c' x) = x ++ stream c' /\ unread (push_back c' x) <> [].
Proof.
  intros W U Hn R. assert (NX : x <> []).
  { pose proof (readsize_agrees n c W) as A. rewrite R in A. unfold get_bytes in A. destruct (int_max <? n); [easy|].
    destruct (N.leb_spec n (blen (stream c))) as [H|]; [|easy]. destruct A as (-> & _). intros X. apply (f_equal (@List.length N)) in X.
    unfold blen in H. rewrite firstn_length in X. cbn [List.length] in X. lia. }
  assert (G : rbuf c' = None \/ (exists p u, rbuf c' = Some (p ++ x, u)) \/ exists p u, rbuf c' = Some (p, u) /\ (List.length p < List.length x)%nat).
  { unfold readsize in R. destruct (int_max <? n); [discriminate|]. destruct (N.eqb_spec n 0); [easy|]. cbv zeta in R.
    unfold unread in U. destruct (rbuf c) as [(pre, [|y u])|]; try easy.
    destruct (Nat.ltb_spec (N.to_nat n) (List.length (y :: u))) as [H|H].
    - injection R as <- <-. cbn [rbuf]. right. left. eauto.
    - destruct (Nat.eqb_spec (N.to_nat n) (List.length (y :: u))) as [H1|H1].
      + injection R as <- <-. now left.
      + apply readsize_sock_none in R as (L & [R|(p & u' & R & LP)]); [now left|]. right. right. exists p, u'. split; auto. cbn [List.length] in LP. lia. }
  destruct c' as [b ss]. cbn [rbuf] in G. destruct G as [->|[(p & u & ->)|(p & u & -> & LP)]].
  - unfold push_back, stream, unread. cbn [rbuf segs app]. split; auto.
  - rewrite push_back_lazy. unfold stream, unread. cbn [rbuf segs]. split; [now rewrite app_assoc|]. destruct x; easy.
  - unfold push_back. cbn [rbuf segs]. unfold blen. destruct (N.leb_spec (N.of_nat (List.length x)) (N.of_nat (List.length p))); [lia|].
    unfold stream, unread. cbn [rbuf segs]. split; [now rewrite app_assoc|]. destruct x; easy.
Qed.
Lemma push_back_wf c p : wf_conn c -> wf_conn (push_back c p).
Proof. unfold wf_conn. now rewrite push_back_segs. Qed.
Lemma conn_header_agrees magic c : wf_conn c -> agrees (conn_header magic c) (read_header magic (stream c)).
Proof.
  intros W. unfold conn_header, read_header. pose proof (readsize_agrees 24 c W) as A.
  destruct (readsize 24 c) as [| |(h, c')], (get_bytes 24 (stream c)) as [| |(h', s')]; try easy. destruct A as (-> & E & W'). cbn [bind].
  destruct (_ =? _); [|exact I]. repeat split; auto.
Qed.
Lemma conn_binary_agrees now c : wf_conn c -> ~ stale c -> agrees (conn_binary now c) (serve_binary now (stream c)).
Proof.
  intros W NS. unfold conn_binary. pose proof (read_magic_ok c W NS) as M.
  destruct (stream c) as [|x sx] eqn:EC.
  - rewrite M. reflexivity.
  - destruct M as (c1 & -> & ES & W1 & U1). cbn [bind]. rewrite <- EC in *. rewrite <- ES. clear EC ES W NS c.
    pose proof (conn_header_agrees magic_request c1 W1) as A. unfold serve_binary.
    destruct (conn_header magic_request c1) as [| |(h, c2)] eqn:R, (read_header magic_request (stream c1)) as [| |(h', s2)] eqn:RS; try easy.
    destruct A as (<- & E2 & W2). cbn [bind].
    assert (RZ : readsize 24 c1 = Ok (h, c2)).
    { unfold conn_header in R. destruct (readsize 24 c1) as [| |(h0, c0)]; cbn [bind] in R; try discriminate. destruct (_ =? _) in R; [|discriminate]. congruence. }
    destruct (push_back_readsize 24 c1 h c2 W1 U1 ltac:(discriminate) RZ) as (EP & UP).
    pose proof (push_back_wf c2 h W2) as WP. set (c3 := push_back c2 h) in *. clearbody c3.
    assert (LH : List.length h = 24%nat /\ get_field FMagic h = magic_request).
    { unfold read_header, get_bytes in RS. destruct (int_max <? 24); [discriminate|]. destruct (N.leb_spec 24 (blen (stream c1))) as [HL|]; [|discriminate].
      cbn [bind] in RS. destruct (N.eqb_spec (get_field FMagic (firstn (N.to_nat 24) (stream c1))) magic_request) as [EM|]; [|discriminate].
      injection RS as <- <-. split; auto. unfold blen in HL. rewrite firstn_length. lia. }
    pose proof (conn_header_agrees magic_request c3 WP) as A. rewrite EP in A. rewrite read_header_spec in A by apply LH.
    destruct LH as (LH & MH). rewrite MH, N.eqb_refl in A. destruct (conn_header magic_request c3) as [| |(h4, c4)]; try easy.
    destruct A as (-> & E4 & W4). cbn [bind]. unfold body_of. rewrite <- E2, <- E4.
    destruct (_ || _).
    + cbn [bind]. destruct (parse_binary now h None); try exact I. repeat split; auto.
    + pose proof (readsize_agrees (get_field FTotal h) c4 W4) as A.
      destruct (readsize (get_field FTotal h) c4) as [| |(b, c5)], (get_bytes (get_field FTotal h) (stream c4)) as [| |(b', s5)]; try easy.
      destruct A as (-> & E5 & W5). cbn [bind]. destruct (parse_binary now h (Some b')); try exact I. repeat split; auto.
Qed.
Lemma overlong_key now h b s :
  List.length h = 24%nat -> get_field FMagic h = 128 -> In (get_field FOpcode h) [0; 9; 12; 13; 4; 20] -> get_field FExtras h = 0 ->
  0 < get_field FTotal h <= 2147483647 -> get_field FTotal h < get_field FKeyLen h -> blen b = get_field FTotal h ->
  serve_binary now (h ++ b ++ s) = Undef.
Proof.
  intros L M O X T K B. unfold serve_binary. rewrite read_header_spec, M by auto. change (128 =? magic_request) with true. cbn [bind].
  unfold body_of. destruct (N.eqb_spec (get_field FTotal h) 0); [lia|]. destruct (N.ltb_spec int_max (get_field FTotal h)); [unfold int_max in *; lia|]. cbn [orb].
  rewrite <- B, get_bytes_app by (unfold int_max in *; lia). cbn [bind].
  assert (P : parse_body h (Some b) = Undef).
  { unfold parse_body, slice. rewrite X. destruct (N.leb_spec (0 + get_field FKeyLen h) (blen b)); [lia|]. reflexivity. }
  unfold parse_binary, binary_get, binary_delete. rewrite X, P. change (0 =? 0) with true. cbn [negb]. destruct (N.eqb_spec (get_field FKeyLen h) 0); [lia|].
  cbn [In] in O. destruct O as [<-|[<-|[<-|[<-|[<-|[<-|[]]]]]]]; reflexivity.
Qed.
