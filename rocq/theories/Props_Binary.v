(** C19: binary headers and requests round trip; C43: bodies are parsed within
    their bounds; C44: responses identify the request and the version. *)
From Coq Require Import ZArith NArith List Bool String.
From Verif Require Import Base BaseLemmas StorageModel TextModel StreamModel StreamSpec BinaryModel BinarySpec BinaryProofs BinaryProofs2.
Import ListNotations.
Local Open Scope N_scope.
Local Open Scope list_scope.

(** C19. Writing one header member and reading it back gives the value; every other
    member, and the size of the header, stay as they were. *)
Theorem c19_field_roundtrip : forall f v h,
  List.length h = 24%nat -> v < 256 ^ N.of_nat (width f) ->
  get_field f (set_field f v h) = v /\ List.length (set_field f v h) = 24%nat /\
  forall g, g <> f -> get_field g (set_field f v h) = get_field g h.
Proof. intros f v h L V. split; [|split]; [rewrite get_set by auto; now apply N.mod_small|rewrite set_length; auto|]. intros g G. apply get_set_other; congruence. Qed.
Print Assumptions c19_field_roundtrip.

(** C19. Every member of the header of a message is read as it was written. *)
Theorem c19_header_fields : forall m, well_sized m ->
  List.length (header m) = 24%nat /\
  get_field FMagic (header m) = m_magic m /\ get_field FOpcode (header m) = m_opcode m /\
  get_field FKeyLen (header m) = blen (m_key m) /\ get_field FExtras (header m) = blen (m_extras m) /\
  get_field FStatus (header m) = m_status m /\
  get_field FTotal (header m) = blen (m_extras m) + blen (m_key m) + blen (m_value m) /\
  get_field FOpaque (header m) = m_opaque m /\ get_field FCas (header m) = m_cas m.
Proof. intros m Z. split; [apply header_length|]. pose proof (header_fields m Z). intuition. Qed.
Print Assumptions c19_header_fields.

(** C19. A header is taken only if its first byte is the expected magic; fewer than
    24 bytes are not a header. *)
Theorem c19_magic : forall magic h s, List.length h = 24%nat ->
  (get_field FMagic h = magic -> read_header magic (h ++ s) = Ok (h, s)) /\
  (get_field FMagic h <> magic -> read_header magic (h ++ s) = Err).
Proof.
  intros magic h s L. rewrite read_header_spec by auto. destruct (N.eqb_spec (get_field FMagic h) magic); split; easy.
Qed.
Theorem c19_short_header : forall magic s, blen s < 24 -> read_header magic s = Err.
Proof. exact read_header_short. Qed.
Print Assumptions c19_magic.
Print Assumptions c19_short_header.

(** C19. A request written by the protocol's definition is understood: operation,
    key, flags, expiration, cas, value, and what follows stays on the stream. *)
Theorem c19_store_request : forall now m flag exp s,
  well_sized m -> m_magic m = 128 -> In (m_opcode m) [1; 17; 2; 18; 3; 19] ->
  flag < 2 ^ 32 -> exp < 2 ^ 32 -> m_extras m = be_enc 4 flag ++ be_enc 4 exp ->
  serve_binary now (encode m ++ s)
  = Ok (BStore (m_opcode m) (0 <? m_cas m)
          (mkEntry (m_key m) flag (realtime now (Z.of_N exp)) (blen (m_value m)) (m_cas m) 0 (m_value m)), s).
Proof. exact binary_store_roundtrip. Qed.
Theorem c19_append_request : forall now m s,
  well_sized m -> m_magic m = 128 -> In (m_opcode m) [14; 25; 15; 26] -> m_extras m = [] -> body m <> [] ->
  serve_binary now (encode m ++ s)
  = Ok (BStore (m_opcode m) false (mkEntry (m_key m) 0 0 (blen (m_value m)) (m_cas m) 0 (m_value m)), s).
Proof. exact binary_append_roundtrip. Qed.
Theorem c19_delete_request : forall now m s,
  well_sized m -> m_magic m = 128 -> In (m_opcode m) [4; 20] -> m_extras m = [] -> m_value m = [] -> m_key m <> [] ->
  serve_binary now (encode m ++ s) = Ok (BDelete (m_opcode m) (mkEntry (m_key m) 0 0 0 (m_cas m) 0 []), s).
Proof. exact binary_delete_roundtrip. Qed.
Theorem c19_get_request : forall now m s,
  well_sized m -> m_magic m = 128 -> In (m_opcode m) [0; 9; 12; 13] -> m_extras m = [] -> m_value m = [] -> m_key m <> [] ->
  serve_binary now (encode m ++ s) = Ok (BGet (m_opcode m) (mkEntry (m_key m) 0 0 0 (m_cas m) 0 []), s).
Proof. exact binary_get_roundtrip. Qed.
(** The all-ones expiration means: no initial value. *)
Theorem c19_incr_request : forall now m value initial exp s,
  well_sized m -> m_magic m = 128 -> In (m_opcode m) [5; 21; 6; 22] ->
  value < 2 ^ 64 -> initial < 2 ^ 64 -> exp < 2 ^ 32 -> m_extras m = be_enc 8 value ++ be_enc 8 initial ++ be_enc 4 exp ->
  serve_binary now (encode m ++ s)
  = Ok (BIncr (m_opcode m)
          (if exp =? 4294967295 then mkEntry (m_key m) 0 0 (blen (m_value m)) (m_cas m) 0 []
           else mkEntry (m_key m) 0 (realtime now (Z.of_N exp)) (blen (dec initial)) (m_cas m) 0 (dec initial))
          value (if exp =? 4294967295 then None else Some initial), s).
Proof. exact binary_incr_roundtrip. Qed.
Theorem c19_touch_request : forall now m exp s,
  well_sized m -> m_magic m = 128 -> In (m_opcode m) [28; 29; 30] -> exp < 2 ^ 32 -> m_extras m = be_enc 4 exp ->
  serve_binary now (encode m ++ s)
  = Ok (BTouch (m_opcode m) (mkEntry (m_key m) 0 (realtime now (Z.of_N exp)) (blen (m_value m)) (m_cas m) 0 []), s).
Proof. exact binary_touch_roundtrip. Qed.
Print Assumptions c19_store_request.
Print Assumptions c19_append_request.
Print Assumptions c19_delete_request.
Print Assumptions c19_get_request.
Print Assumptions c19_incr_request.
Print Assumptions c19_touch_request.

Definition set_msg : bmsg :=
  mkMsg 128 1 0 7 5 (be_enc 4 9 ++ be_enc 4 100) (s2b "key") (s2b "value").
Example c19_set_msg : well_sized set_msg /\
  serve_binary 1000 (encode set_msg ++ [1; 2])
  = Ok (BStore 1 true (mkEntry (s2b "key") 9 1100 5 5 0 (s2b "value")), [1; 2]).
Proof. split; [constructor; vm_compute; easy|vm_compute; reflexivity]. Qed.
Example c19_other_msgs :
  serve_binary 1000 (encode (mkMsg 128 14 0 7 5 [] (s2b "k") (s2b "v"))) = Ok (BStore 14 false (mkEntry (s2b "k") 0 0 1 5 0 (s2b "v")), [])
  /\ serve_binary 1000 (encode (mkMsg 128 4 0 7 5 [] (s2b "k") [])) = Ok (BDelete 4 (mkEntry (s2b "k") 0 0 0 5 0 []), [])
  /\ serve_binary 1000 (encode (mkMsg 128 0 0 7 5 [] (s2b "k") [])) = Ok (BGet 0 (mkEntry (s2b "k") 0 0 0 5 0 []), [])
  /\ serve_binary 1000 (encode (mkMsg 128 5 0 7 0 (be_enc 8 3 ++ be_enc 8 42 ++ be_enc 4 10) (s2b "k") []))
     = Ok (BIncr 5 (mkEntry (s2b "k") 0 1010 2 0 0 (s2b "42")) 3 (Some 42), [])
  /\ serve_binary 1000 (encode (mkMsg 128 28 0 7 0 (be_enc 4 10) (s2b "k") [])) = Ok (BTouch 28 (mkEntry (s2b "k") 0 1010 0 0 0 []), []).
Proof. vm_compute. repeat split; reflexivity. Qed.

(** C19. The responses are messages of the protocol, with the right opcode, status,
    lengths, flags, key and value. *)
Theorem c19_value_response : forall opcode pk e,
  opcode < 2 ^ 8 -> blen (e_key e) < 2 ^ 16 -> e_size e = blen (e_data e) -> blen (e_key e) + e_size e + 4 < 2 ^ 32 ->
  value_response opcode pk e
  = encode (mkMsg 129 opcode 0 0 0 (be_enc 4 (e_flag e)) (if pk then e_key e else []) (e_data e)).
Proof. exact value_response_encode. Qed.
Theorem c19_result_response : forall opcode r, opcode < 2 ^ 8 ->
  result_response opcode false r = encode (mkMsg 129 opcode (status_of r) 0 0 [] [] (message_of r)).
Proof. exact result_response_encode. Qed.
(** An operation whose [_quiet] is set is silent exactly on success; no operation ever has it set (c58_quiet_refuted). *)
Theorem c19_quiet : forall opcode r,
  result_response opcode true r = if status_of r =? 0 then [] else result_response opcode false r.
Proof. intros opcode r. destruct r; reflexivity. Qed.
(** Different outcomes have different status codes. *)
Theorem c19_status_injective : forall r1 r2, status_of r1 = status_of r2 -> r1 = r2.
Proof. intros r1 r2. destruct r1, r2; easy. Qed.
Print Assumptions c19_value_response.
Print Assumptions c19_result_response.
Print Assumptions c19_quiet.
Print Assumptions c19_status_injective.

(** C19/C20. However the bytes of the request arrive in segments, the request read
    off the connection is the one the byte string carries, and the connection is
    left with exactly the rest.  [stale] is the one-byte-segment state of
    c20_single_byte_segment_refuted. *)
Theorem c19_any_chunking_partial : forall now c, wf_conn c -> ~ stale c ->
  agrees (conn_binary now c) (serve_binary now (stream c)).
Proof. exact conn_binary_agrees. Qed.
Print Assumptions c19_any_chunking_partial.
Corollary c19_store_chunks : forall now m flag exp s c,
  well_sized m -> m_magic m = 128 -> In (m_opcode m) [1; 17; 2; 18; 3; 19] ->
  flag < 2 ^ 32 -> exp < 2 ^ 32 -> m_extras m = be_enc 4 flag ++ be_enc 4 exp ->
  wf_conn c -> ~ stale c -> stream c = encode m ++ s ->
  exists c', conn_binary now c
  = Ok (BStore (m_opcode m) (0 <? m_cas m)
          (mkEntry (m_key m) flag (realtime now (Z.of_N exp)) (blen (m_value m)) (m_cas m) 0 (m_value m)), c') /\ stream c' = s.
Proof.
  intros now m flag exp s c Z M O F X E W NS ES. pose proof (conn_binary_agrees now c W NS) as A.
  rewrite ES, (binary_store_roundtrip now m flag exp s) in A by auto.
  destruct (conn_binary now c) as [| |(r, c')]; try easy. destruct A as (-> & B & _). eauto.
Qed.
Print Assumptions c19_store_chunks.
Example c19_chunks :
  let s := encode set_msg ++ [128; 2] in
  let c := mkConn None [firstn 10 s; firstn 15 (skipn 10 s); skipn 25 s] in
  wf_conn c /\ ~ stale c /\
  exists c', conn_binary 1000 c = Ok (BStore 1 true (mkEntry (s2b "key") 9 1100 5 5 0 (s2b "value")), c') /\ stream c' = [128; 2].
Proof.
  cbv zeta. split; [|split].
  - repeat constructor; vm_compute; discriminate.
  - intros (pre & x & ss & _ & X & _). discriminate.
  - eexists. split; vm_compute; reflexivity.
Qed.

(** C43. When the announced key and extras fit into the announced body, no byte
    outside the body is read, whatever the bytes are. *)
Theorem c43_consistent_lengths_partial : forall now h s, List.length h = 24%nat -> wf_bytes h ->
  get_field FKeyLen h + get_field FExtras h <= get_field FTotal h <= 2147483647 ->
  serve_binary now (h ++ s) <> Undef.
Proof. exact serve_binary_safe. Qed.
Print Assumptions c43_consistent_lengths_partial.
Example c43_consistent : let h := header set_msg in
  List.length h = 24%nat /\ wf_bytes h /\ get_field FKeyLen h + get_field FExtras h <= get_field FTotal h <= 2147483647.
Proof. cbv zeta. repeat split; try (vm_compute; easy). unfold wf_bytes. apply Forall_forall. intros x Hx. vm_compute in Hx. repeat (destruct Hx as [<-|Hx]; [reflexivity|]). destruct Hx. Qed.
(** C43. Otherwise it is not so: a get with a body of one byte that announces a key
    of 200 bytes reads 199 bytes behind the body. *)
Theorem c43_overlong_key_refuted : exists h s,
  List.length h = 24%nat /\ wf_bytes h /\ serve_binary 1000 (h ++ s) = Undef.
Proof.
  exists ([128; 0; 0; 200; 0; 0; 0; 0; 0; 0; 0; 1] ++ repeat 0 12), [65].
  split; [reflexivity|]. split; [|vm_compute; reflexivity].
  unfold wf_bytes. apply Forall_forall. intros x Hx. vm_compute in Hx. repeat (destruct Hx as [<-|Hx]; [reflexivity|]). destruct Hx.
Qed.
(** C43. In general: every get or delete announcing a key longer than its non-empty
    body does. *)
Theorem c43_every_overlong_key_refuted : forall now h b s,
  List.length h = 24%nat -> get_field FMagic h = 128 -> In (get_field FOpcode h) [0; 9; 12; 13; 4; 20] -> get_field FExtras h = 0 ->
  0 < get_field FTotal h <= 2147483647 -> get_field FTotal h < get_field FKeyLen h -> blen b = get_field FTotal h ->
  serve_binary now (h ++ b ++ s) = Undef.
Proof. exact overlong_key. Qed.
Print Assumptions c43_every_overlong_key_refuted.
(** C43. A stats request announcing 2^31 bytes dereferences a null pointer. *)
Theorem c43_stats_null_refuted : exists h, List.length h = 24%nat /\ wf_bytes h /\ serve_binary 1000 h = Undef.
Proof.
  exists ([128; 16; 0; 0; 0; 0; 0; 0; 128; 0; 0; 0] ++ repeat 0 12).
  split; [reflexivity|]. split; [|vm_compute; reflexivity].
  unfold wf_bytes. apply Forall_forall. intros x Hx. vm_compute in Hx. repeat (destruct Hx as [<-|Hx]; [reflexivity|]). destruct Hx.
Qed.
Print Assumptions c43_overlong_key_refuted.
Print Assumptions c43_stats_null_refuted.

(** C44. No response carries the opaque of its request or the version of the entry:
    the members are zero in all of them. *)
Theorem c44_value_refuted : forall opcode pk e,
  opcode < 2 ^ 8 -> blen (e_key e) < 2 ^ 16 -> e_size e = blen (e_data e) -> blen (e_key e) + e_size e + 4 <= 2147483647 ->
  (forall opaque, opaque <> 0 -> get_field FOpaque (value_response opcode pk e) <> opaque) /\
  (e_version e <> 0 -> get_field FCas (value_response opcode pk e) <> e_version e).
Proof.
  intros opcode pk e HO HK HS HT.
  assert (Z : get_field FOpaque (value_response opcode pk e) = 0 /\ get_field FCas (value_response opcode pk e) = 0).
  { assert (HT2 : blen (e_key e) + e_size e + 4 < 2 ^ 32) by (eapply N.le_lt_trans; [exact HT|reflexivity]). rewrite (value_response_encode opcode pk e HO HK HS HT2).
    set (m := mkMsg _ _ _ _ _ _ _ _).
    assert (W : well_sized m).
    { unfold m. constructor; cbn [m_magic m_opcode m_status m_opaque m_cas m_extras m_key m_value]; rewrite ?blen_be; try reflexivity; auto.
      - destruct pk; [exact HK|reflexivity].
      - rewrite <- HS. destruct pk; change (blen []) with 0; change (N.of_nat 4) with 4; Lia.lia. }
    pose proof (header_fields m W) as F. unfold encode, get_field. 
    rewrite !skipn_app, !firstn_app, !skipn_length, header_length. cbn [offset width Nat.sub]. rewrite !firstn_O, !app_nil_r.
    split; apply F. }
  destruct Z as (-> & ->). split; congruence.
Qed.
Print Assumptions c44_value_refuted.
Example c44_value : let r := value_response 0 false (mkEntry (s2b "k") 1 0 1 77 0 (s2b "v")) in
  get_field FOpaque r = 0 /\ get_field FCas r = 0.
Proof. vm_compute. split; reflexivity. Qed.
