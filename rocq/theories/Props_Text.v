(** Properties of the text protocol (C17, C18), the tokenizers (C21) and base64
    (C22). *)
From Coq Require Import ZArith NArith List Bool Lia String.
From Verif Require Import Base BaseLemmas StorageModel TextModel TextSpec TextProofs TextProofs2 TextProofs3 Base64Model Base64Proofs.
Import ListNotations.
Local Open Scope N_scope.
Local Open Scope list_scope.

(** * C17: requests a node forwards are read back as they were *)

(** set, add, replace, cas, append and prepend: the receiving node gets the trail,
    the command, every field of the entry and the data, and is left exactly at the
    bytes that follow the request. *)
Theorem c17_store_roundtrip : forall now trail ident e rest,
  Forall legal_node_name trail ->
  In ident [s2b "set"; s2b "add"; s2b "replace"; s2b "cas"; s2b "append"; s2b "prepend"] ->
  sendable e ->
  serve_request now (store_request trail ident e ++ rest)
  = Ok (mkCommand (match trail with [] => false | _ => true end) trail ident, RStore ident e, rest).
Proof. exact store_roundtrip. Qed.
Print Assumptions c17_store_roundtrip.

Definition sample : entry :=
  mkEntry (s2b "some:key<1>") 4294967295 1700000000 9 18446744073709551615 7 (s2b "a" ++ [13; 10; 0; 255] ++ s2b "END" ++ [13]).
Example c17_sample_sendable : sendable sample.
Proof.
  split; try (vm_compute; reflexivity); try (vm_compute; discriminate).
  - split; [discriminate|]. split; [|vm_compute; reflexivity]. repeat (constructor; [vm_compute; repeat split; discriminate|]). constructor.
  - right. vm_compute. split; reflexivity.
Qed.
Example c17_sample_trail : Forall legal_node_name [s2b "node1.example:12121"; s2b "10.0.0.2:12121"].
Proof. repeat constructor; try discriminate; vm_compute; discriminate. Qed.
Example c17_nonvacuous :
  serve_request 1600000000 (store_request [s2b "node1.example:12121"; s2b "10.0.0.2:12121"] (s2b "cas") sample ++ s2b "get x")
  = Ok (mkCommand true [s2b "node1.example:12121"; s2b "10.0.0.2:12121"] (s2b "cas"), RStore (s2b "cas") sample, s2b "get x").
Proof. vm_compute. reflexivity. Qed.

(** delete carries key, expiry, version and options. *)
Theorem c17_delete_roundtrip : forall now trail e rest,
  Forall legal_node_name trail -> legal_key (e_key e) -> absolute_expire (e_expire e) ->
  e_version e < 2 ^ 64 -> e_option e < 8 ->
  serve_request now (delete_request trail e ++ rest)
  = Ok (mkCommand (match trail with [] => false | _ => true end) trail (s2b "delete"),
        RDelete (mkEntry (e_key e) 0 (e_expire e) 0 (e_version e) (e_option e) []), rest).
Proof. exact delete_roundtrip. Qed.
Print Assumptions c17_delete_roundtrip.

(** touch and gat carry key, expiry and noreply, not the version. *)
Theorem c17_touch_roundtrip : forall now trail ident e rest,
  Forall legal_node_name trail -> In ident [s2b "touch"; s2b "gat"] -> legal_key (e_key e) ->
  absolute_expire (e_expire e) -> e_option e = 0 \/ e_option e = 1 ->
  serve_request now (touch_request trail ident e ++ rest)
  = Ok (mkCommand (match trail with [] => false | _ => true end) trail ident,
        RTouch ident (mkEntry (e_key e) 0 (e_expire e) 0 0 (e_option e) []), rest).
Proof. exact touch_roundtrip. Qed.
Print Assumptions c17_touch_roundtrip.

(** incr and decr carry key, value and options. *)
Theorem c17_incr_roundtrip : forall now trail ident e value rest,
  Forall legal_node_name trail -> In ident [s2b "incr"; s2b "decr"] -> legal_key (e_key e) ->
  value < 2 ^ 64 -> e_option e < 8 ->
  serve_request now (incr_request trail ident e value ++ rest)
  = Ok (mkCommand (match trail with [] => false | _ => true end) trail ident,
        RIncr ident (mkEntry (e_key e) 0 0 0 0 (e_option e) []) value, rest).
Proof. exact incr_roundtrip. Qed.
Print Assumptions c17_incr_roundtrip.
Example c17_short_nonvacuous :
  serve_request 1600000000 (delete_request [] sample)
  = Ok (mkCommand false [] (s2b "delete"), RDelete (mkEntry (s2b "some:key<1>") 0 1700000000 0 18446744073709551615 7 []), [])
  /\ serve_request 1600000000 (touch_request [] (s2b "gat") (with_option sample 1))
  = Ok (mkCommand false [] (s2b "gat"), RTouch (s2b "gat") (mkEntry (s2b "some:key<1>") 0 1700000000 0 0 1 []), [])
  /\ serve_request 1600000000 (incr_request [] (s2b "decr") sample 18446744073709551615)
  = Ok (mkCommand false [] (s2b "decr"), RIncr (s2b "decr") (mkEntry (s2b "some:key<1>") 0 0 0 0 7 []) 18446744073709551615, []).
Proof. vm_compute. auto. Qed.

(** get and gets carry the list of keys. *)
Theorem c17_get_roundtrip : forall now ident ks rest,
  In ident [s2b "get"; s2b "gets"] -> ks <> [] -> Forall legal_key ks ->
  serve_request now (get_request ident ks ++ rest) = Ok (mkCommand false [] ident, RGet ident ks, rest).
Proof. exact get_roundtrip. Qed.
Print Assumptions c17_get_roundtrip.
Example c17_get_nonvacuous : serve_request 0 (get_request (s2b "get") [s2b "k1"; s2b "k2"; s2b "k1"] ++ s2b "rest")
  = Ok (mkCommand false [] (s2b "get"), RGet (s2b "get") [s2b "k1"; s2b "k2"; s2b "k1"], s2b "rest").
Proof. vm_compute. reflexivity. Qed.

(** The request always fits in the buffer the sender allocates for it. *)
Theorem c17_request_fits : forall trail ident e,
  In ident store_idents -> e_flag e < 2 ^ 32 -> is_i64 (e_expire e) -> e_size e < 2 ^ 64 -> e_version e < 2 ^ 64 ->
  blen (store_request trail ident e) < blen (proxy_ident trail) + blen (e_key e) + e_size e + 8192.
Proof. exact store_request_fits. Qed.
Print Assumptions c17_request_fits.

(** A key received over the binary protocol may hold any bytes.  Forwarded as
    text it can smuggle in a second command: here storing one (legal sized) entry
    makes the other node store a different key and then increment "victim". *)
Theorem c17_key_injection_refuted : exists e e1 e2 s s',
  e_size e = blen (e_data e) /\ e_flag e < 2 ^ 32 /\ blen (e_key e) < 65536
  /\ serve_request 1600000000 (store_request [] (s2b "set") e) = Ok (mkCommand false [] (s2b "set"), RStore (s2b "set") e1, s)
  /\ e_key e1 <> e_key e
  /\ serve_request 1600000000 s = Ok (mkCommand false [] (s2b "incr"), RIncr (s2b "incr") e2 1000, s')
  /\ e_key e2 = s2b "victim".
Proof.
  exists (mkEntry (s2b "a 0 0 0" ++ [13; 10; 13; 10] ++ s2b "incr victim 1000" ++ [13; 10] ++ s2b "get") 0 0 1 0 0 [120]).
  eexists _, _, _, _. split; [vm_compute; reflexivity|]. split; [vm_compute; reflexivity|]. split; [vm_compute; reflexivity|].
  split; [vm_compute; reflexivity|]. split; [vm_compute; discriminate|]. split; [vm_compute; reflexivity|]. vm_compute; reflexivity.
Qed.
Print Assumptions c17_key_injection_refuted.

(** A size announced within the program's own limit makes the node read through a
    null pointer: the length passed to readsize overflows an int. *)
Theorem c17_huge_size_refuted : exists line, blen line < 64 /\ forall s,
  serve_store 1600000000 (s2b "set") line s = Undef.
Proof. exists (s2b " k 0 0 2147483646" ++ [10]). split; [vm_compute; reflexivity|]. intros s. vm_compute. reflexivity. Qed.
Print Assumptions c17_huge_size_refuted.

(** * C18: responses *)
(** What a VALUE block of each kind tells: get omits the version, only dump has
    the expiry. *)
Theorem c18_response_roundtrip : forall now t e rest,
  sendable e ->
  client_get_response now (e_key e) (print_response t e ++ s2b "END" ++ crlf ++ rest)
  = Ok (mkEntry (e_key e) (e_flag e)
          (match t with response_dump => e_expire e | _ => 0%Z end) (e_size e)
          (match t with response_get => 0 | _ => e_version e end) 0 (e_data e), rest).
Proof. exact get_response_roundtrip. Qed.
Print Assumptions c18_response_roundtrip.
(** No VALUE block: the entry stays empty (version 0, no data). *)
Theorem c18_miss_roundtrip : forall now k rest,
  client_get_response now k (s2b "END" ++ crlf ++ rest) = Ok (empty_entry k, rest).
Proof. exact get_miss_roundtrip. Qed.
Print Assumptions c18_miss_roundtrip.
Example c18_nonvacuous :
  client_get_response 1600000000 (s2b "some:key<1>") (print_response response_dump sample ++ s2b "END" ++ crlf ++ s2b "x")
  = Ok (with_option sample 0, s2b "x").
Proof. vm_compute. reflexivity. Qed.

(** * C21: tokenizers *)
(** next_word returns the first maximal run of word bytes after leading spaces (cut
    only when the buffer is full), consumes exactly the spaces and the word, and
    never stores more than the buffer holds. *)
Theorem c21_next_word : forall dst_len p w r,
  1 <= dst_len -> next_word dst_len p = (w, r) ->
  (exists n, p = repeat 32 n ++ w ++ r) /\ Forall word_byte w
  /\ match r with [] => True | c :: _ => ~ word_byte c \/ blen w + 1 = dst_len end
  /\ (w = [] -> hd 0 r <> 32)
  /\ blen w + 1 <= dst_len.
Proof.
  intros len p w r Hl E. pose proof (next_word_spec len p) as S. pose proof (next_word_safe len p Hl) as B. rewrite E in *. cbn [fst] in B.
  destruct S as (S1 & S2 & S3 & S4). repeat split; auto.
  - destruct r; auto. destruct S3 as [?|?]; [now left|right; lia].
  - intros Hw. specialize (S4 Hw). destruct r; cbn; [lia|auto].
Qed.
Print Assumptions c21_next_word.
Example c21_next_word_nonvacuous : next_word 8192 (s2b "   some:key 12") = (s2b "some:key", s2b " 12")
  /\ next_word 4 (s2b " abcdef") = (s2b "abc", s2b "def").
Proof. vm_compute. auto. Qed.

(** next_digit likewise, provided the number is preceded by a space or the input
    is shorter than the buffer. *)
Theorem c21_next_digit_partial : forall dst_len p w r,
  1 <= dst_len -> next_digit dst_len p = (w, r) ->
  (exists n, p = repeat 32 n ++ w ++ r) /\ Forall (fun c => 48 <= c <= 57 \/ c = 45) w
  /\ (hd 0 p = 32 \/ blen p < dst_len -> blen w + 1 <= dst_len).
Proof.
  intros len p w r Hl E. pose proof (next_digit_spec len p) as S. pose proof (next_digit_safe len p Hl) as B. rewrite E in *. cbn [fst] in B.
  destruct S as (n & S1 & S2 & _). repeat split; eauto.
Qed.
Print Assumptions c21_next_digit_partial.
(** Without that, one byte is written past the end of the buffer. *)
Theorem c21_next_digit_refuted : exists p, blen (fst (next_digit 4 p)) + 1 > 4.
Proof. exists (s2b "12345"). vm_compute. reflexivity. Qed.
Print Assumptions c21_next_digit_refuted.
(** A request line reaches this: key and number without a space between them, each
    as long as the 8192 byte buffer. *)
Theorem c21_request_line_refuted : exists line, parse_entry 0 parse_set line = Undef.
Proof. exists (repeat 107 (N.to_nat 8191) ++ repeat 48 (N.to_nat 8192) ++ [10]). vm_compute. reflexivity. Qed.
Print Assumptions c21_request_line_refuted.
(** Lines shorter than the buffer are parsed without overflow. *)
Theorem c21_short_lines_safe : forall now t line, blen line < 8192 -> parse_entry now t line <> Undef.
Proof. exact parse_entry_defined. Qed.
Print Assumptions c21_short_lines_safe.
Example c21_short_nonvacuous : parse_entry 5 parse_set (s2b " k 1 2 3" ++ [10]) = Ok (mkEntry (s2b "k") 1 7 3 0 0 []).
Proof. vm_compute. reflexivity. Qed.

(** * C22: base64 *)
Theorem c22_base64_roundtrip : forall x, wf_bytes x -> b64_decode (b64_encode x) = x.
Proof. exact b64_roundtrip. Qed.
Print Assumptions c22_base64_roundtrip.
(** The encoding is four printable characters per started group of three bytes. *)
Theorem c22_base64_text : forall x, wf_bytes x ->
  List.length (b64_encode x) = (4 * ((List.length x + 2) / 3))%nat /\ Forall (fun c => 43 <= c <= 122) (b64_encode x).
Proof. intros x H. split; [apply b64_encode_length|now apply b64_encode_ascii]. Qed.
Print Assumptions c22_base64_text.
(** Decoding any text, valid or not, stays inside the output buffer. *)
Theorem c22_base64_decode_fits : forall x, (List.length (b64_decode x) <= List.length x)%nat.
Proof. exact b64_decode_fits. Qed.
Print Assumptions c22_base64_decode_fits.
(** and to bytes, also text that no encoder writes. *)
Theorem c22_base64_decode_bytes : forall x, wf_bytes (b64_decode x).
Proof.
  intro x. unfold b64_decode. induction (upto_eq x) using list_ind4; cbn [dec_groups];
    repeat (apply Forall_nil || apply Forall_cons); try assumption; unfold is_byte, bin0, bin1, bin2, u8; apply N.mod_lt; discriminate.
Qed.
Print Assumptions c22_base64_decode_bytes.
Example c22_base64_decode_odd : b64_decode (s2b "!!~A") = [251; 239; 128].
Proof. vm_compute. reflexivity. Qed.
(** RFC 4648 test vectors. *)
Example c22_vectors :
  map b64_encode [[]; s2b "f"; s2b "fo"; s2b "foo"; s2b "foob"; s2b "fooba"; s2b "foobar"]
  = [[]; s2b "Zg=="; s2b "Zm8="; s2b "Zm9v"; s2b "Zm9vYg=="; s2b "Zm9vYmE="; s2b "Zm9vYmFy"].
Proof. vm_compute. reflexivity. Qed.
