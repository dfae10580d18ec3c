(** Binary requests that are not accepted, and the frames of all of them (C58). *)
From Coq Require Import String.
From stdpp Require Import gmap.
From Coq Require Import ZifyBool ZifyNat ZifyN.
From Verif Require Import Base BaseLemmas StorageModel StorageSpec StorageProofs TextModel TextSpec TextProofs ServerModel StreamModel BinaryModel BinarySpec BinaryProofs BinaryProofs2 BinaryServerModel BinaryServerSpec BinaryServerProofs BinaryServerProofs2.
Local Open Scope N_scope.
Local Open Scope list_scope.

Lemma encode_binary m rest : well_sized m -> m_magic m = 128 -> is_binary (encode m ++ rest) = true.
Proof. intros Z M. unfold encode, header. rewrite M. reflexivity. Qed.
Lemma frame m : well_sized m -> forall rest, exists b,
  body_of (get_field FTotal (header m)) (body m ++ rest) = Ok (b, rest) /\ (b = Some (body m) \/ (b = None /\ body m = [] /\ get_field FTotal (header m) = 0)).
Proof.
  intros Z rest. destruct (body m) as [|c b] eqn:E.
  - pose proof (header_fields m Z) as (_ & _ & _ & _ & _ & _ & HT & _). unfold body in E. apply app_eq_nil in E as (E1 & E2). apply app_eq_nil in E2 as (E2 & E3).
    rewrite HT, E1, E2, E3. exists None. split; [reflexivity|right; auto].
  - exists (Some (body m)). rewrite <- E. split; [apply body_of_ok; auto; now rewrite E|left; now rewrite E].
Qed.
Lemma next_frame now m rest : well_sized m -> m_magic m = 128 -> exists b,
  binary_next now (encode m ++ rest) = match parse_binary now (header m) b with
    | Ok r => Ok (BAccepted r, rest) | Err => Ok (BRejected (answer_opcode (m_opcode m)), rest) | Undef => Undef end.
Proof.
  intros Z M. destruct (frame m Z rest) as (b & B & _). exists b. unfold binary_next, encode. rewrite <- app_assoc, read_header_spec by apply header_length.
  pose proof (header_fields m Z) as (HM & HO & _). rewrite HM, M. change (128 =? magic_request) with true. cbv iota. cbn [bind]. rewrite B, HO. reflexivity.
Qed.
Lemma framed now s m rest s' out left : well_sized m -> m_magic m = 128 -> run_any now s (encode m ++ rest) = Ok (s', out, left) -> left = rest.
Proof.
  intros Z M. unfold run_any. rewrite encode_binary by auto. destruct (next_frame now m rest Z M) as (b & ->).
  destruct (parse_binary now (header m) b); cbn [bind]; [discriminate|intros [= _ _ <-]; reflexivity|].
  destruct (run_brequest now s a) as [| |[s1 o1]]; cbn [bind]; [discriminate..|]. intros [= _ _ <-]. reflexivity.
Qed.
Lemma nmem_in x l : nmem x l = existsb (N.eqb x) l. Proof. reflexivity. Qed.
Lemma misshapen_rejected now m b : well_sized m -> misshapen m -> parse_binary now (header m) b = Err /\ answer_opcode (m_opcode m) = m_opcode m.
Proof.
  intros Z H. pose proof (header_fields m Z) as (_ & HO & HK & HX & _). unfold parse_binary. cbv zeta. rewrite HO.
  assert (E : (exists n, extras_wanted (m_opcode m) = Some n /\ (blen (m_extras m) <> n \/ (In (m_opcode m) [0; 9; 12; 13] /\ m_key m = []))) ).
  { destruct H as [(n & A & B)|(A & B)]; [eauto|]. cbn [In] in A. destruct A as [A|[A|[A|[A|[]]]]]; rewrite <- A; eexists; (split; [reflexivity|right; split; [cbn; tauto|exact B]]). }
  clear H. destruct E as (n & A & B). unfold extras_wanted in A.
  assert (D : In (m_opcode m) [0;1;2;3;4;5;6;9;12;13;14;15;17;18;19;20;21;22;25;26;28;29;30]).
  { cbn [existsb] in A. cbn [In]. 
    repeat match type of A with context [N.eqb ?x ?y] => destruct (N.eqb_spec x y); [lia|] end. cbn in A. discriminate A. }
  cbn [In] in D. repeat (destruct D as [D|D]); try contradiction; rewrite <- D in *; (injection A as <-); (split; [|reflexivity]); cbn [nmem existsb op_sets op_appends op_deletes op_gets op_incrs op_touches N.eqb Pos.eqb orb];
    unfold binary_set, binary_append, binary_delete, binary_get, binary_incr, binary_touch; rewrite ?HX, ?HK;
    (destruct B as [B|(B & K)]; [replace (_ =? _) with false by lia; destruct b; reflexivity|]);
    first [rewrite K; destruct (negb _); reflexivity | exfalso; clear - B; cbn [In] in B; lia].
Qed.
Lemma misshapen_answered now s m rest : well_sized m -> m_magic m = 128 -> misshapen m ->
  run_any now s (encode m ++ rest) = Ok (s, encode (mkMsg 129 (m_opcode m) 132 0 0 [] [] (s2b "Internal error")), rest) /\ quits_any now (encode m ++ rest) = false.
Proof.
  intros Z M H. unfold run_any, quits_any. rewrite encode_binary by auto. destruct (next_frame now m rest Z M) as (b & ->).
  destruct (misshapen_rejected now m b Z H) as (-> & ->). cbn [bind quiet_opcode]. rewrite result_response_encode by apply (z_opcode _ Z). split; reflexivity.
Qed.

Lemma io_error_encode opcode : opcode < 2 ^ 8 -> binary_io_error opcode = encode (mkMsg 129 opcode 132 0 0 [] [] (s2b "i/o error")).
Proof.
  intros HO. unfold binary_io_error, message_response, encode, body, header. cbn [m_magic m_opcode m_status m_opaque m_cas m_extras m_key m_value app].
  unfold new_header, set_field. cbn [offset width]. rewrite (mod_fit opcode) by exact HO. destruct (one_byte opcode) as (x & ->). reflexivity.
Qed.
Lemma damaged now s q op up k v rest raw : let a := mkAsk q op (QCount up k v None) in legal_ask a -> blen k < 2 ^ 16 ->
  db s !! k = Some raw -> blen raw < 28 \/ le_dec (firstn 8 (skipn 12 raw)) <> blen raw - 28 ->
  run_any now s (bwire a ++ rest) = Ok (s, encode (mkMsg 129 (opcode_of q (a_call a)) 132 0 0 [] [] (s2b "i/o error")), rest).
Proof.
  intros a L K D B. unfold run_any. rewrite binary_first.
  rewrite (bserved now a rest L); [|unfold fits, a; cbn [a_call extras_of key_of value_of]; rewrite ?blen_app, ?blen_be, blen_nil; change (2 ^ 16) with 65536 in K; lia].
  cbn [bind]. set (o0 := opcode_of q (a_call a)).
  assert (exists e, e_key e = k /\ brequest_of now a = BIncr o0 e v None) as (e & He & ->) by (eexists; split; [|reflexivity]; reflexivity).
  cbn [run_brequest]. unfold run_bincr, incr. rewrite He, D.
  assert (U : exists e1 ok, unser_header raw (empty_entry []) = (e1, ok) /\ (ok = true -> ~ blen raw < 28 /\ e_size e1 = le_dec (firstn 8 (skipn 12 raw)))).
  { unfold unser_header. destruct (N.ltb_spec (blen raw) 4); [do 2 eexists; split; [reflexivity|discriminate]|].
    destruct (N.ltb_spec (blen raw) 12); [do 2 eexists; split; [reflexivity|discriminate]|].
    destruct (N.ltb_spec (blen raw) 20); [do 2 eexists; split; [reflexivity|discriminate]|].
    destruct (N.ltb_spec (blen raw) 28); [do 2 eexists; split; [reflexivity|discriminate]|].
    do 2 eexists. split; [reflexivity|]. intros _. split; [lia|reflexivity]. }
  destruct U as (e1 & ok & -> & U). assert (R : bfinish o0 (mkOut s (-1) None e) (fun r => if is_stored r then number_response o0 (o_entry (mkOut s (-1) None e)) else answer_result o0 r)
    = Ok (s, encode (mkMsg 129 o0 132 0 0 [] [] (s2b "i/o error")))).
  { unfold bfinish. cbn [o_ret o_store]. change (-1 <? 0)%Z with true. cbn match. now rewrite io_error_encode by apply opcode_small. }
  destruct ok; cbn [negb]; [|rewrite R; reflexivity]. destruct (U eq_refl) as (U1 & U2). cbn [e_size]. rewrite U2.
  destruct (N.eqb_spec (blen raw - header_size) (le_dec (firstn 8 (skipn 12 raw)))) as [E|E]; [|cbn [negb]; rewrite R; reflexivity].
  exfalso. destruct B as [B|B]; [auto|]. unfold header_size in E. congruence.
Qed.
