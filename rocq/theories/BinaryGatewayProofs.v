(** Binary requests put to any node (C74). *)
From Coq Require Import String.
From stdpp Require Import gmap.
From Coq Require Import ZifyBool ZifyNat ZifyN.
From Verif Require Import Base BaseLemmas StorageModel StorageSpec StorageProofs StorageProofs2 StorageProofs3 StorageProofs4
  TextModel TextSpec TextProofs TextProofs2 TextProofs3 TextProofs4 ClientSpec SessionModel SessionProofs NamesModel ServerModel ServerProofs ServerProofs2 ReplicaProofs ReplicaProofs2
  MemcachedSpec MemcachedProofs MemcachedProofs2 MemcachedProofs3 KeyResolverModel ClusterModel ClusterSpec NodeModel RoutingModel RoutingSpec GatewayModel GatewaySpec GatewayProofs GatewayProofs2 OtherProofs
  StreamModel BinaryModel BinarySpec BinaryProofs BinaryProofs2 BinaryServerModel BinaryServerSpec BinaryServerProofs BinaryServerProofs2 BinaryGatewayModel BinaryGatewaySpec.
Local Open Scope N_scope.
Local Open Scope list_scope.

(** ** The answer in the binary protocol *)
Definition outcomes : list (bytes * (oresult * N * bytes)) :=
  [(s2b "STORED", (res_stored, 0, [])); (s2b "NOT_STORED", (res_not_stored, 5, s2b "Item not stored")); (s2b "EXISTS", (res_exists, 2, s2b "Key exists"));
   (s2b "NOT_FOUND", (res_not_found, 1, s2b "Not found")); (s2b "DELETED", (res_deleted, 0, [])); (s2b "TOUCHED", (res_touched, 0, []))].
Lemma outcome_line w r st msg : In (w, (r, st, msg)) outcomes ->
  (let* (line, _) := get_line (say false w) in parse_text_response line) = Ok (r, []) /\ status w = Some (st, msg).
Proof. cbn [outcomes In]. intros H. repeat (destruct H as [[= <- <- <- <-]|H]; [split; vm_compute; reflexivity|]). contradiction. Qed.
Lemma outcome_encode o w r st msg : In (w, (r, st, msg)) outcomes -> o < 2 ^ 8 -> binary_result o r [] = encode (mkMsg 129 o st 0 0 [] [] msg).
Proof.
  intros H HO. assert (E : binary_result o r [] = result_response o false (kind_of r)) by (unfold binary_result; destruct r; reflexivity).
  rewrite E, result_response_encode by exact HO. cbn [outcomes In] in H. repeat (destruct H as [[= <- <- <- <-]|H]; [reflexivity|]). contradiction.
Qed.
Lemma pass_outcome o w r st msg : In (w, (r, st, msg)) outcomes -> o < 2 ^ 8 ->
  (let* (line, _) := get_line (say false w) in let* (r, message) := parse_text_response line in Ok (binary_result o r message))
  = Ok (encode (mkMsg 129 o st 0 0 [] [] msg)).
Proof.
  intros H HO. destruct (outcome_line _ _ _ _ H) as (P & _). destruct (get_line (say false w)) as [| |[line rest]]; try discriminate P. cbn [bind] in P |- *.
  rewrite P. cbn [bind]. now rewrite (outcome_encode o w r st msg H HO).
Qed.
Lemma gat_entry_value now e0 k r : legal_key k -> wf_rec r -> e_key e0 = k ->
  exists e, gat_entry now e0 (item_lines false k r) = Ok (Some e) /\ e_key e = k /\ e_flag e = r_flag r /\ e_size e = blen (r_data r) /\ e_data e = r_data r.
Proof.
  intros Hk Hw K0. pose proof (item_sendable k r Hk Hw) as He. set (e := item k r) in *. pose proof He as [Hl Hf Hx Hs Hm Hv Ho].
  set (L := 32 :: e_key e ++ 32 :: dec (e_flag e) ++ 32 :: dec (e_size e)).
  assert (HL : no_lf L).
  { unfold L. destruct Hl as (_ & Hl & _). nolf. }
  assert (ED : firstn (N.to_nat (e_size e)) (e_data e) = e_data e) by (rewrite Hs; rewrite <- (app_nil_r (e_data e)) at 2; apply firstn_blen).
  assert (ER : item_lines false k r = (s2b "VALUE" ++ L) ++ crlf ++ (e_data e ++ crlf ++ [])).
  { rewrite <- (item_print false k r Hk). fold e. unfold print_response. rewrite (cstr_key (e_key e)) by apply Hl. rewrite ED.
    unfold L, sp. change (s2b "VALUE ") with (s2b "VALUE" ++ [32]).
    cbn [app]; repeat (rewrite <- ?app_assoc; cbn [app]); reflexivity. }
  rewrite ER. unfold gat_entry. rewrite get_line_ok.
  2:{ apply Forall_app. split; auto. vm_compute. repeat constructor; discriminate. }
  cbn [bind]. replace (beq (cstr ((s2b "VALUE" ++ L) ++ [10])) (s2b "NOT_FOUND" ++ [10])) with false by (vm_compute; reflexivity).
  rewrite <- app_assoc. change (s2b "VALUE" ++ L ++ [10]) with (repeat 32 0 ++ s2b "VALUE" ++ (L ++ [10])).
  rewrite call_word_token.
  2:{ vm_compute; repeat constructor; discriminate. } 2:{ discriminate. } 2:{ vm_compute; discriminate. }
  2:{ unfold L. cbn [app]. unfold word_byte. lia. }
  cbn [bind]. change (negb (beq (s2b "VALUE") (s2b "VALUE"))) with false. cbn match.
  assert (EP : parse_entry now parse_get (L ++ [10]) = Ok (with_data (seen response_get e) [])).
  { rewrite <- (value_line now response_get e He). f_equal. unfold L. repeat (rewrite <- ?app_assoc; cbn [app]). reflexivity. }
  rewrite EP. cbn [bind]. rewrite K0. change (e_key (with_data (seen response_get e) [])) with (e_key e). change (e_key e) with k. rewrite beq_refl. cbn [negb].
  match goal with |- context [get_bytes ?n _] => replace n with (blen (e_data e) + 2) by (rewrite <- Hs; reflexivity) end.
  rewrite get_bytes_ok by lia. cbn [bind]. eexists. split; [reflexivity|].
  cbn [with_data with_version with_size with_flag seen e_key e_flag e_size e_data]. split; [exact K0|]. split; [reflexivity|]. split; [reflexivity|].
  change (e_data e) with (r_data r). change (e_size e) with (blen (r_data r)). apply firstn_blen.
Qed.
Lemma gat_entry_missing now e0 : gat_entry now e0 (say false (s2b "NOT_FOUND")) = Ok None.
Proof. vm_compute. reflexivity. Qed.

(** Requests whose counterpart is what is sent on. *)
Definition passed (c : bcall) : Prop :=
  match c with QStore _ _ _ _ _ | QTouch _ _ | QGat _ _ | QDelete _ => True | _ => False end.
Lemma sent_on asked a t : passed (a_call a) -> counterpart (a_call a) = Some t -> text_of (brequest_of asked a) = Some (request_of asked t).
Proof.
  destruct a as [q op c]. cbn [a_call]. destruct c as [md k f x d| |k x|k x|k| | | | | |]; intros []; cbn [counterpart];
    intros H; destruct q; try destruct md; injection H as <-; reflexivity.
Qed.
Lemma brelayed asked now now' m a t m' out : passed (a_call a) -> counterpart (a_call a) = Some t -> legal_key (key_of (a_call a)) -> blen (key_of (a_call a)) < 2 ^ 16 ->
  (forall r, look m now (key_of (a_call a)) = Some r -> wf_rec r) -> does asked now m t m' out ->
  exists y, brelay now' (brequest_of asked a) out = Ok (plain_answer a y) /\ bdoes asked now m (a_call a) m' y.
Proof.
  intros Hp Hc Hk Hk16 Hw Hd. destruct a as [q op c]. cbn [a_call] in *. unfold plain_answer. cbn [a_call a_quiet].
  assert (HO : opcode_of q c < 2 ^ 8) by apply opcode_small.
  assert (one : forall w r st msg, In (w, (r, st, msg)) outcomes -> out = say false w ->
    exists y, (let* (line, _) := get_line out in let* (r, message) := parse_text_response line in Ok (binary_result (opcode_of q c) r message))
      = Ok (encode (mkMsg 129 (opcode_of q c) (y_status y) 0 0 (y_extras y) (y_key y) (y_value y))) /\ bdoes asked now m c m' y).
  { intros w r st msg Hin ->. destruct (outcome_line _ _ _ _ Hin) as (_ & Hst).
    eexists. split; [|exact (b_status asked now m c t m' w st msg Hc Hd Hst)]. cbn [y_status y_extras y_key y_value]. now rewrite (pass_outcome _ w r st msg Hin HO). }
  destruct c as [md k f x d| |k x|k x|k| | | | | |]; try contradiction; cbn [key_of] in *.
  - assert (Hout : out = say false (s2b "STORED") \/ out = say false (s2b "NOT_STORED")).
    { destruct md; cbn [counterpart] in Hc; injection Hc as <-; inversion Hd; auto. }
    replace (brequest_of asked (mkAsk q op (QStore md k f x d))) with
      (BStore (opcode_of q (QStore md k f x d)) false (match md with Append | Prepend => mkEntry k 0 0 (blen d) 0 0 d | _ => mkEntry k f (due asked (Z.of_N x)) (blen d) 0 0 d end))
      by (destruct md; reflexivity).
    cbn [brelay]. destruct Hout as [Hout|Hout]; (eapply one; [|exact Hout]; cbn [outcomes In]; tauto).
  - cbn [brequest_of a_call a_quiet brelay]. change (nmem (opcode_of q (QTouch k x)) [29; 30]) with false. cbn iota.
    cbn [counterpart] in Hc; injection Hc as <-. assert (Hout : out = say false (s2b "TOUCHED") \/ out = say false (s2b "NOT_FOUND")) by (inversion Hd; auto).
    destruct Hout as [Hout|Hout]; (eapply one; [|exact Hout]; cbn [outcomes In]; tauto).
  - cbn [brequest_of a_call a_quiet brelay]. replace (nmem (opcode_of q (QGat k x)) [29; 30]) with true by (destruct q; reflexivity). cbn iota.
    cbn [counterpart] in Hc; injection Hc as <-. inversion Hd as [| | | | | | |? ? ? r L|? ? ? L| | | | | | | | | | |]; subst.
    + destruct (gat_entry_value now' (mkEntry k 0 (due asked (Z.of_N x)) 0 0 0 []) k r Hk (Hw r L) eq_refl) as (e & -> & Ek & Ef & Es & Ed). cbn [bind].
      exists (mkSays 0 (r_version r) (be_enc 4 (r_flag r)) [] (r_data r)). split; [|exact (b_gat asked now m k x r _ _ L Hd)].
      cbn [y_status y_extras y_key y_value]. rewrite value_response_encode; [now rewrite Ef, Ed|exact HO|now rewrite Ek|now rewrite Es, Ed|].
      rewrite Ek, Es. pose proof (Hw r L) as (_ & _ & _ & W & _). clear - W Hk16. change (2 ^ 16) with 65536 in *. lia.
    + rewrite gat_entry_missing. cbn [bind]. eexists. split; [|exact (b_status asked now _ (QGat k x) _ _ (s2b "NOT_FOUND") 1 (s2b "Not found") eq_refl Hd eq_refl)].
      cbn [y_status y_extras y_key y_value]. rewrite (outcome_encode _ (s2b "NOT_FOUND") res_not_found 1 (s2b "Not found")); [reflexivity|cbn [outcomes In]; tauto|exact HO].
  - cbn [brequest_of a_call a_quiet brelay]. cbn [counterpart] in Hc; injection Hc as <-.
    assert (Hout : out = say false (s2b "DELETED") \/ out = say false (s2b "NOT_FOUND")) by (inversion Hd; auto).
    destruct Hout as [Hout|Hout]; (eapply one; [|exact Hout]; cbn [outcomes In]; tauto).
Qed.
Lemma bfetched now k r : legal_key k -> wf_rec r ->
  exists e, fetched now k (item_lines false k r ++ s2b "END" ++ ClientSpec.line_end) = Ok (Some e) /\ e_key e = k /\ e_flag e = r_flag r /\ e_size e = blen (r_data r) /\ e_data e = r_data r.
Proof.
  intros Hk Hw. exists (seen response_get (item k r)). split; [|repeat split].
  unfold fetched. rewrite <- (item_print false k r Hk).
  pose proof (get_response_roundtrip now response_get (item k r) [] (item_sendable k r Hk Hw)) as R. rewrite app_nil_r in R. change (e_key (item k r)) with k in R.
  change (s2b "END" ++ ClientSpec.line_end) with (s2b "END" ++ crlf). rewrite R. cbn [bind].
  rewrite (item_print false k r Hk). destruct (item_first_line false k r (s2b "END" ++ crlf) Hk) as (l & s' & ->). cbn [bind]. reflexivity.
Qed.
