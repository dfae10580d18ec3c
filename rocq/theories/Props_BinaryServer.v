(** C58: the binary protocol works on the same memory as the text protocol. *)
From Coq Require Import String.
From stdpp Require Import gmap.
From Coq Require Import ZifyBool ZifyNat ZifyN.
From Verif Require Import Base BaseLemmas StorageModel StorageSpec TextModel TextSpec ClientSpec SessionModel ServerModel ReplicaProofs MemcachedSpec
  MemcachedProofs MemcachedProofs2 TextProofs StreamModel StreamProofs BinaryProofs BinaryProofs2 BinaryModel BinarySpec BinaryServerModel BinaryServerSpec BinaryServerProofs BinaryServerProofs2 BinaryServerProofs3.
Local Open Scope N_scope.
Local Open Scope list_scope.

(** The bytes of any sequence of requests, each in the text or in the binary protocol, served one after the other on one
    connection by a node that starts empty: every request acts on one and the same memory as [does] and [bdoes] say and
    is answered in its own protocol, up to the end of the session or the first request that is [unfit].  Missing: the
    answers are the [plain_answer]s, not the [protocol_answer]s; see the refutations below. *)
Theorem c58_session_partial n l rest : rising_asks 2592000 l -> Forall (fun p => ask_legal (snd p)) l -> N.of_nat (length l) < 2 ^ 64 ->
  exists l1 l2 s' m' out, l = l1 ++ l2
    /\ run_mixed (map fst l1) (init_store n) (sent_asks l1 ++ rest) = Ok (s', out)
    /\ mixed plain_answer (fun _ => None) l1 m' out
    /\ match l2 with [] => True | (now, q) :: _ => unfit now m' q end.
Proof.
  intros Hr Hl Hn. destruct (mixed_init n l rest Hr Hl Hn) as (l1 & l2 & s' & m' & out & H1 & H2 & H3 & H4).
  exists l1, l2, s', m', out. repeat split; auto. destruct l2 as [|[now q] l2]; auto.
Qed.
Print Assumptions c58_session_partial.

(** Where the two kinds of answers agree: requests that are not quiet and have opaque 0, up to the token. *)
Theorem c58_protocol_answer a y : a_quiet a = false -> a_opaque a = 0 -> y_token y = 0 -> plain_answer a y = protocol_answer a y.
Proof. intros H1 H2 H3. unfold plain_answer, protocol_answer. rewrite H1, H2, H3. reflexivity. Qed.
Print Assumptions c58_protocol_answer.

(** Whatever the operation and whatever becomes of it: of a message whose lengths are right the node reads all bytes and no
    more, so the next request is read from its first byte. *)
Theorem c58_framing now s m rest s' out left : well_sized m -> m_magic m = 128 -> run_any now s (encode m ++ rest) = Ok (s', out, left) -> left = rest.
Proof. exact (framed now s m rest s' out left). Qed.
Print Assumptions c58_framing.
(** A request with extras its operation does not have, or a get without a key, is answered as an error, changes nothing and
    does not end the session. *)
Theorem c58_misshapen now s m rest : well_sized m -> m_magic m = 128 -> misshapen m ->
  run_any now s (encode m ++ rest) = Ok (s, encode (mkMsg 129 (m_opcode m) 132 0 0 [] [] (s2b "Internal error")), rest) /\ quits_any now (encode m ++ rest) = false.
Proof. exact (misshapen_answered now s m rest). Qed.
Print Assumptions c58_misshapen.
Example c58_misshapen_nonvacuous : let m := mkMsg 128 1 0 9 0 [1; 2] (s2b "k") (s2b "v") in well_sized m /\ misshapen m /\
  exists s', run_mixed [1600000000%Z; 1600000000%Z] (init_store 8) (encode m ++ bwire (mkAsk false 0 QNoop))
    = Ok (s', encode (mkMsg 129 1 132 0 0 [] [] (s2b "Internal error")) ++ encode (mkMsg 129 10 0 0 0 [] [] [])).
Proof. split; [constructor; vm_compute; congruence|]. split; [left; exists 8; split; [reflexivity|discriminate]|]. eexists. vm_compute. reflexivity. Qed.

(** An increment of an item whose record is damaged is answered as an error, with the opcode of the request, and changes nothing. *)
Theorem c58_damaged now s q op up k v rest raw : let a := mkAsk q op (QCount up k v None) in legal_ask a -> blen k < 2 ^ 16 ->
  db s !! k = Some raw -> blen raw < 28 \/ le_dec (firstn 8 (skipn 12 raw)) <> blen raw - 28 ->
  run_any now s (bwire a ++ rest) = Ok (s, encode (mkMsg 129 (opcode_of q (a_call a)) 132 0 0 [] [] (s2b "i/o error")), rest).
Proof. exact (damaged now s q op up k v rest raw). Qed.
Print Assumptions c58_damaged.
Example c58_damaged_nonvacuous : exists s, db s !! s2b "k" = Some (repeat 0 20) /\ legal_ask (mkAsk false 0 (QCount true (s2b "k") 1 None)) /\ opcode_of false (QCount true (s2b "k") 1 None) = 5.
Proof. exists (mkStore {[ s2b "k" := repeat 0 20 ]} [] 8). split; [vm_compute; reflexivity|]. split; [|reflexivity]. repeat split; vm_compute; congruence. Qed.

(** ** Example *)
Definition loud (c : bcall) : ask := AskBinary (mkAsk false 0 c).
Definition hush (c : bcall) : ask := AskBinary (mkAsk true 0 c).
Definition talk : list (Z * ask) :=
  [(1600000000%Z, loud (QStore Set_ (s2b "a b") 7 0 (s2b "12")));
   (1600000000%Z, loud (QCount true (s2b "a b") 30 None));
   (1600000001%Z, AskText (Store Set_ (s2b "c") 3 0 (s2b "x") false));
   (1600000001%Z, loud (QGet true (s2b "c")));
   (1600000001%Z, loud (QGet false (s2b "a b")));
   (1600000001%Z, loud (QStore Append (s2b "c") 0 0 (s2b "y")));
   (1600000002%Z, AskText (Get true [s2b "c"]));
   (1600000002%Z, loud (QCas (s2b "c") 1 10 (s2b "new") 2));
   (1600000002%Z, loud (QCas (s2b "c") 1 10 (s2b "newer") 2));
   (1600000003%Z, loud (QStore Add (s2b "c") 0 0 (s2b "z")));
   (1600000003%Z, loud (QGat (s2b "c") 20));
   (1600000013%Z, AskText (Get false [s2b "c"]));
   (1600000023%Z, loud (QGet false (s2b "c")));
   (1600000023%Z, loud (QDelete (s2b "a b")));
   (1600000023%Z, loud (QDelete (s2b "a b")));
   (1600000023%Z, loud QVersion);
   (1600000023%Z, loud QFlush);
   (1600000023%Z, loud QQuit);
   (1600000023%Z, AskText Ping)].
Example c58_legal : rising_asks 2592000 talk /\ Forall (fun p => ask_legal (snd p)) talk.
Proof.
  split; [cbn [talk rising_asks]; lia|].
  assert (K1 : binary_key (s2b "a b")) by (split; [discriminate|reflexivity]).
  assert (K2 : binary_key (s2b "c")) by (split; [discriminate|reflexivity]).
  assert (K3 : legal_key (s2b "c")).
  { change (s2b "c") with [99]. split; [discriminate|]. split; [repeat constructor; unfold word_byte; lia|vm_compute; congruence]. }
  assert (W : forall d, In d [s2b "12"; s2b "x"; s2b "y"; s2b "z"; s2b "new"; s2b "newer"] -> wf_bytes d).
  { intros d H. cbn [In] in H. unfold wf_bytes. decompose [or] H; subst; try contradiction; repeat constructor. }
  unfold talk, loud. repeat (apply List.Forall_cons; [|]); try exact (List.Forall_nil _); cbn [snd ask_legal legal_call]; unfold legal_ask; cbn [a_quiet a_opaque a_call];
    repeat first [apply K3 | apply K1 | apply K2 | exact I | (apply W; cbn [In]; tauto) | split | reflexivity | lia | discriminate | apply List.Forall_cons | apply List.Forall_nil].
Qed.
Definition msg (opcode st : N) (extras key value : bytes) : bytes := encode (mkMsg 129 opcode st 0 0 extras key value).
Example c58_answers :
  match run_mixed (map fst talk) (init_store 8) (sent_asks talk) with
  | Ok (_, out) => out =
      msg 1 0 [] [] [] ++ msg 5 0 [] [] (be_enc 8 42) ++ s2b "STORED" ++ [13; 10] ++ msg 12 0 (be_enc 4 3) (s2b "c") (s2b "x")
      ++ msg 0 0 (be_enc 4 7) [] (s2b "42") ++ msg 14 0 [] [] [] ++ s2b "VALUE c 3 2 2" ++ [13; 10] ++ s2b "xy" ++ [13; 10] ++ s2b "END" ++ [13; 10]
      ++ msg 1 0 [] [] [] ++ msg 1 2 [] [] (s2b "Key exists") ++ msg 2 5 [] [] (s2b "Item not stored") ++ msg 29 0 (be_enc 4 1) [] (s2b "new")
      ++ s2b "VALUE c 1 3" ++ [13; 10] ++ s2b "new" ++ [13; 10] ++ s2b "END" ++ [13; 10]
      ++ msg 0 1 [] [] (s2b "Not found") ++ msg 4 0 [] [] [] ++ msg 4 1 [] [] (s2b "Not found") ++ msg 11 0 [] [] (s2b "flare-1.3.4")
      ++ msg 8 0 [] [] [] ++ msg 7 0 [] [] []
  | _ => False
  end.
Proof. vm_compute. reflexivity. Qed.

(** ** Where the protocol is not kept *)
(** A session of one request in an empty node, and what the protocol wants to be answered. *)
Definition alone (n : N) (now : Z) (a : bask) (out : bytes) : Prop := exists s', run_mixed [now] (init_store n) (bwire a) = Ok (s', out).
Definition wanted (now : Z) (a : bask) (out : bytes) : Prop :=
  exists m' y, bdoes now now (fun _ => None) (a_call a) m' y /\ out = protocol_answer a y.

(** The quiet requests are answered like the other ones: every setq that stores. *)
Theorem c58_quiet_refuted : forall n now op k f x d, let a := mkAsk true op (QStore Set_ k f x d) in
  (2592000 <= now < 2 ^ 62)%Z -> legal_ask a -> blen d < 2 ^ 30 ->
  wanted now a [] /\ (exists out, alone n now a out) /\ (forall out, alone n now a out -> out = encode (mkMsg 129 17 0 0 0 [] [] [])).
Proof.
  intros n now op k f x d a Hnow Hl Hd.
  assert (Hr : rising_asks 2592000 [(now, AskBinary a)]) by (split; [exact Hnow|exact I]).
  assert (Hf : List.Forall (fun p => ask_legal (snd p)) [(now, AskBinary a)]) by (constructor; [exact Hl|constructor]).
  destruct (mixed_init n [(now, AskBinary a)] [] Hr Hf ltac:(vm_compute; reflexivity)) as (l1 & l2 & s' & m' & out & El & Hrun & Hm & Hend).
  destruct l1 as [|p l1].
  { exfalso. cbn [app] in El. subst l2. inversion Hm; subst. cbn [unfit a_call a] in Hend. clear Hm Hrun Hr Hf.
    destruct Hl as (_ & (_ & Hk) & _). destruct Hend as [H|[(t & Ht & H)|(? & ? & ? & ? & H & _)]]; [| |discriminate].
    - cbn [extras_of key_of value_of] in H. rewrite blen_app, !blen_be in H. clear - Hk Hd H. lia.
    - cbn [counterpart] in Ht. injection Ht as <-. cbn [too_long] in H. unfold max_value in H. destruct H as [H|([H|H] & _)]; [|discriminate..]. clear - Hd H. lia. }
  injection El as <- El. symmetry in El. apply app_eq_nil in El as (-> & ->). cbn [map fst sent_asks flat_map snd ask_wire] in Hrun. rewrite !app_nil_r in Hrun.
  inversion Hm as [|? ? ? ? ? Hq|? ? ? m1 out1 ? ? out2 Hq Hdo Hm2]; subst; [discriminate Hq|]. inversion Hm2; subst. rewrite app_nil_r in Hrun.
  destruct Hdo as (y & Hdo & ->).
  assert (Hy : y_status y = 0 /\ y_extras y = [] /\ y_key y = [] /\ y_value y = []).
  { clear - Hdo. cbn [a_call a] in Hdo. inversion Hdo as [c t m0 w st mg Hc Hd Hs| | | | | |]; subst. cbn [counterpart] in Hc. injection Hc as <-.
    assert (G : forall m1 o1, does now now (fun _ => None) (Store Set_ k f (Z.of_N x) d false) m1 o1 -> o1 = say false (s2b "STORED")).
    { intros m1 o1 H. inversion H; subst; [reflexivity|]. match goal with HH : stores _ _ = false |- _ => discriminate HH end. }
    apply G in Hd. unfold say in Hd. apply app_inv_tail in Hd. subst w. vm_compute in Hs. injection Hs as <- <-. auto. }
  destruct Hy as (H1 & H2 & H3 & H4).
  assert (Hp : plain_answer a y = encode (mkMsg 129 17 0 0 0 [] [] [])) by (unfold plain_answer; rewrite H1, H2, H3, H4; reflexivity).
  split; [|split].
  - exists m', y. split; [exact Hdo|]. unfold protocol_answer, hushed. rewrite H1. reflexivity.
  - eexists. exists s'. exact Hrun.
  - intros out (s2 & H). rewrite Hrun in H. injection H as _ <-. exact Hp.
Qed.
Print Assumptions c58_quiet_refuted.
Example c58_quiet_case : legal_ask (mkAsk true 5 (QStore Set_ (s2b "k") 1 0 (s2b "v"))).
Proof. split; [reflexivity|]. cbn. repeat split; try discriminate; try reflexivity. repeat constructor. Qed.
(** A getq that finds nothing is answered as well. *)
Theorem c58_quiet_miss_refuted : exists now a out, wanted now a [] /\ alone 8 now a out /\ out <> [].
Proof.
  exists 1600000000%Z, (mkAsk true 0 (QGet false (s2b "k"))), (msg 9 1 [] [] (s2b "Not found")). split; [|split; [|discriminate]].
  - eexists _, _. split; [apply b_missed; reflexivity|reflexivity].
  - eexists. vm_compute. reflexivity.
Qed.
Print Assumptions c58_quiet_miss_refuted.
(** The opaque of the request does not come back. *)
Theorem c58_opaque_refuted : exists now a w out, wanted now a w /\ alone 8 now a out /\ out <> w /\ out = msg 10 0 [] [] [].
Proof.
  exists 1600000000%Z, (mkAsk false 7 QNoop), (encode (mkMsg 129 10 0 7 0 [] [] [])), (msg 10 0 [] [] []). split; [|split; [|split; [discriminate|reflexivity]]].
  - eexists _, _. split; [eapply b_status; [reflexivity|apply pinged|vm_compute; reflexivity]|reflexivity].
  - eexists. vm_compute. reflexivity.
Qed.
Print Assumptions c58_opaque_refuted.
(** A get does not tell the token: it is 1 for a text client and 0 for a binary client. *)
Theorem c58_token_refuted : exists s',
  run_mixed [1600000000%Z; 1600000000%Z; 1600000001%Z] (init_store 8)
    (wire (Store Set_ (s2b "k") 0 0 (s2b "v") false) ++ wire (Get true [s2b "k"]) ++ bwire (mkAsk false 0 (QGet false (s2b "k"))))
  = Ok (s', flat_map (fun x => s2b x ++ [13; 10]) ["STORED"; "VALUE k 0 1 1"; "v"; "END"]%string
            ++ encode (mkMsg 129 0 0 0 0 (be_enc 4 0) [] (s2b "v"))).
Proof. eexists. vm_compute. reflexivity. Qed.
Print Assumptions c58_token_refuted.
(** An increment with an initial value does not create the item. *)
Theorem c58_initial_refuted : exists now a w out, wanted now a w /\ w = encode (mkMsg 129 5 0 0 1 [] [] (be_enc 8 10))
  /\ alone 8 now a out /\ out = msg 5 1 [] [] (s2b "Not found").
Proof.
  exists 1600000000%Z, (mkAsk false 0 (QCount true (s2b "n") 1 (Some (10, 0)))). eexists _, _. split; [|split; [reflexivity|split; [|reflexivity]]].
  - eexists _, _. split; [apply (b_created _ _ _ true (s2b "n") 1 10 0 (s2b "10") 1); [reflexivity|]|reflexivity].
    split; [discriminate|]. split; [repeat constructor; vm_compute; intros [=]|]. split; [reflexivity|]. intros d' [=].
  - eexists. vm_compute. reflexivity.
Qed.
Print Assumptions c58_initial_refuted.
(** An operation that is not known (0x33 here) is answered under the opcode of noop and as an internal error, not as an
    unknown command (0x81). *)
Theorem c58_unknown_opcode_refuted :
  exists s', run_mixed [1600000000%Z] (init_store 8) (encode (mkMsg 128 51 0 0 0 [] [] [])) = Ok (s', msg 10 132 [] [] (s2b "Internal error")).
Proof. eexists. vm_compute. reflexivity. Qed.
Print Assumptions c58_unknown_opcode_refuted.
(** delete and append with a token that is not the item's are carried out. *)
Definition stale_delete : bytes := encode (mkMsg 128 4 0 0 5 [] (s2b "k") []).
Definition stale_append : bytes := encode (mkMsg 128 14 0 0 5 [] (s2b "k") (s2b "!")).
Theorem c58_delete_token_refuted : exists s',
  run_mixed [1600000000%Z; 1600000000%Z; 1600000001%Z] (init_store 8)
    (wire (Store Set_ (s2b "k") 0 0 (s2b "v") false) ++ wire (Get true [s2b "k"]) ++ stale_delete)
  = Ok (s', flat_map (fun x => s2b x ++ [13; 10]) ["STORED"; "VALUE k 0 1 1"; "v"; "END"]%string ++ msg 4 0 [] [] []).
Proof. eexists. vm_compute. reflexivity. Qed.
Print Assumptions c58_delete_token_refuted.
Theorem c58_append_token_refuted : exists s',
  run_mixed [1600000000%Z; 1600000000%Z; 1600000001%Z; 1600000001%Z] (init_store 8)
    (wire (Store Set_ (s2b "k") 0 0 (s2b "v") false) ++ wire (Get true [s2b "k"]) ++ stale_append ++ wire (Get true [s2b "k"]))
  = Ok (s', flat_map (fun x => s2b x ++ [13; 10]) ["STORED"; "VALUE k 0 1 1"; "v"; "END"]%string ++ msg 14 0 [] [] []
            ++ flat_map (fun x => s2b x ++ [13; 10]) ["VALUE k 0 2 5"; "v!"; "END"]%string).
Proof. eexists. vm_compute. reflexivity. Qed.
Print Assumptions c58_append_token_refuted.
(** The same bytes stored in binary under the key "a b" are sent to a replica as a text request, which rejects it: the
    replica does not get the item. *)
Theorem c58_forward_refuted : exists e o, e_key e = s2b "a b" /\ set (init_store 8) 1600000000 e (opcode_behavior 1 false) = Some o
  /\ o_res o = Some result_stored
  /\ exists rest, serve_next 1600000000 (forward_request [] (s2b "set", o_entry o)) = Ok (Rejected, rest).
Proof.
  exists (mkEntry (s2b "a b") 0 0 1 0 0 (s2b "v")). eexists. split; [reflexivity|]. split; [vm_compute; reflexivity|]. split; [reflexivity|].
  eexists. vm_compute. reflexivity.
Qed.
Print Assumptions c58_forward_refuted.
