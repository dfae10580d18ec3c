(** C74: a binary client may ask any node of the cluster. *)
From Coq Require Import String.
From stdpp Require Import gmap.
From Coq Require Import ZifyBool ZifyNat ZifyN.
From Verif Require Import Base BaseLemmas TextProofs BinaryProofs StorageModel StorageSpec TextModel TextSpec ClientSpec NamesModel SessionModel ServerModel ReplicaProofs MemcachedSpec ServerProofs
  MemcachedProofs3 KeyResolverModel ClusterModel ClusterSpec NodeModel RoutingModel RoutingSpec GatewayModel GatewaySpec GatewayProofs2
  StreamModel BinaryModel BinarySpec BinaryProofs2 BinaryServerModel BinaryServerSpec BinaryServerProofs BinaryServerProofs2 BinaryGatewayModel BinaryGatewaySpec BinaryGatewayProofs BinaryGatewayProofs2
  Props_Cluster Props_Routing Props_Gateway Props_BinaryServer.
Local Open Scope N_scope.
Local Open Scope list_scope.

Definition submitted (t : bturn) : submission := mkSubmission (g_node t) (g_pick t) (g_asked t) (g_now t) (ask_wire (g_ask t)).

(** The nodes are empty, have the map of the index server, and every key has an active master.  Clients put requests of the
    text and of the binary protocol to any nodes, one after the other: all act on one memory, as [does] and [bdoes] say, and
    each is answered in its own protocol, up to the end or the first request that is [unfit].  Missing ([bproper]): binary
    requests to count, or to store on condition of a token, put to a node that does not own the key, and keys that the text
    protocol does not allow; see the refutations below.  As for one node (C58) the answers are the [plain_answer]s. *)
Theorem c74_any_node_partial c s tab hash owner hops n l : settled c s tab hash owner ->
  rising_turns 2592000 l -> Forall (bproper owner) l -> N.of_nat (length l) < 2 ^ 64 ->
  exists l1 l2 w' m' out, l = l1 ++ l2
    /\ submit c tab hash (S hops) (map submitted l1) (empty_world n) = Ok (w', out)
    /\ exchange (fun _ => None) l1 m' out
    /\ match l2 with [] => True | t :: _ => unfit (g_now t) m' (g_ask t) end.
Proof.
  intros Hs Hr Hl Hn. destruct (talks_spec c s tab hash owner Hs hops l 2592000%Z 0 (fun _ => None) (empty_world n)) as (l1 & l2 & w' & m' & out & H1 & H2 & H3 & H4); auto.
  - apply inv_init.
  - unfold sane_clock. lia.
  - exists l1, l2, w', m', out. split; [exact H1|]. split; [exact H2|]. split; [exact H3|]. destruct l2; [exact Logic.I|exact H4].
Qed.
Print Assumptions c74_any_node_partial.

(** ** Example: the cluster of Props_Gateway: x and zzz belong to a, yy to b, d is a proxy *)
Definition say_to (node : string) (time : Z) (q : ask) : bturn := mkBTurn (K node) (fun _ => O) (1600000000 + time) (1600000000 + time) q.
Definition bg_talk : list bturn :=
  [say_to "d" 0 (loud (QStore Set_ (s2b "x") 7 0 (s2b "12")));
   say_to "a" 0 (loud (QCount true (s2b "x") 30 None));
   say_to "c" 1 (AskText (Store Add (s2b "yy") 9 100 (s2b "new") false));
   say_to "a" 1 (loud (QGet true (s2b "yy")));
   say_to "b" 1 (hush (QGet false (s2b "x")));
   say_to "d" 2 (loud (QGet true (s2b "zzz")));
   say_to "b" 2 (loud (QCas (s2b "yy") 1 100 (s2b "newer") 1));
   say_to "b" 2 (loud (QCas (s2b "yy") 1 100 (s2b "newest") 1));
   say_to "d" 3 (hush (QStore Append (s2b "yy") 0 0 (s2b "!")));
   say_to "d" 3 (loud (QGat (s2b "yy") 10));
   say_to "a" 4 (AskText (Get false [s2b "x"; s2b "yy"]));
   say_to "c" 4 (loud (QStore Add (s2b "yy") 0 0 (s2b "z")));
   say_to "a" 13 (loud (QGet false (s2b "yy")));
   say_to "c" 14 (loud (QTouch (s2b "x") 5));
   say_to "b" 15 (loud (QDelete (s2b "x")));
   say_to "d" 16 (loud (QDelete (s2b "x")));
   say_to "d" 17 (loud QVersion); say_to "c" 18 (loud QQuit)].
Example c74_answers :
  match submit cfg16 se_tab se_hash 1 (map submitted bg_talk) (empty_world 8) with
  | Ok (_, out) => out =
      [msg 1 0 [] [] []; msg 5 0 [] [] (be_enc 8 42); lines ["STORED"%string]; msg 12 0 (be_enc 4 9) (s2b "yy") (s2b "new");
       msg 9 0 (be_enc 4 7) [] (s2b "42"); msg 12 1 [] (s2b "zzz") (s2b "Not found"); msg 1 0 [] [] []; msg 1 2 [] [] (s2b "Key exists");
       msg 25 0 [] [] []; msg 29 0 (be_enc 4 1) [] (s2b "newer!");
       lines ["VALUE x 7 2"; "42"; "VALUE yy 1 6"; "newer!"; "END"]%string; msg 2 5 [] [] (s2b "Item not stored");
       msg 0 1 [] [] (s2b "Not found"); msg 28 0 [] [] []; msg 4 0 [] [] []; msg 4 1 [] [] (s2b "Not found");
       msg 11 0 [] [] (s2b "flare-1.3.4"); msg 7 0 [] [] []]
  | _ => False
  end.
Proof. vm_compute. reflexivity. Qed.
Example c74_meets : settled cfg16 se_state se_tab se_hash se_owner /\ rising_turns 2592000 bg_talk /\ Forall (bproper se_owner) bg_talk /\ N.of_nat (length bg_talk) < 2 ^ 64.
Proof.
  split; [exact se_settled|]. split; [cbn [bg_talk say_to g_now rising_turns]; lia|]. split; [|vm_compute; congruence].
  assert (Ky : forall k, In k [s2b "x"; s2b "yy"; s2b "zzz"] -> legal_key k).
  { intros k [<-|[<-|[<-|[]]]]; (split; [vm_compute; discriminate|]; split; [vm_compute; repeat (apply List.Forall_cons; [unfold word_byte; lia|]); apply List.Forall_nil|vm_compute; congruence]). }
  assert (Nd : forall k, In k [K "a"; K "b"; K "c"; K "d"] -> legal_node_name k).
  { intros k [<-|[<-|[<-|[<-|[]]]]]; vm_compute; repeat split; repeat constructor; try discriminate; try lia. }
  assert (Kx : legal_key (s2b "x")) by (apply Ky; cbn [In]; auto). assert (Kyy : legal_key (s2b "yy")) by (apply Ky; cbn [In]; auto).
  assert (Kz : legal_key (s2b "zzz")) by (apply Ky; cbn [In]; auto).
  assert (B : forall k, In k [s2b "x"; s2b "yy"; s2b "zzz"] -> binary_key k) by (intros k [<-|[<-|[<-|[]]]]; (split; [discriminate|reflexivity])).
  assert (Bx : binary_key (s2b "x")) by (apply B; cbn [In]; auto). assert (By : binary_key (s2b "yy")) by (apply B; cbn [In]; auto).
  assert (Bz : binary_key (s2b "zzz")) by (apply B; cbn [In]; auto).
  assert (Na : legal_node_name (K "a")) by (apply Nd; cbn [In]; auto). assert (Nb : legal_node_name (K "b")) by (apply Nd; cbn [In]; auto).
  assert (Nc : legal_node_name (K "c")) by (apply Nd; cbn [In]; auto). assert (Ne : legal_node_name (K "d")) by (apply Nd; cbn [In]; auto).
  assert (W : forall d, In d [s2b "12"; s2b "new"; s2b "newer"; s2b "newest"; s2b "!"; s2b "z"] -> wf_bytes d).
  { intros d H. cbn [In] in H. unfold wf_bytes. decompose [or] H; subst; try contradiction; repeat constructor. }
  unfold bg_talk, say_to, loud, hush.
  repeat (apply List.Forall_cons; [|]); try exact (List.Forall_nil _);
    (split; [cbn [g_node]; assumption|]; split; [unfold clock; cbn [g_asked]; lia|]); cbn [g_ask g_node].
  all: try (split; [|split; [cbn [a_call]; discriminate|split; [intros Hkd; cbn [a_call keyed key_of] in *; first [contradiction|assumption]|cbn [a_call owners_only key_of]; intros H; try contradiction; reflexivity]]]).
  all: try (cbn [legal_call]).
  all: unfold legal_ask; cbn [a_quiet a_opaque a_call keyed].
  all: repeat first [exact Kx | exact Kyy | exact Kz | exact Bx | exact By | exact Bz | exact Logic.I | (apply W; cbn [In]; tauto) | split | reflexivity | lia | discriminate | apply List.Forall_cons | apply List.Forall_nil | (left; reflexivity) | (left; exact Logic.I)].
Qed.

(** ** What cannot be left out *)
Lemma message_head a y : exists l, plain_answer a y = 129 :: l.
Proof. unfold plain_answer, encode, header. cbn [m_magic]. change (be_enc 1 129) with [129]. cbn [app]. eauto. Qed.
Lemma protocol_head a y : a_quiet a = false -> exists l, protocol_answer a y = 129 :: l.
Proof. intros H. unfold protocol_answer. rewrite H. cbn [andb]. unfold encode, header. cbn [m_magic]. change (be_enc 1 129) with [129]. cbn [app]. eauto. Qed.
(** Whatever has been asked before: an increment or decrement of an item, put in the binary protocol to a node that does not
    own the key, is carried out, and answered with the line of the text protocol, which is no message of the binary one. *)
Theorem c74_count_refuted c s tab hash owner hops n l t q op up k v i : settled c s tab hash owner ->
  rising_turns 2592000 (l ++ [t]) -> Forall (bproper owner) l -> N.of_nat (length l) + 1 < 2 ^ 64 ->
  let a := mkAsk q op (QCount up k v i) in g_ask t = AskBinary a -> legal_ask a -> legal_key k -> legal_node_name (g_node t) -> clock (g_asked t) ->
  g_node t <> owner k ->
  exists l1 l2 w m out, l = l1 ++ l2
    /\ submit c tab hash (S hops) (map submitted l1) (empty_world n) = Ok (w, out) /\ exchange (fun _ => None) l1 m out
    /\ match l2 with
       | u :: _ => unfit (g_now u) m (g_ask u)
       | [] => forall r, look m (g_now t) k = Some r -> exists w' m' d, submit c tab hash (S hops) (map submitted [t]) w = Ok (w', [d ++ [13; 10]])
           /\ does (g_asked t) (g_now t) m (Count up k v false) m' (d ++ [13; 10])
           /\ forall y, d ++ [13; 10] <> plain_answer a y /\ (q = false -> d ++ [13; 10] <> protocol_answer a y)
       end.
Proof.
  intros Hs Hr Hl Hn a Ea La Hk Hx Hc Hxo.
  assert (Hr1 : rising_turns 2592000 l /\ (forall T', (T' = 2592000 \/ exists u, In u l /\ T' = g_now u) -> (T' <= g_now t < 2 ^ 62))%Z).
  { clear - Hr. revert Hr. generalize 2592000%Z. induction l as [|u l IH]; intros T; cbn [app rising_turns].
    - intros (H & _). split; [exact Logic.I|]. intros T' [->|(? & [] & _)]. exact H.
    - intros (H & Hr). destruct (IH _ Hr) as (I1 & I2). split; [split; assumption|]. pose proof (I2 _ (or_introl eq_refl)).
      intros T' [->|(u' & [<-|Hin] & ->)]; [lia|lia|]. apply I2. right. eauto. }
  destruct Hr1 as (Hr1 & Hlast).
  destruct (talks_spec c s tab hash owner Hs hops l 2592000%Z 0 (fun _ => None) (empty_world n)) as (l1 & l2 & w & m & out & H1 & H2 & H3 & H4); auto.
  { apply inv_init. }
  { unfold sane_clock. lia. }
  { clear - Hn. change (2 ^ 64) with 18446744073709551616 in *. lia. }
  exists l1, l2, w, m, out. split; [exact H1|]. split; [exact H2|]. split; [exact H3|]. destruct l2 as [|u l2]; [|exact H4].
  intros r L. destruct H4 as (T' & M' & Hi & HT & Hin & ->).
  assert (Hb : (T' <= g_now t < 2 ^ 62)%Z) by (apply Hlast; destruct Hin as [-> |(u & Hin & ->)]; [now left|right; eauto]).
  destruct (count_elsewhere c s tab hash owner Hs hops (g_pick t) (g_asked t) (g_now t) T' (0 + N.of_nat (length l)) m w (g_node t) q op up k v i r []) as (w' & m' & d & nn & Hrun & Hd & Hdo & _); auto.
  { lia. }
  { unfold sane_clock. lia. }
  { fold a. intros [H|[(u & Hu & H)|(? & ? & ? & ? & H & H')]].
    - cbn [a a_call extras_of key_of value_of] in H. assert (Hk16 : blen k <= 2147483000) by (destruct Hk as (_ & _ & Hk); clear - Hk; lia).
      assert (He : blen match i with Some (i0, x) => be_enc 8 v ++ be_enc 8 i0 ++ be_enc 4 x | None => be_enc 8 v ++ be_enc 8 0 ++ be_enc 4 4294967295 end = 20).
      { destruct i as [[i0 x]|]; rewrite !blen_app, !blen_be; reflexivity. }
      rewrite He in H. change (blen []) with 0 in H. clear - H Hk16. lia.
    - cbn [a a_call counterpart] in Hu. destruct i; [discriminate|]. injection Hu as <-. exact H.
    - cbn [a a_call] in H. injection H as -> -> -> ->. congruence. }
  exists w', m', d. fold a in Hrun. split; [|split; [exact Hdo|]].
  - cbn [map submit]. unfold submitted. cbn [s_node s_pick s_asked s_now s_bytes]. rewrite Ea. cbn [ask_wire]. rewrite app_nil_r in Hrun. rewrite Hrun. reflexivity.
  - intros y. destruct Hd as (Hne & Hdig & _). destruct d as [|ch d]; [congruence|]. inversion Hdig as [|? ? Hch _]; subst. cbn beta in Hch. cbn [app]. split.
    + destruct (message_head a y) as (tl & ->). intros E; injection E as E _; lia.
    + intros Hq. destruct (protocol_head a y Hq) as (tl & ->). intros E; injection E as E _; lia.
Qed.
Print Assumptions c74_count_refuted.
Definition bg_count : list bturn := [say_to "d" 0 (loud (QStore Set_ (s2b "x") 7 0 (s2b "12"))); say_to "b" 1 (loud (QCount true (s2b "x") 30 None))].
Example c74_count_nonvacuous : exists w, submit cfg16 se_tab se_hash 1 (map submitted bg_count) (empty_world 8) = Ok (w, [msg 1 0 [] [] []; lines ["42"%string]]).
Proof. eexists. vm_compute. reflexivity. Qed.

(** The token of a set is handed on as the version the item is to have: the item's own token is refused, under a status the
    protocol does not have for this request, and a later one is taken. *)
Definition bg_cas : list bturn :=
  [say_to "d" 0 (loud (QStore Set_ (s2b "x") 0 0 (s2b "old"))); say_to "d" 0 (AskText (Get true [s2b "x"]));
   say_to "b" 1 (loud (QCas (s2b "x") 0 0 (s2b "mine") 1)); say_to "d" 2 (AskText (Get true [s2b "x"]));
   say_to "b" 3 (loud (QCas (s2b "x") 0 0 (s2b "stale") 99)); say_to "d" 4 (AskText (Get true [s2b "x"]))].
Definition bg_cas_answers : list bytes :=
  [msg 1 0 [] [] []; lines ["VALUE x 0 3 1"; "old"; "END"]%string; msg 1 5 [] [] (s2b "Item not stored"); lines ["VALUE x 0 3 1"; "old"; "END"]%string;
   msg 1 0 [] [] []; lines ["VALUE x 0 5 99"; "stale"; "END"]%string].
Lemma cas_status asked now m c m' y : bdoes asked now m c m' y -> forall k f x d t, c = QCas k f x d t -> y_status y <> 5.
Proof.
  intros H k f x d t ->. inversion H as [c0 t0 m0 word st mm Hct Hd Hst| | | | | |]; subst. cbn [counterpart] in Hct. injection Hct as <-. cbn [y_status].
  assert (G : forall cl m1 ans, does asked now m cl m1 ans -> cl = Cas k f (Z.of_N x) d t false -> In ans [say false (s2b "STORED"); say false (s2b "EXISTS"); say false (s2b "NOT_FOUND")]).
  { clear. intros cl m1 ans Hd. destruct Hd; intros E; try discriminate E; injection E as; subst; cbn [In]; auto. }
  specialize (G _ _ _ Hd eq_refl). assert (In word [s2b "STORED"; s2b "EXISTS"; s2b "NOT_FOUND"]) as Hw.
  { cbn [In] in G |- *. unfold say in G. destruct G as [G|[G|[G|[]]]]; apply app_inv_tail in G; auto. }
  destruct Hw as [<-|[<-|[<-|[]]]]; vm_compute in Hst; injection Hst as <- _; discriminate.
Qed.
Theorem c74_cas_refuted :
  (exists w, submit cfg16 se_tab se_hash 1 (map submitted bg_cas) (empty_world 8) = Ok (w, bg_cas_answers))
  /\ forall m', ~ exchange (fun _ => None) bg_cas m' bg_cas_answers.
Proof.
  split; [eexists; vm_compute; reflexivity|]. intros m' H. unfold bg_cas, bg_cas_answers in H.
  inversion H as [|? ? m1 ? ? ? ? _ H2]; subst. clear H. inversion H2 as [|? ? m2 ? ? ? ? _ H3]; subst. clear H2.
  inversion H3 as [|? ? m3 ? ? ? ? R3 _]; subst. clear H3. destruct R3 as (y & D & E). cbn [say_to g_ask loud a_call] in D.
  pose proof (cas_status _ _ _ _ _ _ D _ _ _ _ _ eq_refl) as Hst. unfold msg, plain_answer, encode, header in E. cbn [m_magic m_opcode m_status m_opaque m_cas m_extras m_key m_value a_quiet a_call opcode_of] in E.
  assert (Es : be_enc 2 5 = be_enc 2 (y_status y)).
  { apply (f_equal (fun l => firstn 2 (skipn 6 l))) in E. exact E. }
  assert (Hb : y_status y < 2 ^ 16).
  { inversion D as [c0 t0 m0 word st mm Hct Hd Hs| | | | | |]; subst. cbn [y_status]. unfold status in Hs.
    repeat (match type of Hs with (if ?b then _ else _) = _ => destruct b; [injection Hs as <- _; reflexivity|] end). discriminate Hs. }
  apply (f_equal be_dec) in Es. rewrite !be_dec_enc in Es by (assumption || reflexivity). congruence.
Qed.
Print Assumptions c74_cas_refuted.

(** A key may hold any bytes in the binary protocol, but is written as it is into the line sent on: the rest of a key with an
    end of line in it is carried out as the next request, here flush_all by a get. *)
Definition bad_key : bytes := s2b "z" ++ [13; 10] ++ s2b "flush_all".
Definition bg_bad : list bturn :=
  [say_to "b" 0 (loud (QStore Set_ (s2b "xx") 0 0 (s2b "v"))); say_to "a" 1 (loud (QGet false bad_key)); say_to "b" 2 (loud (QGet false (s2b "xx")))].
Definition bg_bad_answers : list bytes := [msg 1 0 [] [] []; msg 0 1 [] [] (s2b "Not found"); msg 0 1 [] [] (s2b "Not found")].
Theorem c74_key_refuted :
  legal_ask (mkAsk false 0 (QGet false bad_key))
  /\ (exists w, submit cfg16 se_tab se_hash 2 (map submitted bg_bad) (empty_world 8) = Ok (w, bg_bad_answers))
  /\ forall m', ~ exchange (fun _ => None) bg_bad m' bg_bad_answers.
Proof.
  split; [split; [reflexivity|]; split; [discriminate|reflexivity]|]. split; [eexists; vm_compute; reflexivity|]. intros m' H. unfold bg_bad, bg_bad_answers in H.
  inversion H as [|? ? m1 ? ? ? ? R1 H2]; subst. clear H. inversion H2 as [|? ? m2 ? ? ? ? R2 H3]; subst. clear H2.
  inversion H3 as [|? ? m3 ? ? ? ? R3 _]; subst. clear H3. destruct R1 as (y1 & D1 & E1), R2 as (y2 & D2 & E2), R3 as (y3 & D3 & E3). cbn [say_to g_ask g_now g_asked loud a_call] in D1, D2, D3.
  assert (L : exists r, m1 (s2b "xx") = Some r /\ look m1 1600000002 (s2b "xx") = Some r).
  { inversion D1 as [c0 t0 m0 word st mm Hct Hd Hst| | | | | |]; subst. cbn [counterpart] in Hct. injection Hct as <-.
    assert (G : forall cl mm1 ans, does (1600000000 + 0) (1600000000 + 0) (fun _ => None) cl mm1 ans -> cl = Store Set_ (s2b "xx") 0 (Z.of_N 0) (s2b "v") false ->
       exists t, mm1 = update (fun _ => None) (s2b "xx") (Some (mkRec 0 (due (1600000000 + 0) 0) t (s2b "v")))).
    { clear. intros cl mm1 ans Hd. destruct Hd; intros E; try discriminate E; injection E as; subst; [eexists; reflexivity|discriminate].  }
    destruct (G _ _ _ Hd eq_refl) as (t & ->). eexists. split; reflexivity. }
  destruct L as (r & _ & L). assert (m2 = m1) as ->.
  { clear - D2. change (QGet false bad_key) with (id (QGet false bad_key)) in D2. remember (id (QGet false bad_key)) as cc eqn:Ec. unfold id in Ec.
    destruct D2; subst; try discriminate; try reflexivity. }
  change (1600000000 + 2)%Z with 1600000002%Z in D3. inversion D3; subst; [discriminate|discriminate E3|congruence].
Qed.
Print Assumptions c74_key_refuted.

(** ** Nodes that cannot pass a request on *)
Lemma message_encode opcode m : opcode < 2 ^ 8 -> In m [s2b "proxy failure"; s2b "no partition available"] ->
  binary_result opcode res_server_error m = encode (mkMsg 129 opcode 132 0 0 [] [] m).
Proof.
  intros HO Hm. unfold binary_result, message_response, encode, body, header. cbn [m_magic m_opcode m_status m_opaque m_cas m_extras m_key m_value app].
  unfold new_header, set_field. cbn [offset width]. rewrite (mod_fit opcode) by exact HO. destruct (one_byte opcode) as (x & ->). destruct Hm as [<-|[<-|[]]]; reflexivity.
Qed.
(** [no_way a text]: what the client reads if the node has no other node to pass its request to. *)
Definition no_way (a : bask) (text : bytes) : bytes :=
  match a_call a with
  | QGet wk k => msg (opcode_of (a_quiet a) (a_call a)) 1 [] (if wk then k else []) (s2b "Not found")
  | _ => msg (opcode_of (a_quiet a) (a_call a)) 132 [] [] text
  end.
(** A node that knows no partition changes nothing at any node, and says so, to all but a get, which is told that there is no such item. *)
Theorem c74_no_partition c tab hash hops pick asked now w x a rest : legal_ask a -> fits a -> key_of (a_call a) <> [] -> c_parts (tab x) = [] ->
  node_any c tab hash hops pick asked now w x (bwire a ++ rest) = Ok (w, no_way a (s2b "no partition available"), rest).
Proof.
  intros Hl Hf Hk Hp. unfold node_any. rewrite binary_first, (bserved asked a rest Hl Hf). cbn [bind].
  assert (W : forall h b, pre_write c (tab x) x h b = Ok NoPartition) by (intros; unfold pre_write, determine; now rewrite Hp).
  assert (R : forall h b, pre_read c (tab x) x h b = Ok NoPartition) by (intros; unfold pre_read, determine; now rewrite Hp).
  destruct a as [q op call]. destruct call as [[] k f y d|k f y d t|k y|k y|k|[] k v [[i z]|]|wk k| | | |]; try (now elim Hk);
    unfold node_request, no_way, brequest_of; destruct q; cbn [a_quiet a_opaque a_call opcode_of text_of write_of opcode_in e_key]; rewrite ?W, ?R; cbn [bind]; unfold binary_no_partition;
    rewrite ?message_encode by (reflexivity || (right; left; reflexivity)); try reflexivity;
    (destruct Hl as (_ & _ & HK); destruct wk; cbn [opcode_of]; rewrite missing_encode by (reflexivity || exact HK); reflexivity).
Qed.
Print Assumptions c74_no_partition.
(** The same of a write if the master it knows is not among the nodes it knows. *)
Theorem c74_no_proxy c tab hash hops pick asked now w x a rest : legal_ask a -> fits a -> key_of (a_call a) <> [] ->
  match a_call a with QGet _ _ => False | _ => True end -> pre_write c (tab x) x (hash (key_of (a_call a))) false = Ok NoProxy ->
  node_any c tab hash hops pick asked now w x (bwire a ++ rest) = Ok (w, msg (opcode_of (a_quiet a) (a_call a)) 132 [] [] (s2b "proxy failure"), rest).
Proof.
  intros Hl Hf Hk Hg W. unfold node_any. rewrite binary_first, (bserved asked a rest Hl Hf). cbn [bind].
  destruct a as [q op call]. destruct call as [[] k f y d|k f y d t|k y|k y|k|[] k v [[i z]|]|wk k| | | |]; try (now elim Hk); try contradiction Hg;
    unfold node_request, brequest_of; destruct q; cbn [a_quiet a_opaque a_call opcode_of text_of write_of opcode_in e_key key_of] in *; rewrite ?W; cbn [bind]; unfold binary_proxy_failure;
    rewrite ?message_encode by (reflexivity || (left; reflexivity)); reflexivity.
Qed.
Print Assumptions c74_no_proxy.
Example c74_no_partition_nonvacuous : let a := mkAsk false 7 (QDelete (s2b "x")) in
  legal_ask a /\ fits a /\ c_parts fresh_copy = [] /\
  no_way a (s2b "no partition available") = msg 4 132 [] [] (s2b "no partition available").
Proof. repeat split; discriminate. Qed.
(** Partition 0 with a master that is not in the map. *)
Example c74_no_proxy_nonvacuous : pre_write cfg16 (mkCopy [] 1 [(0%Z, mkPart (K "a") 1 [] [K "a"] [] [K "a"])] []) (K "b") 5 false = Ok NoProxy.
Proof. vm_compute. reflexivity. Qed.
(** To count a key that is not there is answered in the binary protocol at every node. *)
Example c74_count_missing : exists w, submit cfg16 se_tab se_hash 1 (map submitted [say_to "b" 0 (loud (QCount true (s2b "x") 30 None))]) (empty_world 8)
  = Ok (w, [msg 5 1 [] [] (s2b "Not found")]).
Proof. eexists. vm_compute. reflexivity. Qed.
(** More than one request may hide in a key; what is not a whole request at its end is waited for. *)
Definition bg_deep : list bturn :=
  [say_to "b" 0 (loud (QStore Set_ (s2b "xx") 0 0 (s2b "v"))); say_to "a" 1 (loud (QGet false (s2b "z" ++ [13; 10] ++ s2b "delete yy" ++ [13; 10] ++ s2b "delete xx" ++ [13; 10] ++ s2b "set xx 0 0 15")));
   say_to "b" 2 (loud (QGet false (s2b "xx")))].
Example c74_key_deep : exists w, submit cfg16 se_tab se_hash 2 (map submitted bg_deep) (empty_world 8) = Ok (w, bg_bad_answers).
Proof. eexists. vm_compute. reflexivity. Qed.
