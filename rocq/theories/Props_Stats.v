(** C66: statistics. *)
From Coq Require Import NArith ZArith List Bool String Lia.
From Verif Require Import Base StorageModel StorageSpec TextModel TextSpec ClientSpec SessionModel ServerModel MemcachedSpec MemcachedProofs MemcachedProofs2 ReplicaProofs StorageProofs2 StreamModel BinaryModel BinarySpec BinaryServerModel BinaryServerSpec
  ClusterModel ClusterSpec NodeSpec StatsModel StatsSpec StatsProofs StatsProofs2 StatsProofs3 Props_Cluster Props_Startup.
Import ListNotations.
Local Open Scope string_scope.
Local Open Scope N_scope.
Local Open Scope list_scope.

(** A client of a node that starts empty, with any map, sends any requests, text and binary mixed, asking for statistics as
    often as it likes.  Every answer to [stats] reads back as a list of names and values; the counters are the numbers of
    requests and outcomes up to there, of this memcached; curr_items is at least the number of items that can be read;
    [stats nodes] gives the map.  A request the node does not serve as memcached would (C58) ends the claim.
    Missing for the full claim: [stats threads] (C80); curr_items counts more (see below). *)
Theorem c66_session_partial n us l nodes version rest :
  Forall fair us -> Forall int_node (map snd nodes) -> version < 2 ^ 64 -> (List.length l <= List.length us)%nat ->
  rising_acts 2592000 l -> Forall (fun p => act_legal (snd p)) l -> N.of_nat (List.length l) < 2 ^ 64 ->
  exists l1 l2 w' m' h' outs, l = l1 ++ l2
    /\ watch_session (combine (map fst l1) us) (mkWatched (init_store n) no_counts nodes version) (sent_acts l1 ++ rest) = Ok (w', outs)
    /\ observed (map snd nodes) version (fun _ => None) [] l1 m' h' outs
    /\ w_map w' = nodes /\ w_version w' = version /\ (forall x, w_counts w' x = times x h' mod 2 ^ 64)
    /\ match l2 with [] => True | (now, x) :: _ => act_unfit now m' x end.
Proof.
  intros Hu Hm Hv Hlen Hr Hl Hn.
  apply (watch_spec l us 2592000 0 (mkWatched (init_store n) no_counts nodes version) (fun _ => None) [] rest (quiet_init _ _) (shows_init _ _)); auto.
  - unfold ServerProofs.sane_clock. change (2 ^ 62)%Z with 4611686018427387904%Z. lia.
  - exact counted_none.
Qed.
Print Assumptions c66_session_partial.

(** In every such session hits and misses of get add up to cmd_get; a cas that hits stores an item; and items stored, cas and
    touch requests are among the counted stores. *)
Theorem c66_balance nodes version m l m' h outs : observed nodes version m [] l m' h outs ->
  times AllGets h = times GetHits h + times GetMisses h /\
  times CasHits h <= times TotalItems h /\ times TotalItems h + times CasMisses h + times CasBadval h + times TouchHits h + times TouchMisses h <= times AllSets h.
Proof. intros O. apply (observed_balanced _ _ _ _ _ _ _ _ O). vm_compute. repeat split; discriminate. Qed.
Print Assumptions c66_balance.

(** Two nodes whose [stats nodes] read the same, one in text and the other in binary or both alike, have the same nodes with
    the same roles, states, partitions, balances and thread types, in the same order. *)
Theorem c66_nodes m m' : Forall int_node (map snd m) -> Forall int_node (map snd m') ->
  text_reads (text_stats (nodes_stats m)) = Some (nodes_stats m) /\ binary_reads (binary_stats (nodes_stats m)) (nodes_stats m) /\
  (nodes_stats m = nodes_stats m' -> map snd m = map snd m').
Proof.
  intros H H'. destruct (nodes_readable m H) as (E & R). destruct (nodes_readable m' H') as (E' & _).
  split; [now apply read_text_ok|]. split; [now apply read_binary_ok|]. rewrite E, E'. apply nodes_determined.
Qed.
Print Assumptions c66_nodes.

(** ** Example *)
Definition u0 : surroundings := mkSurroundings 4711 12 1600000000 (s2b "0.004000") (s2b "0.000123") 528384 3 1000 2000 17 5 0 2.
Definition T0 : Z := 1600000000.
Definition chat66 : list (Z * act) :=
  [(T0, Ask (AskText (Store Set_ (s2b "a") 0 100 (s2b "1") false)));
   (T0, Ask (AskText (Get false [s2b "a"; s2b "b"])));
   (T0, Ask (AskBinary (mkAsk true 0 (QStore Add (s2b "a") 0 0 (s2b "2")))));
   (T0, Ask (AskBinary (mkAsk false 0 (QCount true (s2b "a") 6 None))));
   (T0, SeeBinary Nodes 7);
   (T0, Ask (AskText (Cas (s2b "a") 0 0 (s2b "x") 99 false)));
   (T0, Ask (AskText (Touch (s2b "b") 0 true)));
   (T0, Ask (AskText (Delete (s2b "zz") false)));
   (T0, SeeText General)].
Definition watched66 : watched := mkWatched (init_store 8) no_counts (i_map ex_state) 6.
Example c66_fair : fair u0.
Proof. repeat split; try (vm_compute; congruence); vm_compute; repeat constructor; discriminate. Qed.
Example c66_legal : rising_acts 2592000 chat66 /\ Forall (fun p => act_legal (snd p)) chat66.
Proof.
  split; [cbn [chat66 rising_acts]; unfold T0; lia|].
  assert (K : forall k, In k [s2b "a"; s2b "b"; s2b "zz"] -> legal_key k).
  { intros k H. cbn [In] in H. decompose [or] H; subst; try contradiction; (split; [discriminate|split; [vm_compute; repeat constructor; discriminate|reflexivity]]). }
  assert (K2 : binary_key (s2b "a")) by (split; [discriminate|reflexivity]).
  assert (W : forall d, In d [s2b "1"; s2b "2"; s2b "x"] -> wf_bytes d).
  { intros d H. cbn [In] in H. unfold wf_bytes. decompose [or] H; subst; try contradiction; repeat constructor. }
  unfold chat66. repeat (apply List.Forall_cons; [|]); try exact (List.Forall_nil _); cbn [snd act_legal ask_legal legal_call]; unfold legal_ask; cbn [a_quiet a_opaque a_call];
    repeat first [exact Logic.I | (apply K; cbn [In]; tauto) | apply K2 | (apply W; cbn [In]; tauto) | split | reflexivity | lia | discriminate | apply List.Forall_cons | apply List.Forall_nil].
Qed.
(** What it reads, and the first and the last node of the map. *)
Definition shows_counts (names : list string) (a : bytes) : option (list (option bytes)) :=
  match text_reads a with Some l => Some (map (fun x => stat (s2b x) l) names) | None => None end.
Example c66_answers :
  match watch_session (combine (map fst chat66) (repeat u0 9)) watched66 (sent_acts chat66) with
  | Ok (_, outs) =>
      shows_counts ["cmd_get"; "cmd_set"; "get_hits"; "get_misses"; "incr_hits"; "cas_badval"; "touch_misses"; "delete_misses"; "total_items"; "curr_items"; "node_map_version"; "rusage_user"] (nth 8 outs [])
      = Some (map (fun x => Some (s2b x)) ["2"; "4"; "1"; "1"; "1"; "1"; "1"; "1"; "1"; "1"; "6"; "0.004000"]) /\
      nth 4 outs [] = binary_stats (nodes_stats (i_map ex_state)) /\ List.length (nodes_stats (i_map ex_state)) = (5 * List.length (i_map ex_state))%nat
  | _ => False
  end.
Proof. vm_compute. repeat split. Qed.
Example c66_nodes_nonvacuous : Forall int_node (map snd (i_map ex_state)) /\ i_map ex_state <> [].
Proof. split; [exact ex_state_ints|]. vm_compute. discriminate. Qed.

(** ** Where it does not hold *)
(** The counters after requests sent one by one in text. *)
Definition after (l : list (Z * call)) (names : list string) : option (list (option bytes)) :=
  let l' := map (fun p => (fst p, Ask (AskText (snd p)))) l ++ [(last (map fst l) T0, SeeText General)] in
  match watch_session (combine (map fst l') (repeat u0 (List.length l'))) watched66 (sent_acts l') with
  | Ok (_, outs) => shows_counts names (last outs [])
  | _ => None
  end.
Definition says (l : list string) : option (list (option bytes)) := Some (map (fun x => Some (s2b x)) l).
(** A binary request with extras its operation does not have, or a get without a key, is answered as an error and counted nowhere. *)
Theorem c66_misshapen u now w m rest : well_sized m -> m_magic m = 128 -> misshapen m ->
  watch_any u now w (encode m ++ rest) = Ok (encode (mkMsg 129 (m_opcode m) 132 0 0 [] [] (s2b "Internal error")), w, rest).
Proof. exact (misshapen_watched u now w m rest). Qed.
Print Assumptions c66_misshapen.
Example c66_misshapen_nonvacuous : let m := mkMsg 128 1 0 9 0 [1; 2] (s2b "k") (s2b "v") in well_sized m /\ misshapen m.
Proof. split; [constructor; vm_compute; congruence|]. left. exists 8. split; [reflexivity|discriminate]. Qed.
(** curr_items: an item whose time has passed, which no client can read, is counted until someone asks for it. *)
Theorem c66_items_refuted : exists now k,
  after [(T0, Store Set_ k 0 10 (s2b "v") false); (now, Version)] ["curr_items"] = says ["1"] /\
  after [(T0, Store Set_ k 0 10 (s2b "v") false); (now, Get false [k])] ["curr_items"; "get_misses"] = says ["0"; "1"].
Proof. exists (T0 + 11)%Z, (s2b "k"). vm_compute. split; reflexivity. Qed.
Print Assumptions c66_items_refuted.
(** gat, which reads and touches, moves neither get_hits nor touch_hits; it counts as a set, and so does touch. *)
Theorem c66_gat_refuted : exists k,
  after [(T0, Store Set_ k 0 0 (s2b "v") false); (T0, Gat k 10 false)] ["cmd_get"; "get_hits"; "touch_hits"; "cmd_set"] = says ["0"; "0"; "0"; "2"] /\
  after [(T0, Store Set_ k 0 0 (s2b "v") false); (T0, Touch k 10 false)] ["cmd_get"; "get_hits"; "touch_hits"; "cmd_set"] = says ["0"; "0"; "1"; "2"].
Proof. exists (s2b "k"). vm_compute. split; reflexivity. Qed.
Print Assumptions c66_gat_refuted.
(** [keys] adds one to cmd_get for each prefix, and to neither hits nor misses. *)
Theorem c66_keys_refuted c prefixes : prefixes <> [] -> c AllGets + N.of_nat (List.length prefixes) < 2 ^ 64 ->
  count_keys prefixes c AllGets = c AllGets + N.of_nat (List.length prefixes) /\ (forall x, x <> AllGets -> count_keys prefixes c x = c x).
Proof.
  intros _. unfold count_keys. revert c. induction prefixes as [|p l IH]; intros c H; cbn [fold_left List.length] in *.
  - split; [lia|auto].
  - assert (B : bump AllGets c AllGets = c AllGets + 1) by (unfold bump; cbn [counter_eqb]; unfold u64; apply N.mod_small; lia).
    destruct (IH (bump AllGets c)) as (A & C); [rewrite B; lia|]. split; [rewrite A, B; lia|].
    intros x Hx. rewrite C by exact Hx. destruct x; try reflexivity. congruence.
Qed.
Print Assumptions c66_keys_refuted.
(** A binary client that numbers its requests does not find its number in the answer. *)
Theorem c66_opaque_refuted : exists o w out, watch_any u0 T0 watched66 (act_wire (SeeBinary Nodes o)) = Ok (out, w, []) /\
  out = binary_stats (nodes_stats (i_map ex_state)) /\ o <> 0 /\ binary_stats [] = encode (mkMsg 129 16 0 0 0 [] [] []).
Proof. exists 7, watched66, (binary_stats (nodes_stats (i_map ex_state))). split; [vm_compute; reflexivity|]. split; [reflexivity|]. split; [discriminate|reflexivity]. Qed.
Print Assumptions c66_opaque_refuted.
(** A report that does not exist: the client is told so, in text and in binary, and nothing changes. *)
Theorem c66_unknown u now w x o rest : Forall word_byte x -> x <> [] -> blen x + 1 <= 1024 -> o < 2 ^ 32 ->
  ~ In x (map s2b ["items"; "slabs"; "sizes"; "threads"; "nodes"]) ->
  watch_any u now w (s2b "stats " ++ x ++ crlf ++ rest) = Ok (s2b "ERROR" ++ crlf, w, rest) /\
  watch_any u now w (encode (mkMsg 128 16 0 o 0 [] x []) ++ rest) = Ok (encode (mkMsg 129 16 132 0 0 [] [] (s2b "Internal error")), w, rest).
Proof.
  intros Hx Hn Hb Ho N.
  assert (P : forall sp r, match r with [] => True | c :: _ => ~ word_byte c end -> parse_asked (repeat 32 sp ++ x ++ r) = Err).
  { intros sp r Hr. unfold parse_asked. rewrite TextProofs.call_word_ok by (unfold BUFSIZ; lia). unfold next_word.
    assert (K : skip_spaces (repeat 32 sp ++ x ++ r) = x ++ r).
    { induction sp as [|sp IH]; [|exact IH]. destruct x as [|c x]; [congruence|]. inversion Hx as [|? ? Hc _]; subst. cbn [repeat app skip_spaces]. destruct (c =? 32) eqn:X; [|reflexivity]. unfold word_byte in Hc. lia. }
    rewrite K, TextProofs.word_loop_token by (auto; unfold BUFSIZ; lia). cbn [bind].
    assert (B : forall y, In y (map s2b ["items"; "slabs"; "sizes"; "threads"; "nodes"]) -> beq x y = false).
    { intros y I. destruct (beq x y) eqn:X; [|reflexivity]. apply BaseLemmas.beq_eq in X as ->. contradiction. }
    cbn [map In] in B. destruct (beq x []) eqn:X; [apply BaseLemmas.beq_eq in X; contradiction|]. cbn [mem existsb]. rewrite !B by tauto. reflexivity. }
  split.
  - set (tl := 32 :: x). replace (s2b "stats " ++ x ++ crlf ++ rest) with (s2b "stats" ++ tl ++ crlf ++ rest) by reflexivity.
    assert (Hw : TextProofs3.plain_word (s2b "stats")) by (apply TextProofs3.plainb_ok; reflexivity).
    assert (H1 : Forall (fun c => c <> 10) tl) by (constructor; [discriminate|]; eapply Forall_impl; [|exact Hx]; unfold word_byte; intros; lia).
    destruct (OtherProofs.command_any (s2b "stats") tl rest Hw H1 eq_refl) as [G1 G2]. unfold watch_any. change (is_binary (s2b "stats" ++ tl ++ crlf ++ rest)) with false. cbv iota.
    unfold watch_line. rewrite G1. cbn [bind]. rewrite G2. cbn [bind c_word]. change (beq (s2b "stats") (s2b "stats")) with true. cbv iota.
    change (tl ++ [10]) with (repeat 32 1 ++ x ++ [10]). rewrite P by (unfold word_byte; lia). reflexivity.
  - set (mm := mkMsg 128 16 0 o 0 [] x []).
    assert (Z : well_sized mm) by (constructor; cbn [mm m_magic m_opcode m_status m_opaque m_cas m_extras m_key m_value]; auto; try reflexivity; change (blen []) with 0; lia).
    assert (NX : binary_next now (encode mm ++ rest) = Ok (BAccepted (BOther 16 x), rest)).
    { destruct (BinaryServerProofs3.frame mm Z rest) as (b & B & D). unfold binary_next, encode. rewrite <- app_assoc, BinaryProofs.read_header_spec by apply BinaryProofs.header_length.
      pose proof (BinaryProofs.header_fields mm Z) as (HM & HO & _ & _ & _ & _ & HTot & _). rewrite HM. change (m_magic mm =? magic_request) with true. cbv iota. cbn [bind]. rewrite B, HO.
      unfold parse_binary. rewrite HO. change (m_opcode mm) with 16. cbn [nmem existsb op_sets op_appends op_deletes op_gets op_incrs op_touches N.eqb Pos.eqb orb bind].
      destruct D as [-> | (_ & D1 & _)]; [cbn [bind]; unfold body, mm; cbn [m_extras m_key m_value app]; rewrite app_nil_r; reflexivity|].
      unfold body, mm in D1. cbn [m_extras m_key m_value app] in D1. rewrite app_nil_r in D1. contradiction. }
    assert (B : is_binary (encode mm ++ rest) = true) by reflexivity.
    unfold watch_any. rewrite B. unfold watch_binary. rewrite NX. cbn [bind]. rewrite TextProofs2.cstr_key by exact Hx.
    change x with (repeat 32 0 ++ x). rewrite <- (app_nil_r x) at 1. rewrite P by exact I. cbn [quiet_opcode]. rewrite BinaryProofs2.result_response_encode by reflexivity. reflexivity.
Qed.
Print Assumptions c66_unknown.
Example c66_unknown_met : let x := s2b "foo" in Forall word_byte x /\ ~ In x (map s2b ["items"; "slabs"; "sizes"; "threads"; "nodes"]).
Proof. cbv zeta. split; [repeat (apply Forall_cons; [unfold word_byte; vm_compute; repeat split; congruence|]); apply Forall_nil|]. cbn. intros H. repeat (destruct H as [H|H]; [discriminate H|]). exact H. Qed.
