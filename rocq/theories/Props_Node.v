(** Properties C23, C24, C28 and C48: node lists, names and administrative requests,
    and the distribution of the cluster map. *)
From Coq Require Import ZArith NArith List Bool String Lia.
From Verif Require Import Base BaseLemmas TextModel TextSpec ClusterModel ClusterSpec ClusterProofs ClusterProofs3 ClusterProofs8 ClusterProofs9
  NodeModel NodeSpec NodeProofs NodeProofs2 NamesModel NamesSpec NamesProofs Props_Cluster.
Import ListNotations.
Local Open Scope N_scope.
Local Open Scope list_scope.

(** ** C23 *)
(** A node that serves the bytes of a 'node sync' request gets the version and the
    nodes that were sent, field by field and in order, and leaves what follows. *)
Theorem c23_sync_roundtrip ns v rest : Forall int_node ns -> v < 2 ^ 64 -> serve_sync (sync_request ns v ++ rest) = Ok (v, ns, rest).
Proof. exact (sync_roundtrip ns v rest). Qed.
Print Assumptions c23_sync_roundtrip.
(** A request without a version has version 0. *)
Theorem c23_unversioned ns rest : Forall int_node ns -> serve_sync (s2b "node sync" ++ crlf ++ node_lines ns ++ rest) = Ok (0, ns, rest).
Proof.
  intros F. unfold serve_sync.
  destruct (node_command (s2b "sync") [] (node_lines ns ++ rest)) as (A & B & C);
    [vm_compute; repeat constructor; discriminate|discriminate|vm_compute; discriminate|constructor|reflexivity|].
  change (s2b "node sync" ++ crlf ++ node_lines ns ++ rest) with (s2b "node" ++ 32 :: s2b "sync" ++ [] ++ crlf ++ node_lines ns ++ rest).
  rewrite A. cbn [bind]. rewrite B. cbn [bind c_word]. change (beq (s2b "node") (s2b "node")) with true. cbn [negb]. rewrite C. cbn [bind].
  change (beq (s2b "sync") (s2b "sync")) with true. cbn [negb]. change (sync_version ([] ++ [10])) with (@Ok N 0). cbn [bind].
  rewrite read_nodes_ok; auto. rewrite app_length. pose proof (node_lines_length ns). lia.
Qed.
Print Assumptions c23_unversioned.
(** So does a node that reads the reply to 'node add'. *)
Theorem c23_add_reply_roundtrip ns rest : Forall int_node ns ->
  read_nodes (S (List.length (node_lines ns ++ rest))) (node_lines ns ++ rest) = Ok (ns, rest).
Proof. exact (add_reply_roundtrip ns rest). Qed.
Print Assumptions c23_add_reply_roundtrip.
Example c23_example : let ns := map snd (i_map ex_state) in Forall int_node ns /\ List.length ns = 5%nat /\
  serve_sync (sync_request ns 18446744073709551615 ++ s2b "get a") = Ok (18446744073709551615, ns, s2b "get a").
Proof.
  assert (F : Forall int_node (map snd (i_map ex_state))).
  { apply int_nodes_compute. vm_compute. reflexivity. }
  split; [exact F|]. split; [vm_compute; reflexivity|]. apply c23_sync_roundtrip; [exact F|reflexivity].
Qed.
(** Keys of nodes give back host and port; not if the host has a colon. *)
Theorem c23_node_key h p : ~ In 58 h -> is_i32 p -> from_node_key (to_node_key h p) = Ok (h, p).
Proof. exact (node_key_roundtrip h p). Qed.
Print Assumptions c23_node_key.
Example c23_node_key_example : from_node_key (s2b "www.example.org:12121") = Ok (s2b "www.example.org", 12121%Z).
Proof. change (s2b "www.example.org:12121") with (to_node_key (s2b "www.example.org") 12121). apply c23_node_key; [|split; vm_compute; congruence]. vm_compute. intuition discriminate. Qed.
Theorem c23_colon_refuted : exists h p, Forall word_byte h /\ is_i32 p /\ from_node_key (to_node_key h p) = Err.
Proof. exists (s2b "::1"), 12121%Z. split; [vm_compute; repeat constructor; discriminate|]. split; [split; vm_compute; congruence|vm_compute; reflexivity]. Qed.
Print Assumptions c23_colon_refuted.

(** ** C24 *)
(** A name is accepted for a value if and only if it is the name printed for it: so
    every printed name is parsed back, every other string is refused, and (the cast
    being a function) no two values share a name. *)
Theorem c24_names :
  (forall w x, role_cast w = Some x <-> w = role_name x) /\
  (forall w x, state_cast w = Some x <-> w = state_name x) /\
  (forall w x, replication_cast w = Some x <-> w = replication_name x) /\
  (forall w x, soption_cast w = Some x <-> w = soption_name x) /\
  (forall w x, sresult_cast w = Some x <-> w = sresult_name x) /\
  (forall w x, oresult_cast w = Some x <-> w = oresult_name x) /\
  (forall w x, stype_cast w = Some x <-> w = stype_name x) /\
  (forall w x, compress_cast w = Some x <-> w = compress_name x) /\
  (forall w x, hashing_cast w = Some x <-> w = hashing_name x) /\
  (forall w x, rmode_cast w = Some x <-> w = rmode_name x) /\
  (forall w x, resolver_cast w = Some x <-> w = resolver_name x).
Proof.
  repeat apply conj; intros w x.
  all: first [exact (role_cast_iff w x)|exact (state_cast_iff w x)|exact (replication_cast_iff w x)|exact (soption_cast_iff w x)|exact (sresult_cast_iff w x)
    |exact (oresult_cast_iff w x)|exact (stype_cast_iff w x)|exact (compress_cast_iff w x)|exact (hashing_cast_iff w x)|exact (rmode_cast_iff w x)|exact (resolver_cast_iff w x)].
Qed.
Print Assumptions c24_names.
(** The numbers that stand for roles and states in node lists. *)
Theorem c24_numbers : (forall r, num_role (role_num r) = Ok r) /\ (forall s, num_state (state_num s) = Ok s).
Proof. split; [exact num_role_num|exact num_state_num]. Qed.
Print Assumptions c24_numbers.
(** The words of a request select the command they name, and no other words do:
    anything else is an error. *)
Theorem c24_commands :
  (forall a b x, ncommand_words x = Some (a, None) -> ncommand_of a b = x) /\
  (forall a b x, ncommand_words x = Some (a, Some b) -> ncommand_of a b = x) /\
  (forall a b, ncommand_of a b = nc_error \/ ncommand_words (ncommand_of a b) = Some (a, None) \/ ncommand_words (ncommand_of a b) = Some (a, Some b)) /\
  (forall a b x, icommand_words x = Some (a, None) -> icommand_of a b = x) /\
  (forall a b x, icommand_words x = Some (a, Some b) -> icommand_of a b = x) /\
  (forall a b, icommand_of a b = ic_error \/ icommand_words (icommand_of a b) = Some (a, None) \/ icommand_words (icommand_of a b) = Some (a, Some b)).
Proof.
  split; [exact ncommand_one|]. split; [exact ncommand_two|]. split; [exact ncommand_only|].
  split; [exact icommand_one|]. split; [exact icommand_two|exact icommand_only].
Qed.
Print Assumptions c24_commands.
Example c24_example : role_cast (s2b "Master") = None /\ hashing_cast (s2b "murmur") = Some hash_murmur /\
  ncommand_of (s2b "gets") [] = nc_gets /\ ncommand_of (s2b "node") (s2b "add") = nc_error /\ icommand_of (s2b "node") (s2b "add") = ic_node_add.
Proof. repeat split. Qed.

(** ** C28 *)
(** A sync with a lower version changes nothing; any other is taken as it is.  So the
    version of a node never decreases. *)
Theorem c28_sync near c ns v :
  (v < c_version c /\ take_sync near c ns v = (false, c)) \/
  (c_version c <= v /\ fst (take_sync near c ns v) = true /\ c_map (snd (take_sync near c ns v)) = map_of ns /\ c_version (snd (take_sync near c ns v)) = v).
Proof. exact (take_sync_cases near c ns v). Qed.
Print Assumptions c28_sync.
Theorem c28_monotone near l c : c_version c <= c_version (receive near c l).
Proof. exact (receive_mono near l c). Qed.
Print Assumptions c28_monotone.
(** Every saved change of the index server increases the version by one. *)
Theorem c28_version_partial s f e r s' : history s -> f_save f = SaveOk -> ~ abandons s e -> handle f s e = Ok (r, s') ->
  s' = s \/ i_version s' = u64 (i_version s + 1).
Proof. intros H. destruct (history_inv s H) as (P & I). exact (step_version s P f e r s' I). Qed.
Print Assumptions c28_version_partial.
(** Let the index server go through any states and let a node receive maps of any of
    them, in any order, with losses and repetitions.  If the last one is among them,
    the node ends up with the map, the version and the partition tables of the last
    state.  Missing from the full property: messages that pair the map of one state
    with the version of a later one, with which it fails (below), and what [run]
    excludes: failing stores and abandoned masters. *)
Theorem c28_converges_partial near l s ms : run (fresh_index None) l s -> N.of_nat (List.length l) < 2 ^ 64 ->
  (forall m, In m ms -> exists t, In t (fresh_index None :: l) /\ m = message t t) -> In (message s s) ms ->
  shows near (receive near fresh_copy ms) (i_map s) /\ c_version (receive near fresh_copy ms) = i_version s.
Proof. exact (converges near l s ms). Qed.
Print Assumptions c28_converges_partial.

Definition ex_states : list index := map (fun n => state_after (firstn n two_partitions)) (seq 1 13).
Lemma last_first {A} (l : list A) : forall t d, last (t :: l) d = last l t.
Proof. induction l as [|a l IH]; intros t d; [reflexivity|]. change (last (t :: a :: l) d) with (last (a :: l) d). now rewrite !IH. Qed.
Lemma ex_run_from : forall l s, (exists es, List.length es = List.length l /\ (fix go s es l := match es, l with
    | e :: es, t :: l => abandons_b s e = false /\ handle io_ok s e = Ok (0%Z, t) /\ go t es l | _, _ => True end) s es l) -> run s l (last l s).
Proof.
  induction l as [|t l IH]; intros s ([|e es] & L & G); try discriminate L; [constructor|].
  destruct G as (A & H & G). injection L as L. rewrite last_first.
  apply (run_cons io_ok s e 0%Z); auto; [now apply abandons_compute|]. apply IH. exists es. split; auto.
Qed.
Example c28_run : run (fresh_index None) ex_states ex_state.
Proof.
  replace ex_state with (last ex_states (fresh_index None)) by (vm_compute; reflexivity). apply ex_run_from. exists two_partitions. split; [reflexivity|].
  vm_compute. repeat (split; [reflexivity|]). exact I.
Qed.
(** The last map arrives first, followed by older ones. *)
Example c28_example : let c := receive (fun _ => false) fresh_copy (map (fun t => message t t) (rev ex_states)) in
  shows (fun _ => false) c (i_map ex_state) /\ c_version c = i_version ex_state /\ i_version ex_state = 13.
Proof.
  cbv zeta. pose proof (c28_converges_partial (fun _ => false) ex_states ex_state (map (fun t => message t t) (rev ex_states)) c28_run) as H.
  destruct H as (H1 & H2).
  - vm_compute. reflexivity.
  - intros m I. apply in_map_iff in I as (t & <- & I). exists t. split; auto. right. now apply in_rev.
  - apply (in_map (fun t => message t t)). apply -> in_rev. apply in_map_iff. exists 13%nat. split; [vm_compute; reflexivity|apply in_seq; lia].
  - split; [exact H1|]. split; [exact H2|vm_compute; reflexivity].
Qed.

(** The index server reads the map and the version it sends one after the other.  If
    the map changes in between and the message arrives after the right one, a node is
    left with an old map under the newest version, until the next change. *)
Definition before_failover : index := ex_state.
Definition after_failover : index := after io_ok ex_state (St "a" Down).
Theorem c28_race_refuted : exists s s', history s /\ handle io_ok s (St "a" Down) = Ok (0%Z, s') /\
  let c := receive (fun _ => false) fresh_copy [message s s; message s' s'; message s s'] in
  c_version c = i_version s' /\ c_map c = i_map s /\
  nfind (K "c") (i_map s') = Some (mkNode (s2b "c") 1 Master Active 0 1 18) /\
  nfind (K "c") (c_map c) = Some (mkNode (s2b "c") 1 Slave Active 0 0 18).
Proof.
  exists before_failover, after_failover. split; [exact ex_state_history|]. split; [vm_compute; reflexivity|]. vm_compute. repeat split.
Qed.
Print Assumptions c28_race_refuted.

(** ** C48 *)
(** The requests the nodes send to the index server are executed as written. *)
Theorem c48_admin_roundtrip e l rest : admin_ok e -> admin_request e = Some l -> serve_admin (l ++ rest) = Ok (e, rest).
Proof. exact (admin_roundtrip e l rest). Qed.
Print Assumptions c48_admin_roundtrip.
Example c48_example : admin_ok (ERole (s2b "db1") 12121 Slave 3 0) /\
  admin_request (ERole (s2b "db1") 12121 Slave 3 0) = Some (s2b "node role db1 12121 slave 3 0" ++ crlf).
Proof. split; [|vm_compute; reflexivity]. repeat split; try discriminate; vm_compute; try congruence; repeat constructor; discriminate. Qed.
(** A 'node role' line with an unreadable balance is not rejected: it is executed
    with balance and partition -1. *)
Theorem c48_role_garbage_refuted : serve_admin (s2b "node role db1 12121 master abc 2" ++ crlf) = Ok (ERole (s2b "db1") 12121 Master (-1) (-1), []) /\
  serve_admin (s2b "node role db1 12121 slave 1 2 3 more" ++ crlf) = Ok (ERole (s2b "db1") 12121 Slave 1 2, []) /\
  serve_admin (s2b "node state db1 12121 down more" ++ crlf) = Err.
Proof. vm_compute. repeat split. Qed.
Print Assumptions c48_role_garbage_refuted.
