(** C64: a node that starts. *)
From Coq Require Import NArith ZArith List Bool String Lia.
From Verif Require Import Base TextModel TextSpec KeyResolverModel NamesModel ClusterModel ClusterSpec ClusterProofs ClusterProofs3 ClusterProofs7 ClusterProofs8 ClusterProofs9 NodeModel NodeSpec NodeProofs2
  StartupModel StartupSpec StartupProofs Props_Cluster.
Import ListNotations.
Local Open Scope string_scope.
Local Open Scope Z_scope.
Local Open Scope list_scope.

(** ** The settings *)
(** For all settings: the index server recognises the request 'meta', and from its answer a node takes exactly the
    settings, whatever it had before, and not a byte more than the answer. *)
Theorem c64_settings m h rest : int_settings m ->
  serve_meta (meta_request ++ rest) = Ok rest /\
  read_meta (S (List.length (meta_answer m ++ rest))) h (meta_answer m ++ rest) = Ok (hears m, rest).
Proof. split; [apply meta_served|now apply meta_heard]. Qed.
Print Assumptions c64_settings.

Definition plain := mkOptions 1024 (s2b "simple") (s2b "modular") 1 4096.
Definition small := mkOptions 16 (s2b "crc32") (s2b "modular") 2 64.
Definition kept : list (bytes * option bytes) :=
  [(s2b "partition-size", Some (s2b "16")); (s2b "key-hash-algorithm", Some (s2b "simple")); (s2b "partition-type", Some (s2b "modular"));
   (s2b "partition-modular-hint", Some (s2b "1")); (s2b "partition-modular-virtual", Some (s2b "64"))].
Definition set16 := mkSettings 16 NamesModel.hash_simple key_modular 1 64.
Example c64_settings_nonvacuous : index_start small (Some []) = Ok (mkSettings 16 hash_crc32 key_modular 2 64) /\ index_start small (Some kept) = Ok set16 /\ int_settings set16.
Proof. split; [vm_compute; reflexivity|]. split; [vm_compute; reflexivity|]. repeat split; vm_compute; congruence. Qed.

(** ** The start *)
(** An index server that started, whatever its options and ZooKeeper said, answers a node such that the node starts as well:
    it has the map of the index server with all its partition tables, and it takes for the home of every key, for every
    number of partitions, what the settings of the index server say. *)
Theorem c64_start near o ch m s : int_options o -> index_start o ch = Ok m -> history s -> Forall int_node (map snd (i_map s)) ->
  exists d, started_on near m s d /\ shows near (d_copy d) (i_map s) /\ c_version (d_copy d) = 0%N /\ forall ext n k, home ext d n k = home_by ext m n k.
Proof.
  intros IO IS H F. destruct (start_ok near o ch m s IO IS H F) as (d & A & B & C & D & E). exists d. split; [exact A|]. split; [exact B|]. split; [exact C|].
  intros ext n k. unfold home, home_by. rewrite D, E. now destruct (t_hash m).
Qed.
Print Assumptions c64_start.
Example ex_state_ints : Forall int_node (map snd (i_map ex_state)).
Proof. vm_compute i_map. cbn [map snd]. repeat apply List.Forall_cons; try apply List.Forall_nil; (split; [split; [discriminate|split; [repeat (apply List.Forall_cons; [vm_compute; repeat split; congruence|]); apply List.Forall_nil|reflexivity]]|]); repeat split; vm_compute; congruence. Qed.
Example c64_start_nonvacuous : int_options small /\ history ex_state /\ Forall int_node (map snd (i_map ex_state)) /\
  match start_node (fun _ => true) (add_answer 0 ex_state ++ meta_answer set16) with
  | Ok d => map (fun k => home (fun _ _ => 0) d 2 (s2b k)) ["a"; "b"; "c"] = [Some 0; Some 1; Some 0]%nat /\ List.length (c_parts (d_copy d)) = 2%nat
  | _ => False
  end.
Proof. split; [repeat split; vm_compute; congruence|]. split; [exact ex_state_history|]. split; [exact ex_state_ints|]. vm_compute. split; reflexivity. Qed.

(** Two index servers that read the five settings from ZooKeeper have the same settings, whatever their own options say; nodes
    started on one or the other agree on the home of every key. *)
Theorem c64_same_home near1 near2 vals o1 o2 ch1 ch2 m1 m2 s1 s2 d1 d2 : int_options o1 -> int_options o2 -> reads_all vals ch1 -> reads_all vals ch2 ->
  index_start o1 (Some ch1) = Ok m1 -> index_start o2 (Some ch2) = Ok m2 ->
  history s1 -> history s2 -> Forall int_node (map snd (i_map s1)) -> Forall int_node (map snd (i_map s2)) ->
  started_on near1 m1 s1 d1 -> started_on near2 m2 s2 d2 ->
  m1 = m2 /\ forall ext n k, home ext d1 n k = home ext d2 n k.
Proof.
  intros IO1 IO2 R1 R2 I1 I2 H1 H2 F1 F2 S1 S2. pose proof (settings_agree vals o1 o2 ch1 ch2 m1 m2 R1 R2 I1 I2) as M. split; [exact M|]. subst m2.
  destruct (start_ok near1 o1 _ m1 s1 IO1 I1 H1 F1) as (d1' & A1 & _ & _ & D1 & E1). destruct (start_ok near2 o2 _ m1 s2 IO2 I2 H2 F2) as (d2' & A2 & _ & _ & D2 & E2).
  unfold started_on in *. rewrite S1 in A1. rewrite S2 in A2. injection A1 as <-. injection A2 as <-. intros ext n k. unfold home. now rewrite D1, E1, D2, E2.
Qed.
Print Assumptions c64_same_home.
Definition sixteen (k : bytes) : bytes := match find (fun kv => beq (fst kv) k) kept with Some (_, Some v) => v | _ => [] end.
Definition kept_too : list (bytes * option bytes) := [(s2b "cluster", None)] ++ rev kept.
Example c64_same_home_nonvacuous : reads_all sixteen kept /\ reads_all sixteen kept_too /\ index_start plain (Some kept) = Ok set16 /\ index_start small (Some kept_too) = Ok set16.
Proof.
  assert (ND : forall l, (fix nd (l : list bytes) := match l with [] => true | k :: l => negb (existsb (beq k) l) && nd l end) l = true -> NoDup l).
  { induction l as [|k l IH]; [constructor|]. intros H. apply andb_prop in H as (H1 & H2). constructor; [|now apply IH]. intros I. apply negb_true_iff in H1.
    assert (existsb (beq k) l = true) by (apply existsb_exists; exists k; split; [exact I|now apply beq_iff]). congruence. }
  split; [|split; [|split; vm_compute; reflexivity]]; (split; [apply ND; vm_compute; reflexivity|]);
    intros k [<-|[<-|[<-|[<-|[<-|[]]]]]]; vm_compute; tauto.
Qed.
(** Where a value could not be read and it was not the last one, an index server takes its own option and starts; the nodes started on it
    look for some keys in another partition than the others do: e, for instance, with the CRC zlib gives for it. *)
Definition unread (x : string) : list (bytes * option bytes) := map (fun kv => if beq (fst kv) (s2b x) then (fst kv, None) else kv) kept.
Theorem c64_lost_refuted : exists o ch1 ch2 m1 m2 s d1 d2 k,
  ch2 = map (fun kv => if beq (fst kv) (s2b "key-hash-algorithm") then (fst kv, None) else kv) ch1 /\ reads_all sixteen ch1 /\
  index_start o (Some ch1) = Ok m1 /\ index_start o (Some ch2) = Ok m2 /\ history s /\
  started_on (fun _ => true) m1 s d1 /\ started_on (fun _ => true) m2 s d2 /\
  k = s2b "e" /\ forall ext, ext ha_crc32 k = 4024072794 -> home ext d1 2 k = Some 0%nat /\ home ext d2 2 k = Some 1%nat.
Proof.
  exists small, kept, (unread "key-hash-algorithm"), set16, (mkSettings 16 hash_crc32 key_modular 1 64), ex_state.
  destruct (start_node (fun _ => true) (add_answer 0 ex_state ++ meta_answer set16)) as [| |d1] eqn:E1; [vm_compute in E1; discriminate E1..|].
  destruct (start_node (fun _ => true) (add_answer 0 ex_state ++ meta_answer (mkSettings 16 hash_crc32 key_modular 1 64))) as [| |d2] eqn:E2; [vm_compute in E2; discriminate E2..|].
  exists d1, d2, (s2b "e"). split; [reflexivity|]. split; [apply c64_same_home_nonvacuous|]. split; [vm_compute; reflexivity|]. split; [vm_compute; reflexivity|]. split; [exact ex_state_history|].
  split; [exact E1|]. split; [exact E2|]. split; [reflexivity|]. intros ext X.
  assert (D1 : d_conf d1 = mkConfig 16 1 64 /\ d_hash d1 = ha_simple) by (vm_compute in E1; injection E1 as <-; split; reflexivity).
  assert (D2 : d_conf d2 = mkConfig 16 1 64 /\ d_hash d2 = ha_crc32) by (vm_compute in E2; injection E2 as <-; split; reflexivity).
  destruct D1 as (C1 & A1), D2 as (C2 & A2). unfold home. rewrite C1, A1, C2, A2. split; [vm_compute; reflexivity|]. unfold key_hash. change (KeyResolverModel.cstr (s2b "e")) with (s2b "e"). rewrite X. vm_compute. reflexivity.
Qed.
Print Assumptions c64_lost_refuted.

(** ** The standing of the node *)
(** A node that is in the map and not down is refused: it does not start, and the map stays as it was. *)
Theorem c64_refused near f s h p n r s' rest : history s -> f_save f = SaveOk -> nfind (to_node_key h p) (i_map s) = Some n -> live n ->
  handle f s (EAdd h p) = Ok (r, s') -> s' = s /\ r = -1 /\ start_node near (add_answer r s' ++ rest) = Err.
Proof.
  intros H F Fk L E. destruct (c29_add s f h p r s' H F E) as [(-> & ->)|[(-> & (n' & Fk' & D) & _)|(-> & Fk' & _)]]; [|congruence..].
  split; [reflexivity|]. split; [reflexivity|]. apply refused.
Qed.
Print Assumptions c64_refused.
(** A node that starts has no partition, or it is the master that went down without anybody to take over, and still down: it never
    serves data before it is told to.  Nobody else's standing changes. *)
Theorem c64_standing near o ch m f s h p s' : int_options o -> index_start o ch = Ok m -> history s -> f_save f = SaveOk ->
  handle f s (EAdd h p) = Ok (0, s') -> history s' -> Forall int_node (map snd (i_map s')) ->
  exists d n, started_on near m s' d /\ nfind (to_node_key h p) (c_map (d_copy d)) = Some n /\ idle n /\
    forall k, k <> to_node_key h p -> nfind k (c_map (d_copy d)) = nfind k (i_map s).
Proof.
  intros IO IS H F E H' FI. destruct (start_ok near o ch m s' IO IS H' FI) as (d & A & (B & _) & _). rewrite <- B in *. exists d.
  destruct (c29_add s f h p 0 s' H F E) as [(_ & ?)|[(_ & (n & Fk & D) & M & _)|(_ & Fk & Fk' & SE & _)]]; [discriminate| |].
  - exists n. rewrite B, M. split; [exact A|]. split; [exact Fk|]. split; [|reflexivity].
    destruct (history_inv s H) as (P & IP). pose proof (g_valid _ _ (v_good _ _ IP) _ _ Fk) as V. unfold valid_node in V. unfold idle.
    destruct (n_role n); auto. destruct V as (_ & _ & L). now destruct L.
  - eexists. rewrite B. split; [exact A|]. split; [exact Fk'|]. split; [now left|]. intros k N0. apply SE. intros [<-|[]]. now apply N0.
Qed.
Print Assumptions c64_standing.
(** A new node, and the master that comes back. *)
Definition with_f := state_after (two_partitions ++ [A "f"]).
Definition alone_again := state_after [A "a"; R "a" Master 1 0; St "a" Down; A "a"].
Example with_f_history : history with_f.
Proof. apply (replay_history (two_partitions ++ [A "f"]) (fresh_index None) (repeat 0 14)); [apply history_start|vm_compute; reflexivity..]. Qed.
Example c64_standing_nonvacuous : nfind (K "f") (i_map with_f) = Some (mkNode (s2b "f") 1 Proxy Active (-1) 0 21) /\ history with_f /\
  nfind (K "a") (i_map alone_again) = Some (mkNode (s2b "a") 1 Master Down 0 1 16) /\ history alone_again /\
  match handle io_ok ex_state (EAdd (s2b "b") 1) with Ok (r, _) => r = -1 | _ => False end.
Proof.
  split; [vm_compute; reflexivity|]. split; [exact with_f_history|].
  split; [vm_compute; reflexivity|]. split; [apply (replay_history [A "a"; R "a" Master 1 0; St "a" Down; A "a"] (fresh_index None) (repeat 0 4)); [apply history_start|vm_compute; reflexivity..]|].
  vm_compute. reflexivity.
Qed.

(** ** What comes between *)
(** The node of the answer is read after the node was added.  If the node was given a role in between, it takes that role for its old one:
    the map that tells it to become a slave starts no copy of the data, now or later.  One that had started before copies from the master. *)
Definition f_slave := state_after (two_partitions ++ [A "f"; R "f" Slave 1 0]).
Example f_slave_history : history f_slave.
Proof. apply (replay_history (two_partitions ++ [A "f"; R "f" Slave 1 0]) (fresh_index None) (repeat 0 15)); [apply history_start|vm_compute; reflexivity..]. Qed.
Theorem c64_role_window_refuted : exists s s' d d', history s /\ history s' /\
  handle io_ok s (ERole (s2b "f") 1 Slave 1 0) = Ok (0, s') /\
  started_on (fun _ => true) set16 s d /\ started_on (fun _ => true) set16 s' d' /\
  jobs (fun _ => true) (K "f") (d_copy d) (map snd (i_map s')) (i_version s') = [Copy (K "a") 0 2 Slave] /\
  jobs (fun _ => true) (K "f") (d_copy d') (map snd (i_map s')) (i_version s') = [].
Proof.
  exists with_f, f_slave.
  destruct (start_node (fun _ => true) (add_answer 0 with_f ++ meta_answer set16)) as [| |d1] eqn:E1; [vm_compute in E1; discriminate E1..|].
  destruct (start_node (fun _ => true) (add_answer 0 f_slave ++ meta_answer set16)) as [| |d2] eqn:E2; [vm_compute in E2; discriminate E2..|].
  exists d1, d2. split; [exact with_f_history|].
  split; [exact f_slave_history|].
  split; [vm_compute; reflexivity|]. split; [exact E1|]. split; [exact E2|].
  vm_compute in E1. vm_compute in E2. injection E1 as <-. injection E2 as <-. split; vm_compute; reflexivity.
Qed.
Print Assumptions c64_role_window_refuted.
(** The answer carries no version: a node that started on a new map takes an older one that was sent to it before. *)
Theorem c64_back_refuted : exists s s' d c, history s /\ history s' /\ handle io_ok s (ERole (s2b "f") 1 Slave 1 0) = Ok (0, s') /\
  (i_version s < i_version s')%N /\ started_on (fun _ => true) set16 s' d /\
  take_sync (fun _ => true) (d_copy d) (map snd (i_map s)) (i_version s) = (true, c) /\ c_map c = i_map s /\ c_map (d_copy d) = i_map s' /\ i_map s <> i_map s'.
Proof.
  exists with_f, f_slave.
  destruct (start_node (fun _ => true) (add_answer 0 f_slave ++ meta_answer set16)) as [| |d2] eqn:E2; [vm_compute in E2; discriminate E2..|].
  destruct (take_sync (fun _ => true) (d_copy d2) (map snd (i_map with_f)) (i_version with_f)) as [b c] eqn:E3. exists d2, c. split; [exact with_f_history|].
  split; [exact f_slave_history|].
  split; [vm_compute; reflexivity|]. split; [vm_compute; reflexivity|]. split; [exact E2|].
  vm_compute in E2. injection E2 as <-. vm_compute in E3. injection E3 as <- <-. split; [vm_compute; reflexivity|]. split; [vm_compute; reflexivity|]. split; [vm_compute; reflexivity|]. vm_compute. discriminate.
Qed.
Print Assumptions c64_back_refuted.

(** ** Where the settings come from *)
(** Each setting is the value in ZooKeeper if there is one, else the option; an index server with a name of a hash that is unknown, or
    one that is known and not offered, does not start. *)
Definition taken (vars : list (bytes * bytes)) (name : string) (option_ : bytes) : bytes := match var vars (s2b name) with Some v => v | None => option_ end.
Definition number_taken (vars : list (bytes * bytes)) (name : string) (option_ z : Z) : Prop :=
  match var vars (s2b name) with Some v => lex_string v = Ok z | None => z = option_ end.
(** A number in ZooKeeper may have a sign; it must fit into an int. *)
Theorem c64_numbers n :
  lex_string (dec n) = (if (n <=? 2147483647)%N then Ok (Z.of_N n) else Err) /\
  lex_string (s2b "+" ++ dec n) = (if (n <=? 2147483647)%N then Ok (Z.of_N n) else Err) /\
  lex_string (s2b "-" ++ dec n) = (if (n <=? 2147483648)%N then Ok (- Z.of_N n) else Err).
Proof.
  repeat split.
  - destruct (TextProofs2.dec_head n) as (c & t & E & Hc). rewrite E.
    assert (K : lex_string (c :: t) = if is_unsigned (c :: t) && (dec_val (c :: t) <=? int_max)%N then Ok (Z.of_N (dec_val (c :: t))) else Err).
    { assert (H1 : c <> 43%N) by lia. assert (H2 : c <> 45%N) by lia. clear - H1 H2. unfold lex_string, lex_int. destruct c as [|p]; [reflexivity|].
      repeat (destruct p as [p|p|]; try reflexivity; try (exfalso; apply H1; reflexivity); try (exfalso; apply H2; reflexivity)). }
    rewrite K, <- E, TextProofs2.is_unsigned_dec, BaseLemmas.dec_val_dec. reflexivity.
  - cbn [s2b app]. change (lex_string (43%N :: dec n) = if (n <=? 2147483647)%N then Ok (Z.of_N n) else Err). unfold lex_string.
    rewrite TextProofs2.is_unsigned_dec, BaseLemmas.dec_val_dec. reflexivity.
  - change (lex_string (45%N :: dec n) = if (n <=? 2147483648)%N then Ok (- Z.of_N n) else Err). unfold lex_string, lex_int.
    rewrite TextProofs2.is_unsigned_dec, BaseLemmas.dec_val_dec. reflexivity.
Qed.
Print Assumptions c64_numbers.
Theorem c64_sources o ch m : index_start o ch = Ok m -> exists vars, get_meta ch = Some vars /\
  hashing_cast (taken vars "key-hash-algorithm" (o_hash o)) = Some (t_hash m) /\ In (t_hash m) [NamesModel.hash_simple; hash_crc32; hash_jenkins] /\
  resolver_cast (taken vars "partition-type" (o_type o)) = Some (t_type m) /\
  number_taken vars "partition-size" (o_size o) (t_size m) /\ number_taken vars "partition-modular-hint" (o_hint o) (t_hint m) /\
  number_taken vars "partition-modular-virtual" (o_virtual o) (t_virtual m).
Proof.
  unfold index_start. destruct (get_meta ch) as [vars|]; [|discriminate]. intros H. exists vars. split; [reflexivity|]. unfold index_settings in H.
  assert (NT : forall name d z, int_var vars (s2b name) d = Ok z -> number_taken vars name d z).
  { intros name d z E. unfold int_var, number_taken in *. destruct (var vars (s2b name)); [exact E|congruence]. }
  destruct (int_var vars (s2b "partition-modular-hint") (o_hint o)) as [| |hint] eqn:E1; cbn [bind] in H; try discriminate.
  destruct (int_var vars (s2b "partition-modular-virtual") (o_virtual o)) as [| |virt] eqn:E2; cbn [bind] in H; try discriminate.
  destruct (int_var vars (s2b "partition-size") (o_size o)) as [| |size] eqn:E3; cbn [bind] in H; try discriminate.
  apply NT in E1, E2, E3. clear NT. unfold taken.
  destruct (hashing_cast _) as [h|]; [|discriminate]. destruct (resolver_cast _) as [t|]; [|destruct h; discriminate].
  destruct h; try discriminate; (destruct (make_resolver size hint virt); cbn [bind] in H; try discriminate; injection H as <-; cbn [t_hash t_type t_size t_hint t_virtual In]; tauto).
Qed.
Print Assumptions c64_sources.
Example c64_sources_nonvacuous : index_start (mkOptions 16 (s2b "md5") (s2b "modular") 2 64) (Some []) = Err /\
  index_start small (Some [(s2b "key-hash-algorithm", Some (s2b "murmur"))]) = Err /\
  index_start small (Some [(s2b "partition-size", Some (s2b "+32")); (s2b "key-hash-algorithm", Some (s2b "jenkins"))]) = Ok (mkSettings 32 hash_jenkins key_modular 2 64).
Proof. split; [vm_compute; reflexivity|]. split; vm_compute; reflexivity. Qed.

(** ** Nothing is refused
    An index server takes a number of virtual partitions of 0, and a table for no partitions; then there is no home for
    any key, and every node that has these settings divides by zero or reads outside of the table for its first key. *)
Theorem c64_zero_refuted size hint virt : 0 <= size -> 0 <= virt -> 1 <= hint -> size = 0 \/ virt = 0 ->
  exists m, index_start (mkOptions size (s2b "simple") (s2b "modular") hint virt) (Some []) = Ok m /\ t_size m = size /\ t_virtual m = virt /\
    forall ext n k, home_by ext m n k = None.
Proof.
  intros S0 V0 H0 Z0. exists (mkSettings size NamesModel.hash_simple key_modular hint virt).
  assert (R : virt = 0 -> forall i, row (mkConfig (Z.to_nat size) hint (Z.to_nat virt)) (S i) = Some []).
  { intros ->. induction i as [|i IH]; cbn [row c_hint c_virtual c_partition_size].
    - now replace (Z.of_nat 1 <=? hint) with true by (symmetry; apply Z.leb_le; lia).
    - destruct (Z.of_nat (S (S i)) <=? hint); [reflexivity|]. change (match row (mkConfig (Z.to_nat size) hint (Z.to_nat 0)) (S i) with None => None | Some prev => refine (S (S i)) (repeat 0%nat (Z.to_nat size)) prev end = Some []).
      rewrite IH. reflexivity. }
  split; [|split; [reflexivity|split; [reflexivity|]]].
  - unfold index_start. change (get_meta (Some [])) with (Some (@nil (bytes * bytes))). cbn match. unfold index_settings, int_var, var. cbn [find o_hint o_virtual o_size o_type o_hash bind].
    assert (M : make_resolver size hint virt = Ok (mkConfig (Z.to_nat size) hint (Z.to_nat virt))).
    { unfold make_resolver. destruct (Z.ltb_spec size 0); [lia|]. destruct (Z.ltb_spec virt 0); [lia|]. cbn [orb].
      replace (startup_ok _) with true; [reflexivity|]. symmetry. unfold startup_ok. apply forallb_forall. intros i I. apply in_seq in I. cbn [c_partition_size] in I.
      destruct i as [|i]; [lia|]. destruct Z0 as [-> |V]; [cbn in I; lia|]. now rewrite (R V i). }
    change (hashing_cast (s2b "simple")) with (Some NamesModel.hash_simple). change (resolver_cast (s2b "modular")) with (Some key_modular). cbn match. rewrite M. reflexivity.
  - intros ext n k. unfold home_by, resolve. cbn [t_size t_hint t_virtual c_partition_size c_virtual].
    destruct (Nat.ltb_spec n (Z.to_nat size)) as [L|L]; [|reflexivity]. destruct Z0 as [-> |V]; [cbn in L; lia|].
    destruct n as [|n]; [reflexivity|]. rewrite (R V n), V. reflexivity.
Qed.
Print Assumptions c64_zero_refuted.
