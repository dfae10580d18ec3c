(** Properties C25, C26, C27, C29, C30 and C46: the index server's cluster map. *)
From Coq Require Import ZArith NArith List Bool String Lia.
From Verif Require Import Base BaseLemmas TextModel ClusterModel ClusterSpec ClusterProofs ClusterProofs2 ClusterProofs3 ClusterProofs4 ClusterProofs5 ClusterProofs6 ClusterProofs7 ClusterProofs8 ClusterProofs9.
Import ListNotations.
Local Open Scope Z_scope.
Local Open Scope list_scope.

(** A cluster used in the examples: requests of host [x], port 1. *)
Definition A (x : string) : event := EAdd (s2b x) 1.
Definition R (x : string) (r : role) (b p : Z) : event := ERole (s2b x) 1 r b p.
Definition St (x : string) (s : nstate) : event := EState (s2b x) 1 s.
Definition K (x : string) : bytes := to_node_key (s2b x) 1.
(** a and b are the masters of two partitions, c an active and d a preparing slave of
    partition 0. *)
Definition two_partitions : list event :=
  [A "a"; A "b"; A "c"; A "d"; A "e"; R "a" Master 1 0; R "b" Master 1 1; St "b" Ready; St "b" Active;
   R "c" Slave 0 0; St "c" Ready; St "c" Active; R "d" Slave 0 0].
Definition state_after (l : list event) : index := match replay (fresh_index None) l with Ok (_, s) => s | _ => fresh_index None end.
Definition ex_state : index := state_after two_partitions.
Example ex_state_history : history ex_state.
Proof. apply (replay_history two_partitions (fresh_index None) (repeat 0 13)); [apply history_start|vm_compute; reflexivity|vm_compute; reflexivity]. Qed.
Example ex_state_roles : map (fun kn => (n_role (snd kn), n_state (snd kn), n_partition (snd kn), n_balance (snd kn))) (i_map ex_state) =
  [(Master, Active, 0, 1); (Master, Active, 1, 1); (Slave, Active, 0, 0); (Slave, Prepare, 0, 0); (Proxy, Active, -1, 0)].
Proof. vm_compute. reflexivity. Qed.

(** ** C25 *)
(** In every state reached by requests and monitoring events no two live nodes are
    masters of one partition.  Missing from the full property: histories in which a
    store fails, and those that bring up or remove the preserved master of a partition
    whose only live nodes are no masters; the latter can end with two masters. *)
Theorem c25_one_master_partial s : history s -> one_master (i_map s).
Proof. intros H. destruct (history_inv s H) as (P & I). exact (g_one _ _ (v_good _ _ I)). Qed.
Print Assumptions c25_one_master_partial.
Example c25_example : one_master (i_map ex_state). Proof. exact (c25_one_master_partial _ ex_state_history). Qed.

(** a fails before its only slave d is ready, and comes back. *)
Definition abandoning : list event :=
  [A "a"; A "b"; A "c"; A "d"; A "e"; R "a" Master 1 0; R "b" Master 1 1; St "b" Ready; St "b" Active;
   R "c" Master 1 2; St "c" Ready; St "c" Active; R "d" Slave 0 0; R "e" Slave 0 1; St "e" Ready; St "e" Active;
   St "a" Down; St "a" Active].
Definition two_masters : list event :=
  abandoning ++ [R "e" Proxy 0 0; R "e" Slave 0 2; St "e" Ready; St "e" Active; St "b" Down].
Theorem c25_two_masters_refuted : exists s, any_history s /\ ~ one_master (i_map s) /\
  nfind (K "c") (i_map s) = Some (mkNode (s2b "c") 1 Master Active 2 1 18) /\
  nfind (K "e") (i_map s) = Some (mkNode (s2b "e") 1 Master Active 2 1 20).
Proof.
  exists (state_after two_masters).
  assert (FC : nfind (K "c") (i_map (state_after two_masters)) = Some (mkNode (s2b "c") 1 Master Active 2 1 18)) by (vm_compute; reflexivity).
  assert (FE : nfind (K "e") (i_map (state_after two_masters)) = Some (mkNode (s2b "e") 1 Master Active 2 1 20)) by (vm_compute; reflexivity).
  split; [|split; [|auto]].
  - apply (replay_any two_masters (fresh_index None) (repeat 0 23)); [apply any_start|vm_compute; reflexivity].
  - intros O. specialize (O _ _ _ _ FC FE eq_refl eq_refl ltac:(discriminate) ltac:(discriminate) eq_refl). discriminate.
Qed.
Print Assumptions c25_two_masters_refuted.

(** ** C26 *)
(** Whatever the history, a node reported down leaves exactly the map [went_down]
    describes; with a working coordinator this happens whenever the node was live. *)
Theorem c26_failover_partial s f h p r s' : history s -> f_save f = SaveOk -> handle f s (EState h p Down) = Ok (r, s') ->
  (exists n, nfind (to_node_key h p) (i_map s) = Some n /\ live n /\ r = 0 /\ went_down (i_map s) (to_node_key h p) n (i_map s')) \/
  (s' = s /\ (f_begin f && f_load f = true -> forall n, nfind (to_node_key h p) (i_map s) = Some n -> n_state n = Down)).
Proof.
  intros H F E. destruct (history_inv s H) as (P & I). destruct (down_node_spec P f s _ r s' I F E) as [X|(n & Fk & L & -> & W & _)]; eauto 8.
Qed.
Print Assumptions c26_failover_partial.
(** It does happen, if the shares of the slaves add up to an int. *)
Theorem c26_failover_defined s h p n : history s -> nfind (to_node_key h p) (i_map s) = Some n -> live n ->
  read_shares (n_partition n) (i_map s) <= 2147483647 ->
  exists s', handle io_ok s (EState h p Down) = Ok (0, s') /\ went_down (i_map s) (to_node_key h p) n (i_map s').
Proof.
  intros H Fk L B. destruct (history_inv s H) as (P & I).
  destruct (down_node_total P io_ok s _ n I eq_refl Fk L) as (s' & E).
  { rewrite <- read_shares_total. pose proof (read_shares_pos P (n_partition n) _ (v_good _ _ I)). unfold fits. lia. }
  exists s'. split; auto. destruct (down_node_spec P io_ok s _ _ s' I eq_refl E) as [(_ & X)|(n' & Fk' & _ & _ & W & _)].
  - exfalso. apply L. eapply X; eauto.
  - rewrite Fk in Fk'. injection Fk' as <-. exact W.
Qed.
Print Assumptions c26_failover_defined.
Example c26_example : exists s', handle io_ok ex_state (St "a" Down) = Ok (0, s') /\
  went_down (i_map ex_state) (K "a") (mkNode (s2b "a") 1 Master Active 0 1 16) (i_map s') /\
  active_slave (i_map ex_state) 0 (K "c") (mkNode (s2b "c") 1 Slave Active 0 0 18) /\
  nfind (K "a") (i_map s') = Some (mkNode (s2b "a") 1 Proxy Down (-1) 0 16) /\
  nfind (K "c") (i_map s') = Some (mkNode (s2b "c") 1 Master Active 0 1 18) /\
  nfind (K "d") (i_map s') = Some (mkNode (s2b "d") 1 Slave Prepare 0 0 19).
Proof.
  destruct (c26_failover_defined ex_state (s2b "a") 1 (mkNode (s2b "a") 1 Master Active 0 1 16) ex_state_history) as (s' & E & W); [vm_compute; reflexivity|discriminate|vm_compute; discriminate|].
  exists s'. split; [exact E|]. split; [exact W|]. split; [repeat split; vm_compute; reflexivity|].
  unfold St in *. vm_compute in E. injection E as <-. repeat split; vm_compute; reflexivity.
Qed.

(** What a failed store leaves behind: storing that b is a slave of partition 0
    fails, the tables however list it, and when a goes down then b, a proxy of no
    partition, is made a master, and nobody keeps partition 0. *)
Definition after (f : io) (s : index) (e : event) : index := match handle f s e with Ok (_, s) => s | _ => s end.
Definition failed_store_1 : index := state_after [A "a"; A "b"; R "a" Master 1 0].
Definition failed_store_2 : index := after (mkIo true true SaveKept) failed_store_1 (R "b" Slave 0 0).
Definition failed_store_3 : index := after io_ok failed_store_2 (St "a" Down).
Theorem c26_failed_store_refuted : exists s1 s2 s3,
  history s1 /\
  nfind (K "a") (i_map s1) = Some (mkNode (s2b "a") 1 Master Active 0 1 16) /\
  handle (mkIo true true SaveKept) s1 (R "b" Slave 0 0) = Ok (-1, s2) /\
  handle io_ok s2 (St "a" Down) = Ok (0, s3) /\
  nfind (K "b") (i_map s3) = Some (mkNode (s2b "b") 1 Master Active (-1) 1 17) /\
  (forall k n, nfind k (i_map s3) = Some n -> n_partition n = -1).
Proof.
  exists failed_store_1, failed_store_2, failed_store_3. split; [|split; [|split; [|split; [|split]]]]; try (vm_compute; reflexivity).
  - apply (replay_history [A "a"; A "b"; R "a" Master 1 0] (fresh_index None) [0; 0; 0]); [apply history_start|vm_compute; reflexivity|vm_compute; reflexivity].
  - intros k n F. apply (mfind_in beq beq_iff) in F. let m := eval vm_compute in (i_map failed_store_3) in change (i_map failed_store_3) with m in F.
    cbn [In] in F. destruct F as [F|[F|[]]]; injection F as <- <-; reflexivity.
Qed.
Print Assumptions c26_failed_store_refuted.
(** No node can be asked to be put into the state prepare. *)
Theorem c26_no_prepare f s h p : handle f s (EState h p Prepare) = Ok (-1, s).
Proof. reflexivity. Qed.
Print Assumptions c26_no_prepare.

(** ** C27 *)
(** Any node map: tables that replace the old ones list exactly the nodes of each
    partition, and, if no master has a negative partition, there is one table for
    each of 0..n-1 and at most one for a partition being prepared, n. *)
Theorem c27_tables_partial near m a b ok : named m -> reconstruct near m = (Some (a, b), ok) ->
  (forall p, pfind p a = main_table near p m) /\ (forall p, pfind p b = prep_table p m) /\
  ((forall k n, In (k, n) m -> n_role n = Master -> 0 <= n_partition n) ->
   exists n, 0 <= n /\ partitions_are a n /\ (forall p, pfind p b <> None -> p = n)).
Proof.
  intros K E. destruct (reconstruct_tables near m a b ok K E) as (O1 & O2 & M & Q & C). split; auto. split; auto.
  intros NN. destruct (consistent_keys a b O1 O2) with (2 := C) as (X & Y).
  - intros p Hp. rewrite M in Hp. unfold main_table in Hp. destruct (existsb _ m) eqn:Ex; [|easy]. apply existsb_exists in Ex as ((k, n) & I & Mn).
    apply is_master_iff in Mn as (Rn & _ & <- & _). eapply NN; eauto.
  - exists (Z.of_nat (List.length a)). split; [lia|]. auto.
Qed.
Print Assumptions c27_tables_partial.
(** A map that describes n partitions is accepted; in all other cases the tables in
    force stay. *)
Theorem c27_accepted near m n : named m -> contiguous m n -> exists a b ok, reconstruct near m = (Some (a, b), ok).
Proof. intros K C. destruct (reconstruct_total near m n K C) as (a & b & ok & E & _). eauto. Qed.
Print Assumptions c27_accepted.
Theorem c27_rejected_keeps s ok : reconstruct (fun _ => false) (i_map s) = (None, ok) -> ok = false /\ refresh s = s.
Proof. intros E. split; [eapply reconstruct_none; eauto|]. unfold refresh. now rewrite E. Qed.
Print Assumptions c27_rejected_keeps.
(** The index server's own tables always are those of its map. *)
Theorem c27_index_tables_partial s : history s -> exists n, 0 <= n /\
  (forall p, pfind p (i_parts s) = main_table (fun _ => false) p (i_map s)) /\
  (forall p, pfind p (i_prep s) = prep_table p (i_map s)) /\
  partitions_are (i_parts s) n /\ (forall p, pfind p (i_prep s) <> None -> p = n).
Proof.
  intros H. destruct (history_inv s H) as (P & I). exists P. destruct I as [G T (O1 & O2 & M & Q) D]. pose proof (good_contiguous _ _ G) as (P0 & X & Y).
  split; auto. split; auto. split; auto. split; [intros p; rewrite M; apply X|]. intros p. rewrite Q. apply Y.
Qed.
Print Assumptions c27_index_tables_partial.
Example c27_example : history ex_state /\ partitions_are (i_parts ex_state) 2 /\
  pfind 0 (i_parts ex_state) = Some (mkPart (K "a") 1 [(K "c", 0); (K "d", 0)] [K "a"] [] [K "a"; K "c"; K "d"]).
Proof.
  split; [exact ex_state_history|]. split; [|vm_compute; reflexivity].
  intros p. let m := eval vm_compute in (i_parts ex_state) in change (i_parts ex_state) with m.
  unfold pfind. cbn [mfind]. destruct (Z.eqb_spec p 0); [split; [lia|congruence]|]. destruct (Z.eqb_spec p 1); [split; [lia|congruence]|]. split; [congruence|lia].
Qed.
(** "Exactly one master": a down master keeps its slot, and the accepted table has
    none; and a map with partitions -1 and 1 only is accepted. *)
Theorem c27_no_master_refuted : exists s s', history s /\ handle io_ok s (St "a" Down) = Ok (0, s') /\ history s' /\
  pfind 0 (i_parts s') = Some (mkPart [] 0 [] [] [] []).
Proof.
  pose (l := [A "a"; R "a" Master 1 0]). exists (state_after l), (state_after (l ++ [St "a" Down])).
  split; [|split; [vm_compute; reflexivity|split; [|vm_compute; reflexivity]]].
  - apply (replay_history l (fresh_index None) [0; 0]); [apply history_start|vm_compute; reflexivity|vm_compute; reflexivity].
  - apply (replay_history (l ++ [St "a" Down]) (fresh_index None) [0; 0; 0]); [apply history_start|vm_compute; reflexivity|vm_compute; reflexivity].
Qed.
Print Assumptions c27_no_master_refuted.
Theorem c27_negative_refuted : exists m a b ok, named m /\ nordered m /\ reconstruct (fun _ => false) m = (Some (a, b), ok) /\
  pfind 0 a = None /\ pfind 1 a <> None /\ pfind (-1) a <> None.
Proof.
  exists [(K "a", mkNode (s2b "a") 1 Master Down (-1) 0 16); (K "b", mkNode (s2b "b") 1 Master Active 1 1 17)].
  eexists _, _, _. split; [|split; [|split; [vm_compute; reflexivity|repeat split; vm_compute; congruence]]].
  - intros k [<-|[<-|[]]]; vm_compute; congruence.
  - repeat constructor; intros k; cbn [map fst In]; [intros [<-|[]]; vm_compute; reflexivity|easy].
Qed.
Print Assumptions c27_negative_refuted.

(** ** C29 *)
(** The map has one node for each host and port, under the key made of them, and no
    two nodes have the same thread type. *)
Theorem c29_unique_partial s : history s ->
  (forall k1 n1 k2 n2, In (k1, n1) (i_map s) -> In (k2, n2) (i_map s) ->
     (n_name n1 = n_name n2 /\ n_port n1 = n_port n2) \/ n_thread n1 = n_thread n2 -> k1 = k2 /\ n1 = n2) /\
  (forall k n, In (k, n) (i_map s) -> k = to_node_key (n_name n) (n_port n) /\ 16 <= n_thread n < i_thread s).
Proof.
  intros H. destruct (history_inv s H) as (P & I). destruct I as [G (T1 & T2 & T3) SY D].
  assert (F : forall k n, In (k, n) (i_map s) <-> nfind k (i_map s) = Some n) by (intros; symmetry; apply nfind_in, (g_ord _ _ G)).
  assert (KY : forall k n, In (k, n) (i_map s) -> k = to_node_key (n_name n) (n_port n)) by (intros k n Hk; apply (g_key _ _ G), F, Hk).
  split.
  - intros k1 n1 k2 n2 I1 I2 E. assert (k1 = k2) as <-.
    { destruct E as [(E1 & E2)|E]; [|apply F in I1, I2; eapply T3; eauto]. rewrite (KY _ _ I1), (KY _ _ I2). congruence. }
    split; auto. apply F in I1, I2. congruence.
  - intros k n Hk. split; [auto|]. apply T2 with k, F, Hk.
Qed.
Print Assumptions c29_unique_partial.
(** Different hosts or ports have different keys. *)
Theorem c29_key_injective h p h' p' : to_node_key h p = to_node_key h' p' -> h = h' /\ p = p'.
Proof. exact (to_node_key_inj h p h' p'). Qed.
Print Assumptions c29_key_injective.
(** Adding: refused without effect, or the known down node stays as it is, or a new
    node enters with a thread type not given before. *)
Theorem c29_add s f h p r s' : history s -> f_save f = SaveOk -> handle f s (EAdd h p) = Ok (r, s') ->
  let k := to_node_key h p in
  (s' = s /\ r = -1) \/
  (r = 0 /\ (exists n, nfind k (i_map s) = Some n /\ n_state n = Down) /\ i_map s' = i_map s /\ i_thread s' = i_thread s) \/
  (r = 0 /\ nfind k (i_map s) = None /\ nfind k (i_map s') = Some (mkNode h p Proxy Active (-1) 0 (i_thread s)) /\
   same_except [k] (i_map s) (i_map s') /\ i_thread s' = i_thread s + 1).
Proof.
  intros H F E. destruct (history_inv s H) as (P & I). destruct (add_node_spec P f s h p r s' I F E) as [?|(-> & _ & _ & [(n & A1 & A2 & A3 & A4)|(A1 & A2 & A3 & A4)])]; eauto 8.
Qed.
Print Assumptions c29_add.
(** Thread types are never given again. *)
Theorem c29_threads_grow_partial s f e r s' : history s -> f_save f = SaveOk -> ~ abandons s e -> handle f s e = Ok (r, s') ->
  i_thread s <= i_thread s' /\ (forall k n, nfind k (i_map s') = Some n -> nfind k (i_map s) = None -> n_thread n = i_thread s).
Proof. exact (threads_grow s f e r s'). Qed.
Print Assumptions c29_threads_grow_partial.
Example c29_example : history ex_state /\ map (fun kn => (n_thread (snd kn))) (i_map ex_state) = [16; 17; 18; 19; 20] /\
  exists s', handle io_ok ex_state (A "f") = Ok (0, s') /\ nfind (K "f") (i_map s') = Some (mkNode (s2b "f") 1 Proxy Active (-1) 0 21).
Proof. split; [exact ex_state_history|]. split; [vm_compute; reflexivity|]. eexists. split; vm_compute; reflexivity. Qed.

(** ** C30 *)
(** A remove request removes exactly the named node or changes nothing; it succeeds
    for a down node that is not the only keeper of its partition. *)
Theorem c30_remove_partial s f h p r s' : history s -> f_save f = SaveOk -> ~ abandons s (ERemove h p) -> handle f s (ERemove h p) = Ok (r, s') ->
  let k := to_node_key h p in
  (s' = s /\ r = -1) \/
  (r = 0 /\ nfind k (i_map s') = None /\ same_except [k] (i_map s) (i_map s') /\
   exists n, nfind k (i_map s) = Some n /\ n_state n = Down /\
     (n_role n = Master -> exists k' n', k' <> k /\ nfind k' (i_map s') = Some n' /\ n_role n' = Master /\ live n' /\ n_partition n' = n_partition n)).
Proof. exact (remove_only_down s f h p r s'). Qed.
Print Assumptions c30_remove_partial.
Theorem c30_remove_succeeds s h p n : history s -> nfind (to_node_key h p) (i_map s) = Some n -> n_state n = Down ->
  (n_role n = Master -> others_live (i_map s) (to_node_key h p) (n_partition n)) -> exists s', handle io_ok s (ERemove h p) = Ok (0, s').
Proof. intros H F S O. destruct (history_inv s H) as (P & I). exact (remove_node_total P io_ok s _ n I eq_refl F S O). Qed.
Print Assumptions c30_remove_succeeds.
Definition removable : index := state_after (two_partitions ++ [St "a" Down; St "e" Down]).
Example removable_history : history removable.
Proof. apply (replay_history (two_partitions ++ [St "a" Down; St "e" Down]) (fresh_index None) (repeat 0 15)); [apply history_start|vm_compute; reflexivity|vm_compute; reflexivity]. Qed.
Example c30_example : exists s', handle io_ok removable (ERemove (s2b "a") 1) = Ok (0, s') /\ nfind (K "a") (i_map removable) <> None /\ nfind (K "a") (i_map s') = None.
Proof. eexists. split; [vm_compute; reflexivity|]. split; vm_compute; congruence. Qed.
(** The preserved master of partition 0 is removed although only a slave that has not
    yet got the data is left: the partition has no keeper any more. *)
Definition unready : list event := [A "a"; A "b"; R "a" Master 1 0; R "b" Slave 0 0; St "a" Down].
Theorem c30_sole_keeper_refuted : exists s s', history s /\
  nfind (K "a") (i_map s) = Some (mkNode (s2b "a") 1 Master Down 0 1 16) /\
  handle io_ok s (ERemove (s2b "a") 1) = Ok (0, s') /\ nfind (K "a") (i_map s') = None /\
  (forall k n, nfind k (i_map s') = Some n -> n_role n <> Master /\ (n_partition n = 0 -> n_state n = Prepare)).
Proof.
  exists (state_after unready), (after io_ok (state_after unready) (ERemove (s2b "a") 1)).
  split; [|split; [|split; [|split]]]; try (vm_compute; reflexivity).
  - apply (replay_history unready (fresh_index None) (repeat 0 5)); [apply history_start|vm_compute; reflexivity|vm_compute; reflexivity].
  - intros k n F. apply (mfind_in beq beq_iff) in F. let m := eval vm_compute in (i_map (after io_ok (state_after unready) (ERemove (s2b "a") 1))) in change (i_map (after io_ok (state_after unready) (ERemove (s2b "a") 1))) with m in F.
    cbn [In] in F. destruct F as [F|[]]; injection F as <- <-; cbn; split; congruence.
Qed.
Print Assumptions c30_sole_keeper_refuted.

(** ** C46 *)
(** A restarted index server is in the state it was in. *)
Theorem c46_restart_partial s f : history s -> f_begin f = true -> f_load f = true -> handle f s ERestart = Ok (0, s).
Proof. intros H B L. destruct (history_inv s H) as (P & I). exact (restart_works P f s I B L). Qed.
Print Assumptions c46_restart_partial.
Example c46_example : handle io_ok ex_state ERestart = Ok (0, ex_state).
Proof. exact (c46_restart_partial ex_state io_ok ex_state_history eq_refl eq_refl). Qed.
(** After the preserved master of a partition with only a preparing slave came up,
    the stored state cannot be started from. *)
Theorem c46_restart_refuted : exists s, any_history s /\ handle io_ok s ERestart = Err.
Proof.
  exists (state_after abandoning). split; [|vm_compute; reflexivity].
  apply (replay_any abandoning (fresh_index None) (repeat 0 18)); [apply any_start|vm_compute; reflexivity].
Qed.
Print Assumptions c46_restart_refuted.
