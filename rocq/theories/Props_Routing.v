(** Properties C31, C32, C33 and C47: the routing of requests. *)
From Coq Require Import ZArith NArith List Bool String Lia.
From Verif Require Import Base BaseLemmas TextModel KeyResolverModel KeyResolverSpec ClusterModel ClusterSpec ClusterProofs ClusterProofs3 ClusterProofs8 ClusterProofs9
  NodeModel NodeSpec NodeProofs2 RoutingModel RoutingSpec RoutingProofs RoutingProofs2 RoutingProofs3 RoutingProofs4 Props_Cluster Props_Node.
Import ListNotations.
Local Open Scope Z_scope.
Local Open Scope list_scope.

(** ** C31 *)
(** When the nodes have the map of the index server: a node executes a write that a
    client sends to it if and only if it is the active master of the partition of the
    key; one that another node sends, if and only if it holds the key.  Otherwise it
    forwards the write to the active master of the partition, and refuses it if there
    is none. *)
Theorem c31_owner_partial c s tab h p p' x : agreed c s tab h p p' -> x <> [] ->
  (pre_write c (tab x) x h false = Ok Here <-> active_master (i_map s) (Z.of_nat p) x) /\
  (pre_write c (tab x) x h true = Ok Here <-> holder s p p' x) /\
  forall proxied, pre_write c (tab x) x h proxied <> Ok Here ->
    (exists k, active_master (i_map s) (Z.of_nat p) k /\ k <> x /\ pre_write c (tab x) x h proxied = Ok (Forward k)) \/
    ((forall k, ~ active_master (i_map s) (Z.of_nat p) k) /\ pre_write c (tab x) x h proxied = Ok NoProxy).
Proof.
  intros A NE. split; [|split].
  - rewrite (ag_here c s tab h p p' A false x NE). intuition discriminate.
  - rewrite (ag_here c s tab h p p' A true x NE). unfold holder. tauto.
  - intros proxied. exact (ag_forward c s tab h p p' A proxied x NE).
Qed.
Print Assumptions c31_owner_partial.

(** A cluster with one partition and a second one being prepared: a is the master and c
    an active slave of partition 0; b is to be the master and d a slave of partition 1;
    e is a proxy. *)
Definition growing : list event :=
  [A "a"; A "b"; A "c"; A "d"; A "e"; R "a" Master 1 0; R "c" Slave 0 0; St "c" Ready; St "c" Active; R "c" Slave 2 0; R "b" Master 1 1; R "d" Slave 0 1].
Definition gr_state : index := state_after growing.
Definition gr_states : list index := map (fun n => state_after (firstn n growing)) (seq 1 12).
Lemma gr_history : history gr_state.
Proof. apply (replay_history growing (fresh_index None) (repeat 0 12)); [apply history_start|vm_compute; reflexivity|vm_compute; reflexivity]. Qed.
Lemma gr_run : run (fresh_index None) gr_states gr_state.
Proof.
  replace gr_state with (last gr_states (fresh_index None)) by (vm_compute; reflexivity). apply ex_run_from. exists growing. split; [reflexivity|].
  vm_compute. repeat (split; [reflexivity|]). exact I.
Qed.
Example gr_roles : map (fun kn => (n_role (snd kn), n_state (snd kn), n_partition (snd kn), n_balance (snd kn))) (i_map gr_state) =
  [(Master, Active, 0, 1); (Master, Prepare, 1, 1); (Slave, Active, 0, 2); (Slave, Prepare, 1, 0); (Proxy, Active, -1, 0)].
Proof. vm_compute. reflexivity. Qed.
(** Every node has received this map. *)
Definition gr_tab (_ : bytes) : copy := receive (fun _ => false) fresh_copy [message gr_state gr_state].
Definition cfg16 : config := mkConfig 16 1 64.
(** The key with hash 2 is about to move, the one with hash 1 is not. *)
Lemma gr_agreed : agreed cfg16 gr_state gr_tab 2 0 1 /\ agreed cfg16 gr_state gr_tab 1 0 0.
Proof.
  assert (S : forall k : bytes, exists near, shows near (gr_tab k) (i_map gr_state)).
  { intros k. exists (fun _ => false). destruct (converges (fun _ => false) gr_states gr_state [message gr_state gr_state] gr_run) as (X & _); [vm_compute; reflexivity| |now left|exact X].
    intros m [<-|[]]. exists gr_state. split; auto. right. apply in_map_iff. exists 12%nat. split; [vm_compute; reflexivity|apply in_seq; lia]. }
  assert (V : valid cfg16) by (split; cbn; lia).
  split; (split; [exact gr_history|]; split; [exact S|]; split; [exact V|]; split; [lia|]; split; [vm_compute; lia|]; split; [vm_compute; lia|]; split; vm_compute; reflexivity).
Qed.
Example c31_example : pre_write cfg16 (gr_tab (K "a")) (K "a") 2 false = Ok Here /\
  pre_write cfg16 (gr_tab (K "c")) (K "c") 2 false = Ok (Forward (K "a")) /\ pre_write cfg16 (gr_tab (K "c")) (K "c") 2 true = Ok Here /\
  pre_write cfg16 (gr_tab (K "d")) (K "d") 2 true = Ok Here /\ pre_write cfg16 (gr_tab (K "d")) (K "d") 1 true = Ok (Forward (K "a")) /\
  pre_write cfg16 (gr_tab (K "e")) (K "e") 1 false = Ok (Forward (K "a")).
Proof. vm_compute. repeat split. Qed.

(** If two nodes have maps of different states, a write can go back and forth between
    them without end, nobody executing it: the trail is looked at only when a write is
    passed on to slaves.  Here y has the newest map, and x missed the changes that made
    it the master in y's place. *)
Definition lp_old : list event := [A "x"; A "y"; R "y" Master 1 0].
Definition lp_new : list event := lp_old ++ [R "x" Slave 0 0; St "x" Ready; St "x" Active; St "y" Down; St "y" Active].
Definition lp_tab (k : bytes) : copy :=
  let s := state_after (if beq k (K "x") then lp_old else lp_new) in receive (fun _ => false) fresh_copy [message s s].
Theorem c31_loop_refuted : history (state_after lp_old) /\ history (state_after lp_new) /\
  forall n, exists q, serves cfg16 lp_tab 0 n [client (K "x")] [] [q] /\ List.length (r_trail q) = n.
Proof.
  split; [|split].
  - apply (replay_history lp_old (fresh_index None) (repeat 0 3)); [apply history_start|vm_compute; reflexivity|vm_compute; reflexivity].
  - apply (replay_history lp_new (fresh_index None) (repeat 0 8)); [apply history_start|vm_compute; reflexivity|vm_compute; reflexivity].
  - assert (X : forall tr pr, serve cfg16 lp_tab 0 (mkReq (K "x") tr pr) = Ok ([], [mkReq (K "y") (tr ++ [K "x"]) true])).
    { intros tr pr. unfold serve. cbn [r_node r_trail r_proxied]. replace (pre_write _ _ _ _ pr) with (Ok (Forward (K "y"))) by (destruct pr; vm_compute; reflexivity). reflexivity. }
    assert (Y : forall tr pr, serve cfg16 lp_tab 0 (mkReq (K "y") tr pr) = Ok ([], [mkReq (K "x") (tr ++ [K "y"]) true])).
    { intros tr pr. unfold serve. cbn [r_node r_trail r_proxied]. replace (pre_write _ _ _ _ pr) with (Ok (Forward (K "x"))) by (destruct pr; vm_compute; reflexivity). reflexivity. }
    enough (G : forall n k tr pr, k = K "x" \/ k = K "y" -> exists q, serves cfg16 lp_tab 0 n [mkReq k tr pr] [] [q] /\ List.length (r_trail q) = (List.length tr + n)%nat).
    { intros n. apply (G n (K "x") [] false); auto. }
    induction n as [|n IH]; intros k tr pr E.
    + exists (mkReq k tr pr). split; [constructor|]. cbn [r_trail]. lia.
    + destruct E as [->| ->].
      * destruct (IH (K "y") (tr ++ [K "x"]) true) as (q & S & L); auto. exists q. split; [exact (serves_step _ _ _ n [] _ [] _ _ _ _ (X tr pr) S)|]. rewrite L, app_length. cbn. lia.
      * destruct (IH (K "x") (tr ++ [K "y"]) true) as (q & S & L); auto. exists q. split; [exact (serves_step _ _ _ n [] _ [] _ _ _ _ (Y tr pr) S)|]. rewrite L, app_length. cbn. lia.
Qed.
Print Assumptions c31_loop_refuted.

(** ** C32 *)
(** When the nodes have the map of the index server and the partition has an active
    master: in whatever order the nodes serve the requests that a client's write leads
    to, no node executes it twice and only nodes that hold the key do; it takes no more
    than two more steps than that, never gets stuck, and when no request is pending all
    nodes that hold the key have executed it: the master, the active and preparing
    slaves and, if the key is about to move to a new partition, the master being prepared
    and its slaves.  (The requests are assumed to arrive: see C45.) *)
Theorem c32_replicated_partial c s tab h p p' x n ex l : agreed c s tab h p p' -> x <> [] -> (exists k, active_master (i_map s) (Z.of_nat p) k) ->
  serves c tab h n [client x] ex l ->
  exists rest, NoDup (ex ++ rest) /\ (forall k, In k (ex ++ rest) <-> holder s p p' k) /\ (n <= List.length (ex ++ rest) + 1)%nat /\
    (l = [] -> rest = []) /\ (l <> [] -> exists q l2 e new, l = q :: l2 /\ serve c tab h q = Ok (e, new)).
Proof. intros A. exact (ag_write c s tab h p p' A x n ex l). Qed.
Print Assumptions c32_replicated_partial.
(** Without an active master nothing is executed. *)
Theorem c32_no_master c s tab h p p' x : agreed c s tab h p p' -> x <> [] -> (forall k, ~ active_master (i_map s) (Z.of_nat p) k) ->
  serve c tab h (client x) = Ok ([], []).
Proof. intros A. exact (ag_no_master c s tab h p p' A x). Qed.
Print Assumptions c32_no_master.
(** A write sent to the proxy e, for the key that is about to move and one that is not. *)
Example c32_example : holder gr_state 0 1 (K "d") /\ ~ holder gr_state 0 0 (K "d") /\
  serves cfg16 gr_tab 2 5 [client (K "e")] [K "a"; K "c"; K "b"; K "d"] [] /\
  serves cfg16 gr_tab 1 3 [client (K "e")] [K "a"; K "c"] [].
Proof.
  split; [|split; [|split]].
  - right; right. split; [split; [vm_compute; reflexivity|]|right].
    + exists (K "b"). exists (mkNode (s2b "b") 1 Master Prepare 1 1 17). split; [vm_compute; reflexivity|]. split; [reflexivity|]. split; [now left|vm_compute; reflexivity].
    + exists (mkNode (s2b "d") 1 Slave Prepare 1 0 19). split; [vm_compute; reflexivity|]. split; [reflexivity|]. split; [discriminate|reflexivity].
  - intros [(n & F & E & _)|[(n & F & _ & _ & E)|((E & _) & _)]].
    + assert (X : nfind (K "d") (i_map gr_state) = Some (mkNode (s2b "d") 1 Slave Prepare 1 0 19)) by (vm_compute; reflexivity). rewrite X in F. injection F as <-. discriminate E.
    + assert (X : nfind (K "d") (i_map gr_state) = Some (mkNode (s2b "d") 1 Slave Prepare 1 0 19)) by (vm_compute; reflexivity). rewrite X in F. injection F as <-. discriminate E.
    + vm_compute in E. discriminate.
  - apply (serves_step _ _ _ 4 [] (client (K "e")) [] [] [mkReq (K "a") [K "e"] true] [K "a"; K "c"; K "b"; K "d"]); [vm_compute; reflexivity|].
    apply (serves_step _ _ _ 3 [] (mkReq (K "a") [K "e"] true) [] [K "a"] [mkReq (K "c") [K "e"; K "a"] true; mkReq (K "b") [K "e"; K "a"] true] [K "c"; K "b"; K "d"]); [vm_compute; reflexivity|].
    apply (serves_step _ _ _ 2 [] (mkReq (K "c") [K "e"; K "a"] true) [mkReq (K "b") [K "e"; K "a"] true] [K "c"] [] [K "b"; K "d"]); [vm_compute; reflexivity|].
    apply (serves_step _ _ _ 1 [] (mkReq (K "b") [K "e"; K "a"] true) [] [K "b"] [mkReq (K "d") [K "e"; K "a"; K "b"] true] [K "d"]); [vm_compute; reflexivity|].
    apply (serves_step _ _ _ 0 [] (mkReq (K "d") [K "e"; K "a"; K "b"] true) [] [K "d"] [] []); [vm_compute; reflexivity|constructor].
  - apply (serves_step _ _ _ 2 [] (client (K "e")) [] [] [mkReq (K "a") [K "e"] true] [K "a"; K "c"]); [vm_compute; reflexivity|].
    apply (serves_step _ _ _ 1 [] (mkReq (K "a") [K "e"] true) [] [K "a"] [mkReq (K "c") [K "e"; K "a"] true] [K "c"]); [vm_compute; reflexivity|].
    apply (serves_step _ _ _ 0 [] (mkReq (K "c") [K "e"; K "a"] true) [] [K "c"] [] []); [vm_compute; reflexivity|constructor].
Qed.

(** ** C33 *)
(** When the nodes have the map of the index server: a node answers a read itself if and
    only if it is the active master of the partition or an active slave of it with a
    positive balance.  Otherwise it takes a random element of a list in which every node
    occurs as often as its read balance says (0 for nodes that are not active members of
    the partition), or only the close nodes do; the node that it picks answers the read
    itself.  If all read balances are 0 there is no answer. *)
Theorem c33_balanced_partial c s tab h p p' x near : agreed c s tab h p p' -> x <> [] -> shows near (tab x) (i_map s) ->
  (forall r, pre_read c (tab x) x h r = Ok Here <-> reader (i_map s) (Z.of_nat p) x) /\
  (~ reader (i_map s) (Z.of_nat p) x ->
    ((forall k, read_balance (i_map s) (Z.of_nat p) k <= 0) /\ forall r, pre_read c (tab x) x h r = Ok NoPartition) \/
    (exists l, l <> [] /\ (forall r, pre_read c (tab x) x h r = Ok (Forward (nth (r mod List.length l) l []))) /\
      ((forall k, times k l = Z.to_nat (read_balance (i_map s) (Z.of_nat p) k)) \/
       (forall k, times k l = if close near (i_map s) k then Z.to_nat (read_balance (i_map s) (Z.of_nat p) k) else 0%nat)) /\
      (forall k, In k l -> reader (i_map s) (Z.of_nat p) k /\ forall r, pre_read c (tab k) k h r = Ok Here))).
Proof.
  intros A NE SH. pose proof (ag_good c s tab h p p' A) as G. pose proof (ag_pos c s tab h p p' A) as P0. pose proof (ag_res c s tab h p p' A) as RE. pose proof (ag_lt c s tab h p p' A) as LT.
  set (P := Z.of_nat (partitions s)) in *. split.
  - intros r. apply (pre_read_here c P (i_map s) near (tab x) h p G SH P0 RE LT x r NE).
  - intros NR. destruct (pre_read_away c P (i_map s) near (tab x) h p G SH P0 RE LT x NE NR) as [H|(l & LN & F & W)]; [now left|right].
    exists l. split; auto. split; auto. split; auto. intros k I.
    assert (B : 0 < read_balance (i_map s) (Z.of_nat p) k).
    { apply times_pos in I. destruct W as [W|W]; rewrite W in I; [|destruct (close near (i_map s) k)]; lia. }
    assert (RK : reader (i_map s) (Z.of_nat p) k).
    { unfold reader, read_balance in *. destruct (nfind k (i_map s)) as [n|] eqn:Fk; [|lia]. destruct (Z.eqb_spec (n_partition n) (Z.of_nat p)) as [Q|]; [|cbn in B; lia].
      destruct (state_eqb_spec (n_state n) Active) as [St|]; [|cbn in B; lia]. destruct (n_role n) eqn:Ro; cbn [role_eqb negb andb] in *; try lia.
      - left. exists n. auto.
      - right. split; [|lia]. exists n. unfold live. rewrite St. repeat split; auto; discriminate. }
    split; auto. intros r. destruct (ag_shows c s tab h p p' A k) as (nk & SK).
    assert (KN : k <> []). { unfold read_balance in B. destruct (nfind k (i_map s)) as [n|] eqn:Fk; [|lia]. exact (ag_key c s tab h p p' A k n Fk). }
    apply (pre_read_here c P (i_map s) nk (tab k) h p G SK P0 RE LT k r KN). exact RK.
Qed.
Print Assumptions c33_balanced_partial.
Example c33_example : map (fun r => pre_read cfg16 (gr_tab (K "e")) (K "e") 2 r) [0; 1; 2; 3]%nat = map (fun k => Ok (Forward (K k))) ["a"; "c"; "c"; "a"]%string /\
  map (fun k => read_balance (i_map gr_state) 0 (K k)) ["a"; "b"; "c"; "d"; "e"]%string = [1; 0; 2; 0; 0] /\
  pre_read cfg16 (gr_tab (K "c")) (K "c") 2 7 = Ok Here.
Proof. vm_compute. repeat split. Qed.

(** ** C47 *)
(** If some node of the partition is active with a positive balance, every node answers
    a read or forwards it to one that does. *)
Theorem c47_served_partial c s tab h p p' x r : agreed c s tab h p p' -> x <> [] -> (exists k, 0 < read_balance (i_map s) (Z.of_nat p) k) ->
  pre_read c (tab x) x h r = Ok Here \/
  exists k, pre_read c (tab x) x h r = Ok (Forward k) /\ reader (i_map s) (Z.of_nat p) k /\ forall r', pre_read c (tab k) k h r' = Ok Here.
Proof.
  intros A NE (k0 & B). destruct (ag_shows c s tab h p p' A x) as (near & SH).
  pose proof (ag_good c s tab h p p' A) as G. pose proof (ag_pos c s tab h p p' A) as P0. pose proof (ag_res c s tab h p p' A) as RE. pose proof (ag_lt c s tab h p p' A) as LT.
  destruct (pre_read_here c _ (i_map s) near (tab x) h p G SH P0 RE LT x r NE) as (IFF & a & E).
  destruct a; [now left| | |];
    (assert (NR : ~ reader (i_map s) (Z.of_nat p) x) by (rewrite <- IFF, E; discriminate);
     destruct (c33_balanced_partial c s tab h p p' x near A NE SH) as (_ & H); destruct (H NR) as [(Z0 & _)|(l & LN & F & _ & D)]; [specialize (Z0 k0); lia|];
     right; exists (nth (r mod List.length l) l []); split; [apply F|]; apply D, nth_In, Nat.mod_upper_bound; destruct l; [congruence|discriminate]).
Qed.
Print Assumptions c47_served_partial.
(** Otherwise nobody but the master itself answers: with all reads directed to the slave
    b, keys of the partition look deleted (op_get pretends not to have found them) as
    soon as b is down, although the master a is up. *)
Definition unread_events : list event := [A "a"; A "b"; A "e"; R "a" Master 1 0; R "b" Slave 0 0; St "b" Ready; St "b" Active; R "b" Slave 1 0; R "a" Master 0 0; St "b" Down].
Definition unread_state : index := state_after unread_events.
Theorem c47_unread_refuted : history unread_state /\ active_master (i_map unread_state) 0 (K "a") /\
  forall r, pre_read cfg16 (receive (fun _ => false) fresh_copy [message unread_state unread_state]) (K "e") 2 r = Ok NoPartition.
Proof.
  split; [|split].
  - apply (replay_history unread_events (fresh_index None) (repeat 0 10)); [apply history_start|vm_compute; reflexivity|vm_compute; reflexivity].
  - exists (mkNode (s2b "a") 1 Master Active 0 0 16). split; [vm_compute; reflexivity|auto].
  - intros r. vm_compute. reflexivity.
Qed.
Print Assumptions c47_unread_refuted.
