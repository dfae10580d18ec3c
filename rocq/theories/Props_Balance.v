(** C52: role requests and read balances. *)
From Coq Require Import ZArith NArith List Bool String Lia.
From Verif Require Import Base BaseLemmas TextModel ClusterModel ClusterSpec ClusterProofs ClusterProofs2 ClusterProofs3 ClusterProofs8 ClusterProofs9 ClusterProofs10 Props_Cluster.
Import ListNotations.
Local Open Scope Z_scope.
Local Open Scope list_scope.

(** After an accepted request for a master or slave some node of its partition has a positive balance.  Missing: a master or slave that is
    being prepared is made a proxy; for the slave it fails (below), with the master the partition is given up. *)
Theorem c52_balance_partial s f h pt ro b p s' n : history s -> f_save f = SaveOk -> handle f s (ERole h pt ro b p) = Ok (0, s') ->
  nfind (to_node_key h pt) (i_map s) = Some n -> n_role n <> Proxy -> (ro = Proxy -> n_role n = Slave /\ n_state n = Active) ->
  exists x nx, nfind x (i_map s') = Some nx /\ n_partition nx = n_partition n /\ 0 < n_balance nx.
Proof. intros H. destruct (history_inv s H) as (P & I). exact (role_keeps_balance P f s (to_node_key h pt) ro b p s' n I). Qed.
Print Assumptions c52_balance_partial.
(** The balance of the only node with one is changed to 2, but not to 0. *)
Example c52_nonvacuous : history ex_state /\ (exists s', handle io_ok ex_state (R "a" Master 2 0) = Ok (0, s')) /\ handle io_ok ex_state (R "a" Master 0 0) = Ok (-1, ex_state).
Proof. split; [exact ex_state_history|]. split; [eexists; vm_compute; reflexivity|vm_compute; reflexivity]. Qed.

(** A slave that is prepared together with its master takes the balance of the partition with it. *)
Definition leaving : list event := [A "a"; A "b"; A "c"; R "a" Master 1 0; R "b" Master 1 1; R "c" Slave 1 1; R "b" Master 0 1].
Theorem c52_prepare_refuted : exists s s' s'', history s /\ handle io_ok s (R "c" Proxy 0 0) = Ok (0, s') /\
  (exists n, nfind (K "c") (i_map s) = Some n /\ n_role n = Slave /\ n_partition n = 1 /\ n_balance n = 1) /\
  replay s' [St "b" Ready; St "b" Active] = Ok ([0; 0], s'') /\
  nfind (K "b") (i_map s'') = Some (mkNode (s2b "b") 1 Master Active 1 0 17) /\
  (forall x nx, nfind x (i_map s'') = Some nx -> n_partition nx = 1 -> n_balance nx = 0).
Proof.
  exists (state_after leaving), (state_after (leaving ++ [R "c" Proxy 0 0])), (state_after (leaving ++ [R "c" Proxy 0 0; St "b" Ready; St "b" Active])).
  split; [apply (replay_history leaving (fresh_index None) (repeat 0 7)); [apply history_start|vm_compute; reflexivity|vm_compute; reflexivity]|].
  split; [vm_compute; reflexivity|]. split; [eexists; split; [vm_compute; reflexivity|]; repeat split; reflexivity|]. split; [vm_compute; reflexivity|]. split; [vm_compute; reflexivity|].
  intros x nx F. apply (mfind_in beq beq_iff) in F. revert F. let m := eval vm_compute in (i_map (state_after (leaving ++ [R "c" Proxy 0 0; St "b" Ready; St "b" Active]))) in
    replace (i_map (state_after (leaving ++ [R "c" Proxy 0 0; St "b" Ready; St "b" Active]))) with m by (vm_compute; reflexivity).
  cbn [In]. intros [F|[F|[F|[]]]]; injection F as <- <-; cbn; congruence.
Qed.
Print Assumptions c52_prepare_refuted.
