(** Proofs for the cluster model: the check of the read balances. *)
From Coq Require Import ZArith NArith List Bool Lia ZifyBool ZifyNat ZifyN.
From Verif Require Import Base BaseLemmas TextModel ClusterModel ClusterSpec ClusterProofs ClusterProofs2 ClusterProofs3 ClusterProofs4 ClusterProofs5 ClusterProofs6 ClusterProofs7 ClusterProofs8.
Import ListNotations.
Local Open Scope Z_scope.
Local Open Scope list_scope.

Lemma sum_nonzero k b p m : forall acc t, sum_balance k b p m acc = Ok t -> t <> acc ->
  exists x nx, In (x, nx) m /\ ((x = k /\ b <> 0) \/ (x <> k /\ n_partition nx = p /\ n_balance nx <> 0)).
Proof.
  induction m as [|(x, nx) m IH]; intros acc t H N; cbn [sum_balance] in H; [congruence|].
  destruct (beq x k) eqn:E.
  - apply beq_eq in E as ->. apply bind_ok in H as (a & A & H). apply add_int_ok in A. subst a. destruct (Z.eq_dec b 0) as [->|Nb]; [|exists k, nx; cbn; auto].
    rewrite Z.add_0_r in H. destruct (IH _ _ H N) as (y & ny & I & D). exists y, ny. cbn. auto.
  - apply beq_neq in E. destruct (Z.eqb_spec (n_partition nx) p).
    + apply bind_ok in H as (a & A & H). apply add_int_ok in A. subst a. destruct (Z.eq_dec (n_balance nx) 0) as [Eb|Nb]; [|exists x, nx; cbn; auto].
      rewrite Eb, Z.add_0_r in H. destruct (IH _ _ H N) as (y & ny & I & D). exists y, ny. cbn. auto.
    + destruct (IH _ _ H N) as (y & ny & I & D). exists y, ny. cbn. auto.
Qed.
(** What a positive outcome of the check means. *)
Lemma check_balance_spec P k b m n : good P m -> check_node_balance k b m = Ok true -> nfind k m = Some n ->
  0 <= b /\ 0 <= n_partition n /\ (0 < b \/ exists x nx, x <> k /\ nfind x m = Some nx /\ n_partition nx = n_partition n /\ 0 < n_balance nx).
Proof.
  intros G H Fk. unfold check_node_balance in H. rewrite Fk in H. destruct (Z.ltb_spec b 0); [discriminate|]. destruct (Z.ltb_spec (n_partition n) 0); [discriminate|].
  split; auto. split; auto. apply bind_ok in H as (t & T & H). injection H as H. apply negb_true_iff, Z.eqb_neq in H.
  destruct (sum_nonzero _ _ _ _ _ _ T H) as (x & nx & I & [(-> & Hb)|(Nx & Q & Hb)]); [left; lia|]. right. exists x, nx. apply (nfind_in _ _ _ (g_ord _ _ G)) in I.
  split; auto. split; auto. split; auto. pose proof (g_valid _ _ G _ _ I) as V. unfold valid_node in V. destruct (n_role nx); lia.
Qed.
Lemma role_checked P f s k ro b p s' n : inv P s -> set_node_role f s k ro b p = Ok (0, s') -> nfind k (i_map s) = Some n ->
  n_role n <> Proxy -> (ro = Proxy -> n_role n = Slave /\ n_state n = Active) ->
  check_node_balance k (match ro with Proxy => 0 | _ => b end) (i_map s) = Ok true.
Proof.
  intros I H Fk NP C. unfold set_node_role in H. apply (locked_cases _ _ P) in H as [(? & _)|H]; [discriminate| |exact I]. rewrite Fk in H.
  destruct (state_eqb_spec (n_state n) Down) as [|Nd]; [discriminate|].
  assert (Nat : nat_ k (i_map s) = n) by now apply nat_some.
  assert (S2 : forall s2, (let* (go, s) := role_step2 s k n ro b p in if negb go then Ok (-1, s) else commit f s) = Ok (0, s2) ->
     check_node_balance k (match ro with Proxy => 0 | _ => b end) (i_map s) = Ok true).
  { intros s2 X. apply bind_ok in X as ((go, s1) & E & X). unfold role_step2 in E.
    assert (Y : forall (c : res bool) (g : index), (let* ok := c in if ok then Ok (true, g) else Ok (false, s)) = Ok (go, s1) -> c = Ok true).
    { intros c g E'. apply bind_ok in E' as ([] & -> & E'); [reflexivity|]. injection E' as <- <-. discriminate X. }
    destruct (n_role n) eqn:R; [| |congruence]; destruct ro; try (injection E as <- <-; discriminate X); try exact (Y _ _ E). }
  assert (S1 : (n_state n = Prepare \/ n_state n = Ready) -> forall (g : index -> res (Z * index)) s2, (let* (go, s) := role_step1 s k n ro b in if negb go then Ok (-1, s) else g s) = Ok (0, s2) ->
     check_node_balance k (match ro with Proxy => 0 | _ => b end) (i_map s) = Ok true).
  { intros US g s2 X. apply bind_ok in X as ((go, s1) & E & X). unfold role_step1 in E.
    assert (Y : forall (c : res bool) (h : index), (let* ok := c in if ok then Ok (true, h) else Ok (false, s)) = Ok (go, s1) -> c = Ok true).
    { intros c h E'. apply bind_ok in E' as ([] & -> & E'); [reflexivity|]. injection E' as <- <-. discriminate X. }
    destruct (n_role n) eqn:R; [| |congruence]; destruct ro; try (injection E as <- <-; discriminate X); try exact (Y _ _ E); try (destruct (C eq_refl) as (C1 & C2); destruct US; congruence).
    destruct (check_node_partition (n_partition n) (i_map s)) as [[]|]; try (injection E as <- <-; discriminate X). exact (Y _ _ E). }
  destruct (n_state n) eqn:St; [| |congruence|].
  - cbn [bind negb] in H. rewrite Nat, St in H. cbn [state_eqb] in H. exact (S2 _ H).
  - exact (S1 (or_introl eq_refl) _ _ H).
  - exact (S1 (or_intror eq_refl) _ _ H).
Qed.
Lemma role_keeps_balance P f s k ro b p s' n : inv P s -> f_save f = SaveOk -> set_node_role f s k ro b p = Ok (0, s') -> nfind k (i_map s) = Some n ->
  n_role n <> Proxy -> (ro = Proxy -> n_role n = Slave /\ n_state n = Active) ->
  exists x nx, nfind x (i_map s') = Some nx /\ n_partition nx = n_partition n /\ 0 < n_balance nx.
Proof.
  intros I F H Fk NP C. pose proof (role_checked P f s k ro b p s' n I H Fk NP C) as K. destruct (check_balance_spec P _ _ _ n (v_good _ _ I) K Fk) as (_ & _ & D).
  destruct (set_role_spec P f s k ro b p 0 s' I F H) as [(_ & ?)|(n0 & P' & Fk' & Lv & _ & RS & _)]; [discriminate|]. rewrite Fk in Fk'. injection Fk' as <-.
  assert (SE : same_except [k] (i_map s) (i_map s') /\ (ro <> Proxy -> nfind k (i_map s') = Some (with_balance n b))).
  { unfold role_set in RS. destruct (n_role n) eqn:R; [| |congruence]; destruct ro.
    - destruct (n_state n), RS as (_ & A & B); auto.
    - destruct (n_state n), RS.
    - destruct (C eq_refl); congruence.
    - destruct (n_state n), RS.
    - destruct (n_state n), RS as (_ & A & B); auto.
    - destruct (n_state n), RS as (A & B); (split; [exact B|congruence]). }
  destruct SE as (SE & SK). destruct D as [D|(x & nx & Nx & Fx & Q & B)].
  - destruct ro; try lia; exists k, (with_balance n b); (split; [apply SK; congruence|split; [reflexivity|exact D]]).
  - exists x, nx. split; auto. rewrite SE; auto. cbn. intros [->|[]]. congruence.
Qed.
