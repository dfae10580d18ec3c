(** Proofs for the cluster model: the invariant of the index server. *)
From Coq Require Import ZArith NArith List Bool Lia ZifyBool ZifyNat ZifyN.
From Verif Require Import Base BaseLemmas TextModel ClusterModel ClusterSpec ClusterProofs ClusterProofs2.
Import ListNotations.
Local Open Scope Z_scope.
Local Open Scope list_scope.

(** ** Well-formed node maps *)
Definition valid_node (n : node) : Prop :=
  match n_role n with
  | Proxy => n_partition n = -1 /\ (n_state n = Active \/ n_state n = Down)
  | Slave => 0 <= n_partition n /\ 0 <= n_balance n /\ live n
  | Master => 0 <= n_partition n /\ 0 <= n_balance n
  end.
Definition settled (n : node) : Prop := n_state n = Active \/ n_state n = Down.
Record good (P : Z) (m : node_map) : Prop := mkGood {
  g_ord : nordered m;
  g_key : forall k n, nfind k m = Some n -> k = to_node_key (n_name n) (n_port n);
  g_valid : forall k n, nfind k m = Some n -> valid_node n;
  g_one : one_master m;
  g_pos : 0 <= P;
  g_main : forall p, (exists k n, nfind k m = Some n /\ n_role n = Master /\ settled n /\ n_partition n = p) <-> 0 <= p < P;
  g_prep : forall k n, nfind k m = Some n -> n_role n = Master -> ~ settled n -> n_partition n = P;
  g_slave : forall k n, nfind k m = Some n -> n_role n = Slave ->
    exists k' n', nfind k' m = Some n' /\ n_role n' = Master /\ n_partition n' = n_partition n;
}.
Definition threads_ok (m : node_map) (t : Z) : Prop :=
  16 <= t /\ (forall k n, nfind k m = Some n -> 16 <= n_thread n < t) /\
  (forall k1 n1 k2 n2, nfind k1 m = Some n1 -> nfind k2 m = Some n2 -> n_thread n1 = n_thread n2 -> k1 = k2).
Definition synced (s : index) : Prop :=
  pordered (i_parts s) /\ pordered (i_prep s) /\
  (forall p, pfind p (i_parts s) = main_table (fun _ => false) p (i_map s)) /\
  (forall p, pfind p (i_prep s) = prep_table p (i_map s)).
Definition on_disk (s : index) : Prop :=
  i_disk s = Some (mkSaved (i_version s) (i_map s) (i_thread s)) \/ (i_disk s = None /\ s = fresh_index None).
Record inv (P : Z) (s : index) : Prop := mkInv {
  v_good : good P (i_map s); v_threads : threads_ok (i_map s) (i_thread s); v_sync : synced s; v_disk : on_disk s }.

(** ** Ordered maps with the same entries are equal *)
Lemma ordered_ext {K V} (eqb ltb : K -> K -> bool) (Heq : forall a b, eqb a b = true <-> a = b)
  (Hir : forall a, ltb a a = false) (Htr : forall a b c, ltb a b = true -> ltb b c = true -> ltb a c = true)
  (m1 m2 : list (K * V)) : ordered ltb m1 -> ordered ltb m2 -> (forall k, mfind eqb k m1 = mfind eqb k m2) -> m1 = m2.
Proof.
  intros O1. revert m2. induction O1 as [|k v m1 H O1 IH]; intros m2 O2 E.
  - destruct O2 as [|k v m2]; auto. specialize (E k). cbn [mfind] in E. rewrite (proj2 (Heq k k) eq_refl) in E. discriminate.
  - destruct O2 as [|k' v' m2 H' O2].
    + specialize (E k). cbn [mfind] in E. rewrite (proj2 (Heq k k) eq_refl) in E. discriminate.
    + assert (k = k') as <-.
      { pose proof (E k) as E1. pose proof (E k') as E2. cbn [mfind] in E1, E2. rewrite (proj2 (Heq _ _) eq_refl) in E1. rewrite (proj2 (Heq k' k') eq_refl) in E2.
        destruct (eqb k k') eqn:X; [now apply Heq|]. destruct (eqb k' k) eqn:Y; [symmetry; now apply Heq|].
        assert (I1 : In k (map fst m2)). { symmetry in E1. apply (mfind_in eqb Heq) in E1. change k with (fst (k, v)). now apply in_map. }
        assert (I2 : In k' (map fst m1)). { apply (mfind_in eqb Heq) in E2. change k' with (fst (k', v')). now apply in_map. }
        pose proof (Htr _ _ _ (H _ I2) (H' _ I1)) as Z. now rewrite Hir in Z. }
      pose proof (E k) as E1. cbn [mfind] in E1. rewrite (proj2 (Heq _ _) eq_refl) in E1. injection E1 as <-. f_equal. apply IH; auto.
      intros x. specialize (E x). cbn [mfind] in E. destruct (eqb x k) eqn:X; auto. apply Heq in X as ->.
      assert (N1 : mfind eqb k m1 = None). { apply mfind_none; auto. intros I. specialize (H _ I). now rewrite Hir in H. }
      assert (N2 : mfind eqb k m2 = None). { apply mfind_none; auto. intros I. specialize (H' _ I). now rewrite Hir in H'. }
      congruence.
Qed.
Lemma nmap_ext m1 m2 : nordered m1 -> nordered m2 -> (forall k, nfind k m1 = nfind k m2) -> m1 = m2.
Proof. apply ordered_ext; [apply beq_iff|apply blt_irrefl|apply blt_trans]. Qed.
Lemma pmap_ext m1 m2 : pordered m1 -> pordered m2 -> (forall k, pfind k m1 = pfind k m2) -> m1 = m2.
Proof. apply ordered_ext; [apply Z.eqb_eq|apply Z.ltb_irrefl|]. intros; lia. Qed.
Lemma ntouch_id k n m : nordered m -> nfind k m = Some n -> ntouch k m = m.
Proof.
  intros O E. unfold ntouch. rewrite (nat_some _ _ _ E). apply nmap_ext; auto using nset_ordered.
  intros x. rewrite nfind_set. destruct (beq_spec x k) as [->|]; auto.
Qed.

(** ** A well-formed map gives consistent tables *)
Lemma good_named P m : good P m -> named m.
Proof.
  intros G k I. apply in_map_iff in I as ((k', n) & <- & I). cbn [fst]. apply (nfind_in _ _ _ (g_ord _ _ G)) in I.
  rewrite (g_key _ _ G _ _ I). unfold to_node_key. now destruct (n_name n).
Qed.
Lemma is_master_iff sts p n : is_master sts p n = true <->
  n_role n = Master /\ In (n_state n) sts /\ n_partition n = p /\ (n_state n = Down \/ 0 <= p).
Proof.
  assert (E : existsb (state_eqb (n_state n)) sts = true <-> In (n_state n) sts).
  { rewrite existsb_exists. split; [intros (x & I & X); destruct (state_eqb_spec (n_state n) x); [now subst|easy]|].
    intros I. exists (n_state n). split; auto. now destruct (n_state n). }
  unfold is_master. rewrite !andb_true_iff, orb_true_iff, E, Z.eqb_eq, Z.leb_le.
  destruct (role_eqb_spec (n_role n) Master), (state_eqb_spec (n_state n) Down); intuition easy.
Qed.
Lemma is_slave_iff p n : is_slave p n = true <-> n_role n = Slave /\ live n /\ n_partition n = p /\ 0 <= p.
Proof.
  unfold is_slave, live. destruct (role_eqb_spec (n_role n) Slave), (state_eqb_spec (n_state n) Down), (Z.eqb_spec (n_partition n) p), (Z.leb_spec 0 p); cbn [andb negb]; intuition; try easy; lia.
Qed.
Lemma main_exists P m p : good P m -> existsb (fun kn => is_master [Active; Down] p (snd kn)) m = true <-> 0 <= p < P.
Proof.
  intros G. rewrite existsb_exists, <- (g_main _ _ G). split.
  - intros ((k, n) & I & E). apply is_master_iff in E as (R & S & Q & _). apply (nfind_in _ _ _ (g_ord _ _ G)) in I.
    exists k, n. repeat split; auto. cbn [snd In] in S. destruct S as [S|[S|[]]]; [left|right]; auto.
  - intros (k & n & F & R & S & Q). exists (k, n). split; [now apply (nfind_in _ _ _ (g_ord _ _ G))|].
    apply is_master_iff. cbn [snd In]. repeat split; auto; [destruct S as [->| ->]; auto|]. right.
    pose proof (g_valid _ _ G _ _ F) as V. unfold valid_node in V. rewrite R in V. lia.
Qed.
Lemma main_table_iff P m near p : good P m -> main_table near p m <> None <-> 0 <= p < P.
Proof. intros G. rewrite <- (main_exists P m p G). unfold main_table. now destruct (existsb _ m). Qed.
Lemma prep_table_iff P m p : good P m -> prep_table p m <> None <->
  exists k n, nfind k m = Some n /\ n_role n = Master /\ ~ settled n /\ n_partition n = p.
Proof.
  intros G. assert (X : prep_table p m <> None <-> master_of [Prepare; Ready] p m <> None). { unfold prep_table. now destruct (master_of _ _ _). }
  rewrite X. split.
  - destruct (master_of _ _ _) as [(k, n)|] eqn:E; [|easy]. intros _. apply find_some in E as (I & E). apply is_master_iff in E as (R & S & Q & _).
    exists k, n. repeat split; auto; [now apply (nfind_in _ _ _ (g_ord _ _ G))|]. cbn [snd In] in S. unfold settled. intuition congruence.
  - intros (k & n & F & R & S & Q) E. pose proof (find_none _ _ E (k, n)) as N. cbn [snd] in N.
    assert (T : is_master [Prepare; Ready] p n = true); [|rewrite N in T; [discriminate|now apply (nfind_in _ _ _ (g_ord _ _ G))]].
    apply is_master_iff. repeat split; auto.
    + cbn [In]. unfold settled in S. destruct (n_state n); intuition.
    + right. pose proof (g_valid _ _ G _ _ F) as V. unfold valid_node in V. rewrite R in V. lia.
Qed.
Lemma good_contiguous P m : good P m -> contiguous m P.
Proof.
  intros G. split; [apply (g_pos _ _ G)|]. split; [intros p; now apply main_table_iff|].
  intros p H. apply (prep_table_iff P m p G) in H as (k & n & F & R & S & <-). eapply g_prep; eauto.
Qed.
Lemma good_masters P m : good P m -> masters_ok m.
Proof.
  intros G. split.
  - intros (k, n) I R _. apply (nfind_in _ _ _ (g_ord _ _ G)) in I. pose proof (g_valid _ _ G _ _ I) as V. unfold valid_node in V. cbn [snd] in *. rewrite R in V. lia.
  - intros l1 l2 (k, n) sts S E M. cbn [snd] in *. destruct (master_of sts _ l1) as [(k', n')|] eqn:X; auto. exfalso.
    apply find_some in X as (I' & X). cbn [snd] in X. apply is_master_iff in M as (R & L & _). apply is_master_iff in X as (R' & L' & Q & _).
    assert (LL : live n /\ live n'). { unfold live. destruct S as [-> | ->]; cbn [In] in L, L'; intuition congruence. }
    assert (k' = k).
    { eapply (g_one _ _ G k' n' k n); try tauto; try (apply (nfind_in _ _ _ (g_ord _ _ G)); rewrite E; apply in_or_app; auto; right; now left). }
    subst k'. pose proof (ordered_nodup blt blt_irrefl m (g_ord _ _ G)) as ND. rewrite E, map_app in ND. cbn [map fst] in ND.
    apply NoDup_remove_2 in ND. apply ND, in_or_app. left. change k with (fst (k, n')). now apply in_map.
Qed.
Lemma good_slaves P m : good P m -> slaves_ok m.
Proof.
  intros G (k, n) I R L. apply (nfind_in _ _ _ (g_ord _ _ G)) in I. cbn [snd] in *.
  pose proof (g_valid _ _ G _ _ I) as V. unfold valid_node in V. rewrite R in V. split; [lia|].
  destruct (g_slave _ _ G _ _ I R) as (k' & n' & F & R' & Q).
  destruct (n_state n') eqn:ST.
  1,3: left; unfold main1; rewrite (proj2 (main_exists P m (n_partition n) G)); [easy|]; apply (g_main _ _ G); exists k', n'; repeat split; auto; unfold settled; auto.
  all: right; assert (X : prep_table (n_partition n) m <> None) by (apply (prep_table_iff P m _ G); exists k', n'; repeat split; auto; unfold settled; intuition congruence);
    unfold prep1, prep_table in *; destruct (master_of _ _ _); auto; easy.
Qed.
Lemma good_reconstruct P m near : good P m -> exists a b, reconstruct near m = (Some (a, b), true) /\ pordered a /\ pordered b /\
  (forall p, pfind p a = main_table near p m) /\ (forall p, pfind p b = prep_table p m).
Proof.
  intros G. destruct (reconstruct_total near m P (good_named _ _ G) (good_contiguous _ _ G)) as (a & b & ok & E & OK).
  rewrite (OK (good_masters _ _ G) (good_slaves _ _ G)) in E. exists a, b. split; auto.
  destruct (reconstruct_tables near m a b true (good_named _ _ G) E) as (? & ? & ? & ? & _). auto.
Qed.
Lemma parts_length P s : good P (i_map s) -> synced s -> Z.of_nat (List.length (i_parts s)) = P.
Proof.
  intros G (O1 & O2 & A & B). 
  assert (C : consistent (i_parts s) (i_prep s) = true).
  { apply (keys_consistent _ _ P); auto; [intros p; rewrite A; now apply main_table_iff| |apply (g_pos _ _ G)].
    intros p. rewrite B. apply good_contiguous; auto. }
  destruct (consistent_keys _ _ O1 O2) with (2 := C) as (X & _).
  { intros p. rewrite A. rewrite (main_table_iff P _ _ _ G). lia. }
  set (L := Z.of_nat (List.length (i_parts s))) in *.
  assert (forall p, 0 <= p < L <-> 0 <= p < P). { intros p. rewrite <- (X p), A. now apply main_table_iff. }
  pose proof (g_pos _ _ G). pose proof (H (L - 1)). pose proof (H (P - 1)). assert (0 <= L) by lia. lia.
Qed.
