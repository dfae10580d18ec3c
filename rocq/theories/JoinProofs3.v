(** Lemmas on a node that joins: which copies a new map starts. *)
From Coq Require Import NArith ZArith List Bool String Lia ZifyBool ZifyNat ZifyN.
From Verif Require Import Base BaseLemmas TextModel ClusterModel ClusterSpec ClusterProofs ClusterProofs2 ClusterProofs3 ClusterProofs8 ClusterProofs9 NodeModel NodeSpec NodeProofs2 RoutingProofs StartupModel StartupSpec StartupProofs.
Import ListNotations.
Local Open Scope Z_scope.
Local Open Scope list_scope.

Lemma sync_shows near c P s v : inv P s -> (c_version c <= v)%N ->
  exists t, take_sync near c (map snd (i_map s)) v = (true, t) /\ shows near t (i_map s).
Proof.
  intros IP V. destruct (good_reconstruct P (i_map s) near (v_good _ _ IP)) as (a & b & E & O1 & O2 & A & C).
  pose proof (map_of_values P _ (v_good _ _ IP)) as M. exists (mkCopy (i_map s) v a b). split.
  - rewrite (take_full near c (map snd (i_map s)) v a b true), M; [reflexivity|exact V|now rewrite M].
  - split; [reflexivity|]. split; [exact O1|]. split; [exact O2|]. split; auto.
Qed.
Lemma find_self P m self : good P m -> find (fun n => beq (to_node_key (n_name n) (n_port n)) self) (map snd m) = nfind self m.
Proof.
  intros G. destruct (find _ _) as [n|] eqn:F.
  - apply find_some in F as (Hin & E). apply beq_iff in E. apply in_map_iff in Hin as ((k, n') & <- & Hin). cbn [snd] in *.
    apply (nfind_in _ _ _ (g_ord _ _ G)) in Hin. pose proof (g_key _ _ G _ _ Hin) as X. congruence.
  - destruct (nfind self m) as [n|] eqn:N0; [|reflexivity]. exfalso. pose proof (g_key _ _ G _ _ N0) as X.
    apply (nfind_in _ _ _ (g_ord _ _ G)) in N0. pose proof (find_none _ _ F n (in_map snd _ _ N0)) as Y. cbv beta in Y. rewrite <- X in Y.
    assert (Z : beq self self = true) by now apply beq_iff. congruence.
Qed.
Lemma jobs_is near self c P s v old new : inv P s -> (c_version c <= v)%N -> nfind self (c_map c) = Some old -> nfind self (i_map s) = Some new ->
  exists t, shows near t (i_map s) /\ jobs near self c (map snd (i_map s)) v =
    if negb (role_eqb (n_role new) (n_role old)) || negb (n_partition new =? n_partition old) then shift_role self t old new else [].
Proof.
  intros IP V F F'. destruct (sync_shows near c P s v IP V) as (t & TS & SH). exists t. split; [exact SH|]. unfold jobs. rewrite TS, F, (find_self P) by apply IP. now rewrite F'.
Qed.
Lemma slave_jobs near self c P s v old new : inv P s -> (c_version c <= v)%N -> nfind self (c_map c) = Some old -> nfind self (i_map s) = Some new ->
  n_role old = Proxy -> n_role new = Slave -> exists src size, jobs near self c (map snd (i_map s)) v = [Copy src (n_partition new) size Slave] /\
   ((exists n, nfind src (i_map s) = Some n /\ n_role n = Master /\ n_partition n = n_partition new /\
      (n_state n = Active /\ Z.of_nat size = P \/ n_state n <> Active /\ live n /\ Z.of_nat size = P + 1))
    \/ (src = [] /\ forall k n, nfind k (i_map s) = Some n -> n_role n = Master -> n_partition n = n_partition new -> n_state n <> Active)).
Proof.
  intros IP V F F' R R'. destruct (jobs_is near self c P s v old new IP V F F') as (t & SH & ->). pose proof (v_good _ _ IP) as G.
  rewrite R, R'. cbn [role_eqb negb orb]. unfold shift_role. rewrite R, R'. cbn [role_eqb].
  pose proof (copy_length P _ near t G SH) as L1. pose proof (prep_length P _ near t G SH) as L2. destruct SH as (_ & O1 & O2 & A & B). rewrite A, B.
  destruct (main_table near (n_partition new) (i_map s)) as [q|] eqn:MT.
  - exists (p_master q), (List.length (c_parts t)). split; [reflexivity|]. unfold main_table in MT. destruct (existsb _ (i_map s)); [|discriminate]. injection MT as <-. unfold table. cbn [p_master].
    destruct (master_of [Active] (n_partition new) (i_map s)) as [(k, n)|] eqn:M.
    + left. apply (master_of_some _ P) in M as (M1 & M2); [|exact G]. exists n. apply is_master_iff in M2 as (Y1 & [Y2|[]] & Y3 & _). split; [exact M1|]. split; [exact Y1|]. split; [exact Y3|]. left. auto.
    + right. split; [reflexivity|]. intros k n Fk Rk Pk Sk. unfold master_of in M. apply (nfind_in _ _ _ (g_ord _ _ G)) in Fk.
      pose proof (find_none _ _ M (k, n) Fk) as X. cbn [snd] in X. unfold is_master in X. rewrite Rk, Sk, Pk, Z.eqb_refl in X. cbn in X.
      pose proof (g_valid _ _ G k n (proj2 (nfind_in _ _ _ (g_ord _ _ G)) Fk)) as VN. unfold valid_node in VN. rewrite Rk in VN. lia.
  - destruct (prep_table (n_partition new) (i_map s)) as [q|] eqn:PT.
    + exists (p_master q), (List.length (c_parts t) + List.length (c_prep t))%nat. split; [reflexivity|]. left. unfold prep_table in PT.
      destruct (master_of [Prepare; Ready] (n_partition new) (i_map s)) as [(k, n)|] eqn:M; [|discriminate]. injection PT as <-. cbn [table p_master].
      apply (master_of_some _ P) in M as (M1 & M2); [|exact G]. exists n. split; [exact M1|].
      assert (LP : List.length (c_prep t) = 1%nat).
      { destruct L2 as [(_ & X)|(q & X & _)]; [|now rewrite X]. exfalso.
        apply (proj2 (prep_table_iff P (i_map s) (n_partition new) G)); [|apply X]. exists k, n. apply (is_master_iff [Prepare; Ready]) in M2 as (Y1 & Y2 & Y3 & _). split; [exact M1|]. split; [exact Y1|]. split; [|exact Y3]. unfold settled. cbn [In] in Y2. intuition congruence. }
      apply (is_master_iff [Prepare; Ready]) in M2 as (Y1 & Y2 & Y3 & _). split; [exact Y1|]. split; [exact Y3|]. right. cbn [In] in Y2. unfold live. split; [intuition congruence|]. split; [intuition congruence|]. lia.
    + exfalso. destruct (g_slave _ _ G _ _ F' R') as (k & n & Fk & Rk & Pk).
      destruct (n_state n) eqn:Es.
      1,3: (apply (proj2 (main_table_iff P (i_map s) near (n_partition new) G)); [apply (g_main _ _ G); exists k, n; unfold settled; auto|exact MT]).
      all: (apply (proj2 (prep_table_iff P (i_map s) (n_partition new) G)); [exists k, n; split; [exact Fk|]; split; [exact Rk|]; split; [intros [Y|Y]; congruence|exact Pk]|exact PT]).
Qed.
Lemma master_jobs near self c P s v old new : inv P s -> (c_version c <= v)%N -> nfind self (c_map c) = Some old -> nfind self (i_map s) = Some new ->
  n_role old = Proxy -> n_role new = Master ->
  exists l size, jobs near self c (map snd (i_map s)) v = map (fun src => Copy src (n_partition new) size Master) l /\ NoDup l /\
    (forall k, In k l <-> k <> self /\ exists n, nfind k (i_map s) = Some n /\ n_role n = Master /\ n_state n = Active) /\
    (~ settled new -> n_partition new = P /\ Z.of_nat size = P + 1).
Proof.
  intros IP V F F' R R'. destruct (jobs_is near self c P s v old new IP V F F') as (t & SH & ->). pose proof (v_good _ _ IP) as G.
  rewrite R, R'. cbn [role_eqb negb orb]. unfold shift_role. rewrite R, R'. cbn [role_eqb].
  pose proof (copy_length P _ near t G SH) as L1. pose proof (prep_length P _ near t G SH) as L2. destruct SH as (-> & _).
  set (f := fun kn : bytes * node => negb (beq (fst kn) self) && role_eqb (n_role (snd kn)) Master && state_eqb (n_state (snd kn)) Active).
  exists (map fst (filter f (i_map s))), (List.length (c_parts t) + List.length (c_prep t))%nat. split; [now rewrite map_map|]. split; [|split].
  - assert (ND : NoDup (map fst (i_map s))) by (eapply ClusterProofs.ordered_nodup; [..|apply (g_ord _ _ G)]; apply blt_irrefl).
    clear - ND. induction (i_map s) as [|x l IH]; [constructor|]. cbn [map filter] in *. inversion ND as [|? ? N0 ND']; subst. destruct (f x); [|auto]. cbn [map]. constructor; [|auto].
    intros H. apply in_map_iff in H as (y & E & Hy). apply filter_In in Hy as [Hy _]. apply N0. rewrite <- E. now apply in_map.
  - intros k. rewrite in_map_iff. split.
    + intros ((k', n) & <- & H). apply filter_In in H as (Hin & Hf). unfold f in Hf. cbn [fst snd] in *. split.
      * intros ->. assert (beq self self = true) by now apply beq_iff. rewrite H in Hf. discriminate.
      * exists n. split; [now apply (nfind_in _ _ _ (g_ord _ _ G))|]. destruct (n_role n), (n_state n); cbn in Hf; rewrite ?andb_false_r in Hf; try discriminate; auto.
    + intros (N0 & n & Fk & Rk & Sk). exists (k, n). split; [reflexivity|]. apply filter_In. split; [now apply (nfind_in _ _ _ (g_ord _ _ G))|]. unfold f. cbn [fst snd]. rewrite Rk, Sk.
      destruct (beq k self) eqn:E; [apply beq_iff in E; contradiction|reflexivity].
  - intros NS. pose proof (g_prep _ _ G _ _ F' R' NS) as EP. split; [exact EP|].
    destruct L2 as [(_ & X)|(q & X & _)]; [|rewrite X; cbn [List.length]; lia]. exfalso. apply (proj2 (prep_table_iff P (i_map s) (n_partition new) G)); [|apply X]. eauto 6.
Qed.
Lemma no_jobs near self c P s v old new : inv P s -> (c_version c <= v)%N -> nfind self (c_map c) = Some old -> nfind self (i_map s) = Some new ->
  n_role old <> Proxy \/ n_role new = Proxy -> jobs near self c (map snd (i_map s)) v = [].
Proof.
  intros IP V F F' H. destruct (jobs_is near self c P s v old new IP V F F') as (t & SH & ->). destruct (_ || _); [|reflexivity]. unfold shift_role.
  destruct (n_role new), (n_role old); cbn [role_eqb]; destruct H; try congruence; reflexivity.
Qed.
Lemma contiguous_fun m P Q : contiguous m P -> contiguous m Q -> P = Q.
Proof.
  intros (A & B & _) (A' & B' & _). assert (X : forall p, 0 <= p < P <-> 0 <= p < Q) by (intros p; now rewrite <- B, <- B').
  pose proof (X (P - 1)). pose proof (X (Q - 1)). lia.
Qed.
