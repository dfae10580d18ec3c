(** The routing lemmas in terms of the specification. *)
From Coq Require Import ZArith NArith List Bool Lia ZifyBool ZifyNat ZifyN Permutation.
From Verif Require Import Base BaseLemmas TextModel KeyResolverModel KeyResolverSpec KeyResolverProofs ClusterModel ClusterSpec ClusterProofs ClusterProofs2 ClusterProofs3 ClusterProofs8 NodeModel NodeSpec RoutingModel RoutingSpec RoutingProofs RoutingProofs2 RoutingProofs3.
Import ListNotations.
Local Open Scope Z_scope.
Local Open Scope list_scope.

Section Agreed.
  Variables (c : config) (s : index) (tab : bytes -> copy) (h : Z) (p p' : nat).
  Hypothesis AG : agreed c s tab h p p'.
  Notation m := (i_map s).
  Notation P := (Z.of_nat (partitions s)).
  Lemma ag_good : good P m.
  Proof. destruct AG as (H & _). destruct (history_inv s H) as (Q & [G T SY D]). pose proof (parts_length Q s G SY) as E. unfold partitions. now rewrite E. Qed.
  Lemma ag_pos : 0 < P. Proof. destruct AG as (_ & _ & _ & _ & L & _). lia. Qed.
  Lemma ag_shows : forall k, exists near, shows near (tab k) m. Proof. now destruct AG as (_ & S & _). Qed.
  Lemma ag_res : resolve c h (Z.to_nat P) = Some p. Proof. rewrite Nat2Z.id. now destruct AG as (_ & _ & _ & _ & _ & _ & R & _). Qed.
  Lemma ag_res' : resolve c h (S (Z.to_nat P)) = Some p'. Proof. rewrite Nat2Z.id. now destruct AG as (_ & _ & _ & _ & _ & _ & _ & R). Qed.
  Lemma ag_lt : Z.of_nat p < P.
  Proof. destruct AG as (_ & _ & V & H0 & L & L' & R & _). destruct (resolve_ok c h (partitions s) V H0 ltac:(lia)) as (q & E & Q). rewrite R in E. injection E as <-. lia. Qed.
  Lemma ag_le : Z.of_nat p' <= P.
  Proof. destruct AG as (_ & _ & V & H0 & L & L' & _ & R). destruct (resolve_ok c h (S (partitions s)) V H0 ltac:(lia)) as (q & E & Q). rewrite R in E. injection E as <-. lia. Qed.
  Lemma ag_moving : moving P m p' = true <-> moves s p'.
  Proof.
    unfold moving, moves. split.
    - intros H. apply andb_prop in H as (E & H). split; [lia|]. destruct (master_of [Prepare; Ready] P m) as [(k, n)|] eqn:M; [|discriminate]. exists k.
      apply (preparing_master_of P); [apply ag_good|lia|eauto].
    - intros (EP & k & A). apply (preparing_master_of P) in A as (n & ->); [|apply ag_good|lia]. rewrite EP, Z.eqb_refl. reflexivity.
  Qed.
  Lemma ag_key x n : nfind x m = Some n -> x <> []. Proof. apply (key_nonempty P m ag_good). Qed.
  Lemma ag_here proxied x : x <> [] -> pre_write c (tab x) x h proxied = Ok Here <->
    active_master m (Z.of_nat p) x \/ (proxied = true /\ holder s p p' x).
  Proof.
    intros NE. destruct (ag_shows x) as (near & SH). rewrite (pre_write_eq c P m near (tab x) h p p' ag_good SH ag_pos ag_res ag_lt ag_res' x proxied NE).
    assert (MK : beq (master_key m p) x = true <-> active_master m (Z.of_nat p) x).
    { rewrite <- (active_master_of P); [|apply ag_good|lia]. unfold master_key. rewrite beq_iff. split.
      - destruct (master_of [Active] (Z.of_nat p) m) as [(k, n)|]; [intros ->; eauto|intros <-; now destruct NE].
      - now intros (n & ->). }
    assert (PK : moving P m p' = true -> (beq (prep_key P m) x = true <-> preparing_master m P x)).
    { intros MV. rewrite <- (preparing_master_of P); [|apply ag_good|lia]. unfold prep_key. rewrite beq_iff. split.
      - destruct (master_of [Prepare; Ready] P m) as [(k, n)|]; [intros ->; eauto|intros <-; now destruct NE].
      - now intros (n & ->). }
    assert (RS : mem x (reps m p) = true <-> live_slave m (Z.of_nat p) x) by (rewrite mem_iff; apply (slaves_of_iff P); [apply ag_good|lia]).
    assert (PS : mem x (prep_reps P m) = true <-> live_slave m P x) by (rewrite mem_iff; apply (slaves_of_iff P); [apply ag_good|lia]).
    assert (FW : forall k, forward (tab x) k <> Here) by (intros k; unfold forward; destruct (nfind k (c_map (tab x))); discriminate).
    assert (MV := ag_moving). unfold holder.
    assert (EP : moves s p' -> Z.of_nat p' = P) by (intros (EQ & _); now rewrite EQ).
    split.
    - intros H. injection H as H.
      destruct (beq (master_key m p) x); [left; now apply MK|]. destruct proxied; [right|cbn [andb orb] in H; now apply FW in H]. split; auto. cbn [andb orb] in H.
      destruct (moving P m p') eqn:MVE; cbn [andb] in H.
      + pose proof (proj1 MV eq_refl) as W. rewrite (EP W). destruct (beq (prep_key P m) x); [right; right; split; auto; left; now apply PK|].
        destruct (mem x (reps m p)); [right; left; now apply RS|]. cbn [orb] in H. destruct (mem x (prep_reps P m)); [right; right; split; auto; right; now apply PS|]. now apply FW in H.
      + rewrite orb_false_r in H. destruct (mem x (reps m p)); [right; left; now apply RS|]. now apply FW in H.
    - intros [A|(-> & [A|[A|(W & [A|A])]])]; f_equal; cbn [andb].
      + apply MK in A as ->. reflexivity.
      + apply MK in A as ->. reflexivity.
      + apply RS in A as ->. cbn [orb]. now destruct (_ || _).
      + rewrite (EP W) in A. apply MV in W. apply (PK W) in A as ->. rewrite W. cbn [andb]. now rewrite orb_true_r.
      + rewrite (EP W) in A. apply MV in W. apply PS in A as ->. rewrite W. cbn [andb]. rewrite orb_true_r. now destruct (_ || _).
  Qed.
  Lemma ag_forward proxied x : x <> [] -> pre_write c (tab x) x h proxied <> Ok Here ->
    (exists k, active_master m (Z.of_nat p) k /\ k <> x /\ pre_write c (tab x) x h proxied = Ok (Forward k)) \/
    ((forall k, ~ active_master m (Z.of_nat p) k) /\ pre_write c (tab x) x h proxied = Ok NoProxy).
  Proof.
    intros NE NH. pose proof (proj2 (ag_here proxied x NE)) as HH. destruct (ag_shows x) as (near & SH).
    rewrite (pre_write_eq c P m near (tab x) h p p' ag_good SH ag_pos ag_res ag_lt ag_res' x proxied NE) in *.
    destruct (beq (master_key m p) x || _); [congruence|]. destruct (proxied && _); [congruence|].
    destruct (master_of [Active] (Z.of_nat p) m) as [(k, n)|] eqn:M.
    - left. exists k. assert (A : active_master m (Z.of_nat p) k) by (apply (active_master_of P); [apply ag_good|lia|eauto]). split; auto. split; [intros ->; apply NH, HH; auto|].
      unfold master_key, forward. rewrite M. destruct SH as (-> & _). destruct A as (n' & -> & _). reflexivity.
    - right. split; [intros k A; apply (active_master_of P) in A as (n & E); [congruence|apply ag_good|lia]|]. unfold master_key, forward. rewrite M. destruct SH as (-> & _).
      now rewrite (no_empty P m ag_good).
  Qed.
  (** A write. *)
  Lemma ag_everyone : (exists k, active_master m (Z.of_nat p) k) ->
    NoDup (everyone P m p p') /\ (forall k, In k (everyone P m p p') <-> holder s p p' k) /\ (1 <= List.length (everyone P m p p'))%nat.
  Proof.
    intros A. pose proof ag_good as G. pose proof ag_shows as SH. pose proof ag_pos as P0. pose proof ag_res as RE. pose proof ag_lt as LT. pose proof ag_res' as RE'. pose proof ag_le as LE.
    split; [eapply (everyone_nodup P m); eassumption|]. split; [|unfold everyone; cbn; lia]. intros k. unfold holder. pose proof ag_moving as MV.
    assert (EI := everyone_in P m tab h p p' ltac:(assumption)). rewrite EI; try assumption. rewrite MV.
    assert (EP : moves s p' -> Z.of_nat p' = P) by (intros (EQ & _); now rewrite EQ).
    split; (intros [X|[X|(W & X)]]; [auto|auto|right; right; split; auto; rewrite (EP W) in *; exact X]).
  Qed.
  Lemma ag_client x : x <> [] -> fine P m p p' (client x).
  Proof. intros NE. split; [exact NE|]. left. auto. Qed.
  Lemma ag_no_master x : x <> [] -> (forall k, ~ active_master m (Z.of_nat p) k) -> serve c tab h (client x) = Ok ([], []).
  Proof.
    intros NE NM. unfold serve, client. cbn [r_node r_proxied r_trail].
    destruct (ag_forward false x NE) as [(k & A & _)|(_ & E)]; [|now destruct (NM k)|rewrite E; reflexivity].
    intros H. apply ag_here in H; auto. destruct H as [A|(E & _)]; [now apply (NM x)|discriminate].
  Qed.
  Lemma ag_write x n ex l' : x <> [] -> (exists k, active_master m (Z.of_nat p) k) -> serves c tab h n [client x] ex l' ->
    exists rest, NoDup (ex ++ rest) /\ (forall k, In k (ex ++ rest) <-> holder s p p' k) /\ (n <= List.length (ex ++ rest) + 1)%nat /\
      (l' = [] -> rest = []) /\ (l' <> [] -> exists q l2 e new, l' = q :: l2 /\ serve c tab h q = Ok (e, new)).
  Proof.
    intros NE A S. pose proof ag_good as G. pose proof ag_shows as SH. pose proof ag_pos as P0. pose proof ag_res as RE. pose proof ag_lt as LT. pose proof ag_res' as RE'. pose proof ag_le as LE.
    destruct (serves_fine c P m tab h p p' G SH P0 RE LT RE' A n [client x] ex l' S) as (W & F & C); [constructor; [now apply ag_client|constructor]|].
    destruct (ag_everyone A) as (ND & IN & _). cbn [flat_map] in W. rewrite app_nil_r in W.
    assert (WC : will P m p p' (client x) = everyone P m p p') by reflexivity. rewrite WC in W.
    exists (flat_map (will P m p p') l'). split; [now apply (Permutation_NoDup W)|]. split; [|split; [|split]].
    - intros k. rewrite <- IN. split; apply Permutation_in; auto. now apply Permutation_sym.
    - rewrite <- (Permutation_length W). cbn [map list_sum fold_right] in C. unfold cost at 1 in C. rewrite WC in C. cbn [client r_proxied r_node] in C. destruct (negb _ && _); lia.
    - intros ->. reflexivity.
    - intros NN. destruct l' as [|q l2]; [congruence|]. inversion F; subst.
      destruct (serve_fine c P m tab h p p' G SH P0 RE LT RE' A q) as (e & new & E & _); auto. eauto 8.
  Qed.
End Agreed.
