(** Reads. *)
From Coq Require Import ZArith NArith List Bool Lia ZifyBool ZifyNat ZifyN Permutation.
From Verif Require Import Base BaseLemmas TextModel KeyResolverModel KeyResolverSpec KeyResolverProofs ClusterModel ClusterSpec ClusterProofs ClusterProofs2 ClusterProofs3 ClusterProofs8 NodeModel NodeSpec RoutingModel RoutingSpec RoutingProofs RoutingProofs2.
Import ListNotations.
Local Open Scope Z_scope.
Local Open Scope list_scope.

Lemma times_app k a b : times k (a ++ b) = (times k a + times k b)%nat.
Proof. unfold times. now rewrite filter_app, app_length. Qed.
Lemma times_repeat k x n : times k (repeat x n) = if beq k x then n else 0%nat.
Proof. unfold times. induction n as [|n IH]; cbn [repeat filter]; [now destruct (beq k x)|]. destruct (beq k x); cbn [List.length]; auto. Qed.
Lemma times_pos k l : (0 < times k l)%nat <-> In k l.
Proof.
  unfold times. split.
  - intros H. destruct (filter (beq k) l) as [|x f] eqn:E; [cbn in H; lia|]. assert (I : In x (filter (beq k) l)) by (rewrite E; now left). apply filter_In in I as (I & B). apply beq_iff in B. now subst.
  - intros I. assert (J : In k (filter (beq k) l)) by (apply filter_In; split; [auto|now apply beq_iff]). destruct (filter (beq k) l); [destruct J|cbn; lia].
Qed.
(** The entry of [k] in a list of candidates with balances. *)
Lemma shares_times k b (l : list (bytes * Z)) : NoDup (map fst l) -> In (k, b) l -> times k (shares l) = Z.to_nat b.
Proof.
  intros ND I. induction l as [|(k1, b1) l IH]; [destruct I|]. cbn [shares flat_map fst snd]. rewrite times_app, times_repeat. cbn [map fst] in ND. inversion ND as [|? ? NI ND']; subst.
  assert (OUT : ~ In k (map fst l) -> times k (shares l) = 0%nat).
  { intros N. destruct (times k (shares l)) eqn:T; auto. exfalso. apply N. assert (X : In k (shares l)) by (apply times_pos; lia).
    apply in_flat_map in X as ((k2, b2) & I2 & R). apply repeat_spec in R. cbn [fst] in R. subst. apply in_map_iff. exists (k2, b2). auto. }
  change (flat_map (fun kb => repeat (fst kb) (Z.to_nat (snd kb))) l) with (shares l).
  destruct I as [E|I].
  - injection E as <- <-. rewrite beq_true, OUT by auto. lia.
  - rewrite (beq_false k k1); [now apply IH|]. intros ->. apply NI. apply in_map_iff. exists (k1, b). auto.
Qed.
Lemma shares_out k (l : list (bytes * Z)) : ~ In k (map fst l) -> times k (shares l) = 0%nat.
Proof.
  intros N. destruct (times k (shares l)) eqn:T; auto. exfalso. apply N. assert (X : In k (shares l)) by (apply times_pos; lia).
  apply in_flat_map in X as ((k2, b2) & I2 & R). apply repeat_spec in R. cbn [fst] in R. subst. apply in_map_iff. exists (k2, b2). auto.
Qed.

Section Read.
  Variables (c : config) (P : Z) (m : node_map) (near : bytes -> bool) (t : copy) (h : Z) (p : nat).
  Hypothesis G : good P m.
  Hypothesis SH : shows near t m.
  Hypothesis P0 : 0 < P.
  Hypothesis RES : resolve c h (Z.to_nat P) = Some p.
  Hypothesis LT : Z.of_nat p < P.
  Let pp := Z.of_nat p.
  Let T := table near (master_of [Active] pp m) (slaves_of pp m).
  Let ms := match master_of [Active] pp m with Some (k, n) => [(k, n, n_balance n)] | None => [] end.
  Let xs : list (bytes * node * Z) := ms ++ map (fun kn => (kn, share (snd kn))) (slaves_of pp m).
  Let key (x : bytes * node * Z) := (fst (fst x), snd x).

  Lemma xs_entry k n b : In (k, n, b) xs -> nfind k m = Some n /\ b = read_balance m pp k /\ (active_master m pp k \/ live_slave m pp k).
  Proof.
    unfold xs. rewrite in_app_iff. intros [I|I].
    - unfold ms in I. destruct (master_of [Active] pp m) as [(k', n')|] eqn:E; [|destruct I]. destruct I as [I|[]]. injection I as -> -> <-.
      assert (A : active_master m pp k) by (apply (active_master_of P); [auto|unfold pp; lia|eauto]). apply (master_of_some _ P) in E as (F & M); auto. split; auto. split; auto.
      apply is_master_iff in M as (R & [S|[]] & Q & _). unfold read_balance. rewrite F, R, <- S, Q, Z.eqb_refl. reflexivity.
    - apply in_map_iff in I as ((k', n') & E & I). cbn [snd] in E. injection E as -> -> <-. unfold slaves_of in I. apply filter_In in I as (I & M). cbn [snd] in M.
      apply (nfind_in _ _ _ (g_ord _ _ G)) in I. apply is_slave_iff in M as (R & L & Q & _). split; auto. split; [|right; exists n; auto].
      unfold read_balance, share. rewrite I, R, Q, Z.eqb_refl. cbn [role_eqb andb negb]. rewrite andb_true_r. reflexivity.
  Qed.
  Lemma xs_has k : active_master m pp k \/ live_slave m pp k -> exists n, In (k, n, read_balance m pp k) xs.
  Proof.
    intros A. assert (exists n b, In (k, n, b) xs) as (n & b & I); [|exists n; destruct (xs_entry _ _ _ I) as (_ & -> & _); exact I].
    unfold xs. destruct A as [A|A].
    - apply (active_master_of P) in A as (n & E); [|auto|unfold pp; lia]. exists n, (n_balance n). apply in_app_iff. left. unfold ms. rewrite E. now left.
    - apply (slaves_of_iff P) in A; [|auto|unfold pp; lia]. apply in_map_iff in A as ((k', n) & E & I). cbn [fst] in E. subst k'. exists n, (share n). apply in_app_iff. right. apply in_map_iff. exists (k, n). auto.
  Qed.
  Lemma xs_nodup f : NoDup (map fst (map key (filter f xs))).
  Proof.
    assert (N : NoDup (map (fun x => fst (fst x)) xs)).
    { unfold xs. rewrite map_app, map_map. cbn [fst]. change (map (fun x : bytes * node => fst x) (slaves_of pp m)) with (map (@fst bytes node) (slaves_of pp m)).
      apply nodup_join; [unfold ms; destruct (master_of [Active] pp m) as [(k, n)|]; [constructor; [intros []|constructor]|constructor]|apply (slaves_nodup P m G)|].
      intros k I J. apply (slaves_of_iff P) in J as (n & F & R & _); [|auto|unfold pp; lia]. unfold ms in I. destruct (master_of [Active] pp m) as [(k', n')|] eqn:E; [|destruct I]. destruct I as [I|[]].
      cbn [fst] in I. subst k'. apply (master_of_some _ P) in E as (F' & M); auto. apply is_master_iff in M as (R' & _). congruence. }
    rewrite map_map. change (fun x => fst (key x)) with (fun x : bytes * node * Z => fst (fst x)). revert N. clear. induction xs as [|x l IH]; intros N; [constructor|]. cbn [map filter] in *. inversion N as [|? ? NI N']; subst.
    destruct (f x); auto. cbn [map]. constructor; auto. intros I. apply NI. apply in_map_iff in I as (y & E & I). apply filter_In in I as (I & _). apply in_map_iff. eauto.
  Qed.
  Lemma outside k : ~ (active_master m pp k \/ live_slave m pp k) -> 0 < read_balance m pp k -> False.
  Proof.
    intros N. unfold read_balance. destruct (nfind k m) as [n|] eqn:F; [|lia]. destruct (Z.eqb_spec (n_partition n) pp) as [Q|]; [|cbn; lia].
    destruct (state_eqb_spec (n_state n) Active) as [S|]; [|cbn; lia]. destruct (n_role n) eqn:R; cbn [role_eqb negb andb]; try lia; intros _; apply N; [left|right]; exists n; unfold live; intuition congruence.
  Qed.
  Lemma candidates f k : times k (shares (map key (filter (fun x => f (n_name (snd (fst x)))) xs))) = if close f m k then Z.to_nat (read_balance m pp k) else 0%nat.
  Proof.
    unfold close. destruct (in_dec (list_eq_dec N.eq_dec) k (map fst (map key (filter (fun x => f (n_name (snd (fst x)))) xs)))) as [I|NI].
    - apply in_map_iff in I as ((k', b) & E & I). cbn [fst] in E. subst k'. pose proof I as I'. apply in_map_iff in I as (((k', n), b') & E & I). unfold key in E. cbn [fst snd] in E. injection E as -> ->.
      apply filter_In in I as (I & FN). cbn [fst snd] in FN. destruct (xs_entry _ _ _ I) as (F & -> & _). rewrite F, FN. apply shares_times; auto. apply xs_nodup.
    - rewrite shares_out by auto. destruct (nfind k m) as [n|] eqn:F; auto. destruct (f (n_name n)) eqn:FN; auto.
      destruct (Z.ltb_spec 0 (read_balance m pp k)) as [L|L]; [|lia]. exfalso. apply (outside k); auto. intros A. apply xs_has in A as (n' & I). apply NI.
      destruct (xs_entry _ _ _ I) as (F' & _). assert (n' = n) by congruence. subst n'. rewrite map_map. apply in_map_iff. exists (k, n, read_balance m pp k). split; auto. apply filter_In. auto.
  Qed.
  Lemma balance_times k : times k (p_balance T) = Z.to_nat (read_balance m pp k).
  Proof.
    pose proof (candidates (fun _ => true) k) as H. assert (E : filter (fun _ => true) xs = xs). { clear. induction xs as [|x l IH]; cbn [filter]; congruence. }
    cbn beta in H. rewrite E in H. unfold T, table. cbn [p_balance]. fold ms. fold key. fold xs. rewrite H. unfold close, read_balance. destruct (nfind k m); auto.
  Qed.
  Lemma prior_times k : times k (p_prior T) = if close near m k then Z.to_nat (read_balance m pp k) else 0%nat.
  Proof. exact (candidates near k). Qed.
  Lemma slave_share self : existsb (fun kb => (0 <? snd kb) && beq (fst kb) self) (p_slaves T) = true <-> live_slave m pp self /\ 0 < read_balance m pp self.
  Proof.
    rewrite existsb_exists. unfold T, table. cbn [p_slaves]. rewrite map_map. split.
    - intros ((k, b) & I & E). cbn [fst snd] in E. apply andb_true_iff in E as (L & E). apply beq_iff in E as ->. apply in_map_iff in I as ((k, n) & E & I). cbn [fst snd] in E. injection E as -> <-.
      assert (J : In (self, n, share n) xs). { unfold xs. apply in_app_iff. right. apply in_map_iff. exists (self, n). auto. }
      destruct (xs_entry _ _ _ J) as (F & E & _). rewrite E in L. split; [|lia]. apply (slaves_of_iff P); [auto|unfold pp; lia|]. apply in_map_iff. exists (self, n). auto.
    - intros (A & L). pose proof A as A'. apply (slaves_of_iff P) in A; [|auto|unfold pp; lia]. apply in_map_iff in A as ((k, n) & E & I). cbn [fst] in E. subst k.
      exists (self, share n). split; [apply in_map_iff; exists (self, n); auto|]. cbn [fst snd].
      assert (J : In (self, n, share n) xs). { unfold xs. apply in_app_iff. right. apply in_map_iff. exists (self, n). auto. }
      destruct (xs_entry _ _ _ J) as (F & -> & _). rewrite beq_true. lia.
  Qed.

  (** The decision of one node on a read. *)
  Lemma pre_read_here self r : self <> [] -> (pre_read c t self h r = Ok Here <-> reader m pp self) /\ exists a, pre_read c t self h r = Ok a.
  Proof.
    intros NE. unfold pre_read. rewrite (det_main c P m near t h p p G SH P0 RES LT). cbn [bind]. fold pp. fold T. unfold reader.
    pose proof (slave_share self) as S. change (p_master T) with (master_key m p).
    destruct (beq_spec (master_key m p) self) as [E|N].
    - split; [|eauto]. split; auto. intros _. left. unfold master_key in E. fold pp in E. destruct (master_of [Active] pp m) as [(k, n)|] eqn:M; [|congruence]. subst k. apply (active_master_of P); [auto|unfold pp; lia|eauto].
    - assert (NA : ~ active_master m pp self). { intros A. apply N. apply (active_master_of P) in A as (n & M); [|auto|unfold pp; lia]. unfold master_key. fold pp. now rewrite M. }
      destruct (existsb _ (p_slaves T)).
      + split; [|eauto]. split; auto. intros _. right. now apply S.
      + destruct (p_balance T) as [|b0 bs]; (split; [|eauto]); (split; [|intros [A|A]; [contradiction|apply S in A; discriminate]]); [discriminate|].
        unfold forward. destruct (nfind _ _); discriminate.
  Qed.
  Lemma pre_read_away self : self <> [] -> ~ reader m pp self ->
    ((forall k, read_balance m pp k <= 0) /\ forall r, pre_read c t self h r = Ok NoPartition) \/
    (exists l, l <> [] /\ (forall r, pre_read c t self h r = Ok (Forward (nth (r mod List.length l) l []))) /\
      ((forall k, times k l = Z.to_nat (read_balance m pp k)) \/
       (forall k, times k l = if close near m k then Z.to_nat (read_balance m pp k) else 0%nat))).
  Proof.
    intros NE NR. unfold pre_read. rewrite (det_main c P m near t h p p G SH P0 RES LT). cbn [bind]. fold pp. fold T. change (p_master T) with (master_key m p).
    assert (NM : beq (master_key m p) self = false).
    { apply beq_false. intros E. apply NR. left. unfold master_key in E. fold pp in E. destruct (master_of [Active] pp m) as [(k, n)|] eqn:M; [|congruence]. subst k. apply (active_master_of P); [auto|unfold pp; lia|eauto]. }
    rewrite NM. destruct (existsb _ (p_slaves T)) eqn:S; [exfalso; apply NR; right; now apply slave_share|].
    pose proof balance_times as B. pose proof prior_times as PR. destruct (p_balance T) as [|b0 bs].
    - left. split; auto. intros k. specialize (B k). cbn in B. lia.
    - right. set (l := match p_prior T with [] => b0 :: bs | _ => p_prior T end). exists l.
      assert (LN : l <> []) by (unfold l; destruct (p_prior T); discriminate).
      assert (W : (forall k, times k l = Z.to_nat (read_balance m pp k)) \/ (forall k, times k l = if close near m k then Z.to_nat (read_balance m pp k) else 0%nat)).
      { unfold l. destruct (p_prior T); auto. }
      split; auto. split; auto. intros r.
      replace (match p_prior T with [] => b0 :: bs | q :: qs => q :: qs end) with l by (unfold l; now destruct (p_prior T)).
      set (k := nth (r mod List.length l) l []). assert (I : In k l). { apply nth_In. apply Nat.mod_upper_bound. destruct l; [congruence|discriminate]. }
      apply times_pos in I. assert (0 < read_balance m pp k). { destruct W as [W|W]; rewrite W in I; [|destruct (close near m k)]; lia. }
      unfold forward. destruct SH as (-> & _). unfold read_balance in H. destruct (nfind k m); [reflexivity|lia].
  Qed.
End Read.
