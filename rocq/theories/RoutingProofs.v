(** Lemmas on routing. *)
From Coq Require Import ZArith NArith List Bool Lia ZifyBool ZifyNat ZifyN Permutation.
From Verif Require Import Base BaseLemmas TextModel KeyResolverModel KeyResolverSpec KeyResolverProofs ClusterModel ClusterSpec ClusterProofs ClusterProofs2 ClusterProofs3 NodeModel NodeSpec RoutingModel RoutingSpec.
Import ListNotations.
Local Open Scope Z_scope.
Local Open Scope list_scope.

(** ** Tables *)
Lemma mem_iff k l : mem k l = true <-> In k l.
Proof.
  unfold mem. rewrite existsb_exists. split.
  - intros (x & I & E). apply beq_iff in E as ->. exact I.
  - intros I. exists k. split; auto. now apply beq_iff.
Qed.
Lemma copy_length P m near t : good P m -> shows near t m -> Z.of_nat (List.length (c_parts t)) = P.
Proof.
  intros G (_ & O1 & O2 & A & B).
  assert (C : consistent (c_parts t) (c_prep t) = true).
  { apply (keys_consistent _ _ P); auto; [intros p; rewrite A; now apply main_table_iff| |apply (g_pos _ _ G)].
    intros p. rewrite B. apply good_contiguous; auto. }
  destruct (consistent_keys _ _ O1 O2) with (2 := C) as (X & _).
  { intros p. rewrite A. rewrite (main_table_iff P _ _ _ G). lia. }
  set (L := Z.of_nat (List.length (c_parts t))) in *.
  assert (forall p, 0 <= p < L <-> 0 <= p < P). { intros p. rewrite <- (X p), A. now apply main_table_iff. }
  pose proof (g_pos _ _ G). pose proof (H (L - 1)). pose proof (H (P - 1)). assert (0 <= L) by lia. lia.
Qed.
Lemma prep_length P m near t : good P m -> shows near t m ->
  (c_prep t = [] /\ forall p, prep_table p m = None) \/ (exists q, c_prep t = [(P, q)] /\ prep_table P m = Some q).
Proof.
  intros G (_ & _ & O2 & _ & B). destruct (good_contiguous _ _ G) as (_ & _ & K).
  destruct (c_prep t) as [|(p1, q1) l] eqn:E.
  - left. split; auto. intros p. now rewrite <- B.
  - right. assert (P1 : p1 = P). { apply K. rewrite <- B. unfold pfind. cbn [mfind]. now rewrite Z.eqb_refl. }
    subst p1. assert (Q : prep_table P m = Some q1). { rewrite <- B. unfold pfind. cbn [mfind]. now rewrite Z.eqb_refl. }
    destruct l as [|(p2, q2) l]; [now exists q1|]. exfalso.
    inversion O2 as [|? ? ? LT O3]; subst. specialize (LT p2 (or_introl eq_refl)).
    assert (p2 = P); [|lia]. apply K. rewrite <- B. unfold pfind. cbn [mfind]. destruct (Z.eqb_spec p2 P); [lia|]. now rewrite Z.eqb_refl.
Qed.
Lemma master_of_some sts P m p k n : good P m -> master_of sts p m = Some (k, n) -> nfind k m = Some n /\ is_master sts p n = true.
Proof.
  intros G H. apply find_some in H as (I & E). split; auto. apply (nfind_in _ _ _ (g_ord _ _ G)). exact I.
Qed.
Lemma active_master_of P m p k : good P m -> 0 <= p -> (exists n, master_of [Active] p m = Some (k, n)) <-> active_master m p k.
Proof.
  intros G Hp. split.
  - intros (n & H). apply (master_of_some _ P) in H as (F & E); auto. apply is_master_iff in E as (R & [S|[]] & Q & _). exists n. auto.
  - intros (n & F & R & S & Q). destruct (master_of [Active] p m) as [(k', n')|] eqn:E.
    + apply (master_of_some _ P) in E as (F' & E'); auto. apply is_master_iff in E' as (R' & [S'|[]] & Q' & _).
      assert (k' = k) as ->; [|eauto]. apply (g_one _ _ G k' n' k n); auto; unfold live; congruence.
    + exfalso. unfold master_of in E. pose proof (find_none _ _ E (k, n)) as X. cbn [snd] in X.
      rewrite (proj2 (is_master_iff [Active] p n)) in X; [discriminate X; now apply (nfind_in _ _ _ (g_ord _ _ G))|]. split; auto. split; [left; auto|]. auto.
Qed.
Lemma preparing_master_of P m p k : good P m -> 0 <= p -> (exists n, master_of [Prepare; Ready] p m = Some (k, n)) <-> preparing_master m p k.
Proof.
  intros G Hp. split.
  - intros (n & H). apply (master_of_some _ P) in H as (F & E); auto. apply is_master_iff in E as (R & S & Q & _). cbn [In] in S. exists n. intuition.
  - intros (n & F & R & S & Q). destruct (master_of [Prepare; Ready] p m) as [(k', n')|] eqn:E.
    + apply (master_of_some _ P) in E as (F' & E'); auto. apply is_master_iff in E' as (R' & S' & Q' & _). cbn [In] in S'.
      assert (k' = k) as ->; [|eauto]. apply (g_one _ _ G k' n' k n); auto; unfold live; intuition congruence.
    + exfalso. unfold master_of in E. pose proof (find_none _ _ E (k, n)) as X. cbn [snd] in X.
      rewrite (proj2 (is_master_iff [Prepare; Ready] p n)) in X; [discriminate X; now apply (nfind_in _ _ _ (g_ord _ _ G))|]. split; auto. split; [cbn [In]; intuition|]. auto.
Qed.
Lemma slaves_of_iff P m p k : good P m -> 0 <= p -> In k (map fst (slaves_of p m)) <-> live_slave m p k.
Proof.
  intros G Hp. unfold slaves_of. rewrite in_map_iff. split.
  - intros ((k', n) & <- & I). apply filter_In in I as (I & E). cbn [fst snd] in *. apply is_slave_iff in E as (R & L & Q & _).
    apply (nfind_in _ _ _ (g_ord _ _ G)) in I. exists n. auto.
  - intros (n & F & R & L & Q). exists (k, n). split; auto. apply filter_In. split; [now apply (nfind_in _ _ _ (g_ord _ _ G))|]. cbn [snd]. apply is_slave_iff. auto.
Qed.
Lemma table_slaves near mn sl : map fst (p_slaves (table near mn sl)) = map fst sl.
Proof. unfold table. cbn [p_slaves]. rewrite !map_map. apply map_ext. now intros. Qed.
Lemma table_index near mn sl : p_index (table near mn sl) = (match mn with Some (k, _) => [k] | None => [] end) ++ map fst sl.
Proof. unfold table. cbn [p_index]. rewrite map_app, map_map. f_equal. destruct mn as [(k, n)|]; reflexivity. Qed.
Lemma table_master near mn sl : p_master (table near mn sl) = match mn with Some (k, _) => k | None => [] end.
Proof. reflexivity. Qed.

(** ** The decision of one node *)
Section Decision.
  Variables (c : config) (P : Z) (m : node_map) (near : bytes -> bool) (t : copy) (h : Z) (p p' : nat).
  Hypothesis G : good P m.
  Hypothesis SH : shows near t m.
  Hypothesis P0 : 0 < P.
  Hypothesis RES : resolve c h (Z.to_nat P) = Some p.
  Hypothesis LT : Z.of_nat p < P.
  (** The partition with one more. *)
  Hypothesis RES' : resolve c h (S (Z.to_nat P)) = Some p'.
  Hypothesis LT' : Z.of_nat p' <= P.

  Let T := table near (master_of [Active] (Z.of_nat p) m) (slaves_of (Z.of_nat p) m).
  (** The key goes to the partition being prepared. *)
  Definition moving : bool := (Z.of_nat p' =? P) && match master_of [Prepare; Ready] P m with Some _ => true | None => false end.
  Definition PT := table (fun _ => false) (master_of [Prepare; Ready] P m) (slaves_of P m).

  Lemma len_parts : List.length (c_parts t) = Z.to_nat P.
  Proof. pose proof (copy_length P m near t G SH). lia. Qed.
  Lemma det_main : determine c t h false = Ok (Some (T, false)).
  Proof.
    unfold determine. rewrite len_parts. destruct (Nat.eqb_spec (Z.to_nat P) 0); [lia|]. rewrite Nat.add_0_r, RES.
    destruct SH as (_ & _ & _ & A & _). rewrite A. pose proof (proj2 (main_table_iff P m near (Z.of_nat p) G)) as X. unfold main_table in *.
    destruct (existsb _ m); [reflexivity|]. exfalso. apply X; [lia|reflexivity].
  Qed.
  Lemma main_none_at_P nr : main_table nr P m = None.
  Proof. pose proof (main_table_iff P m nr P G) as X. destruct (main_table nr P m); auto. exfalso. assert (0 <= P < P) by (apply X; discriminate). lia. Qed.
  Lemma det_prep : exists pp, determine_prepare c t h = Ok (if moving then (PT, true) else (pp, false)).
  Proof.
    unfold determine_prepare, determine. rewrite len_parts. destruct (Nat.eqb_spec (Z.to_nat P) 0); [lia|].
    destruct (prep_length P m near t G SH) as [(E & N0)|(q & E & Q)]; rewrite E; cbn [List.length].
    - rewrite Nat.add_0_r, RES. unfold pfind at 1. cbn [mfind bind].
      assert (M : moving = false). { unfold moving. specialize (N0 P). unfold prep_table in N0. destruct (master_of _ P m); [discriminate|]. apply andb_false_r. }
      rewrite M. destruct (pfind (Z.of_nat p) (c_parts t)); cbn [option_map]; eauto.
    - rewrite Nat.add_1_r, RES'. unfold pfind at 1. cbn [mfind]. unfold moving. unfold prep_table in Q. rewrite main_none_at_P in Q.
      unfold PT. destruct (master_of [Prepare; Ready] P m) as [kn|]; [|discriminate]. rewrite andb_true_r.
      destruct (Z.of_nat p' =? P) eqn:EQ; cbn [bind]; [injection Q as <-; exists empty_part; reflexivity|].
      destruct (pfind (Z.of_nat p') (c_parts t)); cbn [option_map]; eauto.
  Qed.
  Lemma known k n : nfind k m = Some n -> forward t k = Forward k.
  Proof. intros F. unfold forward. destruct SH as (-> & _). now rewrite F. Qed.

  (** Names for the nodes of the partition. *)
  Definition master_key : bytes := match master_of [Active] (Z.of_nat p) m with Some (k, _) => k | None => [] end.
  Definition prep_key : bytes := match master_of [Prepare; Ready] P m with Some (k, _) => k | None => [] end.
  Definition reps : list bytes := map fst (slaves_of (Z.of_nat p) m).
  Definition prep_reps : list bytes := map fst (slaves_of P m).
  Lemma moving_key : moving = true -> exists n, nfind prep_key m = Some n /\ n_role n = Master /\ (n_state n = Prepare \/ n_state n = Ready) /\ n_partition n = P.
  Proof.
    unfold moving, prep_key. destruct (master_of [Prepare; Ready] P m) as [(k, n)|] eqn:E; [|rewrite andb_false_r; discriminate]. intros _.
    apply (master_of_some _ P) in E as (F & I); auto. apply is_master_iff in I as (R & S & Q & _). cbn [In] in S. exists n. intuition.
  Qed.

  Lemma pre_write_eq self proxied : self <> [] ->
    pre_write c t self h proxied = Ok (
      if beq master_key self || (proxied && moving && beq prep_key self) then Here
      else if proxied && (mem self reps || (moving && mem self prep_reps)) then Here
      else forward t master_key).
  Proof.
    intros NE. unfold pre_write. rewrite det_main. cbn [bind]. destruct det_prep as (pp & ->). cbn [bind].
    unfold T at 1 2 3. rewrite !table_master, table_index. fold master_key.
    assert (M1 : mem self ((match master_of [Active] (Z.of_nat p) m with Some (k, _) => [k] | None => [] end) ++ reps) = beq master_key self || mem self reps).
    { unfold mem. rewrite existsb_app. f_equal. unfold master_key. destruct (master_of [Active] (Z.of_nat p) m) as [(k, n)|]; cbn [existsb].
      - rewrite orb_false_r. destruct (beq_spec self k), (beq_spec k self); congruence.
      - now destruct self. }
    fold reps. rewrite M1.
    assert (M2 : forall x : partition, moving = true -> mem self (p_index PT) = beq prep_key self || mem self prep_reps).
    { intros _ MV. unfold PT. rewrite table_index. fold prep_reps. unfold mem. rewrite existsb_app. f_equal. unfold prep_key. destruct (master_of [Prepare; Ready] P m) as [(k, n)|]; cbn [existsb].
      - rewrite orb_false_r. destruct (beq_spec self k), (beq_spec k self); congruence.
      - now destruct self. }
    destruct moving eqn:MV; cbn [andb].
    - unfold PT at 1. rewrite table_master. fold prep_key. rewrite (M2 PT eq_refl). destruct (beq master_key self), proxied, (beq prep_key self), (mem self reps), (mem self prep_reps); reflexivity.
    - rewrite !andb_false_r, !orb_false_r. destruct (beq master_key self), proxied, (mem self reps); reflexivity.
  Qed.
  Lemma all_known (l : list bytes) : (forall k, In k l -> exists n, nfind k m = Some n) ->
    filter (fun k => match nfind k (c_map t) with Some _ => true | None => false end) l = l.
  Proof.
    intros H. destruct SH as (-> & _). induction l as [|k l IH]; cbn [filter]; auto. destruct (H k (or_introl eq_refl)) as (n & ->). rewrite IH; auto. intros; apply H; now right.
  Qed.
  Lemma slaves_known q : forall k, In k (map fst (slaves_of q m)) -> exists n, nfind k m = Some n.
  Proof.
    intros k I. apply in_map_iff in I as ((k', n) & <- & I). unfold slaves_of in I. apply filter_In in I as (I & _). exists n. now apply (nfind_in _ _ _ (g_ord _ _ G)).
  Qed.
  Lemma post_write_eq self trail proxied : self <> [] ->
    post_write c t self h trail proxied = Ok (
      if negb (beq master_key self || (proxied && moving && beq prep_key self)) then []
      else if (2 <=? List.length (filter (beq self) trail))%nat then []
      else (if moving && beq prep_key self then prep_reps else reps) ++ (if moving && beq master_key self then [prep_key] else [])).
  Proof.
    intros NE. unfold post_write. rewrite det_main. cbn [bind]. destruct det_prep as (pp & ->). cbn [bind].
    change (p_master T) with master_key.
    destruct moving eqn:MV; cbn [andb].
    - change (p_master PT) with prep_key. destruct (negb _); [reflexivity|]. destruct (2 <=? _)%nat; [reflexivity|]. do 2 f_equal.
      + destruct (beq prep_key self); unfold PT, T; rewrite table_slaves; apply all_known, slaves_known.
      + destruct (beq master_key self); [|reflexivity]. apply all_known. intros k [<-|[]]. destruct (moving_key MV) as (n & F & _); eauto.
    - rewrite !andb_false_r, !orb_false_r. destruct (negb _); [reflexivity|]. destruct (2 <=? _)%nat; [reflexivity|]. do 2 f_equal.
      unfold T; rewrite table_slaves; apply all_known, slaves_known.
  Qed.
End Decision.
