(** A write in a cluster whose nodes have the same map. *)
From Coq Require Import ZArith NArith List Bool Lia ZifyBool ZifyNat ZifyN Permutation.
From Verif Require Import Base BaseLemmas TextModel KeyResolverModel KeyResolverSpec KeyResolverProofs ClusterModel ClusterSpec ClusterProofs ClusterProofs2 ClusterProofs3 ClusterProofs8 NodeModel NodeSpec RoutingModel RoutingSpec RoutingProofs.
Import ListNotations.
Local Open Scope Z_scope.
Local Open Scope list_scope.

Lemma nodup_join {A} (a b : list A) : NoDup a -> NoDup b -> (forall x, In x a -> ~ In x b) -> NoDup (a ++ b).
Proof.
  induction a as [|x a IH]; intros NA NB D; [exact NB|]. inversion NA; subst. cbn [app]. constructor.
  - rewrite in_app_iff. intros [I|I]; [auto|]. exact (D x (or_introl eq_refl) I).
  - apply IH; auto. intros y I. apply D. now right.
Qed.
Lemma flat_single {A B} (f : A -> list B) (g : A -> B) (l : list A) : (forall a, In a l -> f a = [g a]) -> flat_map f l = map g l.
Proof. intros H. induction l as [|a l IH]; cbn [flat_map map]; auto. rewrite (H a), IH; auto; intros; [apply H; now right|now left]. Qed.

Section Cluster.
  Variables (c : config) (P : Z) (m : node_map) (tab : bytes -> copy) (h : Z) (p p' : nat).
  Hypothesis G : good P m.
  Hypothesis SH : forall k, exists near, shows near (tab k) m.
  Hypothesis P0 : 0 < P.
  Hypothesis RES : resolve c h (Z.to_nat P) = Some p.
  Hypothesis LT : Z.of_nat p < P.
  Hypothesis RES' : resolve c h (S (Z.to_nat P)) = Some p'.
  Hypothesis LT' : Z.of_nat p' <= P.

  Notation mk := (master_key m p).
  Notation pk := (prep_key P m).
  Notation rs := (reps m p).
  Notation ps := (prep_reps P m).
  Notation mv := (moving P m p').

  Lemma key_nonempty k n : nfind k m = Some n -> k <> [].
  Proof. intros F. rewrite (g_key _ _ G _ _ F). unfold to_node_key. destruct (n_name n); discriminate. Qed.
  Lemma no_empty : nfind [] m = None.
  Proof. destruct (nfind [] m) eqn:E; auto. now destruct (key_nonempty _ _ E). Qed.

  Hypothesis ACT : exists k, active_master m (Z.of_nat p) k.
  Lemma mk_active : active_master m (Z.of_nat p) mk.
  Proof.
    destruct ACT as (k & A). apply (active_master_of P) in A as (n & E); auto; [|lia]. unfold master_key. rewrite E. apply (active_master_of P); eauto. lia.
  Qed.
  Lemma mk_only k : active_master m (Z.of_nat p) k -> k = mk.
  Proof. intros A. apply (active_master_of P) in A as (n & E); auto; [|lia]. unfold master_key. now rewrite E. Qed.
  Lemma pk_prep : mv = true -> preparing_master m P pk.
  Proof. intros M. destruct (moving_key P m p' G M) as (n & H). exists n. exact H. Qed.
  Lemma pk_only k : preparing_master m P k -> k = pk.
  Proof. intros A. apply (preparing_master_of P) in A as (n & E); auto; [|lia]. unfold prep_key. now rewrite E. Qed.
  Lemma mk_nonempty : mk <> []. Proof. destruct mk_active as (n & F & _). eapply key_nonempty; eauto. Qed.
  Lemma pk_nonempty : mv = true -> pk <> []. Proof. intros M. destruct (pk_prep M) as (n & F & _). eapply key_nonempty; eauto. Qed.
  Lemma mk_pk : mv = true -> mk <> pk.
  Proof. intros M E. destruct mk_active as (n & F & _ & S & _), (pk_prep M) as (n' & F' & _ & S' & _). rewrite E in F. rewrite F in F'. injection F' as <-. intuition congruence. Qed.
  Lemma rs_iff k : In k rs <-> live_slave m (Z.of_nat p) k. Proof. apply (slaves_of_iff P); auto. lia. Qed.
  Lemma ps_iff k : In k ps <-> live_slave m P k. Proof. apply (slaves_of_iff P); auto. lia. Qed.
  Lemma mk_rs : ~ In mk rs.
  Proof. rewrite rs_iff. intros (n & F & R & _). destruct mk_active as (n' & F' & R' & _). congruence. Qed.
  Lemma mk_ps : ~ In mk ps.
  Proof. rewrite ps_iff. intros (n & F & R & _). destruct mk_active as (n' & F' & R' & _). congruence. Qed.
  Lemma pk_rs : mv = true -> ~ In pk rs.
  Proof. intros M. rewrite rs_iff. intros (n & F & R & _). destruct (pk_prep M) as (n' & F' & R' & _). congruence. Qed.
  Lemma pk_ps : mv = true -> ~ In pk ps.
  Proof. intros M. rewrite ps_iff. intros (n & F & R & _). destruct (pk_prep M) as (n' & F' & R' & _). congruence. Qed.
  Lemma rs_ps k : In k rs -> ~ In k ps.
  Proof. rewrite rs_iff, ps_iff. intros (n & F & _ & _ & Q) (n' & F' & _ & _ & Q'). assert (n = n') by congruence. subst n'. lia. Qed.
  Lemma slaves_nodup q : NoDup (map fst (slaves_of q m)).
  Proof.
    unfold slaves_of. assert (N : NoDup (map fst m)). { apply (ordered_nodup blt blt_irrefl). apply (g_ord _ _ G). } clear -N.
    induction m as [|(k, n) l IH]; cbn [filter map]; [constructor|]. cbn [map fst] in N. inversion N as [|? ? NI N']; subst.
    destruct (is_slave q (snd (k, n))); auto. cbn [map fst]. constructor; auto. intros I. apply NI.
    apply in_map_iff in I as (x & E & I). apply filter_In in I as (I & _). apply in_map_iff. eauto.
  Qed.

  Definition everyone : list bytes := mk :: rs ++ (if mv then pk :: ps else []).
  Definition will (q : req) : list bytes :=
    if negb (r_proxied q) || beq (r_node q) mk then everyone
    else if mv && beq (r_node q) pk then pk :: ps else [r_node q].
  Definition cost (q : req) : nat := (List.length (will q) + if negb (r_proxied q) && negb (beq (r_node q) mk) then 1 else 0)%nat.
  Definition fine (q : req) : Prop :=
    r_node q <> [] /\
    ((r_proxied q = false /\ r_trail q = []) \/
     (r_proxied q = true /\
       ((r_node q = mk /\ (times mk (r_trail q) <= 1)%nat /\ (mv = true -> times pk (r_trail q) <= 1)%nat) \/
        (mv = true /\ r_node q = pk /\ (times pk (r_trail q) <= 1)%nat) \/
        In (r_node q) rs \/ (mv = true /\ In (r_node q) ps)))).
  Lemma beq_false a b : a <> b -> beq a b = false. Proof. destruct (beq_spec a b); congruence. Qed.
  Lemma beq_true a : beq a a = true. Proof. now destruct (beq_spec a a). Qed.
  Lemma mem_false k l : ~ In k l -> mem k l = false. Proof. intros H. destruct (mem k l) eqn:E; auto. now apply mem_iff in E. Qed.
  Lemma mem_true k l : In k l -> mem k l = true. Proof. apply mem_iff. Qed.
  Lemma everyone_nodup : NoDup everyone.
  Proof.
    unfold everyone. constructor.
    - rewrite in_app_iff. intros [I|I]; [now apply mk_rs|]. destruct mv eqn:M; [|destruct I]. destruct I as [I|I]; [|now apply mk_ps]. apply (mk_pk M). auto.
    - apply nodup_join; [apply slaves_nodup| |].
      + destruct mv eqn:M; [|constructor]. constructor; [now apply pk_ps|apply slaves_nodup].
      + intros x I J. destruct mv eqn:M; [|destruct J]. destruct J as [<-|J]; [now apply (pk_rs M)|now apply (rs_ps x)].
  Qed.
  Lemma everyone_in k : In k everyone <-> active_master m (Z.of_nat p) k \/ live_slave m (Z.of_nat p) k \/ (mv = true /\ (preparing_master m P k \/ live_slave m P k)).
  Proof.
    unfold everyone. cbn [In]. rewrite in_app_iff, rs_iff. split.
    - intros [<-|[I|I]]; [left; apply mk_active|auto|]. right; right. destruct mv eqn:M; [|destruct I]. split; auto. destruct I as [<-|I]; [left; now apply pk_prep|right; now apply ps_iff].
    - intros [A|[A|(M & [A|A])]]; [left; symmetry; now apply mk_only|auto| |]; right; right; rewrite M; [left; symmetry; now apply pk_only|right; now apply ps_iff].
  Qed.

  (** One step. *)
  Lemma serve_fine q : fine q -> exists e new, serve c tab h q = Ok (e, new) /\
    Permutation (will q) (e ++ flat_map will new) /\ Forall fine new /\ cost q = S (list_sum (map cost new)).
  Proof.
    intros (NE & F). destruct q as [x trail proxied]. cbn [r_node r_trail r_proxied] in *. unfold serve. cbn [r_node r_trail r_proxied].
    destruct (SH x) as (near & SHx).
    rewrite (pre_write_eq c P m near (tab x) h p p' G SHx P0 RES LT RES' x proxied NE). cbn [bind].
    rewrite (post_write_eq c P m near (tab x) h p p' G SHx P0 RES LT RES' x trail proxied NE).
    set (next := fun k => mkReq k (trail ++ [x]) true).
    assert (NEXT : forall k, r_node (next k) = k /\ r_trail (next k) = trail ++ [x] /\ r_proxied (next k) = true) by (intros; repeat split).
    assert (LEAF : forall k, k <> mk -> (mv = true -> k <> pk) -> will (next k) = [k] /\ cost (next k) = 1%nat).
    { intros k N1 N2. unfold cost, will. cbn [next r_node r_proxied negb orb andb]. rewrite (beq_false _ _ N1). destruct mv; cbn [andb]; [rewrite (beq_false _ _ (N2 eq_refl))|]; auto. }
    assert (RLEAF : forall k, In k rs -> will (next k) = [k] /\ cost (next k) = 1%nat).
    { intros k I. apply LEAF; [intros ->; now apply mk_rs|intros M ->; now apply (pk_rs M)]. }
    assert (PLEAF : mv = true -> forall k, In k ps -> will (next k) = [k] /\ cost (next k) = 1%nat).
    { intros M k I. apply LEAF; [intros ->; now apply mk_ps|intros _ ->; now apply (pk_ps M)]. }
    assert (SUM : forall l, (forall k, In k l -> will (next k) = [k] /\ cost (next k) = 1%nat) ->
      flat_map will (map next l) = l /\ list_sum (map cost (map next l)) = List.length l).
    { clear. intros l H. induction l as [|k l IH]; cbn [map flat_map list_sum fold_right List.length]; auto. destruct IH as (A & B); [intros; apply H; now right|].
      destruct (H k (or_introl eq_refl)) as (C & D). rewrite A, C. split; [reflexivity|]. unfold list_sum in *. cbn [fold_right]. rewrite B, D. reflexivity. }
    assert (NONE : forall k, In k rs \/ In k ps -> k <> []).
    { intros k [I|I]; [apply rs_iff in I|apply ps_iff in I]; destruct I as (n & Fk & _); eapply key_nonempty; eauto. }
    assert (RF : Forall fine (map next rs)).
    { apply Forall_forall. intros r I. apply in_map_iff in I as (k & <- & I). split; [apply NONE; auto|]. right. cbn [next r_proxied r_node]. auto. }
    assert (PF : mv = true -> Forall fine (map next ps)).
    { intros M. apply Forall_forall. intros r I. apply in_map_iff in I as (k & <- & I). split; [apply NONE; auto|]. right. split; [reflexivity|]. do 3 right. split; auto. }
    assert (TAPP : forall k, times k (trail ++ [x]) = (times k trail + if beq k x then 1 else 0)%nat).
    { intros k. unfold times. rewrite filter_app, app_length. cbn [filter]. destruct (beq k x); reflexivity. }
    (* the master *)
    assert (MASTER : x = mk -> (times mk trail <= 1)%nat -> (mv = true -> times pk trail <= 1)%nat ->
      exists e new, Ok ([x], map next (if negb (beq mk x || proxied && mv && beq pk x) then [] else if (2 <=? List.length (filter (beq x) trail))%nat then []
           else (if mv && beq pk x then ps else rs) ++ (if mv && beq mk x then [pk] else []))) = Ok (e, new) /\
        Permutation everyone (e ++ flat_map will new) /\ Forall fine new /\ List.length everyone = S (list_sum (map cost new))).
    { intros -> T1 T2. rewrite beq_true. cbn [orb negb]. replace (2 <=? List.length (filter (beq mk) trail))%nat with false by (unfold times in T1; lia).
      destruct (SUM rs RLEAF) as (W & CO). unfold everyone. destruct mv eqn:M; cbn [andb].
      - rewrite (beq_false pk mk) by (intros E; symmetry in E; now apply (mk_pk M)). exists [mk], (map next (rs ++ [pk])). split; [reflexivity|].
        assert (WP : will (next pk) = pk :: ps). { unfold will. cbn [next r_node r_proxied negb orb]. rewrite (beq_false pk mk) by (intros E; symmetry in E; now apply (mk_pk M)). now rewrite M, beq_true. }
        rewrite map_app, flat_map_app, W. cbn [map flat_map app]. rewrite WP, app_nil_r. split; [reflexivity|]. split.
        + apply Forall_app. split; [auto|]. constructor; [|constructor]. split; [now apply pk_nonempty|]. right. split; auto. right; left. cbn [next r_node r_trail]. split; auto. split; auto.
          rewrite TAPP, (beq_false pk mk) by (intros E; symmetry in E; now apply (mk_pk M)). specialize (T2 eq_refl). lia.
        + rewrite map_app, list_sum_app, CO. cbn [List.length map list_sum fold_right]. unfold cost. rewrite WP, app_length. cbn [next r_proxied negb andb List.length]. lia.
      - exists [mk], (map next rs). rewrite !app_nil_r. split; [reflexivity|]. rewrite W. split; [reflexivity|]. split; auto. rewrite CO. reflexivity. }
    cbn [bind].
    destruct F as [(-> & ->)|(-> & F)].
    - (* from a client *)
      cbn [andb orb]. rewrite !orb_false_r. unfold will at 1, cost at 1. cbn [r_node r_proxied negb orb].
      destruct (beq_spec mk x) as [E|NX].
      + symmetry in E. destruct (MASTER E) as (e & new & H1 & H2 & H3 & H4); [cbn; lia|cbn; lia|].
        cbn [andb] in H1. rewrite orb_false_r in H1. rewrite E in H1. cbn [andb orb negb] in H1 |- *. rewrite ?andb_true_r in *. rewrite E.
        exists e, new. split; [exact H1|]. split; auto. split; auto. unfold will. cbn [r_node r_proxied negb orb]. rewrite beq_true. cbn [negb]. lia.
      + unfold forward. destruct mk_active as (n & Fk & _). destruct SHx as (-> & _). rewrite Fk. exists [], [next mk]. split; [reflexivity|].
        assert (WM : will (next mk) = everyone). { unfold will. cbn [next r_node r_proxied negb orb]. now rewrite beq_true. }
        cbn [app flat_map map list_sum fold_right]. rewrite WM, app_nil_r. split; [reflexivity|]. split.
        * constructor; [|constructor]. split; [apply mk_nonempty|]. right. split; auto. left. cbn [next r_node r_trail app]. split; auto. split; [|intros _]; unfold times; cbn [filter]; [destruct (beq mk x)|destruct (beq pk x)]; cbn; lia.
        * unfold cost, will. cbn [next r_node r_proxied negb orb andb]. rewrite beq_true, (beq_false x mk) by auto. cbn [negb]. lia.
    - (* from another node *)
      cbn [andb orb].
      assert (HERE : (beq mk x || mv && beq pk x) = true \/ (mem x rs || mv && mem x ps) = true ->
        (if beq mk x || mv && beq pk x then Here else if mem x rs || mv && mem x ps then Here else forward (tab x) mk) = Here).
      { intros [->| ->]; auto. now destruct (_ || _). }
      destruct F as [(E & T1 & T2)|[(M & E & T1)|[I|(M & I)]]].
      + rewrite HERE by (left; rewrite E, beq_true; reflexivity). destruct (MASTER E T1 T2) as (e & new & H1 & H2 & H3 & H4). cbn [andb] in H1.
        exists e, new. split; [exact H1|]. unfold will at 1, cost at 1, will at 2. cbn [r_node r_proxied negb orb andb]. rewrite E, beq_true. split; auto. split; auto. lia.
      + assert (NM : mk <> pk) by now apply mk_pk. subst x. rewrite HERE by (left; rewrite M, beq_true; apply orb_true_r). rewrite (beq_false _ _ NM), M, beq_true. cbn [negb orb andb].
        replace (2 <=? List.length (filter (beq pk) trail))%nat with false by (unfold times in T1; lia). rewrite app_nil_r. cbn [bind]. exists [pk], (map next ps). split; [reflexivity|].
        destruct (SUM ps (PLEAF M)) as (W & CO). rewrite W, CO. unfold cost, will. cbn [r_node r_proxied negb orb andb]. rewrite (beq_false pk mk) by auto. rewrite M, beq_true. cbn [andb List.length].
        split; [reflexivity|]. split; auto.
      + assert (N1 : mk <> x) by (intros <-; now apply mk_rs). assert (N2 : (mv && beq pk x) = false). { destruct mv eqn:M; auto. apply beq_false. intros <-. now apply (pk_rs M). }
        rewrite HERE by (right; rewrite (mem_true _ _ I); reflexivity). rewrite (beq_false _ _ N1), N2. cbn [orb negb bind map]. exists [x], []. split; [reflexivity|].
        unfold cost, will. cbn [r_node r_proxied negb orb andb flat_map map list_sum fold_right app]. rewrite (beq_false x mk) by auto.
        replace (mv && beq x pk) with false by (rewrite <- N2; destruct (beq_spec x pk), (beq_spec pk x); congruence). split; [reflexivity|]. split; [constructor|reflexivity].
      + assert (N1 : mk <> x) by (intros <-; now apply mk_ps). assert (N2 : (mv && beq pk x) = false). { rewrite M. apply beq_false. intros <-. now apply (pk_ps M). }
        rewrite HERE by (right; rewrite M, (mem_true _ _ I); apply orb_true_r). rewrite (beq_false _ _ N1), N2. cbn [orb negb bind map]. exists [x], []. split; [reflexivity|].
        unfold cost, will. cbn [r_node r_proxied negb orb andb flat_map map list_sum fold_right app]. rewrite (beq_false x mk) by auto.
        replace (mv && beq x pk) with false by (rewrite <- N2; destruct (beq_spec x pk), (beq_spec pk x); congruence). split; [reflexivity|]. split; [constructor|reflexivity].
  Qed.
  Lemma serves_fine n l ex l' : serves c tab h n l ex l' -> Forall fine l ->
    Permutation (flat_map will l) (ex ++ flat_map will l') /\ Forall fine l' /\ list_sum (map cost l) = (n + list_sum (map cost l'))%nat.
  Proof.
    induction 1 as [l|n l1 q l2 e new ex l' H S IH]; intros F; [auto|].
    apply Forall_app in F as (F1 & F2). inversion F2 as [|? ? Fq F3]; subst. destruct (serve_fine q Fq) as (e' & new' & H' & W & FN & CO). rewrite H in H'. injection H' as <- <-.
    destruct IH as (W' & FL & CL); [apply Forall_app; split; auto; apply Forall_app; auto|].
    split; [|split; auto].
    - rewrite flat_map_app. cbn [flat_map]. rewrite !flat_map_app in W'. rewrite <- app_assoc, <- W'. rewrite W.
      rewrite <- !app_assoc. apply Permutation_trans with (e ++ flat_map will l1 ++ flat_map will new ++ flat_map will l2).
      + rewrite !app_assoc. do 2 apply Permutation_app_tail. apply Permutation_app_comm.
      + do 2 apply Permutation_app_head. apply Permutation_app_comm.
    - rewrite !map_app, !list_sum_app in *. cbn [map list_sum fold_right] in *. change (fold_right Nat.add 0%nat) with list_sum. rewrite CO. lia.
  Qed.
End Cluster.
