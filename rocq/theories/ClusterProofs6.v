(** Proofs for the cluster model: a node goes down, continued. *)
From Coq Require Import ZArith NArith List Bool Lia ZifyBool ZifyNat ZifyN.
From Verif Require Import Base BaseLemmas TextModel ClusterModel ClusterSpec ClusterProofs ClusterProofs2 ClusterProofs3 ClusterProofs4 ClusterProofs5.
Import ListNotations.
Local Open Scope Z_scope.
Local Open Scope list_scope.

Lemma key_nonempty P m k n : good P m -> nfind k m = Some n -> k <> [].
Proof. intros G F. rewrite (g_key _ _ G _ _ F). unfold to_node_key. now destruct (n_name n). Qed.
Lemma slave_list_mem P m p x : good P m -> mem x (map fst (slave_list p m)) = match nfind x m with Some nx => role_eqb (n_role nx) Slave && (n_partition nx =? p) | None => false end.
Proof.
  intros G. apply eq_true_iff_eq. rewrite mem_In, in_map_iff. split.
  - intros ((k, b) & <- & I). cbn [fst]. apply (slave_list_in P m p k b G) in I as (n & F & R & Q & _). rewrite F, R, Q, Z.eqb_refl. reflexivity.
  - destruct (nfind x m) as [nx|] eqn:F; [|easy]. intros H. apply andb_prop in H as (H1 & H2). apply Z.eqb_eq in H2. destruct (role_eqb_spec (n_role nx) Slave); [|easy].
    exists (x, share nx). split; auto. apply (slave_list_in P m p _ _ G). eauto 6.
Qed.
Lemma all_zero P m p : good P m -> forallb (fun kn => n_balance (snd kn) =? 0) (filter (fun kn => state_eqb (n_state (snd kn)) Active) (slaves_of p m)) = (total (slave_list p m) =? 0).
Proof.
  intros G. apply eq_true_iff_eq. rewrite Z.eqb_eq, (total_zero P m p G), forallb_forall. split.
  - intros H k n (F & R & S & Q). apply Z.eqb_eq. apply (H (k, n)). apply filter_In. cbn [snd]. rewrite S. split; [|reflexivity].
    apply filter_In. split; [now apply (nfind_in _ _ _ (g_ord _ _ G))|]. apply is_slave_iff. cbn [snd]. pose proof (g_valid _ _ G _ _ F) as V. unfold valid_node in V. rewrite R in V. intuition lia.
  - intros H (k, n) I. apply filter_In in I as (I & S). apply filter_In in I as (I & E). apply is_slave_iff in E as (R & L & Q & _). cbn [snd] in *. apply Z.eqb_eq. apply (H k n).
    destruct (state_eqb_spec (n_state n) Active); [|easy]. repeat split; auto. now apply (nfind_in _ _ _ (g_ord _ _ G)).
Qed.
Lemma same_id_refl n : same_id n n. Proof. repeat split. Qed.
Lemma zero_max P m p w nw : good P m -> successor m p w nw -> total (slave_list p m) = 0 -> n_balance nw = 0.
Proof. intros G (A & _) T. apply (proj1 (total_zero P m p G) T w nw A). Qed.

Lemma down_node_spec P f s k r s' : inv P s -> f_save f = SaveOk -> down_node f s k = Ok (r, s') ->
  (s' = s /\ (f_begin f && f_load f = true -> forall n, nfind k (i_map s) = Some n -> n_state n = Down)) \/ (exists n, nfind k (i_map s) = Some n /\ live n /\ r = 0 /\ went_down (i_map s) k n (i_map s') /\ inv P s' /\ i_thread s' = i_thread s /\ i_version s' = u64 (i_version s + 1)).
Proof.
  intros I F H. unfold down_node in H. apply (locked_cases _ _ P) in H as [(_ & -> & X)|H]; auto; [left; split; [auto|congruence]|].
 destruct I as [G T SY D]. destruct (nfind k (i_map s)) as [n|] eqn:Fk; [|left; split; [congruence|discriminate]].
  destruct (state_eqb_spec (n_state n) Down) as [Sd|Sd]; [left; split; congruence|]. right. exists n. split; [reflexivity|]. split; [exact Sd|].
  pose proof (proj1 (good_iff _ _) G) as (O & KV & GV & SM). pose proof (g_valid _ _ G _ _ Fk) as V. unfold valid_node in V.
  assert (Nat : nat_ k (i_map s) = n) by now apply nat_some.
  assert (Hdem : same_id n (out_of_service n)) by repeat split.
  assert (Hvd : valid_node (out_of_service n)) by (split; auto).
  destruct (role_eqb_spec (n_role n) Master) as [R|R]; cbn [negb] in H.
  2:{ (* slaves and proxies *)
      unfold nupd in H. cbn [with_map i_map] in H. rewrite Nat in H. change (demoted (with_state n Down)) with (out_of_service n) in H.
      apply (commit_ok f _ P) in H as (I' & -> & M' & T' & V'); auto.
      2:{ apply good_minor with (n := n); auto; [|easy]. unfold role_view. cbn. now destruct (role_eqb_spec (n_role n) Master). }
      2:{ cbn [with_map i_map]. eapply threads_kept; [exact T|]. eapply same_ids_set; eauto. }
      cbn [with_map i_map i_thread i_version] in *. split; auto. split; [|auto]. unfold went_down.
      assert (X : nfind k (i_map s') = Some (out_of_service n) /\ same_except [k] (i_map s) (i_map s')).
      { rewrite M'. split; [rewrite nfind_set, beq_refl; auto|]. intros x Hx. rewrite nfind_set. destruct (beq_spec x k) as [->|]; auto. exfalso. apply Hx. now left. }
      destruct (n_role n); [easy|exact X|exact X]. }
  rewrite R in V. unfold went_down. rewrite R.
  assert (VK : mview (i_map s) k = Some (n_partition n, n_state n)). { rewrite (mview_find _ _ _ Fk). unfold role_view. now rewrite R. }
  destruct (n_state n) eqn:St; [| |easy|].
  - (* an active master *)
    set (p := n_partition n) in *.
    assert (Hp : 0 <= p < P). { apply (gv_main _ _ GV). exists k, Active. split; auto. now left. }
    destruct (main_slaves P s p G SY Hp) as (SL & TO). rewrite TO in H. cbn [with_tables i_parts i_prep i_map] in H. rewrite SL in H.
    assert (PRES : forall x, (x = s \/ x = with_tables s (i_parts s) (i_prep s)) -> (forall y ny, ~ active_slave (i_map s) p y ny) ->
      commit f (with_map x (nset k (with_state n Down) (i_map s))) = Ok (r, s') ->
      r = 0 /\ (((forall y ny, ~ active_slave (i_map s) p y ny) /\ nfind k (i_map s') = Some (with_state n Down) /\ same_except [k] (i_map s) (i_map s')) \/ False) /\
      inv P s' /\ i_thread s' = i_thread s /\ i_version s' = u64 (i_version s + 1)).
    { intros x Ex NA C. apply (commit_ok f _ P) in C as (I' & -> & M' & T' & V'); auto.
      - destruct Ex as [-> | ->]; cbn [with_map with_tables i_map i_thread i_version] in *; (split; auto; split; [|auto]); left; (split; [exact NA|]); rewrite M';
        (split; [rewrite nfind_set, beq_refl; auto|]); intros y Hy; rewrite nfind_set; destruct (beq_spec y k) as [->|]; auto; exfalso; apply Hy; now left.
      - cbn [with_map i_map]. refine (good_set P P _ k n _ G Fk _ _ _ _); [repeat split|unfold valid_node; cbn [with_state n_role n_partition n_balance]; now rewrite R| |].
        + unfold role_view. cbn [with_state n_role n_partition n_state]. rewrite R. cbn [role_eqb]. now apply gview_down.
        + unfold role_view. cbn [with_state n_role n_partition n_state]. rewrite R. cbn [role_eqb]. intros y ny. rewrite nfind_set. intros Y Ry.
          destruct (beq_spec y k) as [->|]; [injection Y as <-; cbn in Ry; congruence|]. destruct (SM _ _ Y Ry) as (z & t & Z). unfold has_master, vset.
          destruct (beq_spec z k) as [->|].
          * rewrite VK in Z. injection Z as <- <-. exists k, Down. rewrite beq_refl. reflexivity.
          * exists z, t. destruct (beq_spec z k); easy.
      - destruct Ex as [-> | ->]; cbn [with_map with_tables i_map i_thread]; (eapply threads_kept; [exact T|]); eapply same_ids_set; eauto; repeat split. }
    unfold nupd in H. cbn [with_map with_tables i_map] in H. rewrite Nat in H.
    destruct (Nat.eqb_spec (List.length (slave_list p (i_map s))) 0) as [L0|L0].
    { destruct (PRES _ (or_intror eq_refl)) with (2 := H) as (-> & [X|[]] & Y).
      - intros y ny (Fy & Ry & Sy & Qy). assert (In (y, share ny) (slave_list p (i_map s))) by (apply (slave_list_in P _ p _ _ G); eauto 6). destruct (slave_list p (i_map s)); [easy|discriminate].
      - split; auto. }
    destruct (pick_slave (slave_list p (i_map s)) (i_map s) [] 0 0) eqn:PS; cbn [bind] in H; try easy. destruct a as ((m1, key), sum).
    apply pick_slave_spec in PS as (-> & -> & X); auto.
    2:{ intros y b Iy. apply (slave_list_in P _ p _ _ G) in Iy as (ny & Fy & _). split; [eapply key_nonempty; eauto|congruence]. }
    cbn [beq] in X. rewrite Z.add_0_l in H.
    destruct (beq_spec key []) as [->|Nk].
    { assert (NA : forall y b, In (y, b) (slave_list p (i_map s)) -> is_act (i_map s) y = false).
      { destruct X as [(_ & X)|(b & X)]; auto. exfalso. destruct (best_successor P _ p _ _ G X) as (nw & ((Fw & _) & _) & _). eapply key_nonempty in Fw; eauto. }
      rewrite Nat in H. destruct (PRES _ (or_intror eq_refl)) with (2 := H) as (-> & [X'|[]] & Y); [|split; auto].
      intros y ny (Fy & Ry & Sy & Qy). assert (Iy : In (y, share ny) (slave_list p (i_map s))) by (apply (slave_list_in P _ p _ _ G); eauto 6).
      apply NA in Iy. unfold is_act in Iy. rewrite (nat_some _ _ _ Fy), Sy in Iy. easy. }
    destruct X as [(X & _)|(b & X)]; [easy|]. apply (best_successor P _ p _ _ G) in X as (nw & SU & Eb). rename key into w.
    pose proof SU as ((Fw & Rw & Sw & Qw) & _).
    assert (Nwk : w <> k) by (intros ->; congruence).
    pose proof (g_valid _ _ G _ _ Fw) as Vw. unfold valid_node in Vw. rewrite Rw in Vw.
    rewrite (nat_some w nw (i_map s) Fw) in H.
    (* both branches end in the same map *)
    set (bal := if total (slave_list p (i_map s)) =? 0 then 1 else n_balance nw).
    set (m2 := nset k (out_of_service n) (nset w (promoted nw bal) (i_map s))).
    assert (Fm2 : forall x, nfind x m2 = if beq x k then Some (out_of_service n) else if beq x w then Some (promoted nw bal) else nfind x (i_map s)).
    { intros x. unfold m2. now rewrite !nfind_set. }
    assert (Om2 : nordered m2) by (unfold m2; auto using nset_ordered).
    assert (Hm2 : exists s2, commit f s2 = Ok (r, s') /\ i_map s2 = m2 /\ i_thread s2 = i_thread s /\ i_version s2 = i_version s).
    { unfold bal in *. destruct (Z.eqb_spec (total (slave_list p (i_map s))) 0) as [Z0|Z0].
      - assert (B0 : n_balance nw = 0) by (eapply zero_max; eauto).
        assert (NA : nat_ w (nset w (with_role nw Master) (i_map s)) = with_role nw Master). { unfold nat_. now rewrite nfind_set, beq_refl. }
        rewrite NA in H. cbn [with_role n_balance] in H. rewrite B0 in H. cbn [add_int] in H. change (add_int 0 1) with (@Ok Z 1) in H. cbn [bind] in H.
        set (m3 := nset w (with_balance (with_role nw Master) 1) (nset w (with_role nw Master) (i_map s))) in *.
        assert (m3 = nset w (promoted nw 1) (i_map s)).
        { apply nmap_ext; unfold m3; auto using nset_ordered. intros x. rewrite !nfind_set. unfold promoted. now destruct (beq x w). }
        eexists. split; [exact H|]. cbn [with_map with_tables i_map i_thread i_version]. repeat split. rewrite H0. unfold m2.
        unfold nupd. f_equal. unfold nat_. rewrite nfind_set. destruct (beq_spec k w); [congruence|]. now rewrite Fk.
      - eexists. split; [exact H|]. cbn [with_map with_tables i_map i_thread i_version]. repeat split. unfold m2.
        assert (E : promoted nw (n_balance nw) = with_role nw Master) by reflexivity. rewrite E. unfold nupd. f_equal.
        unfold nat_. rewrite nfind_set. destruct (beq_spec k w); [congruence|]. now rewrite Fk. }
    clear H. destruct Hm2 as (s2 & H & M2 & T2 & V2).
    assert (IDS : same_ids (i_map s) m2).
    { intros x nx. rewrite Fm2. destruct (beq_spec x k) as [->|]; [intros [= <-]; exists n; auto|]. destruct (beq_spec x w) as [->|]; [intros [= <-]; exists nw; repeat split; auto|].
      intros Fx. exists nx. split; auto. apply same_id_refl. }
    assert (VW : mview (i_map s) w = None). { rewrite (mview_find _ _ _ Fw). unfold role_view. now rewrite Rw. }
    apply (commit_ok f _ P) in H as (I' & -> & M' & T' & V'); auto.
    + split; auto. split; [|split; [exact I'|rewrite T', V', T2, V2; auto]]. right. exists w, nw. rewrite M', M2.
      split; auto. split; auto. split; [now rewrite Fm2, beq_refl|]. split.
      * rewrite (all_zero P _ p G). rewrite Fm2. destruct (beq_spec w k); [easy|]. rewrite beq_refl. reflexivity.
      * intros x Hx. rewrite Fm2. destruct (beq_spec x k) as [->|]; [exfalso; apply Hx; now left|]. destruct (beq_spec x w) as [->|]; auto. exfalso. apply Hx. right. now left.
    + rewrite M2. apply (good_change P P (i_map s) m2 (vset (vset (mview (i_map s)) w (Some (p, Active))) k None)); auto.
      * intros x nx. rewrite Fm2. destruct (beq_spec x k) as [->|]; [intros [= <-]; auto|]. destruct (beq_spec x w) as [->|]; [|apply (g_valid _ _ G)].
        intros [= <-]. unfold valid_node, promoted. cbn [with_balance with_role n_role n_partition n_balance]. unfold bal. destruct (_ =? 0); intuition lia.
      * intros x. unfold mview at 1. rewrite Fm2. unfold vset. destruct (beq_spec x k); [reflexivity|]. destruct (beq_spec x w) as [->|]; [|reflexivity].
        cbn. rewrite Qw, Sw. reflexivity.
      * apply gview_swap; auto.
      * intros x nx. rewrite Fm2. intros Fx Rx. destruct (beq_spec x k) as [->|]; [injection Fx as <-; discriminate|]. destruct (beq_spec x w) as [->|]; [injection Fx as <-; discriminate|].
        destruct (SM _ _ Fx Rx) as (z & t & Z). unfold has_master, vset. destruct (beq_spec z k) as [->|].
        -- rewrite VK in Z. injection Z as <- <-. exists w, Active. destruct (beq_spec w k); [easy|]. rewrite beq_refl. reflexivity.
        -- exists z, t. destruct (beq_spec z k); [easy|]. destruct (beq_spec z w) as [->|]; [congruence|]. exact Z.
    + rewrite M2, T2. eapply threads_kept; eauto.
  - (* a preparing master *)
    assert (US : ~ settled n) by (unfold settled; rewrite St; intuition congruence).
    assert (Hp := g_prep _ _ G _ _ Fk R US). rewrite Hp in *.
    destruct (prep_slaves P s k n G SY Fk R US) as (SL & TO). rewrite TO in H. cbn [with_tables i_parts i_prep i_map] in H. rewrite SL in H.
    rewrite (slave_list_mem P _ P k G), Fk, R in H. cbn [role_eqb andb] in H.
    assert (ND : NoDup (map fst (slave_list P (i_map s)))) by (eapply ordered_nodup; [apply blt_irrefl|now apply slave_list_ordered]).
    destruct (release_spec (slave_list P (i_map s)) (i_map s) ND) as (Om1 & Fm1). set (m1 := release (i_map s) (slave_list P (i_map s))) in *. specialize (Om1 O).
    unfold nupd in H. cbn [with_map with_tables i_map] in H.
    assert (Nat1 : nat_ k m1 = n). { unfold nat_. rewrite Fm1, (slave_list_mem P _ P k G), Fk, R. reflexivity. }
    rewrite Nat1 in H. change (demoted (with_state n Down)) with (out_of_service n) in H.
    assert (Fm : forall x, nfind x (nset k (out_of_service n) m1) = if beq x k then Some (out_of_service n) else
      match nfind x (i_map s) with Some nx => if role_eqb (n_role nx) Slave && (n_partition nx =? P) then Some (with_state (demoted nx) Active) else Some nx | None => None end).
    { intros x. rewrite nfind_set. destruct (beq x k); auto. rewrite Fm1, (slave_list_mem P _ P x G). unfold nat_. destruct (nfind x (i_map s)); auto. }
    assert (IDS : same_ids (i_map s) (nset k (out_of_service n) m1)).
    { intros x nx. rewrite Fm. destruct (beq_spec x k) as [->|]; [intros [= <-]; exists n; auto|]. destruct (nfind x (i_map s)) as [ny|]; [|easy]. destruct (_ && _); intros [= <-]; exists ny; repeat split; auto. }
    apply (commit_ok f _ P) in H as (I' & -> & M' & T' & V'); auto; cbn [with_map with_tables i_map i_thread i_version] in *.
    + split; auto. split; [|auto]. rewrite M'. split; [now rewrite Fm, beq_refl|]. intros x Nx. rewrite Fm. destruct (beq_spec x k); easy.
    + apply (good_change P P (i_map s) _ (vset (mview (i_map s)) k None)); auto using nset_ordered.
      * intros x nx. rewrite Fm. destruct (beq_spec x k) as [->|]; [intros [= <-]; auto|]. destruct (nfind x (i_map s)) as [ny|] eqn:Fx; [|easy]. destruct (_ && _); intros [= <-]; [split; auto|eapply g_valid; eauto].
      * intros x. unfold mview at 1. rewrite Fm. unfold vset. destruct (beq_spec x k); [reflexivity|]. unfold mview. destruct (nfind x (i_map s)) as [ny|]; auto.
        destruct (role_eqb_spec (n_role ny) Slave) as [Ry|Ry]; cbn [andb]; auto. destruct (n_partition ny =? P); auto. cbn. now rewrite Ry.
      * eapply gview_release; eauto. unfold settled_st. intuition congruence.
      * intros x nx. rewrite Fm. intros Fx Rx. destruct (beq_spec x k) as [->|]; [injection Fx as <-; discriminate|]. destruct (nfind x (i_map s)) as [ny|] eqn:Fy; [|easy].
        destruct (role_eqb_spec (n_role ny) Slave) as [Ry|Ry]; cbn [andb] in Fx; [|injection Fx as <-; easy]. destruct (Z.eqb_spec (n_partition ny) P) as [Q|Q]; [injection Fx as <-; discriminate|].
        injection Fx as <-. destruct (SM _ _ Fy Ry) as (z & t & Z). exists z, t. unfold vset. destruct (beq_spec z k) as [->|]; [|exact Z]. rewrite VK in Z. injection Z as Z _. congruence.
    + eapply threads_kept; eauto.
  - (* a ready master: the same *)
    assert (US : ~ settled n) by (unfold settled; rewrite St; intuition congruence).
    assert (Hp := g_prep _ _ G _ _ Fk R US). rewrite Hp in *.
    destruct (prep_slaves P s k n G SY Fk R US) as (SL & TO). rewrite TO in H. cbn [with_tables i_parts i_prep i_map] in H. rewrite SL in H.
    rewrite (slave_list_mem P _ P k G), Fk, R in H. cbn [role_eqb andb] in H.
    assert (ND : NoDup (map fst (slave_list P (i_map s)))) by (eapply ordered_nodup; [apply blt_irrefl|now apply slave_list_ordered]).
    destruct (release_spec (slave_list P (i_map s)) (i_map s) ND) as (Om1 & Fm1). set (m1 := release (i_map s) (slave_list P (i_map s))) in *. specialize (Om1 O).
    unfold nupd in H. cbn [with_map with_tables i_map] in H.
    assert (Nat1 : nat_ k m1 = n). { unfold nat_. rewrite Fm1, (slave_list_mem P _ P k G), Fk, R. reflexivity. }
    rewrite Nat1 in H. change (demoted (with_state n Down)) with (out_of_service n) in H.
    assert (Fm : forall x, nfind x (nset k (out_of_service n) m1) = if beq x k then Some (out_of_service n) else
      match nfind x (i_map s) with Some nx => if role_eqb (n_role nx) Slave && (n_partition nx =? P) then Some (with_state (demoted nx) Active) else Some nx | None => None end).
    { intros x. rewrite nfind_set. destruct (beq x k); auto. rewrite Fm1, (slave_list_mem P _ P x G). unfold nat_. destruct (nfind x (i_map s)); auto. }
    assert (IDS : same_ids (i_map s) (nset k (out_of_service n) m1)).
    { intros x nx. rewrite Fm. destruct (beq_spec x k) as [->|]; [intros [= <-]; exists n; auto|]. destruct (nfind x (i_map s)) as [ny|]; [|easy]. destruct (_ && _); intros [= <-]; exists ny; repeat split; auto. }
    apply (commit_ok f _ P) in H as (I' & -> & M' & T' & V'); auto; cbn [with_map with_tables i_map i_thread i_version] in *.
    + split; auto. split; [|auto]. rewrite M'. split; [now rewrite Fm, beq_refl|]. intros x Nx. rewrite Fm. destruct (beq_spec x k); easy.
    + apply (good_change P P (i_map s) _ (vset (mview (i_map s)) k None)); auto using nset_ordered.
      * intros x nx. rewrite Fm. destruct (beq_spec x k) as [->|]; [intros [= <-]; auto|]. destruct (nfind x (i_map s)) as [ny|] eqn:Fx; [|easy]. destruct (_ && _); intros [= <-]; [split; auto|eapply g_valid; eauto].
      * intros x. unfold mview at 1. rewrite Fm. unfold vset. destruct (beq_spec x k); [reflexivity|]. unfold mview. destruct (nfind x (i_map s)) as [ny|]; auto.
        destruct (role_eqb_spec (n_role ny) Slave) as [Ry|Ry]; cbn [andb]; auto. destruct (n_partition ny =? P); auto. cbn. now rewrite Ry.
      * eapply gview_release; eauto. unfold settled_st. intuition congruence.
      * intros x nx. rewrite Fm. intros Fx Rx. destruct (beq_spec x k) as [->|]; [injection Fx as <-; discriminate|]. destruct (nfind x (i_map s)) as [ny|] eqn:Fy; [|easy].
        destruct (role_eqb_spec (n_role ny) Slave) as [Ry|Ry]; cbn [andb] in Fx; [|injection Fx as <-; easy]. destruct (Z.eqb_spec (n_partition ny) P) as [Q|Q]; [injection Fx as <-; discriminate|].
        injection Fx as <-. destruct (SM _ _ Fy Ry) as (z & t & Z). exists z, t. unfold vset. destruct (beq_spec z k) as [->|]; [|exact Z]. rewrite VK in Z. injection Z as Z _. congruence.
    + eapply threads_kept; eauto.
Qed.
