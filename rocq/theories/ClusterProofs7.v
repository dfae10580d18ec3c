(** Proofs for the cluster model: the other requests, and all histories. *)
From Coq Require Import ZArith NArith List Bool Lia ZifyBool ZifyNat ZifyN.
From Verif Require Import Base BaseLemmas TextModel ClusterModel ClusterSpec ClusterProofs ClusterProofs2 ClusterProofs3 ClusterProofs4 ClusterProofs5 ClusterProofs6.
Import ListNotations.
Local Open Scope Z_scope.
Local Open Scope list_scope.

Lemma set_same_except m k n : nfind k (nset k n m) = Some n /\ same_except [k] m (nset k n m).
Proof.
  split; [now rewrite nfind_set, beq_refl|]. intros x Hx. rewrite nfind_set. destruct (beq_spec x k) as [->|]; auto. exfalso. apply Hx. now left.
Qed.
Lemma same_id_state n st : same_id n (with_state n st). Proof. repeat split. Qed.
Lemma other_live_iff P k p m : good P m -> other_live k p m = true <-> others_live m k p.
Proof.
  intros G. unfold other_live, others_live. rewrite existsb_exists. split.
  - intros ((k', n') & I & E). cbn [fst snd] in E. apply (nfind_in _ _ _ (g_ord _ _ G)) in I. exists k', n'.
    destruct (beq_spec k' k); [easy|]. destruct (Z.eqb_spec (n_partition n') p); [|easy]. destruct (state_eqb_spec (n_state n') Down); [easy|]. auto.
  - intros (k' & n' & N & F & L & Q). exists (k', n'). split; [now apply (nfind_in _ _ _ (g_ord _ _ G))|]. cbn [fst snd].
    destruct (beq_spec k' k); [easy|]. destruct (Z.eqb_spec (n_partition n') p); [|easy]. destruct (state_eqb_spec (n_state n') Down); easy.
Qed.
(** *** add *)
Lemma filter_mset_new {K V} (eqb ltb : K -> K -> bool) (f : K * V -> bool) k v m : mfind eqb k m = None -> f (k, v) = false ->
  filter f (mset eqb ltb k v m) = filter f m.
Proof.
  intros N F. induction m as [|(k', v') m IH]; cbn [mset filter]; [now rewrite F|].
  cbn [mfind] in N. destruct (eqb k k') eqn:E; [easy|]. destruct (ltb k k'); cbn [filter]; [now rewrite F|]. rewrite IH; auto.
Qed.
Lemma find_filter {A} (f : A -> bool) l : find f l = match filter f l with x :: _ => Some x | [] => None end.
Proof. induction l as [|x l IH]; cbn [find filter]; auto. destruct (f x); auto. Qed.
Lemma existsb_filter {A} (f : A -> bool) l : existsb f l = match filter f l with _ :: _ => true | [] => false end.
Proof. induction l as [|x l IH]; cbn [existsb filter]; auto. destruct (f x); auto. Qed.
Lemma tables_add_proxy m k n : nfind k m = None -> n_role n = Proxy ->
  (forall near p, main_table near p (nset k n m) = main_table near p m) /\ (forall p, prep_table p (nset k n m) = prep_table p m).
Proof.
  intros N R.
  assert (M : forall sts p, filter (fun kn => is_master sts p (snd kn)) (nset k n m) = filter (fun kn => is_master sts p (snd kn)) m).
  { intros. apply filter_mset_new; auto. cbn [snd]. apply is_master_role. congruence. }
  assert (S : forall p, slaves_of p (nset k n m) = slaves_of p m).
  { intros. apply filter_mset_new; auto. cbn [snd]. unfold is_slave. rewrite R. reflexivity. }
  assert (MO : forall sts p, master_of sts p (nset k n m) = master_of sts p m). { intros. unfold master_of. rewrite !find_filter, M. reflexivity. }
  assert (MT : forall near p, main_table near p (nset k n m) = main_table near p m). { intros. unfold main_table. rewrite !existsb_filter, M, MO, S. reflexivity. }
  split; auto. intros p. unfold prep_table. now rewrite MO, MT, S.
Qed.
Lemma add_node_spec P f s h p r s' : inv P s -> f_save f = SaveOk -> add_node f s h p = Ok (r, s') ->
  let k := to_node_key h p in
  (s' = s /\ r = -1) \/
  (r = 0 /\ inv P s' /\ i_version s' = u64 (i_version s + 1) /\
   ((exists n, nfind k (i_map s) = Some n /\ n_state n = Down /\ i_map s' = i_map s /\ i_thread s' = i_thread s) \/
    (nfind k (i_map s) = None /\ nfind k (i_map s') = Some (mkNode h p Proxy Active (-1) 0 (i_thread s)) /\ same_except [k] (i_map s) (i_map s') /\ i_thread s' = i_thread s + 1))).
Proof.
  intros I F H k. unfold add_node in H. apply (locked_cases _ _ P) in H as [(-> & -> & X0)|H]; auto.
  fold k in H. destruct I as [G T SY D]. destruct (nfind k (i_map s)) as [n|] eqn:Fk.
  - destruct (state_eqb_spec (n_state n) Down) as [Sd|]; [|left; split; congruence]. right.
    unfold ret_of, save in H. rewrite F in H. cbn [fst snd] in H. injection H as <- <-. cbn [i_map i_thread i_version].
    split; auto. split; [|split; auto; left; exists n; auto]. constructor; cbn [i_map i_thread]; auto. now left.
  - destruct (add_int (i_thread s) 1) eqn:A; cbn [bind] in H; try easy. apply add_int_ok in A as ->. right.
    unfold ret_of, save in H. rewrite F in H. cbn [fst snd i_map i_thread i_version i_parts i_prep i_disk] in H. injection H as <- <-. cbn [i_map i_thread i_version].
    set (n := mkNode h p Proxy Active (-1) 0 (i_thread s)).
    split; auto. split; [|split; auto; right; split; auto; destruct (set_same_except (i_map s) k n); auto].
    destruct T as (T0 & T1 & T2). pose proof (proj1 (good_iff _ _) G) as (O & KV & GV & SM).
    assert (MV : forall x, mview (nset k n (i_map s)) x = mview (i_map s) x).
    { intros x. rewrite mview_set. unfold vset. destruct (beq_spec x k) as [->|]; auto. cbn. unfold mview. now rewrite Fk. }
    constructor; cbn [i_map i_thread].
    + apply good_iff. split; [now apply nset_ordered|]. split; [|split].
      * intros x nx. rewrite nfind_set. destruct (beq_spec x k) as [->|]; [|apply KV]. intros [= <-]. split; auto. split; auto.
      * eapply gview_ext; [|exact GV]. intros x. now rewrite MV.
      * intros x nx. rewrite nfind_set. destruct (beq_spec x k) as [->|]; [intros [= <-]; discriminate|]. intros Fx Rx. destruct (SM _ _ Fx Rx) as (z & t & Z). exists z, t. now rewrite MV.
    + split; [lia|]. split.
      * intros x nx. rewrite nfind_set. destruct (beq_spec x k) as [->|]; [intros [= <-]; cbn; lia|]. intros Fx. specialize (T1 _ _ Fx). lia.
      * intros x nx y ny. rewrite !nfind_set. destruct (beq_spec x k) as [->|], (beq_spec y k) as [->|]; auto; intros Fx Fy E.
        -- injection Fx as <-. cbn in E. specialize (T1 _ _ Fy). lia.
        -- injection Fy as <-. cbn in E. specialize (T1 _ _ Fx). lia.
        -- eauto.
    + destruct SY as (O1 & O2 & M & Q). destruct (tables_add_proxy (i_map s) k n Fk eq_refl) as (X & Y). unfold synced. cbn [i_map i_parts i_prep].
      repeat (split; auto); intros; [rewrite X|rewrite Y]; auto.
    + now left.
Qed.

(** *** ready *)
Lemma ready_node_spec P f s k r s' : inv P s -> f_save f = SaveOk -> ready_node f s k = Ok (r, s') ->
  (s' = s /\ r = -1) \/ (exists n, nfind k (i_map s) = Some n /\ n_state n = Prepare /\ r = 0 /\
     nfind k (i_map s') = Some (with_state n Ready) /\ same_except [k] (i_map s) (i_map s') /\ inv P s' /\ i_thread s' = i_thread s /\ i_version s' = u64 (i_version s + 1)).
Proof.
  intros I F H. unfold ready_node in H. apply (locked_cases _ _ P) in H as [(-> & -> & X0)|H]; auto.
  destruct I as [G T SY D]. destruct (nfind k (i_map s)) as [n|] eqn:Fk; [|left; split; congruence].
  destruct (state_eqb_spec (n_state n) Prepare) as [St|]; cbn [negb] in H; [|left; split; congruence]. right. exists n.
  rewrite (upd_nat _ _ _ _ Fk) in H. pose proof (proj1 (good_iff _ _) G) as (O & KV & GV & SM). pose proof (g_valid _ _ G _ _ Fk) as V. unfold valid_node in V.
  assert (VK := mview_find _ _ _ Fk). unfold role_view in VK.
  apply (commit_ok f _ P) in H as (I' & -> & M' & T' & V'); auto; cbn [with_map i_map i_thread i_version] in *.
  - destruct (set_same_except (i_map s) k (with_state n Ready)) as (X & Y). rewrite M'. auto 10.
  - refine (good_set P P _ k n _ G Fk (same_id_state _ _) _ _ _).
    + unfold valid_node, live in *. cbn [with_state n_role n_partition n_state n_balance]. destruct (n_role n); try easy. intuition congruence.
    + unfold role_view. cbn [with_state n_role n_partition n_state]. destruct (role_eqb_spec (n_role n) Master).
      * apply gview_unsettled with (s := Prepare); auto; unfold settled_st; intuition congruence.
      * eapply gview_ext; [|exact GV]. intros x. now rewrite vset_same.
    + intros x nx. rewrite nfind_set. intros Fx Rx. assert (HM : has_master (mview (i_map s)) (n_partition nx)).
      { destruct (beq_spec x k) as [->|]; [injection Fx as <-; cbn [with_state n_partition n_role] in *; eauto|eauto]. }
      destruct HM as (z & t & Z). unfold has_master, vset, role_view. cbn [with_state n_role n_partition n_state]. destruct (role_eqb_spec (n_role n) Master).
      * destruct (beq_spec z k) as [->|]; [|exists z, t; destruct (beq_spec z k); easy]. rewrite Z in VK. injection VK as E1 _. rewrite E1. exists k, Ready. rewrite beq_refl. reflexivity.
      * exists z, t. destruct (beq_spec z k) as [->|]; [congruence|auto].
  - eapply threads_kept; [exact T|]. eapply same_ids_set; eauto. apply same_id_state.
Qed.

(** *** up *)
Lemma up_node_spec P f s k r s' : inv P s -> f_save f = SaveOk -> up_node f s k = Ok (r, s') ->
  (forall n, nfind k (i_map s) = Some n -> n_role n = Master -> n_state n = Down -> others_live (i_map s) k (n_partition n) ->
     exists k' n', nfind k' (i_map s) = Some n' /\ live n' /\ n_role n' = Master /\ n_partition n' = n_partition n) ->
  s' = s \/ (exists n P', nfind k (i_map s) = Some n /\ r = 0 /\ came_up (i_map s) k n (i_map s') /\ inv P' s' /\ i_thread s' = i_thread s /\ i_version s' = u64 (i_version s + 1)).
Proof.
  intros I F H AB. unfold up_node in H. apply (locked_cases _ _ P) in H as [(_ & -> & X0)|H]; auto.
  destruct I as [G T SY D]. destruct (nfind k (i_map s)) as [n|] eqn:Fk; [|left; congruence].
  destruct (state_eqb_spec (n_state n) Active) as [|NA]; [left; congruence|].
  pose proof (proj1 (good_iff _ _) G) as (O & KV & GV & SM). pose proof (g_valid _ _ G _ _ Fk) as V. unfold valid_node in V.
  assert (VK := mview_find _ _ _ Fk). unfold role_view in VK.
  rewrite !(upd_nat _ _ _ _ Fk) in H.
  (* all successful ways commit one changed node *)
  assert (FIN : forall s2 n' P', commit f s2 = Ok (r, s') -> i_map s2 = nset k n' (i_map s) -> i_thread s2 = i_thread s -> i_version s2 = i_version s ->
    same_id n n' -> good P' (nset k n' (i_map s)) ->
    r = 0 /\ nfind k (i_map s') = Some n' /\ same_except [k] (i_map s) (i_map s') /\ inv P' s' /\ i_thread s' = i_thread s /\ i_version s' = u64 (i_version s + 1)).
  { intros s2 n' P' C M2 T2 V2 ID G'. apply (commit_ok f _ P') in C as (I' & -> & M' & T' & V'); auto.
    - rewrite M', M2, T', V', T2, V2. destruct (set_same_except (i_map s) k n'). auto 10.
    - now rewrite M2.
    - rewrite M2, T2. eapply threads_kept; [exact T|]. eapply same_ids_set; eauto. }
  assert (SMOK : forall v, (forall p t, mview (i_map s) k = Some (p, t) -> has_master (vset (mview (i_map s)) k v) p) ->
    forall p, has_master (mview (i_map s)) p -> has_master (vset (mview (i_map s)) k v) p).
  { intros v Hv p (z & t & Z). destruct (beq_spec z k) as [->|]; [eauto|]. exists z, t. unfold vset. destruct (beq_spec z k); easy. }
  destruct (negb (role_eqb (n_role n) Slave) && state_eqb (n_state n) Prepare) eqn:C1; [left; congruence|].
  destruct (state_eqb (n_state n) Ready || (role_eqb (n_role n) Slave && state_eqb (n_state n) Prepare)) eqn:C2.
  - (* a slave, or a ready master *)
    right. exists n.
    assert (HH : commit f (with_map s (nset k (with_state n Active) (i_map s))) = Ok (r, s') \/ exists a b, commit f (with_map (with_tables s a b) (nset k (with_state n Active) (i_map s))) = Ok (r, s')).
    { destruct (state_eqb (n_state n) Ready && role_eqb (n_role n) Master); cbn [with_tables i_map] in H; rewrite (upd_nat _ _ _ _ Fk) in H; eauto. }
    assert (exists s2, commit f s2 = Ok (r, s') /\ i_map s2 = nset k (with_state n Active) (i_map s) /\ i_thread s2 = i_thread s /\ i_version s2 = i_version s) as (s2 & C & M2 & T2 & V2).
    { destruct HH as [HH|(a & b & HH)]; eexists; (split; [exact HH|]); auto. }
    destruct (n_role n) eqn:R.
    + (* master *)
      destruct (n_state n) eqn:St; try easy.
      assert (GV' : gview (P + 1) (vset (mview (i_map s)) k (Some (n_partition n, Active)))).
      { apply (gview_activate P _ k _ Ready GV VK). unfold settled_st. intuition congruence. }
      assert (G' : good (P + 1) (nset k (with_state n Active) (i_map s))).
      { refine (good_set P _ _ k n _ G Fk (same_id_state _ _) _ _ _).
        - unfold valid_node. cbn [with_state n_role n_partition n_balance]. now rewrite R.
        - unfold role_view. cbn [with_state n_role n_partition n_state]. now rewrite R.
        - unfold role_view. cbn [with_state n_role n_partition n_state]. rewrite R. cbn [role_eqb]. intros x nx. rewrite nfind_set. intros Fx Rx.
          destruct (beq_spec x k) as [->|]; [injection Fx as <-; cbn in Rx; congruence|]. apply SMOK; eauto.
          intros p t E. exists k, Active. unfold vset. rewrite beq_refl. rewrite VK in E. cbn [role_eqb] in E. congruence. }
      destruct (FIN _ _ _ C M2 T2 V2 (same_id_state _ _) G') as (-> & X & Y & Z & W). exists (P + 1). split; auto. split; auto. split; [|auto]. unfold came_up. rewrite R, St. auto.
    + (* slave *)
      assert (G' : good P (nset k (with_state n Active) (i_map s))).
      { refine (good_minor P _ k n _ G Fk (same_id_state _ _) _ _ _).
        - unfold valid_node, live. cbn [with_state n_role n_partition n_balance n_state]. rewrite R. intuition congruence.
        - unfold role_view. cbn [with_state n_role]. now rewrite R.
        - intros _. cbn [with_state n_partition]. eauto. }
      destruct (FIN _ _ _ C M2 T2 V2 (same_id_state _ _) G') as (-> & X & Y & Z & W). exists P. split; auto. split; auto. split; [|auto]. unfold came_up. rewrite R.
      destruct (n_state n) eqn:St; try easy; unfold live in V; intuition congruence.
    + exfalso. destruct V as (_ & [V|V]); rewrite V in *; easy.
  - (* a node that was down *)
    right. exists n. cbn [with_map i_map] in H.
    destruct (n_role n) eqn:R.
    + (* a preserved master *)
      assert (St : n_state n = Down). { destruct (n_state n); try easy. }
      rewrite St in *. cbn [role_eqb] in *.
      destruct (other_live k (n_partition n) (i_map s)) eqn:OL.
      * apply (other_live_iff P) in OL; auto. destruct (AB n eq_refl R St OL) as (x & nx & Fx & Lx & Rx & Qx).
        assert (VX : mview (i_map s) x = Some (n_partition n, n_state nx)). { rewrite (mview_find _ _ _ Fx). unfold role_view. rewrite Rx, Qx. reflexivity. }
        assert (Nxk : x <> k) by (intros ->; congruence).
        assert (G' : good P (nset k (with_state (demoted n) Active) (i_map s))).
        { refine (good_set P P _ k n _ G Fk _ _ _ _).
          - repeat split.
          - split; auto.
          - change (role_view (with_state (demoted n) Active)) with (@None (Z * nstate)). eapply gview_leave; eauto.
          - change (role_view (with_state (demoted n) Active)) with (@None (Z * nstate)). intros y ny. rewrite nfind_set. intros Fy Ry.
            destruct (beq_spec y k) as [->|]; [injection Fy as <-; discriminate|]. apply SMOK; eauto.
            intros p t E. rewrite VK in E. injection E as <- <-. exists x, (n_state nx). unfold vset. destruct (beq_spec x k); easy. }
        destruct (FIN _ _ _ H eq_refl eq_refl eq_refl ltac:(repeat split) G') as (-> & X & Y & Z & W). exists P. split; auto. split; auto. split; [|auto]. unfold came_up. rewrite R, St. auto.
      * assert (NOL : ~ others_live (i_map s) k (n_partition n)) by (intros X; apply (other_live_iff P) in X; auto; congruence).
        assert (G' : good P (nset k (with_state n Active) (i_map s))).
        { refine (good_set P P _ k n _ G Fk (same_id_state _ _) _ _ _).
          - unfold valid_node. cbn [with_state n_role n_partition n_balance]. now rewrite R.
          - unfold role_view. cbn [with_state n_role n_partition n_state]. rewrite R. cbn [role_eqb]. apply gview_up; auto.
            + apply (gv_main _ _ GV). exists k, Down. split; auto. now right.
            + intros x t Nx X. apply mview_some in X as (nx & Fx & Rx & Qx & Sx). destruct (state_eqb_spec t Down) as [|Nt]; auto. exfalso. apply NOL. exists x, nx. unfold live. subst t. auto.
          - unfold role_view. cbn [with_state n_role n_partition n_state]. rewrite R. cbn [role_eqb]. intros x nx. rewrite nfind_set. intros Fx Rx.
            destruct (beq_spec x k) as [->|]; [injection Fx as <-; cbn in Rx; congruence|]. apply SMOK; eauto.
            intros p t E. exists k, Active. unfold vset. rewrite beq_refl. congruence. }
        destruct (FIN _ _ _ H eq_refl eq_refl eq_refl (same_id_state _ _) G') as (-> & X & Y & Z & W). exists P. split; auto. split; auto. split; [|auto]. unfold came_up. rewrite R, St. auto.
    + exfalso. destruct V as (_ & _ & V). unfold live in V. destruct (n_state n); easy.
    + (* a proxy *)
      assert (St : n_state n = Down) by (destruct V as (_ & [V|V]); easy). destruct V as (Q & _). cbn [role_eqb] in H.
      assert (E : with_state (with_part (with_role n Proxy) (-1)) Active = with_state n Active). { unfold with_state, with_part, with_role. cbn. now rewrite R, Q. }
      rewrite E in H.
      assert (G' : good P (nset k (with_state n Active) (i_map s))).
      { refine (good_minor P _ k n _ G Fk (same_id_state _ _) _ _ _).
        - unfold valid_node. cbn [with_state n_role n_partition n_state]. rewrite R. auto.
        - unfold role_view. cbn [with_state n_role]. now rewrite R.
        - cbn [with_state n_role]. rewrite R. discriminate. }
      destruct (FIN _ _ _ H eq_refl eq_refl eq_refl (same_id_state _ _) G') as (-> & X & Y & Z & W). exists P. split; auto. split; auto. split; [|auto]. unfold came_up. rewrite R, St. auto.
Qed.

(** *** remove *)
Lemma remove_node_spec P f s k r s' : inv P s -> f_save f = SaveOk -> remove_node f s k = Ok (r, s') ->
  (forall n, nfind k (i_map s) = Some n -> n_role n = Master -> n_state n = Down -> others_live (i_map s) k (n_partition n) ->
     exists k' n', nfind k' (i_map s) = Some n' /\ live n' /\ n_role n' = Master /\ n_partition n' = n_partition n) ->
  (s' = s /\ r = -1) \/ (exists n, nfind k (i_map s) = Some n /\ n_state n = Down /\ (n_role n = Master -> others_live (i_map s) k (n_partition n)) /\ r = 0 /\
    nfind k (i_map s') = None /\ same_except [k] (i_map s) (i_map s') /\ inv P s' /\ i_thread s' = i_thread s /\ i_version s' = u64 (i_version s + 1)).
Proof.
  intros I F H AB. unfold remove_node in H. apply (locked_cases _ _ P) in H as [(-> & -> & X0)|H]; auto.
  destruct I as [G T SY D]. destruct (nfind k (i_map s)) as [n|] eqn:Fk; [|left; split; congruence].
  destruct (state_eqb_spec (n_state n) Down) as [St|]; cbn [negb] in H; [|left; split; congruence].
  destruct (role_eqb (n_role n) Master && negb (other_live k (n_partition n) (i_map s))) eqn:C; [left; split; congruence|]. right. exists n.
  assert (OL : n_role n = Master -> others_live (i_map s) k (n_partition n)).
  { intros R. apply (other_live_iff P); auto. rewrite R in C. destruct (other_live _ _ _); easy. }
  pose proof (proj1 (good_iff _ _) G) as (O & KV & GV & SM).
  assert (VK := mview_find _ _ _ Fk). unfold role_view in VK.
  assert (MV : forall x, mview (nerase k (i_map s)) x = vset (mview (i_map s)) k None x). { intros x. unfold mview, vset. rewrite nfind_erase. now destruct (beq x k). }
  assert (IDS : same_ids (i_map s) (nerase k (i_map s))). { intros x nx. rewrite nfind_erase. destruct (beq x k); [easy|]. intros X. exists nx. split; auto. apply same_id_refl. }
  apply (commit_ok f _ P) in H as (I' & -> & M' & T' & V'); auto; cbn [with_map i_map i_thread i_version] in *.
  - split; auto. split; auto. split; auto. split; auto. rewrite M'. split; [rewrite nfind_erase, beq_refl; auto|]. split; [|auto].
    intros x Hx. rewrite nfind_erase. destruct (beq_spec x k) as [->|]; auto. exfalso. apply Hx. now left.
  - refine (good_change P P _ _ _ G _ IDS _ MV _ _).
    + now apply nerase_ordered.
    + intros x nx. rewrite nfind_erase. destruct (beq x k); [easy|]. apply (g_valid _ _ G).
    + destruct (role_eqb_spec (n_role n) Master) as [R|R].
      * destruct (AB n eq_refl R St (OL R)) as (x & nx & Fx & Lx & Rx & Qx). rewrite St in VK. eapply gview_leave with (x := x) (s := n_state nx); eauto.
        rewrite (mview_find _ _ _ Fx). unfold role_view. rewrite Rx, Qx. reflexivity.
      * eapply gview_ext; [|exact GV]. intros x. now rewrite vset_same.
    + intros x nx. rewrite nfind_erase. intros Fx Rx. destruct (beq_spec x k); [easy|]. destruct (SM _ _ Fx Rx) as (z & t & Z). unfold has_master, vset.
      destruct (beq_spec z k) as [->|]; [|exists z, t; destruct (beq_spec z k); easy].
      destruct (role_eqb_spec (n_role n) Master) as [R|R]; [|congruence]. rewrite VK in Z. injection Z as Z _.
      destruct (AB n eq_refl R St (OL R)) as (y & ny & Fy & Ly & Ry & Qy). exists y, (n_state ny). destruct (beq_spec y k) as [->|]; [congruence|].
      rewrite (mview_find _ _ _ Fy). unfold role_view. rewrite Ry, Qy, Z. reflexivity.
  - eapply threads_kept; eauto.
Qed.
