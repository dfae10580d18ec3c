(** Proofs for the cluster model: a node goes down. *)
From Coq Require Import ZArith NArith List Bool Lia ZifyBool ZifyNat ZifyN.
From Verif Require Import Base BaseLemmas TextModel ClusterModel ClusterSpec ClusterProofs ClusterProofs2 ClusterProofs3 ClusterProofs4.
Import ListNotations.
Local Open Scope Z_scope.
Local Open Scope list_scope.

Definition same_id (n n' : node) : Prop := n_name n' = n_name n /\ n_port n' = n_port n /\ n_thread n' = n_thread n.
(** No node is new or changes its identity. *)
Definition same_ids (m m' : node_map) : Prop := forall k n', nfind k m' = Some n' -> exists n, nfind k m = Some n /\ same_id n n'.
Lemma threads_kept m m' t : threads_ok m t -> same_ids m m' -> threads_ok m' t.
Proof.
  intros (T0 & T1 & T2) S. split; auto. split.
  - intros k n' F. destruct (S _ _ F) as (n & F' & (_ & _ & ->)). eauto.
  - intros k1 n1 k2 n2 F1 F2. destruct (S _ _ F1) as (n1' & F1' & (_ & _ & ->)). destruct (S _ _ F2) as (n2' & F2' & (_ & _ & ->)). eauto.
Qed.
Lemma good_change P P' m m' V : good P m -> nordered m' -> same_ids m m' -> (forall k n, nfind k m' = Some n -> valid_node n) ->
  (forall x, mview m' x = V x) -> gview P' V -> (forall k n, nfind k m' = Some n -> n_role n = Slave -> has_master V (n_partition n)) -> good P' m'.
Proof.
  intros G O I W E GV SM. apply good_iff. split; auto. split; [|split].
  - intros k n F. split; [|eauto]. destruct (I _ _ F) as (n0 & F0 & (-> & -> & _)). eapply g_key; eauto.
  - eapply gview_ext; [|eauto]. intros x. now rewrite E.
  - intros k n F R. destruct (SM _ _ F R) as (x & s & X). exists x, s. now rewrite E.
Qed.
(** One node changes. *)
Lemma upd_nat k n f m : nfind k m = Some n -> nupd k f m = nset k (f n) m.
Proof. intros E. unfold nupd. now rewrite (nat_some _ _ _ E). Qed.
Lemma same_ids_set m k n n' : nfind k m = Some n -> same_id n n' -> same_ids m (nset k n' m).
Proof.
  intros F I x nx. rewrite nfind_set. destruct (beq_spec x k) as [->|]; [intros [= <-]; eauto|]. intros X. exists nx. repeat split; auto.
Qed.
Definition role_view (n : node) : option (Z * nstate) := if role_eqb (n_role n) Master then Some (n_partition n, n_state n) else None.
Lemma mview_set m k n' x : mview (nset k n' m) x = vset (mview m) k (role_view n') x.
Proof. unfold mview, vset. rewrite nfind_set. now destruct (beq x k). Qed.
Lemma mview_find m k n : nfind k m = Some n -> mview m k = role_view n.
Proof. unfold mview. now intros ->. Qed.
Lemma good_set P P' m k n n' : good P m -> nfind k m = Some n -> same_id n n' -> valid_node n' ->
  gview P' (vset (mview m) k (role_view n')) ->
  (forall x nx, nfind x (nset k n' m) = Some nx -> n_role nx = Slave -> has_master (vset (mview m) k (role_view n')) (n_partition nx)) -> good P' (nset k n' m).
Proof.
  intros G F I V GV SM. refine (good_change P P' m _ _ G _ _ _ _ GV SM).
  - apply nset_ordered, (g_ord _ _ G).
  - eapply same_ids_set; eauto.
  - intros x nx. rewrite nfind_set. destruct (beq x k); [now intros [= <-]|apply (g_valid _ _ G)].
  - intros x. apply mview_set.
Qed.
Lemma vset_same V k v : V k = v -> forall x, vset V k v x = V x.
Proof. intros E x. unfold vset. destruct (beq_spec x k) as [->|]; auto. Qed.
(** A change that the masters do not notice. *)
Lemma good_minor P m k n n' : good P m -> nfind k m = Some n -> same_id n n' -> valid_node n' ->
  role_view n' = role_view n -> (n_role n' = Slave -> has_master (mview m) (n_partition n')) -> good P (nset k n' m).
Proof.
  intros G F I V RV SM. pose proof (proj1 (good_iff _ _) G) as (_ & _ & GV & S).
  assert (E : forall x, vset (mview m) k (role_view n') x = mview m x). { apply vset_same. rewrite RV. now apply mview_find. }
  eapply good_set; eauto.
  - eapply gview_ext; [|exact GV]. intros x. now rewrite E.
  - intros x nx. rewrite nfind_set. intros X R. assert (HM : has_master (mview m) (n_partition nx)).
    { destruct (beq_spec x k) as [->|]; [injection X as <-; auto|eauto]. }
    destruct HM as (y & s & Y). exists y, s. now rewrite E.
Qed.

(** ** The slaves in the tables *)
Definition slave_list (p : Z) (m : node_map) : list (bytes * Z) := map (fun kn => (fst kn, share (snd kn))) (slaves_of p m).
Lemma table_slaves near mn sl : p_slaves (table near mn sl) = map (fun kn => (fst kn, share (snd kn))) sl.
Proof. unfold table. cbn [p_slaves]. rewrite map_map. reflexivity. Qed.
Lemma main_slaves P s p : good P (i_map s) -> synced s -> 0 <= p < P -> p_slaves (pat p (i_parts s)) = slave_list p (i_map s) /\ ptouch p (i_parts s) = i_parts s.
Proof.
  intros G (O1 & O2 & M & Q) Hp. specialize (M p) as Mp. unfold main_table in Mp. rewrite (proj2 (main_exists P _ p G) Hp) in Mp.
  split.
  - unfold pat. rewrite Mp. apply table_slaves.
  - unfold ptouch, pat. rewrite Mp. apply pmap_ext; auto using pset_ordered. intros x. rewrite pfind_set. destruct (Z.eqb_spec x p) as [->|]; auto.
Qed.
Lemma prep_slaves P s k n : good P (i_map s) -> synced s -> nfind k (i_map s) = Some n -> n_role n = Master -> ~ settled n ->
  p_slaves (pat P (i_prep s)) = slave_list P (i_map s) /\ ptouch P (i_prep s) = i_prep s.
Proof.
  intros G (O1 & O2 & M & Q) F R S. specialize (Q P) as Qp. assert (HP := g_prep _ _ G _ _ F R S).
  assert (NN : prep_table P (i_map s) <> None). { apply (prep_table_iff P _ P G). exists k, n. auto. }
  assert (MN : main_table (fun _ => false) P (i_map s) = None).
  { destruct (main_table _ P _) eqn:X; auto. assert (Y : main_table (fun _ => false) P (i_map s) <> None) by congruence. apply (main_table_iff P _ _ _ G) in Y. lia. }
  unfold prep_table in NN, Qp. destruct (master_of [Prepare; Ready] P (i_map s)) as [kn|] eqn:MO; [|easy]. rewrite MN in Qp. split.
  - unfold pat. rewrite Qp. apply table_slaves.
  - unfold ptouch, pat. rewrite Qp. apply pmap_ext; auto using pset_ordered. intros x. rewrite pfind_set. destruct (Z.eqb_spec x P) as [->|]; auto.
Qed.
Lemma slave_list_in P m p k b : good P m -> In (k, b) (slave_list p m) <-> exists n, nfind k m = Some n /\ n_role n = Slave /\ n_partition n = p /\ b = share n.
Proof.
  intros G. unfold slave_list. rewrite in_map_iff. split.
  - intros ((k', n) & [= <- <-] & I). unfold slaves_of in I. apply filter_In in I as (I & E). apply is_slave_iff in E as (R & L & Q & _). cbn [fst snd] in *.
    apply (nfind_in _ _ _ (g_ord _ _ G)) in I. eauto.
  - intros (n & F & R & Q & ->). exists (k, n). split; auto. apply filter_In. split; [now apply (nfind_in _ _ _ (g_ord _ _ G))|].
    pose proof (g_valid _ _ G _ _ F) as V. unfold valid_node in V. rewrite R in V. apply is_slave_iff. cbn [snd]. intuition lia.
Qed.
Lemma slave_list_ordered m p : nordered m -> @ordered bytes Z blt (slave_list p m).
Proof.
  intros O. unfold slave_list, slaves_of. induction O as [|k v m H O IH]; cbn [filter map snd fst]; [constructor|].
  destruct (is_slave p v); auto. cbn [map fst snd]. constructor; auto. intros k' I. apply H.
  rewrite map_map in I. cbn [fst] in I. apply in_map_iff in I as (x & <- & I). apply filter_In in I as (I & _). now apply in_map.
Qed.

(** ** The election *)
Definition total (l : list (bytes * Z)) : Z := fold_right (fun kb a => snd kb + a) 0 l.
Definition is_act (m : node_map) (k : bytes) : bool := state_eqb (n_state (nat_ k m)) Active.
Lemma add_int_ok a b c : add_int a b = Ok c -> c = a + b.
Proof. unfold add_int. destruct (_ && _); congruence. Qed.
(** [w] is the first of the largest among the active ones of [l]. *)
Definition best (m : node_map) (l : list (bytes * Z)) (w : bytes) (b : Z) : Prop :=
  exists l1 l2, l = l1 ++ (w, b) :: l2 /\ is_act m w = true /\
    (forall x c, In (x, c) l1 -> is_act m x = true -> c < b) /\ (forall x c, In (x, c) l2 -> is_act m x = true -> c <= b).
Lemma pick_slave_spec l m key prev sum m' key' sum' :
  nordered m -> (forall k b, In (k, b) l -> k <> [] /\ nfind k m <> None) ->
  pick_slave l m key prev sum = Ok (m', key', sum') ->
  m' = m /\ sum' = sum + total l /\
  (if beq key [] then (key' = [] /\ (forall k b, In (k, b) l -> is_act m k = false)) \/ (exists b, best m l key' b)
   else (key' = key /\ (forall k b, In (k, b) l -> is_act m k = true -> b <= prev)) \/ (exists b, best m l key' b /\ prev < b)).
Proof.
  intros O. revert key prev sum. induction l as [|(k, b) l IH]; intros key prev sum H; cbn [pick_slave].
  - intros [= <- <- <-]. cbn [total fold_right]. rewrite Z.add_0_r. repeat split; auto. destruct (beq_spec key []); left; split; auto; intros ? ? [].
  - destruct (H k b (or_introl eq_refl)) as (Kn & Kf). destruct (nfind k m) as [n|] eqn:Fk; [|easy].
    rewrite (ntouch_id _ _ _ O Fk). destruct (add_int sum b) eqn:A; cbn [bind]; try easy. apply add_int_ok in A as ->.
    change (state_eqb (n_state (nat_ k m)) Active) with (is_act m k).
    assert (H' : forall k b, In (k, b) l -> k <> [] /\ nfind k m <> None) by (intros; apply (H k0 b0); now right).
    cbn [total fold_right snd]. fold (total l).
    destruct (is_act m k && (beq key [] || (prev <? b))) eqn:C; intros E; apply IH in E as (-> & -> & X); auto; (split; [reflexivity|]; split; [lia|]).
    + apply andb_prop in C as (C1 & C2). destruct (beq_spec k []); [easy|].
      assert (R : exists b', best m ((k, b) :: l) key' b' /\ b <= b').
      { destruct X as [(-> & X)|(b' & (l1 & l2 & -> & W & X1 & X2) & Lt)].
        - exists b. split; [|lia]. exists [], l. repeat split; auto. intros ? ? [].
        - exists b'. split; [|lia]. exists ((k, b) :: l1), l2. repeat split; auto. intros x c [[= <- <-]|I]; eauto. }
      destruct R as (b' & R & Le). destruct (beq_spec key []); right; exists b'; auto. cbn [orb] in C2. split; auto. lia.
    + destruct (beq_spec key []) as [->|Nk].
      * cbn [orb] in C. rewrite andb_true_r in C. destruct X as [(-> & X)|(b' & (l1 & l2 & -> & W & X1 & X2))].
        -- left. split; auto. intros k0 b0 [[= <- <-]|I]; eauto.
        -- right. exists b'. exists ((k, b) :: l1), l2. repeat split; auto. intros x c [[= <- <-]|I]; eauto. congruence.
      * cbn [orb] in C. destruct X as [(-> & X)|(b' & (l1 & l2 & -> & W & X1 & X2) & Lt)].
        -- left. split; auto. intros k0 b0 [[= <- <-]|I]; eauto. intros Ak. rewrite Ak in C. cbn [andb] in C. lia.
        -- right. exists b'. split; auto. exists ((k, b) :: l1), l2. repeat split; auto. intros x c [[= <- <-]|I] Ax; eauto. rewrite Ax in C. cbn [andb] in C. lia.
Qed.
Lemma ordered_split {V} (l1 : list (bytes * V)) k v l2 : ordered blt (l1 ++ (k, v) :: l2) ->
  (forall x c, In (x, c) l1 -> blt x k = true) /\ (forall x c, In (x, c) l2 -> blt k x = true).
Proof.
  induction l1 as [|(k1, v1) l1 IH]; cbn [app]; intros O; inversion O; subst.
  - split; [intros ? ? []|]. intros x c I. apply H1. change x with (fst (x, c)). now apply in_map.
  - destruct (IH H3) as (A & B). split; auto. intros x c [[= <- <-]|I]; eauto. apply H1. rewrite map_app. apply in_or_app. right. now left.
Qed.
Lemma best_successor P m p w b : good P m -> best m (slave_list p m) w b -> exists nw, successor m p w nw /\ n_balance nw = b.
Proof.
  intros G (l1 & l2 & E & W & X1 & X2).
  assert (I : In (w, b) (slave_list p m)). { rewrite E. apply in_or_app. right. now left. }
  apply (slave_list_in P m p w b G) in I as (nw & F & R & Q & ->). unfold is_act in W. rewrite (nat_some _ _ _ F) in W.
  destruct (state_eqb_spec (n_state nw) Active) as [A|]; [|easy]. assert (SH : share nw = n_balance nw). { unfold share. now rewrite A. }
  exists nw. split; auto. split; [repeat split; auto|]. intros x nx (Fx & Rx & Sx & Qx) Nx.
  assert (Ix : In (x, share nx) (slave_list p m)). { apply (slave_list_in P m p _ _ G). eauto 6. }
  assert (Ax : is_act m x = true). { unfold is_act. rewrite (nat_some _ _ _ Fx), Sx. reflexivity. }
  assert (SHx : share nx = n_balance nx). { unfold share. now rewrite Sx. }
  pose proof (slave_list_ordered m p (g_ord _ _ G)) as OL. rewrite E in OL, Ix. apply ordered_split in OL as (_ & OL).
  rewrite SHx, SH in *. apply in_app_or in Ix as [Ix|[Ix|Ix]].
  - left. specialize (X1 _ _ Ix Ax). lia.
  - injection Ix as <- _. easy.
  - specialize (X2 _ _ Ix Ax). specialize (OL _ _ Ix). destruct (Z.eq_dec (n_balance nx) (n_balance nw)); [right; auto|left; lia].
Qed.
Lemma total_zero P m p : good P m -> total (slave_list p m) = 0 <-> (forall k n, active_slave m p k n -> n_balance n = 0).
Proof.
  intros G.
  assert (NN : forall k b, In (k, b) (slave_list p m) -> 0 <= b).
  { intros k b I. apply (slave_list_in P m p k b G) in I as (n & F & R & Q & ->). pose proof (g_valid _ _ G _ _ F) as V. unfold valid_node in V. rewrite R in V. unfold share. destruct (state_eqb _ _); lia. }
  assert (T : total (slave_list p m) = 0 <-> forall k b, In (k, b) (slave_list p m) -> b = 0).
  { induction (slave_list p m) as [|(k, b) l IH]; cbn [total fold_right snd]; [split; [intros _ ? ? []|auto]|]. fold (total l).
    assert (0 <= total l /\ 0 <= b).
    { split; [|apply (NN k b); now left]. clear IH. assert (forall k b, In (k, b) l -> 0 <= b) by (intros; eapply NN; right; eauto). clear NN. induction l as [|(k1, b1) l IHl]; cbn [total fold_right snd]; [lia|]. fold (total l). assert (0 <= b1) by (eapply H; now left). assert (0 <= total l) by (apply IHl; intros; eapply H; right; eauto). lia. }
    split.
    - intros E k0 b0 [[= <- <-]|I]; [lia|]. eapply IH; eauto; [intros; eapply NN; right; eauto|lia].
    - intros E. assert (b = 0) by (eapply E; now left). assert (total l = 0); [|lia]. apply IH; [intros; eapply NN; right; eauto|]. intros; eapply E; right; eauto. }
  rewrite T. split.
  - intros H k n (F & R & S & Q). assert (I : In (k, share n) (slave_list p m)) by (apply (slave_list_in P m p k _ G); eauto). apply H in I. unfold share in I. now rewrite S in I.
  - intros H k b I. apply (slave_list_in P m p k b G) in I as (n & F & R & Q & ->). unfold share. destruct (state_eqb_spec (n_state n) Active); auto. apply (H k n). repeat split; auto.
Qed.
(** ** Releasing slaves *)
Lemma mem_In x l : mem x l = true <-> In x l.
Proof.
  unfold mem. rewrite existsb_exists. split.
  - intros (y & I & E). apply beq_eq in E as ->. exact I.
  - intros I. exists x. split; auto. apply beq_refl.
Qed.
Lemma release_spec l m : NoDup (map fst l) -> (nordered m -> nordered (release m l)) /\
  forall x, nfind x (release m l) = if mem x (map fst l) then Some (with_state (demoted (nat_ x m)) Active) else nfind x m.
Proof.
  unfold release. revert m. induction l as [|(k, b) l IH]; intros m ND; cbn [fold_left map fst mem].
  - auto.
  - inversion ND as [|? ? Ni ND']; subst. destruct (IH (nupd k (fun n => with_state (demoted n) Active) m) ND') as (O & F). split.
    + intros Om. apply O. now apply nupd_ordered.
    + intros x. rewrite F, nfind_upd. unfold nat_. rewrite nfind_upd.
      destruct (beq_spec x k) as [->|].
      * destruct (mem k (map fst l)) eqn:M; [exfalso; apply Ni; now apply mem_In|]. unfold mem. cbn [existsb]. rewrite beq_refl. reflexivity.
      * unfold mem. cbn [existsb]. destruct (beq_spec x k); [easy|]. reflexivity.
Qed.
