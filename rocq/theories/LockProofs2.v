(** Proofs for the lock model: the invariant. *)
From Coq Require Import NArith ZArith List Bool Lia ZifyBool ZifyNat ZifyN Permutation Sorting.Sorted.
From Verif Require Import Base BaseLemmas TextModel ClusterModel ClusterProofs LockModel LockSpec LockProofs.
Import ListNotations.
Local Open Scope N_scope.
Local Open Scope list_scope.

Section Proofs.
Context (uuid : N -> N -> bytes) (U : good_uuid uuid).

Lemma firstn_len {A} n (u r : list A) : length u = n -> firstn n (u ++ r) = u.
Proof. intros <-. rewrite firstn_app, Nat.sub_diag, firstn_all. cbn [firstn]. apply app_nil_r. Qed.
(** ** The queue of nodes *)
Definition named (G : N -> N) (n : znode) (q : N) : Prop := z_name n = node_name (lock_prefix (uuid (z_session n) (G (z_session n)))) q.
Record queue (next : N) (l : list znode) (G : N -> N) (qs : list N) : Prop := mkQueue {
  q_inc : StronglySorted N.lt qs; q_lt : Forall (fun q => q < next) qs; q_named : Forall2 (named G) l qs }.
Lemma queue_ascending next l G qs : next <= 2 ^ 31 -> queue next l G qs -> StronglySorted (fun a b => suffix_lt a b = true) (map z_name l).
Proof.
  intros L [I B M]. induction M as [|n q l qs Hn M IH]; cbn [map]; constructor.
  - inversion I; inversion B; subst. auto.
  - apply Forall_forall. intros x Hx. apply in_map_iff in Hx as (n' & <- & Hn'). inversion I as [|? ? _ F]; subst. inversion B as [|? ? Bq Bqs]; subst.
    assert (exists q', In q' qs /\ named G n' q') as (q' & Hq' & Hnm).
    { clear - M Hn'. induction M as [|a b l qs H M IH]; [destruct Hn'|]. destruct Hn' as [->|I]; [exists b; cbn; auto|]. destruct (IH I) as (q' & ? & ?). exists q'. cbn. auto. }
    rewrite Forall_forall in F, Bqs. rewrite Hn, Hnm, name_order by (try specialize (Bqs _ Hq'); lia). specialize (F _ Hq'). lia.
Qed.
Lemma name_session next l G qs a b : queue next l G qs -> In a l -> In b l -> z_name a = z_name b -> z_session a = z_session b.
Proof.
  intros [I B M] Ha Hb E. destruct U as (Inj & Len).
  assert (N : forall n, In n l -> exists q, named G n q). { clear - M. intros n H. induction M as [|a b l qs X M IH]; [destruct H|]. destruct H as [->|H]; eauto. }
  destruct (N a Ha) as (qa & Na). destruct (N b Hb) as (qb & Nb). rewrite Na, Nb in E. unfold node_name, lock_prefix in E.
  rewrite <- !app_assoc in E. apply (f_equal (firstn 36)) in E. rewrite !firstn_len in E by apply Len. now apply Inj in E as (E & _).
Qed.
Lemma queue_filter next l G qs f : queue next l G qs -> exists qs', queue next (filter f l) G qs'.
Proof.
  intros [I B M]. assert (exists qs', StronglySorted N.lt qs' /\ Forall2 (named G) (filter f l) qs' /\ incl qs' qs) as (qs' & A & C & D).
  { clear - I M. induction M as [|n q l qs H M IH]; cbn [filter]; [exists []; split; [constructor|split; [constructor|intros x []]]|].
    inversion I as [|? ? I' F]; subst. destruct (IH I') as (qs' & A & C & D). destruct (f n).
    - exists (q :: qs'). split; [constructor; auto; eapply incl_Forall; eauto|]. split; [now constructor|]. intros x [->|X]; [now left|right; now apply D].
    - exists qs'. split; auto. split; auto. intros x X. right. now apply D. }
  exists qs'. split; auto. eapply incl_Forall; eauto.
Qed.
Lemma queue_gen next l G G' qs : queue next l G qs -> (forall n, In n l -> G' (z_session n) = G (z_session n)) -> queue next l G' qs.
Proof.
  intros [I B M] H. split; auto. clear I B. induction M as [|n q l qs Hn M IH]; constructor.
  - unfold named in *. rewrite H by now left. exact Hn.
  - apply IH. intros n' I. apply H. now right.
Qed.
Lemma queue_app next l G qs x : queue next l G qs -> named G x next -> queue (next + 1) (l ++ [x]) G (qs ++ [next]).
Proof.
  intros [I B M] H. split.
  - clear M. induction I as [|q qs I IH F]; cbn [app]; [repeat constructor|]. inversion B as [|? ? Bq Bqs]; subst. constructor; [auto|].
    apply Forall_app. split; auto.
  - apply Forall_app. split; [eapply Forall_impl; [|exact B]; cbv beta; lia|]. constructor; [lia|constructor].
  - apply Forall2_app; auto.
Qed.
Lemma queue_next next l G qs : queue next l G qs -> queue (next + 1) l G qs.
Proof. intros [I B M]. split; auto. eapply Forall_impl; [|exact B]. cbv beta. lia. Qed.

(** ** One lock object *)
Definition mine (l : list znode) (i : N) (x : bytes) : Prop := In (mkZnode x i) l.
Definition none (l : list znode) (i : N) : Prop := forall x, ~ mine l i x.
Definition head (l : list znode) (i : N) (x : bytes) : Prop := exists t, l = mkZnode x i :: t.
Definition run_ok (l : list znode) (i : N) (k : lock) (r : rpc) : Prop :=
  match r with
  | RCreate _ => none l i /\ l_id k = []
  | RList2 _ | RWatch _ | RLose => mine l i (l_id k)
  | RWin => head l i (l_id k)
  | RList | RDone _ => True
  | RGive => False
  end.
Definition main_ok (l : list znode) (i : N) (k : lock) : Prop :=
  match l_main k with
  | MIdle => none l i /\ l_id k = [] /\ l_owner k = false
  | MLock RGive => l_id k <> [] /\ l_owner k = false /\ l_wat k = WIdle
  | MLock (RDone ok) => l_wat k = WIdle /\ (l_owner k = true -> head l i (l_id k))
  | MLock r => run_ok l i k r /\ l_wat k = WIdle /\ l_owner k = false
  | MWait _ | MDrop => l_owner k = true -> head l i (l_id k)
  | MPoll r => run_ok l i k r /\ (l_owner k = true -> head l i (l_id k))
  | MHeld => head l i (l_id k)
  | MUnlock => l_id k <> [] /\ l_wat k = WIdle
  end.
Definition wat_ok (l : list znode) (i : N) (k : lock) : Prop :=
  match l_wat k with
  | WIdle => True
  | WRun r => mine l i (l_id k) /\ run_ok l i k r /\ match l_main k with MIdle | MLock _ | MUnlock => False | _ => True end
  end.
Definition free_id (k : lock) : Prop := l_main k = MUnlock \/ l_main k = MLock RGive.
Definition formed (i : N) (k : lock) (x : bytes) : Prop := exists q, x = node_name (lock_prefix (uuid i (l_gen k))) q.
Record linv (l : list znode) (i : N) (k : lock) : Prop := mkLinv {
  l_form : l_id k <> [] -> formed i k (l_id k);
  l_mine : l_id k <> [] -> free_id k \/ mine l i (l_id k);
  l_only : l_id k <> [] -> forall x, mine l i x -> x = l_id k;
  l_mok : main_ok l i k;
  l_wok : wat_ok l i k }.
Record inv (s : st) : Prop := mkInv {
  i_queue : exists qs, queue (z_next s) (z_nodes s) (fun j => l_gen (locks s j)) qs;
  i_one : NoDup (map z_session (z_nodes s));
  i_live : forall n, In n (z_nodes s) -> l_alive (locks s (z_session n)) = true;
  i_locks : forall i, l_alive (locks s i) = true -> linv (z_nodes s) i (locks s i) }.

(** ** What other objects do *)
Lemma linv_sub l l' j k : (forall x, mine l' j x <-> mine l j x) -> (forall x, head l j x -> head l' j x) -> linv l j k -> linv l' j k.
Proof.
  intros M H [Fo A B C D].
  assert (R : forall r, run_ok l j k r -> run_ok l' j k r).
  { intros r. destruct r; cbn [run_ok]; auto; try (now rewrite M). intros (N & E). split; auto. intros x X. apply M in X. now apply (N x). }
  split.
  - exact Fo.
  - intros E. destruct (A E); auto. right. now apply M.
  - intros E x X. apply B; auto. now apply M.
  - unfold main_ok in *. destruct (l_main k) as [|r| |r| | |]; auto.
    + destruct C as (N & E). split; auto. intros x X. apply M in X. now apply (N x).
    + destruct r; try tauto; try (destruct C as (C1 & C2 & C3); split; [apply R; exact C1|auto]; fail). destruct C; auto.
    + destruct C as (C1 & C2). split; auto.
  - unfold wat_ok in *. destruct (l_wat k); auto. destruct D as (D1 & D2 & D3). rewrite M. auto.
Qed.
Lemma linv_filter l f i j k : (forall n, In n l -> z_session n <> i -> f n = true) -> j <> i -> linv l j k -> linv (filter f l) j k.
Proof.
  intros F N. apply linv_sub.
  - intros x. unfold mine. rewrite filter_In. split; [tauto|]. intros I. split; auto.
  - intros x (t & ->). exists (filter f t). cbn [filter]. rewrite F; auto. now left.
Qed.
Lemma linv_app l x i j k : j <> i -> linv l j k -> linv (l ++ [mkZnode x i]) j k.
Proof.
  intros N. apply linv_sub.
  - intros y. unfold mine. rewrite in_app_iff. cbn [In]. split; [|auto]. intros [H|[H|[]]]; auto. congruence.
  - intros y (t & ->). now exists (t ++ [mkZnode x i]).
Qed.
Lemma NoDup_sub_filter l f : NoDup (map z_session l) -> NoDup (map z_session (filter f l)).
Proof.
  induction l as [|n l IH]; cbn [map filter]; auto. intros H. inversion H as [|? ? N D]; subst. destruct (f n); auto. cbn [map]. constructor; auto.
  intros I. apply N. apply in_map_iff in I as (m & E & I). apply filter_In in I as (I & _). rewrite <- E. now apply in_map.
Qed.
Lemma mine_unique l i x y : NoDup (map z_session l) -> mine l i x -> mine l i y -> x = y.
Proof.
  unfold mine. induction l as [|n l IH]; cbn [map]; intros D A B; [destruct A|]. inversion D as [|? ? N D']; subst.
  assert (G : forall z, In (mkZnode z i) l -> In i (map z_session l)) by (intros z Z; change i with (z_session (mkZnode z i)); now apply in_map).
  destruct A as [->|A], B as [B|B]; cbn [z_session] in *.
  - congruence.
  - exfalso. apply N. eauto.
  - subst n. exfalso. apply N. cbn. eauto.
  - auto.
Qed.
Lemma mine_formed s i x : inv s -> mine (z_nodes s) i x -> formed i (locks s i) x.
Proof.
  intros [(qs & [_ _ M]) _ _ _] I. unfold mine in I. revert I. induction M as [|n q l qs' H M IH]; intros I; [destruct I|].
  destruct I as [->|I]; auto. exists q. exact H.
Qed.
Lemma head_mine l i x : head l i x -> mine l i x. Proof. intros (t & ->). now left. Qed.
Lemma name_nonnil p n : node_name (lock_prefix p) n <> [].
Proof. unfold node_name, lock_prefix. destruct p; discriminate. Qed.
Lemma mine_nonnil s i x : inv s -> mine (z_nodes s) i x -> x <> [].
Proof.
  intros [(qs & [_ _ M]) _ _ _] I. unfold mine in I. revert I. induction M as [|n q l qs' H M IH]; intros I; [destruct I|].
  destruct I as [->|I]; auto. rewrite H in *. unfold named in H. cbn [z_name z_session] in H. rewrite H. apply name_nonnil.
Qed.

(** ** Own steps *)
(** A change of the lock object alone. *)
Lemma inv_own s i k : inv s -> l_gen k = l_gen (locks s i) -> l_alive k = l_alive (locks s i) ->
  (l_alive k = true -> linv (z_nodes s) i (locks s i) -> linv (z_nodes s) i k) -> inv (set_lock s i k).
Proof.
  intros [Q O L K] G A H. split; cbn [set_lock z_next z_nodes locks]; auto.
  - destruct Q as (qs & Q). exists qs. eapply queue_gen; eauto. cbv beta. intros n _. destruct (z_session n =? i) eqn:E; auto. apply N.eqb_eq in E. now rewrite E.
  - intros n I. destruct (z_session n =? i) eqn:E; auto. apply N.eqb_eq in E. rewrite A. rewrite <- E. auto.
  - intros j. destruct (j =? i) eqn:E; auto. apply N.eqb_eq in E as ->. intros V. apply H; auto. apply K. now rewrite <- A.
Qed.
(** Own nodes go. *)
Lemma inv_filter s i k f : inv s -> (forall n, In n (z_nodes s) -> z_session n <> i -> f n = true) ->
  (l_gen k = l_gen (locks s i) \/ none (filter f (z_nodes s)) i) -> (l_alive k = true \/ none (filter f (z_nodes s)) i) ->
  (l_alive k = true -> linv (filter f (z_nodes s)) i k) -> inv (set_lock (set_nodes s (filter f (z_nodes s))) i k).
Proof.
  intros [Q O L K] F G A H. split; cbn [set_lock set_nodes z_next z_nodes locks].
  - destruct Q as (qs & Q). destruct (queue_filter _ _ _ _ f Q) as (qs' & Q'). exists qs'. eapply queue_gen; eauto. cbv beta. intros n I.
    destruct (z_session n =? i) eqn:E; auto. apply N.eqb_eq in E. destruct G as [G|G]; [now rewrite E|]. destruct n as [x j]. cbn in E. subst j. destruct (G x I).
  - now apply NoDup_sub_filter.
  - intros n I. destruct (z_session n =? i) eqn:E; [|apply L; now apply filter_In in I]. apply N.eqb_eq in E. destruct A as [A|A]; auto.
    destruct n as [x j]. cbn in E. subst j. destruct (A x I).
  - intros j. destruct (j =? i) eqn:E; [apply N.eqb_eq in E as ->; auto|]. intros V. eapply linv_filter; eauto. lia.
Qed.
(** A node is created. *)
Lemma inv_create s i k : inv s -> l_gen k = l_gen (locks s i) -> l_alive k = true -> none (z_nodes s) i ->
  linv (z_nodes s ++ [mkZnode (node_name (prefix uuid s i) (z_next s)) i]) i k ->
  inv (set_lock (fst (create uuid s i)) i k).
Proof.
  intros [Q O L K] G A N H. split; cbn [set_lock create fst z_next z_nodes locks].
  - destruct Q as (qs & Q). exists (qs ++ [z_next s]). eapply queue_gen; [apply queue_app; [exact Q|]|].
    + unfold named. cbn [z_name z_session]. reflexivity.
    + cbv beta. intros n _. destruct (z_session n =? i) eqn:E; auto. apply N.eqb_eq in E. now rewrite E.
  - rewrite map_app. cbn [map z_session]. eapply Permutation_NoDup; [apply Permutation_cons_append|]. constructor; auto.
    intros I. apply in_map_iff in I as ([x j] & E & I). cbn in E. subst j. now apply (N x).
  - intros n I. destruct (z_session n =? i) eqn:E; auto. apply in_app_or in I as [I|[<-|[]]]; auto. cbn in E. lia.
  - intros j. destruct (j =? i) eqn:E; [apply N.eqb_eq in E as ->; auto|]. intros V. apply linv_app; auto. lia.
Qed.
End Proofs.
