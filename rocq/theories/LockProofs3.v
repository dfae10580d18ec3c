(** Proofs for the lock model: every step keeps the invariant. *)
From Coq Require Import NArith ZArith List Bool Lia ZifyBool ZifyNat ZifyN Permutation Sorting.Sorted.
From Verif Require Import Base BaseLemmas TextModel ClusterModel ClusterProofs LockModel LockSpec LockProofs LockProofs2.
Import ListNotations.
Local Open Scope N_scope.
Local Open Scope list_scope.

Section Proofs.
Context (uuid : N -> N -> bytes) (U : good_uuid uuid).
Notation inv := (inv uuid). Notation linv := (linv uuid). Notation step := (step uuid). Notation lock_step := (lock_step uuid).

(** ** The children *)
Lemma has_in x l : has x l = true <-> In x l.
Proof. unfold has. rewrite existsb_exists. split; [intros (y & I & E); apply beq_eq in E as ->; auto|]. intros I. exists x. split; auto. apply beq_refl. Qed.
Lemma prefix_length s i : List.length (prefix uuid s i) = 42%nat.
Proof. unfold prefix, lock_prefix. rewrite app_length. destruct U as (_ & L). rewrite L. reflexivity. Qed.
Lemma lookup_some s i l c : inv s -> same_names l (names s) = true -> lookup_node l (prefix uuid s i) = Some c -> mine (z_nodes s) i c.
Proof.
  intros V P F. apply find_some in F as (I & E). apply beq_eq in E. apply same_names_perm in P. 
  eapply Permutation_in in I; [|exact P]. unfold names in I. apply in_map_iff in I as ([x j] & <- & I). cbn [z_name] in *.
  pose proof V as V0. destruct V as [(qs & Q) O A B]. destruct Q as [_ _ M].
  assert (exists q, named uuid (fun j => l_gen (locks s j)) (mkZnode x j) q) as (q & Nq).
  { clear - M I. induction M as [|a b m qs H M IH]; [destruct I|]. destruct I as [->|I]; eauto. }
  unfold named in Nq. cbn [z_name z_session] in Nq. unfold node_name in Nq. rewrite Nq in E. rewrite prefix_length in E.
  rewrite firstn_len in E. 2:{ rewrite <- (prefix_length s j). reflexivity. }
  destruct U as (Inj & Len). unfold prefix, lock_prefix in E. apply app_inv_tail in E. apply Inj in E as (-> & _). exact I.
Qed.
Lemma lookup_none s i l : inv s -> same_names l (names s) = true -> lookup_node l (prefix uuid s i) = None -> none (z_nodes s) i.
Proof.
  intros V P F x I. apply same_names_perm in P.
  assert (In x l) as X. { eapply Permutation_in; [apply Permutation_sym; exact P|]. unfold names. change x with (z_name (mkZnode x i)). now apply in_map. }
  apply (find_none _ _ F) in X. destruct V as [(qs & [_ _ M]) O A B].
  assert (exists q, named uuid (fun j => l_gen (locks s j)) (mkZnode x i) q) as (q & Nq).
  { clear - M I. unfold mine in I. induction M as [|a b m qs H M IH]; [destruct I|]. destruct I as [->|I]; eauto. }
  unfold named in Nq. cbn [z_name z_session] in Nq. unfold node_name in Nq.
  rewrite Nq in X. rewrite prefix_length, firstn_len in X by (apply (prefix_length s i)). now rewrite beq_refl in X.
Qed.
Lemma decide_own s i l0 l r : inv s -> z_next s <= 2 ^ 31 -> same_names l (names s) = true -> mine (z_nodes s) i (l_id (locks s i)) ->
  decide (match l with [] => l0 | _ => l end) (l_id (locks s i)) = Ok r ->
  (r = RWin /\ head (z_nodes s) i (l_id (locks s i))) \/ (exists p, r = RWatch p /\ In p (names s) /\ suffix_lt p (l_id (locks s i)) = true).
Proof.
  intros V L P I D. pose proof (same_names_perm _ _ P) as P'. 
  assert (X : In (l_id (locks s i)) (names s)) by (unfold names; change (l_id (locks s i)) with (z_name (mkZnode (l_id (locks s i)) i)); now apply in_map).
  destruct l as [|y l]; [apply Permutation_nil in P'; rewrite P' in X; destruct X|].
  destruct V as [(qs & Q) O A B]. pose proof (queue_ascending _ _ _ _ _ L Q) as S.
  destruct (decide_spec _ _ _ S P' X) as (f & t & E & [(E1 & E2)|(E1 & p & E2 & E3 & E4)]); rewrite D in *.
  - left. injection E2 as ->. split; auto. destruct (z_nodes s) as [|[x j] ns] eqn:Ns; [discriminate|]. cbn [map z_name] in E. injection E as E0 _. assert (x = l_id (locks s i)) as -> by congruence.
    exists ns. f_equal. f_equal.
    assert (H : j = i). { pose proof (name_session uuid U _ _ _ _ (mkZnode (l_id (locks s i)) j) (mkZnode (l_id (locks s i)) i) Q (or_introl eq_refl) I eq_refl) as H. exact H. }
    exact H.
  - right. injection E4 as ->. exists p. auto.
Qed.
Lemma delete_others s i k x n : inv s -> formed uuid i k x -> In n (z_nodes s) -> z_session n <> i -> negb (beq x (z_name n)) = true.
Proof.
  intros V (q & F) J N. destruct (beq x (z_name n)) eqn:E; auto. apply beq_eq in E. exfalso. apply N. destruct V as [(qs & [_ _ M]) _ _ _].
  assert (exists q', named uuid (fun j => l_gen (locks s j)) n q') as (q' & Nq).
  { clear - M J. induction M as [|a b m qs H M IH]; [destruct J|]. destruct J as [->|J]; eauto. }
  rewrite F, Nq in E. unfold node_name, lock_prefix in E. rewrite <- !app_assoc in E. apply (f_equal (firstn 36)) in E. destruct U as (Inj & Len).
  rewrite !firstn_len in E by apply Len. now apply Inj in E as (-> & _).
Qed.
Lemma delete_absent s x : ~ In x (names s) -> filter (fun n => negb (beq x (z_name n))) (z_nodes s) = z_nodes s.
Proof.
  unfold names. induction (z_nodes s) as [|n l IH]; auto. cbn [map In filter]. intros H. destruct (beq x (z_name n)) eqn:E; [apply beq_eq in E; exfalso; apply H; left; congruence|].
  cbn [negb]. rewrite IH; auto.
Qed.

(** ** Steps of a run *)
Lemma inv_ext s s' : inv s -> z_next s' = z_next s -> z_nodes s' = z_nodes s -> (forall j, locks s' j = locks s j) -> inv s'.
Proof.
  intros [Q O L K] E1 E2 E3. split.
  - destruct Q as (qs & Q). exists qs. rewrite E1, E2. eapply queue_gen; eauto. cbv beta. intros n _. now rewrite E3.
  - now rewrite E2.
  - intros n. rewrite E2, E3. auto.
  - intros i. rewrite E2, E3. auto.
Qed.
Lemma set_set s i a b j : locks (set_lock (set_lock s i a) i b) j = locks (set_lock s i b) j.
Proof. cbn [set_lock locks]. now destruct (j =? i). Qed.
Lemma locks_set s i k : locks (set_lock s i k) i = k. Proof. cbn [set_lock locks]. now rewrite N.eqb_refl. Qed.
Definition pc_after (w : who) (r r' : rpc) : Prop :=
  match r, r' with
  | RGive, RGive => w = First
  | RWatch _, RGive => w = First
  | _, RGive => False
  | _, _ => True
  end.
Ltac ld := unfold main_ok, wat_ok, free_id in *; cbn [put_run with_main with_wat with_id with_owner with_watch l_main l_wat l_id l_owner l_alive l_gen l_watch] in *.
Lemma at_run_main k w r : at_run k w = Some r -> match w with First => l_main k = MLock r | Poll => l_main k = MPoll r | Watcher => l_wat k = WRun r end.
Proof. unfold at_run. destruct w, (l_main k), (l_wat k); congruence. Qed.
(** What is known where a run is. *)
Definition running (r : rpc) : Prop := match r with RDone _ => False | _ => True end.
Lemma at_run_ok l i k w r : linv l i k -> at_run k w = Some r -> r <> RGive -> run_ok l i k r.
Proof.
  intros [Fo A B C D] E N. apply at_run_main in E. unfold main_ok, wat_ok in *. destruct w; rewrite E in *; [|tauto|tauto].
  destruct r; cbn [run_ok] in *; try tauto; congruence.
Qed.
Lemma at_give l i k w : linv l i k -> at_run k w = Some RGive -> w = First.
Proof. intros [Fo A B C D] E. apply at_run_main in E. unfold main_ok, wat_ok in *. destruct w; auto; rewrite E in *; cbn [run_ok] in *; tauto. Qed.
Lemma first_facts l i k r : linv l i k -> l_main k = MLock r -> running r -> l_wat k = WIdle /\ l_owner k = false.
Proof. intros [Fo A B C D] E N. unfold main_ok in *. rewrite E in *. destruct r; cbn [running] in N; tauto. Qed.
(** The object is changed by a step of its run [w]: what has to be checked. *)
Lemma linv_run l l' i k k' w r r' : linv l i k -> at_run k w = Some r -> running r -> r <> RGive -> r' <> RGive ->
  l_main k' = l_main k -> l_wat k' = l_wat k -> (l_id k' <> [] -> formed uuid i k' (l_id k')) ->
  (l_id k' <> [] -> mine l' i (l_id k')) ->
  (l_id k' <> [] -> forall x, mine l' i x -> x = l_id k') ->
  run_ok l' i k' r' ->
  (l_owner k' = true -> head l' i (l_id k') /\ (w = First -> exists b, r' = RDone b)) ->
  (head l i (l_id k) -> head l' i (l_id k')) ->
  (mine l i (l_id k) -> mine l' i (l_id k')) ->
  (w <> Watcher -> forall q, l_wat k = WRun q -> run_ok l i k q -> run_ok l' i k' q) ->
  (w = Watcher -> forall q, l_main k = MPoll q -> run_ok l i k q -> run_ok l' i k' q) ->
  linv l' i (put_run k' w r').
Proof.
  intros V E R N N' M W H0 H1 H2 H3 H4 H5 H6 H7 H8. pose proof V as V0. destruct V as [Fo A B C D]. apply at_run_main in E. destruct w; ld.
  - destruct (first_facts _ _ _ _ V0 E R) as (F1 & F2). split; ld; auto.
    + rewrite W, F1. assert (O : (exists b, r' = RDone b) \/ l_owner k' = false) by (destruct (l_owner k'); auto; left; now apply H4).
      assert (H9 : l_owner k' = true -> head l' i (l_id k')) by (intros X; now destruct (H4 X)).
      clear - H3 H9 N' O. destruct r'; try congruence; try (destruct O as [(b & Ob)|O]; [discriminate Ob|]; split; [exact H3|auto]). auto.
    + rewrite W, F1. exact I.
  - rewrite E in *. split; ld; auto.
    + split; auto. intros O. now destruct (H4 O).
    + rewrite W. destruct (l_wat k) as [|q] eqn:Q; auto. destruct D as (D1 & D2 & D3). split; [auto|]. split; [|auto]. apply H7; auto; discriminate.
  - rewrite E in *. destruct D as (D1 & D2 & D3). split; ld.
    + exact H0.
    + intros X. auto.
    + auto.
    + rewrite M. assert (H9 : l_owner k' = true -> head l' i (l_id k')) by (intros X; now destruct (H4 X)).
      destruct (l_main k) as [|q| |q| | |] eqn:Q; try contradiction D3; auto. destruct C as (C1 & C2). split; [apply H8; auto|exact H9].
    + rewrite M. split; auto.
Qed.
Lemma run_mine l i k w r : linv l i k -> at_run k w = Some r -> r <> RGive -> l_id k <> [] -> mine l i (l_id k).
Proof.
  intros [Fo A B C D] E N H. destruct (A H) as [[X|X]|X]; auto; apply at_run_main in E; destruct w; try congruence; unfold wat_ok in D; rewrite E, X in D; tauto.
Qed.
Lemma run_quiet l i k r : linv l i k -> l_main k = MLock r -> running r -> r <> RGive -> forall q, l_wat k <> WRun q.
Proof. intros V E R N q. destruct (first_facts _ _ _ _ V E R). congruence. Qed.
Lemma run_owner l i k w r : linv l i k -> at_run k w = Some r -> running r -> l_owner k = true -> head l i (l_id k) /\ w <> First.
Proof.
  intros V E R O. pose proof (at_run_main _ _ _ E) as E'. destruct w.
  - destruct (first_facts _ _ _ _ V E' R). congruence.
  - destruct V as [Fo A B C D]. unfold main_ok in C. rewrite E' in C. split; [tauto|discriminate].
  - split; [|discriminate]. destruct V as [Fo A B C D]. unfold main_ok, wat_ok in *. rewrite E' in D. destruct D as (_ & _ & D). destruct (l_main k) as [|q| |q| | |]; tauto.
Qed.
Lemma run_ok_same l i k k' r : l_id k' = l_id k -> run_ok l i k r -> run_ok l i k' r.
Proof. intros E. destruct r; cbn [run_ok]; rewrite ?E; auto. Qed.
(** Steps after which only the program counter, or [_is_owner] and the watches, differ. *)
Lemma call_local s i w r k' r' : inv s -> at_run (locks s i) w = Some r -> running r -> r <> RGive -> r' <> RGive ->
  l_alive k' = l_alive (locks s i) -> l_gen k' = l_gen (locks s i) -> l_id k' = l_id (locks s i) -> l_main k' = l_main (locks s i) -> l_wat k' = l_wat (locks s i) ->
  (run_ok (z_nodes s) i (locks s i) r -> run_ok (z_nodes s) i (locks s i) r') ->
  (l_alive k' = true -> run_ok (z_nodes s) i (locks s i) r -> l_owner k' = true -> (l_owner (locks s i) = true /\ w <> First) \/ (head (z_nodes s) i (l_id (locks s i)) /\ (w = First -> exists b, r' = RDone b))) ->
  inv (set_lock s i (put_run k' w r')).
Proof.
  intros V E R N N' A G J M W H1 H2. apply inv_own; auto; try (destruct w; auto; fail).
  intros Al L. assert (Al' : l_alive k' = true) by (destruct w; auto). pose proof (at_run_ok _ _ _ _ _ L E N) as R0.
  eapply linv_run; eauto; rewrite ?J; auto.
  - intros X. destruct L as [Fo _ _ _ _]. unfold formed. rewrite G. now apply Fo.
  - intros X. eapply run_mine; eauto.
  - now destruct L.
  - eapply run_ok_same; eauto.
  - intros O. destruct (H2 Al' R0 O) as [(O' & F)|X]; [|auto]. split; [|tauto]. eapply run_owner; eauto.
  - intros X q _. apply run_ok_same; auto.
  - intros X q _. apply run_ok_same; auto.
Qed.
Lemma call_inv s i w a r s1 r' : inv s -> z_next s1 <= 2 ^ 31 -> at_run (locks s i) w = Some r -> (a = NoWatch -> w = First) ->
  lock_step s i r a = Ok (s1, r') -> inv (set_lock s1 i (put_run (locks s1 i) w r')).
Proof.
  intros V L E NW H. pose proof (i_locks _ _ V i) as Li. 
  destruct r; destruct a; cbn [LockModel.lock_step] in H; try discriminate.
  - (* list *)
    destruct (l_alive (locks s i)) eqn:Al; [|discriminate]. destruct (same_names l (names s)) eqn:P; [|discriminate]. cbn [andb] in H. specialize (Li eq_refl).
    destruct (lookup_node l (prefix uuid s i)) as [c|] eqn:F; injection H as <- <-.
    + apply (lookup_some _ _ _ _ V P) in F. eapply (inv_ext (set_lock s i (put_run (with_id (locks s i) c) w (RList2 l)))); [|reflexivity|reflexivity|].
      2:{ intros j. rewrite locks_set. apply set_set. }
      apply inv_own; auto; try (destruct w; reflexivity). intros _ _.
      pose proof (i_one _ _ V) as O. assert (Hd : head (z_nodes s) i (l_id (locks s i)) -> head (z_nodes s) i c).
      { intros X. pose proof (mine_unique _ _ _ _ O (head_mine _ _ _ X) F) as <-. exact X. }
      assert (Hr : forall q, run_ok (z_nodes s) i (locks s i) q -> run_ok (z_nodes s) i (with_id (locks s i) c) q).
      { intros q. destruct q; cbn [run_ok with_id l_id]; auto. intros (X & _). destruct (X c F). }
      eapply linv_run; eauto; try discriminate; cbn [with_id l_id l_owner l_main l_wat running run_ok]; auto.
      * intros _. exact (mine_formed _ _ _ _ V F).
      * intros _ x X. eapply mine_unique; eauto.
      * intros Ow. destruct (run_owner _ _ _ _ _ Li E Logic.I Ow). tauto.
    + apply (lookup_none _ _ _ V P) in F. eapply (inv_ext (set_lock s i (put_run (with_id (locks s i) []) w (RCreate l)))); [|reflexivity|reflexivity|].
      2:{ intros j. rewrite locks_set. apply set_set. }
      apply inv_own; auto; try (destruct w; reflexivity). intros _ _.
      assert (Id : l_id (locks s i) = []).
      { destruct (l_id (locks s i)) eqn:Q; auto. exfalso. eapply (F (l_id (locks s i))). eapply run_mine; eauto; rewrite ?Q; discriminate. }
      eapply linv_run; eauto; try discriminate; cbn [with_id l_id l_owner l_main l_wat running run_ok]; auto; try congruence.
      * intros Ow. destruct (run_owner _ _ _ _ _ Li E Logic.I Ow) as (X & _). apply head_mine in X. destruct (F _ X).
      * intros X q _. apply run_ok_same. now rewrite Id.
      * intros X q _. apply run_ok_same. now rewrite Id.
  - (* list fails *) injection H as <- <-. eapply call_local; eauto; try discriminate; cbn [run_ok running]; auto. intros Al _ Ow.
    left. split; auto. specialize (Li Al). now destruct (run_owner _ _ _ _ _ Li E Logic.I Ow).
  - (* create *)
    destruct (l_alive (locks s i)) eqn:Al; [|discriminate]. specialize (Li eq_refl). injection H as <- <-.
    destruct (at_run_ok _ _ _ _ _ Li E ltac:(discriminate)) as (Nn & Id).
    set (x := node_name (prefix uuid s i) (z_next s)) in *.
    eapply (inv_ext (set_lock (fst (create uuid s i)) i (put_run (with_id (locks s i) x) w (RList2 l)))); [|reflexivity|reflexivity|].
    2:{ intros j. rewrite locks_set. apply set_set. }
    assert (Mx : mine (z_nodes s ++ [mkZnode x i]) i x) by (unfold mine; rewrite in_app_iff; cbn; auto).
    apply inv_create; auto; try (destruct w; auto; fail). fold x.
    eapply linv_run; eauto; try discriminate; cbn [with_id l_id l_owner l_main l_wat running run_ok]; auto.
    + intros _. now exists (z_next s).
    + intros _ y Y. unfold mine in Y. apply in_app_or in Y as [Y|[Y|[]]]; [destruct (Nn _ Y)|congruence].
    + intros Ow. destruct (run_owner _ _ _ _ _ Li E Logic.I Ow) as (X & _). apply head_mine in X. destruct (Nn _ X).
    + intros X. apply head_mine in X. destruct (Nn _ X).
    + intros X q Q. exfalso. destruct Li as [_ _ _ _ D]. unfold wat_ok in D. rewrite Q in D. destruct D as (D & _). destruct (Nn _ D).
    + intros X q Q _. exfalso. subst w. apply at_run_main in E. destruct Li as [_ _ _ _ D]. unfold wat_ok in D. rewrite E in D. destruct D as (D & _). destruct (Nn _ D).
  - (* create fails *) injection H as <- <-. eapply call_local; eauto; try discriminate; cbn [run_ok running]; auto. intros Al _ Ow.
    left. split; auto. specialize (Li Al). now destruct (run_owner _ _ _ _ _ Li E Logic.I Ow).
  - (* the answer of create is lost *)
    destruct (l_alive (locks s i)) eqn:Al; [|discriminate]. specialize (Li eq_refl). injection H as <- <-.
    destruct (at_run_ok _ _ _ _ _ Li E ltac:(discriminate)) as (Nn & Id).
    set (x := node_name (prefix uuid s i) (z_next s)) in *.
    change (locks (fst (create uuid s i)) i) with (locks s i).
    apply inv_create; auto; try (destruct w; auto; fail). fold x.
    eapply linv_run; eauto; try discriminate; cbn [running run_ok locks]; auto; try (intros X; congruence).
    + intros Ow. destruct (run_owner _ _ _ _ _ Li E Logic.I Ow) as (X & _). apply head_mine in X. destruct (Nn _ X).
    + intros X. apply head_mine in X. destruct (Nn _ X).
    + intros X. destruct (Nn _ X).
    + intros X q Q. exfalso. destruct Li as [_ _ _ _ D]. unfold wat_ok in D. rewrite Q in D. destruct D as (D & _). destruct (Nn _ D).
    + intros X q Q _. exfalso. subst w. apply at_run_main in E. destruct Li as [_ _ _ _ D]. unfold wat_ok in D. rewrite E in D. destruct D as (D & _). destruct (Nn _ D).
  - (* second list *)
    destruct (l_alive (locks s i)) eqn:Al; [|discriminate]. destruct (same_names l0 (names s)) eqn:P; [|discriminate]. cbn [andb] in H. specialize (Li eq_refl).
    destruct (decide (match l0 with [] => l | _ => l0 end) (l_id (locks s i))) as [| |q] eqn:D; try discriminate. cbn [bind] in H. injection H as <- <-.
    pose proof (at_run_ok _ _ _ _ _ Li E ltac:(discriminate)) as Mi. cbn [run_ok] in Mi.
    destruct (decide_own _ _ _ _ _ V L P Mi D) as [(-> & Hd)|(p & -> & _)]; eapply call_local; eauto; try discriminate; cbn [run_ok running]; auto; intros _ _ Ow.
    + left. split; auto. now destruct (run_owner _ _ _ _ _ Li E Logic.I Ow).
    + left. split; auto. now destruct (run_owner _ _ _ _ _ Li E Logic.I Ow).
  - (* second list fails *) injection H as <- <-. eapply call_local; eauto; try discriminate; cbn [run_ok running]; auto. intros Al _ Ow.
    left. split; auto. specialize (Li Al). now destruct (run_owner _ _ _ _ _ Li E Logic.I Ow).
  - (* win *) injection H as <- <-. rewrite locks_set. eapply (inv_ext (set_lock s i (put_run (with_owner (locks s i) true) w (RDone true)))); [|reflexivity|reflexivity|intros j; apply set_set].
    eapply call_local; eauto; try discriminate; cbn [run_ok running]; auto.
    all: intros Al Hd _; right; split; eauto.
  - (* watch *)
    destruct (l_alive (locks s i)) eqn:Al; [|discriminate]. specialize (Li eq_refl). destruct (has p (names s)) eqn:P; injection H as <- <-.
    + rewrite locks_set. eapply (inv_ext (set_lock s i (put_run (with_watch (locks s i) (p :: l_watch (locks s i))) w RLose))); [|reflexivity|reflexivity|intros j; apply set_set].
      eapply call_local; eauto; try discriminate; cbn [run_ok running with_watch l_owner]; auto. intros _ _ Ow. left. split; auto. now destruct (run_owner _ _ _ _ _ Li E Logic.I Ow).
    + eapply call_local; eauto; try discriminate; cbn [run_ok running]; auto. intros _ _ Ow. left. split; auto. now destruct (run_owner _ _ _ _ _ Li E Logic.I Ow).
  - (* cannot watch *) injection H as <- <-. specialize (NW eq_refl). subst w. apply inv_own; auto. cbn [put_run with_main l_alive]. intros Al Lk.
    pose proof (at_run_ok _ _ _ _ _ Lk E ltac:(discriminate)) as Mi. cbn [run_ok] in Mi. pose proof (at_run_main _ _ _ E) as E'.
    destruct (first_facts _ _ _ _ Lk E' Logic.I) as (F1 & F2). pose proof (mine_nonnil _ _ _ _ V Mi) as Nn. destruct Lk as [Fo A B C D]. split; ld; auto. now rewrite F1.
  - (* lose *) injection H as <- <-. rewrite locks_set. eapply (inv_ext (set_lock s i (put_run (with_owner (locks s i) false) w (RDone true)))); [|reflexivity|reflexivity|intros j; apply set_set].
    eapply call_local; eauto; try discriminate; cbn [run_ok running with_owner l_owner]; auto; discriminate.
  - (* give up *) destruct (l_id (locks s i)) as [|c t] eqn:Id.
    + injection H as <- <-. apply inv_own; auto; try (destruct w; reflexivity). intros Al Lk. assert (Al' : l_alive (locks s i) = true) by (destruct w; auto).
      pose proof (at_give _ _ _ _ Lk E) as ->. destruct Lk as [Fo A B C D]. apply at_run_main in E. unfold main_ok in C. rewrite E in C. destruct C as (C & _). congruence.
    + destruct (l_alive (locks s i)) eqn:Al; [|discriminate]. specialize (Li eq_refl). rewrite <- Id in H. injection H as <- <-. pose proof (at_give _ _ _ _ Li E) as ->.
      rewrite locks_set. eapply (inv_ext (set_lock (delete s (l_id (locks s i))) i (put_run (reset_lock (locks s i)) First (RDone true)))); [|reflexivity|reflexivity|intros j; apply set_set].
      destruct Li as [Fo A B C D]. assert (Nil : l_id (locks s i) <> []) by (rewrite Id; discriminate).
      assert (Nn : none (filter (fun n => negb (beq (l_id (locks s i)) (z_name n))) (z_nodes s)) i).
      { intros x X. unfold mine in X. apply filter_In in X as (X & Y). cbn [z_name] in Y. rewrite (B Nil x X), beq_refl in Y. discriminate. }
      apply at_run_main in E. unfold main_ok in C. rewrite E in C. destruct C as (C1 & C2 & C3).
      apply inv_filter; auto.
      { intros n J N. eapply delete_others; eauto. }
      intros _. split; ld; cbn [reset_lock l_id l_main l_wat l_owner with_main]; try congruence; auto. all: now rewrite C3.
  - (* deleting fails *) injection H as <- <-. apply inv_own; auto; try (destruct w; reflexivity). intros Al Lk. assert (Al' : l_alive (locks s i) = true) by (destruct w; auto).
    pose proof (at_give _ _ _ _ Lk E) as ->. apply at_run_main in E. destruct Lk as [Fo A B C D]. unfold main_ok, wat_ok, free_id in *. rewrite E in *. split; ld; auto; try (intros X; left; right; reflexivity). 
    all: now destruct C as (_ & _ & ->).
  - (* the answer of delete is lost *) destruct (l_alive (locks s i)) eqn:Al; [|discriminate]. specialize (Li eq_refl). injection H as <- <-. pose proof (at_give _ _ _ _ Li E) as ->.
    change (locks (delete s (l_id (locks s i))) i) with (locks s i). pose proof (at_run_main _ _ _ E) as E'. cbv iota in E'. destruct Li as [Fo A B C D]. unfold main_ok in C. rewrite E' in C. destruct C as (C1 & C2 & C3).
    apply inv_filter; auto.
    { intros n J N. eapply delete_others; eauto. }
    intros _. split; ld; auto.
    + intros Nil x X. unfold mine in X. apply filter_In in X as (X & _). now apply B.
    + now rewrite C3.
Qed.

(** ** All steps *)
Lemma next_mono s e s' : step s e = Ok s' -> z_next s <= z_next s'.
Proof.
  destruct e as [i|i w a|i w|i|i|i p|i|i a|i|i]; cbn [LockModel.step]; intros H.
  - destruct (l_main (locks s i)); try discriminate. destruct (negb _); [injection H as <-; cbn; lia|]. destruct (quiet _); [|discriminate]. injection H as <-. cbn. lia.
  - destruct (at_run (locks s i) w) as [r|]; [|discriminate]. destruct (lock_step s i r a) as [| |[s1 r1]] eqn:L; try discriminate. cbn [bind] in H. injection H as <-. cbn [set_lock z_next].
    destruct r, a; cbn [LockModel.lock_step] in L; try discriminate;
      repeat match type of L with
        | context [if ?c then _ else _] => destruct c
        | context [match lookup_node ?a ?b with _ => _ end] => destruct (lookup_node a b)
        | context [match l_id ?a with _ => _ end] => destruct (l_id a)
        | context [bind ?a _] => destruct a; cbn [bind] in L
        end; try discriminate; injection L as <- <-; cbn; lia.
  - destruct (at_run (locks s i) w) as [r|]; [|discriminate]. destruct r; try discriminate. injection H as <-. cbn. lia.
  - destruct (l_main (locks s i)); try discriminate. destruct (l_owner _); [discriminate|]. injection H as <-. cbn. lia.
  - destruct (l_main (locks s i)); try discriminate. destruct (l_owner _); [|discriminate]. injection H as <-. cbn. lia.
  - destruct (_ && _) eqn:X; [|discriminate]. injection H as <-. cbn. lia.
  - destruct (l_main (locks s i)); try discriminate. destruct (negb _); [injection H as <-; cbn; lia|]. destruct (quiet _); [|discriminate]. injection H as <-. cbn. lia.
  - destruct (l_main (locks s i)), a; try discriminate.
    + destruct (l_id (locks s i)); [injection H as <-; cbn; lia|]. destruct (l_alive _); [|discriminate]. injection H as <-. cbn. lia.
    + injection H as <-. lia.
    + destruct (l_alive _); [|discriminate]. injection H as <-. cbn. lia.
  - destruct (l_main (locks s i)); try discriminate. destruct (quiet _); [|discriminate]. injection H as <-. cbn. lia.
  - destruct (l_alive _); [|discriminate]. injection H as <-. cbn. lia.
Qed.
Lemma quiet_idle k : quiet k = true -> l_wat k = WIdle. Proof. unfold quiet. destruct (l_wat k); congruence. Qed.
Lemma close_none s i : none (filter (fun n => negb (z_session n =? i)) (z_nodes s)) i.
Proof. intros x X. unfold mine in X. apply filter_In in X as (_ & X). cbn in X. lia. Qed.
Lemma step_inv s e s' : inv s -> z_next s' <= 2 ^ 31 -> watches e -> step s e = Ok s' -> inv s'.
Proof.
  intros V L W H. destruct e as [i|i w a|i w|i|i|i p|i|i a|i|i]; cbn [LockModel.step] in H.
  - (* begin *) destruct (l_main (locks s i)) eqn:M; try discriminate. destruct (l_alive (locks s i)) eqn:Al; cbn [negb] in H.
    + destruct (quiet (locks s i)) eqn:Q; [|discriminate]. injection H as <-. apply quiet_idle in Q. apply inv_own; auto. intros _ [Fo A B C D]. unfold main_ok in C. rewrite M in C. destruct C as (C1 & C2 & C3).
      split; ld; auto; try congruence. now rewrite Q.
    + injection H as <-. apply inv_own; auto. cbn [with_main l_alive]. congruence.
  - (* call *) destruct (at_run (locks s i) w) as [r|] eqn:E; [|discriminate]. destruct (lock_step s i r a) as [| |[s1 r1]] eqn:LS; try discriminate. cbn [bind] in H. injection H as <-.
    eapply call_inv; eauto. cbn [watches] in W. intros ->. exact W.
  - (* return *) destruct (at_run (locks s i) w) as [r|] eqn:E; [|discriminate]. destruct r as [| | | | | | |ok]; try discriminate. injection H as <-. pose proof (at_run_main _ _ _ E) as E'.
    apply inv_own; auto; try (destruct w; reflexivity). intros Al [Fo A B C D]. destruct w; ld; rewrite E' in *.
    + destruct C as (C1 & C2). assert (X : (if ok && l_alive (locks s i) then MWait true else MDrop) = MWait true \/ (if ok && l_alive (locks s i) then MWait true else MDrop) = MDrop) by (destruct (ok && _); auto).
      split; ld; [exact Fo| |exact B| |].
      * intros Y. destruct (A Y) as [[Z|Z]|Z]; auto; discriminate.
      * destruct X as [-> | ->]; exact C2.
      * now rewrite C1.
    + destruct C as (_ & C2). split; ld; [exact Fo| |exact B|exact C2|].
      * intros Y. destruct (A Y) as [[Z|Z]|Z]; auto; discriminate.
      * destruct (l_wat (locks s i)); auto; tauto.
    + destruct D as (D1 & D2 & D3). split; ld; auto. destruct (l_main (locks s i)) as [|q| |q| | |]; try contradiction D3; auto.
  - (* timeout *) destruct (l_main (locks s i)) eqn:M; try discriminate. destruct (l_owner (locks s i)) eqn:O; [discriminate|]. injection H as <-. apply inv_own; auto. intros Al [Fo A B C D].
    ld. rewrite M in *. split; ld; [exact Fo| |exact B| |exact D].
    + intros Y. destruct (A Y) as [[Z|Z]|Z]; auto; discriminate.
    + cbn [run_ok]. split; auto; congruence.
  - (* acquire *) destruct (l_main (locks s i)) eqn:M; try discriminate. destruct (l_owner (locks s i)) eqn:O; [|discriminate]. injection H as <-. apply inv_own; auto. intros Al [Fo A B C D].
    ld. rewrite M in *. split; ld; [exact Fo| |exact B| |].
    + intros Y. destruct (A Y) as [[Z|Z]|Z]; auto; discriminate.
    + destruct ok; auto.
    + destruct (l_wat (locks s i)); auto. destruct ok; auto.
  - (* wake *) destruct (l_alive (locks s i) && negb (has_mutex (locks s i)) && quiet (locks s i) && has p (l_watch (locks s i)) && negb (has p (names s))) eqn:X; [|discriminate].
    apply andb_true_iff in X as (X & X5). apply andb_true_iff in X as (X & X4). apply andb_true_iff in X as (X & X3). apply andb_true_iff in X as (X1 & X2). apply quiet_idle in X3.
    injection H as <-. cbn [with_watch l_id]. destruct (l_id (locks s i)) as [|c t] eqn:Id.
    + apply inv_own; auto. intros _ [Fo A B C D]. ld. split; ld; auto.
    + apply inv_own; auto. intros _ [Fo A B C D]. ld. assert (Nil : l_id (locks s i) <> []) by (rewrite Id; discriminate).
      unfold has_mutex in X2. split; ld; [exact Fo|exact A|exact B| |].
      * destruct (l_main (locks s i)) as [|q| |q| | |]; try discriminate X2; auto.
      * destruct (A Nil) as [[Z|Z]|Z]; [rewrite Z in X2; discriminate|rewrite Z in X2; discriminate|]. split; auto. split; [exact Logic.I|].
        destruct (l_main (locks s i)) as [|q| |q| | |]; try discriminate X2; auto. destruct C as (_ & C & _). congruence.
  - (* release *) destruct (l_main (locks s i)) eqn:M; try discriminate. destruct (l_alive (locks s i)) eqn:Al; cbn [negb] in H.
    + destruct (quiet (locks s i)) eqn:Q; [|discriminate]. injection H as <-. apply quiet_idle in Q. apply inv_own; auto. intros _ [Fo A B C D]. unfold main_ok in C. rewrite M in C.
      pose proof (mine_nonnil _ _ _ _ V (head_mine _ _ _ C)) as Nil. split; ld; auto. now rewrite Q.
    + injection H as <-. apply inv_own; auto. cbn [with_main l_alive]. congruence.
  - (* delete *) destruct (l_main (locks s i)) eqn:M; try discriminate. destruct a; try discriminate.
    + destruct (l_id (locks s i)) as [|c t] eqn:Id.
      * injection H as <-. apply inv_own; auto. cbn [with_main l_alive]. intros Al [Fo A B C D]. unfold main_ok in C. rewrite M in C. destruct C as (C & _). congruence.
      * destruct (l_alive (locks s i)) eqn:Al; [|discriminate]. rewrite <- Id in H. injection H as <-. destruct (i_locks _ _ V i Al) as [Fo A B C D].
        assert (Nil : l_id (locks s i) <> []) by (rewrite Id; discriminate). unfold main_ok in C. rewrite M in C. destruct C as (_ & C).
        assert (Nn : none (filter (fun n => negb (beq (l_id (locks s i)) (z_name n))) (z_nodes s)) i).
        { intros x X. unfold mine in X. apply filter_In in X as (X & Y). cbn [z_name] in Y. rewrite (B Nil x X), beq_refl in Y. discriminate. }
        apply inv_filter; auto.
        { intros n J N. eapply delete_others; eauto. }
        intros _. split; ld; cbn [reset_lock l_id l_main l_wat l_owner with_main]; try congruence; auto. all: now rewrite C.
    + injection H as <-. exact V.
    + destruct (l_alive (locks s i)) eqn:Al; [|discriminate]. injection H as <-. destruct (i_locks _ _ V i Al) as [Fo A B C D]. unfold main_ok in C. rewrite M in C. destruct C as (C1 & C).
      eapply (inv_ext (set_lock (delete s (l_id (locks s i))) i (locks s i))); [|reflexivity|reflexivity|].
      2:{ intros j. cbn [set_lock delete set_nodes locks]. destruct (j =? i) eqn:J; auto. apply N.eqb_eq in J. now rewrite J. }
      apply inv_filter; auto.
      { intros n J N. eapply delete_others; eauto. }
      intros _. split; auto.
      * intros _. left. left. exact M.
      * intros Nil x X. unfold mine in X. apply filter_In in X as (X & _). now apply B.
      * unfold main_ok. rewrite M. auto.
      * unfold wat_ok. now rewrite C.
  - (* drop *) destruct (l_main (locks s i)) eqn:M; try discriminate. destruct (quiet (locks s i)) eqn:Q; [|discriminate]. injection H as <-.
    apply inv_filter; auto using close_none.
    { intros n _ N. lia. }
    intros _. split; ld; cbn [new_lock l_id l_main l_wat l_owner]; try congruence; auto using close_none.
  - (* expire *) destruct (l_alive (locks s i)) eqn:Al; [|discriminate]. injection H as <-.
    apply inv_filter; auto using close_none.
    { intros n _ N. lia. }
    cbn [l_alive]. discriminate.
Qed.
Lemma inv_st0 : inv st0.
Proof.
  split; cbn [st0 z_next z_nodes locks].
  - exists []. split; constructor.
  - constructor.
  - intros n [].
  - intros i _. split; ld; cbn [new_lock l_id l_main l_wat l_owner]; try congruence; auto. split; auto. intros x [].
Qed.
Lemma run_inv es s s' : inv s -> Forall watches es -> run uuid s es = Ok s' -> z_next s' <= 2 ^ 31 -> inv s'.
Proof.
  revert s. induction es as [|e es IH]; intros s V W H L; cbn [run] in H; [injection H as <-; auto|].
  destruct (step s e) as [| |s1] eqn:E; try discriminate. cbn [bind] in H. inversion W as [|? ? We Wes]; subst.
  assert (M : z_next s1 <= z_next s').
  { clear - H U. revert s1 H. induction es as [|e es IH]; intros s1 H; cbn [run] in H; [injection H as <-; lia|]. destruct (step s1 e) as [| |s2] eqn:E; try discriminate. cbn [bind] in H.
    specialize (IH _ H). apply next_mono in E. lia. }
  apply (IH s1); auto. refine (step_inv s e s1 V _ We E). lia.
Qed.
End Proofs.
