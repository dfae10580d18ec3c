(** Proofs for the lock model: mutual exclusion, progress, and where they end. *)
From Coq Require Import NArith ZArith List Bool Lia ZifyBool ZifyNat ZifyN Permutation Sorting.Sorted.
From Verif Require Import Base BaseLemmas TextModel ClusterModel ClusterProofs LockModel LockSpec LockProofs LockProofs2 LockProofs3.
Import ListNotations.
Local Open Scope N_scope.
Local Open Scope list_scope.

Section Proofs.
Context (uuid : N -> N -> bytes) (U : good_uuid uuid).
Notation inv := (inv uuid). Notation step := (step uuid). Notation lock_step := (lock_step uuid). Notation run := (run uuid).

Lemma reached_inv es s : reached uuid es s -> Forall watches es -> z_next s <= 2 ^ 31 -> inv s.
Proof. intros R W L. eapply run_inv; eauto. now apply inv_st0. Qed.
Lemma holder_head s i : inv s -> live s i -> holds s i -> head (z_nodes s) i (l_id (locks s i)).
Proof. intros V L H. pose proof (l_mok _ _ _ _ (i_locks _ _ V i L)) as M. unfold main_ok in M. now rewrite H in M. Qed.
Lemma exclusive s i j : inv s -> live s i -> live s j -> holds s i -> holds s j -> i = j.
Proof. intros V Li Lj Hi Hj. destruct (holder_head _ _ V Li Hi) as (t & E). destruct (holder_head _ _ V Lj Hj) as (t' & E'). rewrite E in E'. congruence. Qed.

(** ** The vector is never empty *)
Lemma sort_nil l : sort l = [] -> l = [].
Proof. destruct l as [|x l]; auto. intros H. assert (I : In x (sort (x :: l))) by (apply sort_in; now left). rewrite H in I. destruct I. Qed.
Lemma decide_defined v id : decide v id = Undef -> v = [].
Proof. unfold decide. destruct (sort v) eqn:E; [intros _; now apply sort_nil|]. destruct (child_floor _ _); discriminate. Qed.
Lemma lock_step_undef s i r a : lock_step s i r a = Undef ->
  exists l0 l, r = RList2 l0 /\ a = Listed l /\ l_alive (locks s i) && same_names l (names s) = true /\ decide (match l with [] => l0 | _ => l end) (l_id (locks s i)) = Undef.
Proof.
  intros L. destruct r, a; cbn [LockModel.lock_step create] in L; try discriminate.
  4:{ destruct (l_alive (locks s i) && same_names l0 (names s)) eqn:E; [|discriminate].
      destruct (decide match l0 with [] => l | _ :: _ => l0 end (l_id (locks s i))) eqn:D; try discriminate. exists l, l0. auto. }
  all: repeat match type of L with
        | (if ?c then _ else _) = _ => destruct c
        | match ?c with _ => _ end = _ => destruct c
        end; discriminate.
Qed.
Lemma step_defined s e : inv s -> step s e <> Undef.
Proof.
  intros V. destruct e as [i|i w a|i w|i|i|i p|i|i a|i|i]; cbn [LockModel.step].
  2:{ destruct (at_run (locks s i) w) as [r|] eqn:E; [|discriminate]. destruct (lock_step s i r a) as [| |[s1 r1]] eqn:L; try discriminate. exfalso.
      apply lock_step_undef in L as (l0 & l & -> & -> & G & D). apply decide_defined in D. apply andb_true_iff in G as (Al & P).
      pose proof (at_run_ok _ _ _ _ _ _ (i_locks _ _ V i Al) E ltac:(discriminate)) as M. cbn [run_ok] in M.
      destruct l as [|x l]; [|discriminate]. apply same_names_perm in P. apply Permutation_nil in P. unfold names in P. apply map_eq_nil in P. rewrite P in M. destruct M. }
  all: repeat match goal with |- context [match ?x with _ => _ end] => destruct x end; discriminate.
Qed.

(** ** Who is first gets the lock *)
Definition polling (s : st) (i : N) : list event :=
  [Timeout i; Call i Poll (Listed (names s)); Call i Poll (Listed (names s)); Call i Poll Done; Return i Poll; Acquire i].
Lemma step_ok s e es s' : step s e = Ok s' -> run s (e :: es) = run s' es.
Proof. intros H. cbn [LockModel.run]. now rewrite H. Qed.
Lemma lookup_found s i x : inv s -> mine (z_nodes s) i x -> lookup_node (names s) (prefix uuid s i) = Some x.
Proof.
  intros V I. destruct (lookup_node (names s) (prefix uuid s i)) as [c|] eqn:F.
  - pose proof (lookup_some uuid U _ _ _ _ V (same_names_refl _) F) as C. f_equal. eapply mine_unique; eauto. apply (i_one _ _ V).
  - exfalso. apply (lookup_none uuid U _ _ _ V (same_names_refl _) F x I).
Qed.
Lemma progress s i : inv s -> z_next s <= 2 ^ 31 -> live s i -> waits s i -> first s i ->
  exists es s', Forall (of_object i) es /\ run s es = Ok s' /\ holds s' i.
Proof.
  intros V L Al W (x & t & F). unfold live, waits, holds in *. destruct (l_owner (locks s i)) eqn:O.
  - exists [Acquire i]. eexists. split; [repeat constructor|]. split.
    + cbn [LockModel.run LockModel.step]. rewrite W, O. cbn [bind]. reflexivity.
    + now rewrite locks_set.
  - exists (polling s i). unfold polling. 
    assert (Mx : mine (z_nodes s) i x) by (unfold mine; rewrite F; now left).
    set (k1 := with_main (locks s i) (MPoll RList)). set (s1 := set_lock s i k1).
    assert (V1 : inv s1). { refine (step_inv uuid U s (Timeout i) s1 V L Logic.I _). cbn [LockModel.step]. now rewrite W, O. }
    assert (H1 : step s (Timeout i) = Ok s1) by (cbn [LockModel.step]; now rewrite W, O).
    set (k2 := with_id k1 x). set (s2 := set_lock (set_lock s1 i k2) i (put_run k2 Poll (RList2 (names s)))).
    assert (Lk1 : locks s1 i = k1) by (unfold s1; now rewrite locks_set).
    assert (H2 : step s1 (Call i Poll (Listed (names s))) = Ok s2).
    { pose proof (lookup_found s1 i x V1 Mx) as Lf. change (names s1) with (names s) in Lf.
      cbn [LockModel.step LockModel.lock_step]. rewrite Lk1. change (at_run k1 Poll) with (Some RList). cbv iota. cbn [LockModel.lock_step]. rewrite Lk1. change (l_alive k1) with (l_alive (locks s i)). rewrite Al.
      change (names s1) with (names s). rewrite same_names_refl, Lf. cbn [andb bind]. now rewrite locks_set. }
    assert (Lk2 : locks s2 i = put_run k2 Poll (RList2 (names s))) by (unfold s2; now rewrite locks_set).
    assert (D : decide (names s) x = Ok RWin).
    { destruct V as [(qs & Q) _ _ _]. pose proof (queue_ascending _ _ _ _ _ L Q) as As.
      assert (I : In x (map z_name (z_nodes s))) by (rewrite F; now left).
      destruct (decide_spec (names s) _ x As (Permutation_refl _) I) as (f & t' & E & [(_ & X)|(Ne & _)]); auto. exfalso. apply Ne. rewrite F in E. cbn in E. congruence. }
    set (s3 := set_lock s2 i (put_run (locks s2 i) Poll RWin)).
    assert (H3 : step s2 (Call i Poll (Listed (names s))) = Ok s3).
    { unfold s3. cbn [LockModel.step]. rewrite Lk2. change (at_run (put_run k2 Poll (RList2 (names s))) Poll) with (Some (RList2 (names s))). cbv iota. cbn [LockModel.lock_step]. rewrite Lk2.
      change (l_alive (put_run k2 Poll (RList2 (names s)))) with (l_alive (locks s i)). change (l_id (put_run k2 Poll (RList2 (names s)))) with x. rewrite Al.
      change (names s2) with (names s). rewrite same_names_refl. cbn [andb]. assert (Nn : names s <> []) by (unfold names; rewrite F; discriminate).
      assert (Ev : forall m : list bytes, m <> [] -> match m with [] => names s | _ :: _ => m end = m) by (intros [|? ?]; congruence). rewrite Ev by exact Nn. rewrite D. cbn [bind]. now rewrite Lk2. }
    set (k4 := with_owner (put_run (locks s2 i) Poll RWin) true). set (s4 := set_lock (set_lock s3 i k4) i (put_run k4 Poll (RDone true))).
    assert (H4 : step s3 (Call i Poll Done) = Ok s4).
    { assert (Lk3 : locks s3 i = put_run (locks s2 i) Poll RWin) by (unfold s3; now rewrite locks_set). cbn [LockModel.step]. rewrite Lk3.
      change (at_run (put_run (locks s2 i) Poll RWin) Poll) with (Some RWin). cbv iota. cbn [LockModel.lock_step bind]. rewrite locks_set, Lk3. reflexivity. }
    set (k5 := with_main (put_run k4 Poll (RDone true)) (MWait true)). set (s5 := set_lock s4 i k5).
    assert (H5 : step s4 (Return i Poll) = Ok s5) .
    { assert (Lk4 : locks s4 i = put_run k4 Poll (RDone true)) by (unfold s4; now rewrite locks_set). cbn [LockModel.step]. rewrite Lk4. reflexivity. }
    exists (set_lock s5 i (with_main k5 MHeld)). split; [repeat constructor|]. split; [|now rewrite locks_set].
    rewrite (step_ok _ _ _ _ H1), (step_ok _ _ _ _ H2), (step_ok _ _ _ _ H3), (step_ok _ _ _ _ H4), (step_ok _ _ _ _ H5).
    assert (Lk5 : locks s5 i = k5) by (unfold s5; now rewrite locks_set).
    cbn [LockModel.run LockModel.step]. rewrite Lk5. reflexivity.
Qed.

(** ** A session that ends while waiting *)
Definition stuck (k : lock) : Prop := l_alive k = false /\ l_owner k = false /\ l_wat k = WIdle /\
  match l_main k with MWait _ | MPoll RList | MPoll (RDone _) => True | _ => False end.
Lemma set_other s i j k : j <> i -> locks (set_lock s i k) j = locks s j.
Proof. intros N. cbn [set_lock locks]. destruct (j =? i) eqn:E; auto. lia. Qed.
Lemma lock_step_other s i r a s1 r1 j : j <> i -> lock_step s i r a = Ok (s1, r1) -> locks s1 j = locks s j.
Proof.
  intros N L. destruct r, a; cbn [LockModel.lock_step] in L; try discriminate;
      repeat match type of L with
        | context [if ?c then _ else _] => destruct c
        | context [match lookup_node ?a ?b with _ => _ end] => destruct (lookup_node a b)
        | context [match l_id ?a with _ => _ end] => destruct (l_id a)
        | context [bind ?a _] => destruct a; cbn [bind] in L
        end; try discriminate; injection L as <- <-; try apply set_other; auto.
  all: cbn [create fst]; rewrite ?set_other by auto; reflexivity.
Qed.
Definition object (e : event) : N :=
  match e with Begin i | Call i _ _ | Return i _ | Timeout i | Acquire i | Wake i _ | Release i | Delete i _ | Drop i | Expire i => i end.
Lemma step_other s e s' j : step s e = Ok s' ->
  j <> object e -> locks s' j = locks s j.
Proof.
  destruct e as [i|i w a|i w|i|i|i p|i|i a|i|i]; cbn [LockModel.step object]; intros H N.
  2:{ destruct (at_run (locks s i) w) as [r|]; [|discriminate]. destruct (lock_step s i r a) as [| |[s1 r1]] eqn:L; try discriminate. cbn [bind] in H. injection H as <-.
      rewrite set_other by auto. eapply lock_step_other; eauto. }
  all: repeat match type of H with
        | (if ?c then _ else _) = _ => destruct c
        | match ?c with _ => _ end = _ => destruct c
        end; try discriminate; injection H as <-; auto.
  all: rewrite set_other by auto; reflexivity.
Qed.
Lemma stuck_step s e s' i : stuck (locks s i) -> step s e = Ok s' -> stuck (locks s' i).
Proof.
  intros (A & O & W & M) H.
  destruct (N.eq_dec i (object e)) as [E|E].
  2:{ rewrite (step_other _ _ _ i H); [split; auto|exact E]. }
  destruct e as [j|j w a|j w|j|j|j p|j|j a|j|j]; cbn [object] in E; subst j; cbn [LockModel.step] in H; rewrite ?A in H; try (destruct (l_main (locks s i)); try discriminate; contradiction).
  - destruct (at_run (locks s i) w) as [r|] eqn:E; [|discriminate]. destruct (lock_step s i r a) as [| |[s1 r1]] eqn:L; try discriminate. cbn [bind] in H. injection H as <-. rewrite locks_set.
    apply at_run_main in E. destruct w; rewrite E in *; try contradiction; try discriminate. 
    destruct r; try contradiction; destruct a; cbn [LockModel.lock_step] in L; rewrite ?A in L; try discriminate. injection L as <- <-.
    split; [exact A|]. split; [exact O|]. split; [exact W|]. exact Logic.I.
  - destruct (at_run (locks s i) w) as [r|] eqn:E; [|discriminate]. destruct r; try discriminate. injection H as <-. rewrite locks_set.
    apply at_run_main in E. destruct w; rewrite E in *; try contradiction; try discriminate.
    split; [exact A|]. split; [exact O|]. split; [exact W|]. exact Logic.I.
  - destruct (l_main (locks s i)) eqn:Q; try discriminate. rewrite O in H. injection H as <-. rewrite locks_set. split; [exact A|]. split; [exact O|]. split; [exact W|]. exact Logic.I.
  - destruct (l_main (locks s i)) eqn:Q; try discriminate. rewrite O in H. discriminate.
Qed.
Lemma stuck_run es s s' i : stuck (locks s i) -> run s es = Ok s' -> stuck (locks s' i).
Proof.
  revert s. induction es as [|e es IH]; intros s St H; cbn [LockModel.run] in H; [injection H as <-; auto|].
  destruct (step s e) as [| |s1] eqn:E; try discriminate. cbn [bind] in H. eapply IH; [|exact H]. eapply stuck_step; eauto.
Qed.
Lemma stuck_in_begin s i : stuck (locks s i) -> in_begin s i.
Proof. intros (_ & _ & _ & M). unfold in_begin. destruct (l_main (locks s i)) as [|r| |r| | |]; auto. Qed.

(** ** Any number of operations *)
(** The two states are the same. *)
Definition same (s s' : st) : Prop := z_next s = z_next s' /\ z_nodes s = z_nodes s' /\ forall j, locks s j = locks s' j.
Definition same_res (a b : res st) : Prop :=
  match a, b with Ok s, Ok s' => same s s' | Undef, Undef | Err, Err => True | _, _ => False end.
Lemma same_set s s' i k : same s s' -> same (set_lock s i k) (set_lock s' i k).
Proof. intros (A & B & C). split; [exact A|]. split; [exact B|]. intros j. cbn [set_lock locks]. now rewrite C. Qed.
Lemma same_delete s s' x : same s s' -> same (delete s x) (delete s' x).
Proof. intros (A & B & C). split; [exact A|]. split; [cbn; now rewrite B|exact C]. Qed.
Lemma same_close s s' x : same s s' -> same (close s x) (close s' x).
Proof. intros (A & B & C). split; [exact A|]. split; [cbn; now rewrite B|exact C]. Qed.
Lemma same_create s s' i : same s s' -> same (fst (create uuid s i)) (fst (create uuid s' i)) /\ snd (create uuid s i) = snd (create uuid s' i).
Proof. intros (A & B & C). unfold same. cbn [create fst snd z_next z_nodes locks]. unfold prefix. rewrite A, B, C. auto. Qed.
Lemma same_lock_step s s' i r a : same s s' ->
  match lock_step s i r a, lock_step s' i r a with
  | Ok (x, q), Ok (y, q') => same x y /\ q = q' | Undef, Undef | Err, Err => True | _, _ => False end.
Proof.
  intros H. pose proof H as (A & B & C). pose proof (same_create _ _ i H) as (Hc & Hn).
  assert (Nm : names s = names s') by (unfold names; now rewrite B).
  assert (Pf : prefix uuid s i = prefix uuid s' i) by (unfold prefix; now rewrite C).
  destruct r, a; cbn [LockModel.lock_step]; rewrite <- ?Nm, <- ?Pf, <- ?C; auto.
  all: repeat first
    [ progress auto using same_set, same_delete
    | match goal with
      | |- context [if ?c then _ else _] => destruct c
      | |- context [match lookup_node ?c ?d with _ => _ end] => destruct (lookup_node c d)
      | |- context [match l_id ?c with _ => _ end] => destruct (l_id c)
      | |- context [bind ?c _] => destruct c; cbn [bind]
      end ].
  all: unfold create in *; cbn [fst snd] in *; rewrite <- ?Hn in *; auto using same_set.
Qed.
Lemma same_step s s' e : same s s' -> same_res (step s e) (step s' e).
Proof.
  intros H. pose proof H as (A & B & C). assert (Nm : names s = names s') by (unfold names; now rewrite B).
  destruct e as [i|i w a|i w|i|i|i p|i|i a|i|i]; cbn [LockModel.step]; rewrite <- ?Nm, <- ?C.
  2:{ destruct (at_run (locks s i) w) as [r|]; [|exact Logic.I]. pose proof (same_lock_step s s' i r a H) as L.
      destruct (lock_step s i r a) as [| |[x q]], (lock_step s' i r a) as [| |[y q']]; try contradiction; try exact Logic.I. destruct L as (L & <-). cbn [bind same_res].
      pose proof L as (_ & _ & L'). rewrite <- L'. now apply same_set. }
  all: repeat match goal with
        | |- same_res (if ?c then _ else _) _ => destruct c
        | |- same_res (match ?c with _ => _ end) _ => destruct c
        end; cbn [same_res]; auto using same_set, same_delete, same_close.
Qed.
Lemma same_run es s s' : same s s' -> same_res (run s es) (run s' es).
Proof.
  revert s s'. induction es as [|e es IH]; intros s s' H; cbn [LockModel.run]; auto.
  pose proof (same_step _ _ e H) as G. destruct (step s e), (step s' e); try contradiction; try exact Logic.I. cbn [bind]. now apply IH.
Qed.
(** [n] operations of object 0 are over. *)
Definition after (n : N) : st := mkSt n [] (fun j => if j =? 0 then new_lock n else new_lock 0).
Definition cycle (n : N) : list event :=
  let x := node_name (lock_prefix (uuid 0 n)) n in
  [Begin 0; Call 0 First (Listed []); Call 0 First Done; Call 0 First (Listed [x]); Call 0 First Done; Return 0 First; Acquire 0; Release 0; Delete 0 Done].
Lemma run_app es es' s s1 : run s es = Ok s1 -> run s (es ++ es') = run s1 es'.
Proof. revert s. induction es as [|e es IH]; intros s H; cbn [LockModel.run app] in *; [injection H as ->; auto|]. destruct (step s e) as [| |s2]; try discriminate. cbn [bind] in *. auto. Qed.
Definition arrives (s : st) (es : list event) (s' : st) : Prop := exists t, run s es = Ok t /\ same t s'.
Lemma same_trans a b c : same a b -> same b c -> same a c.
Proof. intros (A & B & C) (A' & B' & C'). split; [congruence|]. split; [congruence|]. intros j. now rewrite C, C'. Qed.
Lemma arrives_next s e es s1 s2 : arrives s [e] s1 -> arrives s1 es s2 -> arrives s (e :: es) s2.
Proof.
  intros (t & R & Q) (t' & R' & Q'). cbn [LockModel.run] in R. destruct (step s e) as [| |t1] eqn:E; try discriminate. injection R as ->.
  pose proof (same_run es _ _ Q) as G. rewrite R' in G. destruct (run t es) as [| |t2] eqn:F; try contradiction. exists t2. split; [cbn [LockModel.run]; now rewrite E|].
  eapply same_trans; eauto.
Qed.
(** Only object 0 has been used. *)
Definition only0 (n : N) (l : list znode) (k : lock) : st := mkSt n l (fun j => if j =? 0 then k else new_lock 0).
Ltac one := eexists; split; [cbn [LockModel.run LockModel.step only0 locks N.eqb]; reflexivity|split; [reflexivity|split; [reflexivity|intros j; cbn; now destruct (j =? 0)]]].
Lemma cycle_run n : arrives (after n) (cycle n) (after (n + 1)).
Proof.
  unfold cycle. set (x := node_name (lock_prefix (uuid 0 n)) n).
  assert (D : decide [x] x = Ok RWin).
  { unfold decide, sort. cbn [fold_right insert]. unfold child_floor. cbn [fold_left]. rewrite suffix_lt_irrefl. now rewrite beq_refl. }
  assert (Hb : beq x x = true) by apply beq_refl.
  assert (Nn : x <> []) by apply name_nonnil.
  apply arrives_next with (only0 n [] (mkLock true n [] false [] (MLock RList) WIdle)); [one|].
  apply arrives_next with (only0 n [] (mkLock true n [] false [] (MLock (RCreate [])) WIdle)); [one|].
  apply arrives_next with (only0 (n + 1) [mkZnode x 0] (mkLock true n x false [] (MLock (RList2 [])) WIdle)); [one|].
  apply arrives_next with (only0 (n + 1) [mkZnode x 0] (mkLock true n x false [] (MLock RWin) WIdle)).
  { clearbody x. eexists. split.
    - cbn [LockModel.run LockModel.step only0 locks N.eqb at_run l_main l_wat LockModel.lock_step l_alive names z_nodes map z_name same_names has existsb remove1]. rewrite Hb.
      cbn [andb orb l_id]. cbn [same_names]. rewrite D. cbn [bind]. reflexivity.
    - split; [reflexivity|]. split; [reflexivity|]. intros j. cbn. now destruct (j =? 0). }
  apply arrives_next with (only0 (n + 1) [mkZnode x 0] (mkLock true n x true [] (MLock (RDone true)) WIdle)); [one|].
  apply arrives_next with (only0 (n + 1) [mkZnode x 0] (mkLock true n x true [] (MWait true) WIdle)); [one|].
  apply arrives_next with (only0 (n + 1) [mkZnode x 0] (mkLock true n x true [] MHeld WIdle)); [one|].
  apply arrives_next with (only0 (n + 1) [mkZnode x 0] (mkLock true n x true [] MUnlock WIdle)); [one|].
  clearbody x. destruct x as [|c t]; [congruence|]. eexists. split; [cbn [LockModel.run LockModel.step only0 locks N.eqb l_main l_id l_alive]; reflexivity|].
  split; [reflexivity|]. split; [cbn -[beq]; now rewrite Hb|]. intros j. cbn. now destruct (j =? 0).
Qed.
Lemma many_operations n : exists es s, Forall watches es /\ reached uuid es s /\ same s (after n).
Proof.
  induction n as [|n IH] using N.peano_ind.
  - exists [], st0. split; [constructor|]. split; [reflexivity|]. split; [reflexivity|]. split; [reflexivity|]. intros j. cbn. now destruct (j =? 0).
  - destruct IH as (es & s & W & R & Sm). destruct (cycle_run n) as (s1 & C1 & C2). rewrite <- N.add_1_r.
    pose proof (same_run (cycle n) _ _ Sm) as G. rewrite C1 in G. destruct (run s (cycle n)) as [| |s2] eqn:E; try contradiction. cbn [same_res] in G.
    exists (es ++ cycle n), s2. split; [|split].
    + apply Forall_app. split; auto. unfold cycle. repeat constructor.
    + unfold reached in *. now rewrite (run_app _ _ _ _ R).
    + destruct G as (G1 & G2 & G3), C2 as (C21 & C22 & C23). split; [congruence|]. split; [congruence|]. intros j. now rewrite G3, C23.
Qed.
End Proofs.
