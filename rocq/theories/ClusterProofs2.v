(** Proofs for the cluster model: the partition tables. *)
From Coq Require Import ZArith NArith List Bool Lia ZifyBool ZifyNat ZifyN Sorting.Permutation FinFun.
From Verif Require Import Base BaseLemmas TextModel ClusterModel ClusterSpec ClusterProofs.
Import ListNotations.
Local Open Scope Z_scope.
Local Open Scope list_scope.

Lemma find_app {A} (f : A -> bool) a b : find f (a ++ b) = match find f a with Some x => Some x | None => find f b end.
Proof. induction a as [|x a IH]; cbn [find app]; auto. destruct (f x); auto. Qed.
Lemma put_master_table near k n pr : put_master near pr k n (table near None []) = table (fun x => pr && near x) (Some (k, n)) [].
Proof.
  unfold put_master, table, shares. cbn [map app filter flat_map fst snd p_slaves p_balance p_prior p_index].
  rewrite app_nil_r. destruct (pr && near (n_name n)); cbn [map flat_map fst snd]; now rewrite ?app_nil_r.
Qed.
Lemma put_slave_table near k n mn sl : put_slave near true k n (table near mn sl) = table near mn (sl ++ [(k, n)]).
Proof.
  unfold put_slave, table, shares. cbn [p_master p_master_balance p_slaves p_balance p_prior p_index andb].
  fold (share n). set (ms := match mn with Some (k, n) => [(k, n, n_balance n)] | None => [] end).
  rewrite !map_app, !filter_app, !map_app, !flat_map_app. cbn [map filter flat_map fst snd]. rewrite app_nil_r, !app_assoc.
  f_equal. destruct (near (n_name n)); cbn [map flat_map fst snd]; rewrite ?app_nil_r, <- ?app_assoc; auto.
Qed.
Lemma put_slave_table' near k n mn sl : put_slave near false k n (table (fun _ => false) mn sl) = table (fun _ => false) mn (sl ++ [(k, n)]).
Proof. rewrite <- put_slave_table. reflexivity. Qed.

Definition main1 near p l := if existsb (fun kn => is_master [Active; Down] p (snd kn)) l then Some (table near (master_of [Active] p l) []) else None.
Definition prep1 p l := match master_of [Prepare; Ready] p l with Some kn => Some (table (fun _ => false) (Some kn) []) | None => None end.
(** No live master without partition, no two active (preparing) ones for one. *)
Definition masters_ok (l : node_map) : Prop :=
  (forall kn, In kn l -> n_role (snd kn) = Master -> live (snd kn) -> 0 <= n_partition (snd kn)) /\
  (forall l1 l2 kn sts, (sts = [Active] \/ sts = [Prepare; Ready]) -> l = l1 ++ kn :: l2 ->
     is_master sts (n_partition (snd kn)) (snd kn) = true -> master_of sts (n_partition (snd kn)) l1 = None).
Lemma is_master_active p n : is_master [Active] p n = true -> is_master [Active; Down] p n = true.
Proof.
  unfold is_master. cbn [existsb]. destruct (role_eqb _ _), (state_eqb (n_state n) Active), (state_eqb (n_state n) Down), (n_partition n =? p), (0 <=? p); auto.
Qed.
Lemma active_exists p l x : master_of [Active] p l = Some x -> existsb (fun kn => is_master [Active; Down] p (snd kn)) l = true.
Proof. intros M. apply find_some in M as (I & M). apply existsb_exists. exists x. split; auto using is_master_active. Qed.
Lemma pat_master near npm p l (K : forall k, In k (map fst l) -> k <> []) :
  pfind p npm = main1 near p l -> beq (p_master (pat p npm)) [] = match master_of [Active] p l with None => true | _ => false end.
Proof.
  intros E. unfold pat. rewrite E. unfold main1. destruct (existsb _ l) eqn:X.
  - destruct (master_of [Active] p l) as [(k, n)|] eqn:M; cbn [table p_master]; [|reflexivity].
    destruct (beq_spec k []); [|reflexivity]. exfalso. apply (K k); auto. apply find_some in M as (M & _). change k with (fst (k, n)). now apply in_map.
  - destruct (master_of [Active] p l) as [(k, n)|] eqn:M; [|reflexivity].
    rewrite (active_exists _ _ _ M) in X. discriminate.
Qed.
Lemma pat_prep nppm p l (K : forall k, In k (map fst l) -> k <> []) :
  pfind p nppm = prep1 p l -> beq (p_master (pat p nppm)) [] = match master_of [Prepare; Ready] p l with None => true | _ => false end.
Proof.
  intros E. unfold pat. rewrite E. unfold prep1.
  destruct (master_of [Prepare; Ready] p l) as [(k, n)|] eqn:M; cbn [table p_master]; [|reflexivity].
  destruct (beq_spec k []); [|reflexivity]. exfalso. apply (K k); auto. apply find_some in M as (M & _). change k with (fst (k, n)). now apply in_map.
Qed.
Lemma is_master_other sts p n : n_partition n <> p -> is_master sts p n = false.
Proof. intros H. unfold is_master. destruct (Z.eqb_spec (n_partition n) p); [easy|]. now rewrite andb_false_r. Qed.
Lemma is_master_role sts p n : n_role n <> Master -> is_master sts p n = false.
Proof. intros H. unfold is_master. now destruct (role_eqb_spec (n_role n) Master). Qed.
Lemma main1_snoc near p l k n : main1 near p (l ++ [(k, n)]) =
  if existsb (fun kn => is_master [Active; Down] p (snd kn)) l || is_master [Active; Down] p n
  then Some (table near (match master_of [Active] p l with Some x => Some x | None => if is_master [Active] p n then Some (k, n) else None end) []) else None.
Proof. unfold main1, master_of. rewrite existsb_app, find_app. cbn [existsb find snd]. now rewrite orb_false_r. Qed.
Lemma prep1_snoc p l k n : prep1 p (l ++ [(k, n)]) =
  match master_of [Prepare; Ready] p l with Some x => Some (table (fun _ => false) (Some x) [])
  | None => if is_master [Prepare; Ready] p n then Some (table (fun _ => false) (Some (k, n)) []) else None end.
Proof. unfold prep1, master_of. rewrite find_app. cbn [find snd]. destruct (find _ l); auto. now destruct (is_master _ _ _). Qed.

Lemma pass1 near l : (forall k, In k (map fst l) -> k <> []) ->
  exists npm nppm ok, fold_left (master_step near) l ([], [], true) = (npm, nppm, ok) /\ pordered npm /\ pordered nppm /\
    (forall p, pfind p npm = main1 near p l) /\ (forall p, pfind p nppm = prep1 p l) /\ (masters_ok l -> ok = true).
Proof.
  induction l as [|(k, n) l IH] using rev_ind; intros K.
  - exists [], [], true. repeat split; try constructor.
  - destruct IH as (npm & nppm & ok & E & O1 & O2 & M & P & OK). { intros x Hx. apply K. rewrite map_app. apply in_or_app. now left. }
    rewrite fold_left_app, E. cbn [fold_left].
    assert (Kl : forall x, In x (map fst l) -> x <> []). { intros x Hx. apply K. rewrite map_app. apply in_or_app. now left. }
    assert (Kk : k <> []). { apply K. rewrite map_app. apply in_or_app. right. now left. }
    assert (MO : masters_ok (l ++ [(k, n)]) -> masters_ok l).
    { intros (A & B). split; [intros kn I; apply A, in_or_app; now left|]. intros l1 l2 kn sts S El I. apply (B l1 (l2 ++ [(k, n)]) kn sts S); auto. rewrite El, <- app_assoc. reflexivity. }
    assert (MA : forall sts, (sts = [Active] \/ sts = [Prepare; Ready]) -> masters_ok (l ++ [(k, n)]) -> is_master sts (n_partition n) n = true -> master_of sts (n_partition n) l = None).
    { intros sts S (A & B) I. apply (B l [] (k, n) sts S eq_refl I). }
    assert (MP : masters_ok (l ++ [(k, n)]) -> n_role n = Master -> live n -> 0 <= n_partition n).
    { intros (A & _) R L. apply (A (k, n)); auto. apply in_or_app. right. now left. }
    unfold master_step. set (p0 := n_partition n) in *.
    destruct (role_eqb_spec (n_role n) Master) as [R|R]; cbn [negb].
    2:{ exists npm, nppm, ok. split; [reflexivity|]. repeat split; auto.
        - intros p. rewrite M, main1_snoc, !(is_master_role _ _ _ R), orb_false_r. unfold main1. now destruct (master_of [Active] p l).
        - intros p. rewrite P, prep1_snoc, (is_master_role _ _ _ R). unfold prep1. now destruct (master_of _ p l). }
    assert (Mk : forall p, p <> p0 -> main1 near p (l ++ [(k, n)]) = main1 near p l).
    { intros p D. rewrite main1_snoc, !(is_master_other _ p n) by (intro; apply D; symmetry; assumption). rewrite orb_false_r. unfold main1. now destruct (master_of [Active] p l). }
    assert (Pk : forall p, p <> p0 -> prep1 p (l ++ [(k, n)]) = prep1 p l).
    { intros p D. rewrite prep1_snoc, (is_master_other _ p n) by (intro; apply D; symmetry; assumption). unfold prep1. now destruct (master_of _ p l). }
    rewrite (pat_master near npm p0 l Kl (M p0)).
    destruct (state_eqb_spec (n_state n) Down) as [D|D]; cbn [andb].
    + assert (IM : is_master [Active; Down] p0 n = true /\ is_master [Active] p0 n = false /\ is_master [Prepare; Ready] p0 n = false).
      { unfold is_master. rewrite R, D. fold p0. rewrite Z.eqb_refl. auto. }
      destruct IM as (I1 & I2 & I3).
      assert (Pp : forall p, pfind p nppm = prep1 p (l ++ [(k, n)])).
      { intros p. destruct (Z.eq_dec p p0) as [->|Dp]; [|now rewrite Pk]. rewrite P, prep1_snoc, I3. unfold prep1. now destruct (master_of _ p0 l). }
      destruct (master_of [Active] p0 l) as [x|] eqn:MO0.
      * assert (Mm : forall p, pfind p npm = main1 near p (l ++ [(k, n)])).
        { intros p. destruct (Z.eq_dec p p0) as [->|Dp]; [|now rewrite Mk]. rewrite main1_snoc, I1, I2, MO0, orb_true_r.
          rewrite M. unfold main1. rewrite MO0. destruct (existsb _ l) eqn:EX; auto. rewrite (active_exists _ _ _ MO0) in EX. discriminate. }
        destruct (Z.ltb_spec p0 0).
        -- exfalso. apply find_some in MO0 as (_ & MO0). unfold is_master in MO0. cbn [existsb] in MO0. destruct (role_eqb (n_role (snd x)) Master), (state_eqb_spec (n_state (snd x)) Active) as [->|]; try easy.
           cbn [state_eqb orb andb] in MO0. lia.
        -- rewrite D. exists npm, nppm, ok. split; [reflexivity|]. repeat split; auto.
      * exists (pset p0 (let q := pat p0 npm in mkPart [] 0 (p_slaves q) (p_balance q) (p_prior q) (p_index q)) npm), nppm, ok.
        split; [reflexivity|]. repeat split; auto using pset_ordered.
        intros p. rewrite pfind_set. destruct (Z.eqb_spec p p0) as [->|Dp]; [|now rewrite Mk].
        rewrite main1_snoc, I1, I2, MO0, orb_true_r. f_equal. unfold pat. rewrite M. unfold main1. rewrite MO0. now destruct (existsb _ l).
    + destruct (Z.ltb_spec p0 0) as [Neg|Pos].
      * assert (IM : forall sts, is_master sts p0 n = false).
        { intros sts. unfold is_master. destruct (state_eqb_spec (n_state n) Down); [easy|]. cbn [orb]. destruct (Z.leb_spec 0 p0); [lia|]. now rewrite andb_false_r. }
        exists npm, nppm, false. split; [reflexivity|]. repeat split; auto.
        -- intros p. destruct (Z.eq_dec p p0) as [->|Dp]; [|now rewrite Mk]. rewrite M, main1_snoc, !IM, orb_false_r. unfold main1. now destruct (master_of [Active] p0 l).
        -- intros p. destruct (Z.eq_dec p p0) as [->|Dp]; [|now rewrite Pk]. rewrite P, prep1_snoc, IM. unfold prep1. now destruct (master_of _ p0 l).
        -- intros MK. exfalso. specialize (MP MK R D). lia.
      * assert (NL : (state_eqb (n_state n) Down || (0 <=? p0)) = true) by lia.
        destruct (n_state n) eqn:ST; [| |easy|].
        -- (* Active *)
          assert (IM : is_master [Active; Down] p0 n = true /\ is_master [Active] p0 n = true /\ is_master [Prepare; Ready] p0 n = false).
          { unfold is_master. rewrite R, ST, NL. fold p0. rewrite Z.eqb_refl. auto. }
          destruct IM as (I1 & I2 & I3).
          assert (Pp : forall p, pfind p nppm = prep1 p (l ++ [(k, n)])).
          { intros p. destruct (Z.eq_dec p p0) as [->|Dp]; [|now rewrite Pk]. rewrite P, prep1_snoc, I3. unfold prep1. now destruct (master_of _ p0 l). }
          destruct (master_of [Active] p0 l) as [x|] eqn:MO0; cbn [negb].
          ++ exists npm, nppm, false. split; [reflexivity|]. repeat split; auto.
             ** intros p. destruct (Z.eq_dec p p0) as [->|Dp]; [|now rewrite Mk]. rewrite main1_snoc, I1, MO0, orb_true_r.
                rewrite M. unfold main1. rewrite MO0. destruct (existsb _ l) eqn:EX; auto. rewrite (active_exists _ _ _ MO0) in EX. discriminate.
             ** intros MK. exfalso. rewrite (MA [Active] (or_introl eq_refl) MK I2) in MO0. discriminate.
          ++ exists (pset p0 (put_master near true k n (pat p0 npm)) npm), nppm, ok. split; [reflexivity|]. repeat split; auto using pset_ordered.
             intros p. rewrite pfind_set. destruct (Z.eqb_spec p p0) as [->|Dp]; [|now rewrite Mk].
             rewrite main1_snoc, I1, I2, MO0, orb_true_r. f_equal.
             assert (EP : pat p0 npm = table near None []). { unfold pat. rewrite M. unfold main1. rewrite MO0. now destruct (existsb _ l). }
             rewrite EP, put_master_table. reflexivity.
        -- (* Prepare *)
          assert (IM : is_master [Active; Down] p0 n = false /\ is_master [Active] p0 n = false /\ is_master [Prepare; Ready] p0 n = true).
          { unfold is_master. rewrite R, ST, NL. fold p0. rewrite Z.eqb_refl. auto. }
          destruct IM as (I1 & I2 & I3).
          assert (Mm : forall p, pfind p npm = main1 near p (l ++ [(k, n)])).
          { intros p. destruct (Z.eq_dec p p0) as [->|Dp]; [|now rewrite Mk]. rewrite M, main1_snoc, I1, I2, orb_false_r. unfold main1. now destruct (master_of [Active] p0 l). }
          rewrite (pat_prep nppm p0 l Kl (P p0)). destruct (master_of [Prepare; Ready] p0 l) as [x|] eqn:MO0; cbn [negb].
          ++ exists npm, nppm, false. split; [reflexivity|]. repeat split; auto.
             ** intros p. destruct (Z.eq_dec p p0) as [->|Dp]; [|now rewrite Pk]. rewrite P, prep1_snoc. unfold prep1. now rewrite MO0.
             ** intros MK. exfalso. rewrite (MA _ (or_intror eq_refl) MK I3) in MO0. discriminate.
          ++ exists npm, (pset p0 (put_master near false k n (pat p0 nppm)) nppm), ok. split; [reflexivity|]. repeat split; auto using pset_ordered.
             intros p. rewrite pfind_set. destruct (Z.eqb_spec p p0) as [->|Dp]; [|now rewrite Pk].
             rewrite prep1_snoc, I3, MO0. f_equal.
             assert (EP : pat p0 nppm = table near None []). { unfold pat. rewrite P. unfold prep1. now rewrite MO0. }
             rewrite EP, put_master_table. reflexivity.
        -- (* Ready *)
          assert (IM : is_master [Active; Down] p0 n = false /\ is_master [Active] p0 n = false /\ is_master [Prepare; Ready] p0 n = true).
          { unfold is_master. rewrite R, ST, NL. fold p0. rewrite Z.eqb_refl. auto. }
          destruct IM as (I1 & I2 & I3).
          assert (Mm : forall p, pfind p npm = main1 near p (l ++ [(k, n)])).
          { intros p. destruct (Z.eq_dec p p0) as [->|Dp]; [|now rewrite Mk]. rewrite M, main1_snoc, I1, I2, orb_false_r. unfold main1. now destruct (master_of [Active] p0 l). }
          rewrite (pat_prep nppm p0 l Kl (P p0)). destruct (master_of [Prepare; Ready] p0 l) as [x|] eqn:MO0; cbn [negb].
          ++ exists npm, nppm, false. split; [reflexivity|]. repeat split; auto.
             ** intros p. destruct (Z.eq_dec p p0) as [->|Dp]; [|now rewrite Pk]. rewrite P, prep1_snoc. unfold prep1. now rewrite MO0.
             ** intros MK. exfalso. rewrite (MA _ (or_intror eq_refl) MK I3) in MO0. discriminate.
          ++ exists npm, (pset p0 (put_master near false k n (pat p0 nppm)) nppm), ok. split; [reflexivity|]. repeat split; auto using pset_ordered.
             intros p. rewrite pfind_set. destruct (Z.eqb_spec p p0) as [->|Dp]; [|now rewrite Pk].
             rewrite prep1_snoc, I3, MO0. f_equal.
             assert (EP : pat p0 nppm = table near None []). { unfold pat. rewrite P. unfold prep1. now rewrite MO0. }
             rewrite EP, put_master_table. reflexivity.
Qed.

(** *** Second pass *)
Definition slaves_ok (m : node_map) : Prop :=
  forall kn, In kn m -> n_role (snd kn) = Slave -> live (snd kn) ->
    0 <= n_partition (snd kn) /\ (main1 (fun _ => false) (n_partition (snd kn)) m <> None \/ prep1 (n_partition (snd kn)) m <> None).
Definition main2 near p m l := if existsb (fun kn => is_master [Active; Down] p (snd kn)) m then Some (table near (master_of [Active] p m) (slaves_of p l)) else None.
Definition prep2 p m l := match master_of [Prepare; Ready] p m with Some kn => Some (table (fun _ => false) (Some kn) (if existsb (fun kn => is_master [Active; Down] p (snd kn)) m then [] else slaves_of p l)) | None => None end.
Lemma slaves_of_snoc p l k n : slaves_of p (l ++ [(k, n)]) = slaves_of p l ++ (if is_slave p n then [(k, n)] else []).
Proof. unfold slaves_of. rewrite filter_app. cbn [filter snd]. now destruct (is_slave p n). Qed.
Lemma is_slave_other p n : n_partition n <> p -> is_slave p n = false.
Proof. intros H. unfold is_slave. destruct (Z.eqb_spec (n_partition n) p); [easy|]. now rewrite andb_false_r. Qed.

Lemma pass2 near m npm nppm ok l :
  pordered npm -> pordered nppm -> (forall p, pfind p npm = main1 near p m) -> (forall p, pfind p nppm = prep1 p m) ->
  exists npm' nppm' ok', fold_left (slave_step near) l (npm, nppm, ok) = (npm', nppm', ok') /\ pordered npm' /\ pordered nppm' /\
    (forall p, pfind p npm' = main2 near p m l) /\ (forall p, pfind p nppm' = prep2 p m l) /\
    (ok = true -> (forall kn, In kn l -> In kn m) -> slaves_ok m -> ok' = true).
Proof.
  intros O1 O2 M P. induction l as [|(k, n) l IH] using rev_ind.
  - exists npm, nppm, ok. repeat split; auto. 
    intros p. rewrite P. unfold prep1, prep2. destruct (master_of _ _ _); auto. unfold slaves_of. cbn [filter]. now destruct (existsb _ m).
  - destruct IH as (npm' & nppm' & ok' & E & O1' & O2' & M' & P' & OK).
    rewrite fold_left_app, E. cbn [fold_left]. unfold slave_step. set (p0 := n_partition n) in *.
    assert (Mk : forall p, is_slave p n = false -> main2 near p m (l ++ [(k, n)]) = main2 near p m l).
    { intros p D. unfold main2. now rewrite slaves_of_snoc, D, app_nil_r. }
    assert (Pk : forall p, is_slave p n = false -> prep2 p m (l ++ [(k, n)]) = prep2 p m l).
    { intros p D. unfold prep2. now rewrite slaves_of_snoc, D, app_nil_r. }
    assert (OK' : ok = true -> (forall kn, In kn (l ++ [(k, n)]) -> In kn m) -> slaves_ok m -> ok' = true).
    { intros A B. apply OK; auto. intros kn I. apply B, in_or_app. now left. }
    assert (HD : (forall kn, In kn (l ++ [(k, n)]) -> In kn m) -> In (k, n) m). { intros A. apply A, in_or_app. right. now left. }
    destruct (role_eqb_spec (n_role n) Slave) as [R|R]; cbn [negb orb].
    2:{ assert (F : forall p, is_slave p n = false). { intros p. unfold is_slave. now destruct (role_eqb_spec (n_role n) Slave). }
        exists npm', nppm', ok'. split; [reflexivity|]. repeat split; auto; intros p; [now rewrite Mk|now rewrite Pk]. }
    destruct (state_eqb_spec (n_state n) Down) as [D|D].
    { assert (F : forall p, is_slave p n = false). { intros p. unfold is_slave. rewrite D. cbn [state_eqb negb]. now rewrite andb_false_r. }
      exists npm', nppm', ok'. split; [reflexivity|]. repeat split; auto; intros p; [now rewrite Mk|now rewrite Pk]. }
    destruct (Z.ltb_spec p0 0) as [Neg|Pos].
    { assert (F : forall p, is_slave p n = false). { intros p. unfold is_slave. fold p0. destruct (Z.eqb_spec p0 p); [|now rewrite andb_false_r]. destruct (Z.leb_spec 0 p); [lia|]. now rewrite andb_false_r. }
      exists npm', nppm', false. split; [reflexivity|]. repeat split; auto.
      - intros p; now rewrite Mk.
      - intros p; now rewrite Pk.
      - intros _ A SO. destruct (SO _ (HD A) R D) as (SO1 & _). cbn [snd] in SO1. fold p0 in SO1. lia. }
    assert (IS : is_slave p0 n = true).
    { unfold is_slave. fold p0. rewrite R, Z.eqb_refl. destruct (state_eqb_spec (n_state n) Down); [easy|]. cbn [role_eqb andb negb]. lia. }
    assert (NS : forall p, p <> p0 -> is_slave p n = false). { intros p Hp. apply is_slave_other. intro X. apply Hp. symmetry. exact X. }
    pose proof (M' p0) as FM. pose proof (P' p0) as FP. unfold main2 in FM. unfold prep2 in FP.
    destruct (existsb (fun kn => is_master [Active; Down] p0 (snd kn)) m) eqn:X; rewrite FM.
    + eexists _, nppm', ok'. split; [reflexivity|]. repeat split; auto using pset_ordered.
      * intros p. rewrite pfind_set. destruct (Z.eqb_spec p p0) as [->|Dp]; [|now rewrite M', Mk by auto].
        unfold main2. rewrite X, slaves_of_snoc, IS. f_equal. apply put_slave_table.
      * intros p. rewrite P'. destruct (Z.eq_dec p p0) as [->|Dp]; [|now rewrite Pk by auto]. unfold prep2. now rewrite X.
    + destruct (master_of [Prepare; Ready] p0 m) as [kn|] eqn:MO0; rewrite FP.
      * eexists npm', _, ok'. split; [reflexivity|]. repeat split; auto using pset_ordered.
        -- intros p. rewrite M'. destruct (Z.eq_dec p p0) as [->|Dp]; [|now rewrite Mk by auto]. unfold main2. now rewrite X.
        -- intros p. rewrite pfind_set. destruct (Z.eqb_spec p p0) as [->|Dp]; [|now rewrite P', Pk by auto].
           unfold prep2. rewrite X, MO0, slaves_of_snoc, IS. f_equal. apply put_slave_table'.
      * exists npm', nppm', false. split; [reflexivity|]. repeat split; auto.
        -- intros p. rewrite M'. destruct (Z.eq_dec p p0) as [->|Dp]; [|now rewrite Mk by auto]. unfold main2. now rewrite X.
        -- intros p. rewrite P'. destruct (Z.eq_dec p p0) as [->|Dp]; [|now rewrite Pk by auto]. unfold prep2. now rewrite MO0.
        -- intros _ A SO. exfalso. destruct (SO _ (HD A) R D) as (_ & [SO1|SO1]); apply SO1; cbn [snd]; unfold main1, prep1; fold p0; [now rewrite X|now rewrite MO0].
Qed.

Lemma main_table_eq near p m : main_table near p m = main2 near p m m. Proof. reflexivity. Qed.
Lemma prep_table_eq p m : prep_table p m = prep2 p m m.
Proof. unfold prep_table, prep2, main_table. destruct (master_of _ _ _); auto. now destruct (existsb _ m). Qed.

(** *** The two passes together *)
Lemma passes near m : named m -> exists a b ok,
  fold_left (slave_step near) m (fold_left (master_step near) m ([], [], true)) = (a, b, ok) /\ pordered a /\ pordered b /\
  (forall p, pfind p a = main_table near p m) /\ (forall p, pfind p b = prep_table p m) /\
  (masters_ok m -> slaves_ok m -> ok = true).
Proof.
  intros K. destruct (pass1 near m K) as (npm & nppm & ok & E & O1 & O2 & M & P & OK). rewrite E.
  destruct (pass2 near m npm nppm ok m O1 O2 M P) as (a & b & ok' & E' & O1' & O2' & M' & P' & OK').
  exists a, b, ok'. repeat split; auto. intros p. now rewrite prep_table_eq.
Qed.

(** *** The consistency check *)
Lemma max_key_ge (ps : parts) : (forall p q, In (p, q) ps -> p <= max_key ps) /\ 0 <= max_key ps.
Proof.
  unfold max_key. enough (G : forall a, (forall p q, In (p, q) ps -> p <= fold_left (fun a kp => if a <? fst kp then fst kp else a) ps a) /\ a <= fold_left (fun a kp => if a <? fst kp then fst kp else a) ps a).
  { split; [apply G|apply G]. }
  induction ps as [|(p, q) ps IH]; intros a; cbn [fold_left fst].
  - split; [easy|lia].
  - destruct (IH (if a <? p then p else a)) as (A & B). split.
    + intros p' q' [X|X]; [inversion X; subst|eauto]. destruct (Z.ltb_spec a p'); lia.
    + destruct (Z.ltb_spec a p); lia.
Qed.
Lemma max_key_in (ps : parts) : max_key ps = 0 \/ exists q, In (max_key ps, q) ps.
Proof.
  unfold max_key. enough (G : forall a, fold_left (fun a kp => if a <? fst kp then fst kp else a) ps a = a \/ exists q, In (fold_left (fun a kp => if a <? fst kp then fst kp else a) ps a, q) ps) by apply G.
  induction ps as [|(p, q) ps IH]; intros a; cbn [fold_left fst]; auto.
  destruct (IH (if a <? p then p else a)) as [X|(x & X)].
  - destruct (Z.ltb_spec a p); rewrite X; [right; exists q; now left|now left].
  - right. exists x. now right.
Qed.
(** [n] distinct numbers of [0..n-1] are all of them. *)
Lemma pigeon (l : list Z) : NoDup l -> (forall x, In x l -> 0 <= x < Z.of_nat (List.length l)) ->
  forall x, 0 <= x < Z.of_nat (List.length l) -> In x l.
Proof.
  intros ND B x Hx.
  set (r := map Z.of_nat (seq 0 (List.length l))).
  assert (I : incl l r). { intros y Hy. specialize (B y Hy). unfold r. apply in_map_iff. exists (Z.to_nat y). split; [lia|]. apply in_seq. lia. }
  assert (I' : incl r l). { apply NoDup_length_incl; auto. unfold r. rewrite map_length, seq_length. lia. }
  apply I'. unfold r. apply in_map_iff. exists (Z.to_nat x). split; [lia|]. apply in_seq. lia.
Qed.
Lemma pfind_keys p (ps : parts) : pordered ps -> (In p (map fst ps) <-> pfind p ps <> None).
Proof.
  intros O. split.
  - intros I. apply in_map_iff in I as ((p', q) & <- & I). cbn [fst]. apply (pfind_in p' q ps O) in I. congruence.
  - destruct (pfind p ps) as [q|] eqn:E; [|easy]. intros _. apply (pfind_in p q ps O) in E. change p with (fst (p, q)). now apply in_map.
Qed.

Lemma consistent_keys a b : pordered a -> pordered b -> (forall p, pfind p a <> None -> 0 <= p) -> consistent a b = true ->
  partitions_are a (Z.of_nat (List.length a)) /\ (forall p, pfind p b <> None -> p = Z.of_nat (List.length a)).
Proof.
  intros Oa Ob NN C. unfold consistent in C. apply andb_prop in C as (C & C3). apply andb_prop in C as (C1 & C2).
  split.
  - intros p. apply orb_prop in C1 as [C1|C1].
    + apply Nat.eqb_eq in C1. destruct a; [|discriminate]. cbn. split; [easy|lia].
    + apply Z.eqb_eq in C1. destruct (max_key_ge a) as (G & _).
      assert (ND : NoDup (map fst a)) by (apply (ordered_nodup Z.ltb Z.ltb_irrefl); auto).
      assert (B : forall x, In x (map fst a) -> 0 <= x < Z.of_nat (List.length (map fst a))).
      { intros x Hx. rewrite map_length. split; [apply NN; now apply pfind_keys|]. apply in_map_iff in Hx as ((x', q) & <- & I). cbn [fst]. specialize (G _ _ I). lia. }
      rewrite <- (pfind_keys p a Oa). split; intros H.
      * specialize (B p H). now rewrite map_length in B.
      * apply pigeon; auto. now rewrite map_length.
  - intros p I. apply pfind_keys in I; auto. apply in_map_iff in I as ((p', q) & <- & I). rewrite forallb_forall in C3. specialize (C3 _ I). cbn [fst] in *. lia.
Qed.
Lemma keys_consistent a b n : pordered a -> pordered b -> partitions_are a n -> (forall p, pfind p b <> None -> p = n) -> 0 <= n -> consistent a b = true.
Proof.
  intros Oa Ob A B N0.
  assert (NDa : NoDup (map fst a)) by (apply (ordered_nodup Z.ltb Z.ltb_irrefl); auto).
  assert (NDb : NoDup (map fst b)) by (apply (ordered_nodup Z.ltb Z.ltb_irrefl); auto).
  set (r := map Z.of_nat (seq 0 (Z.to_nat n))).
  assert (NDr : NoDup r). { apply Injective_map_NoDup; [intros x y; lia|apply seq_NoDup]. }
  assert (EQ : forall x, In x (map fst a) <-> In x r).
  { intros x. rewrite (pfind_keys x a Oa), (A x). unfold r. rewrite in_map_iff. split.
    - intros H. exists (Z.to_nat x). split; [lia|]. apply in_seq. lia.
    - intros (y & <- & H). apply in_seq in H. lia. }
  assert (L : Z.of_nat (List.length a) = n).
  { rewrite <- (map_length fst a). rewrite (Permutation_length (NoDup_Permutation NDa NDr EQ)). unfold r. rewrite map_length, seq_length. lia. }
  unfold consistent. rewrite L. apply andb_true_intro; split; [apply andb_true_intro; split|].
  - destruct (Nat.eqb_spec (List.length a) 0) as [|NZ]; [reflexivity|]. cbn [orb].
    assert (I : In (n - 1) (map fst a)). { apply pfind_keys; auto. apply A. lia. }
    apply in_map_iff in I as ((x & q) & E & I). cbn [fst] in E. subst x.
    destruct (max_key_ge a) as (G & G0). specialize (G _ _ I).
    destruct (max_key_in a) as [Z0|(q' & I')]; [lia|].
    assert (max_key a < n). { apply A. apply pfind_keys; auto. change (max_key a) with (fst (max_key a, q')). now apply in_map. }
    lia.
  - destruct b as [|(p1, q1) [|(p2, q2) b]]; try reflexivity. exfalso.
    assert (p1 = n). { apply B. apply pfind_keys; auto. now left. }
    assert (p2 = n). { apply B. apply pfind_keys; auto. right. now left. }
    subst. inversion NDb; subst. apply H1. now left.
  - apply forallb_forall. intros (p, q) I. cbn [fst]. apply Z.eqb_eq, B, pfind_keys; auto. change p with (fst (p, q)). now apply in_map.
Qed.

(** *** reconstruct *)
Lemma reconstruct_tables near m a b ok : named m -> reconstruct near m = (Some (a, b), ok) ->
  pordered a /\ pordered b /\ (forall p, pfind p a = main_table near p m) /\ (forall p, pfind p b = prep_table p m) /\ consistent a b = true.
Proof.
  intros K. unfold reconstruct. destruct (passes near m K) as (a' & b' & ok' & E & O1 & O2 & M & P & _). rewrite E.
  destruct (consistent a' b') eqn:C; [|discriminate]. intros H. inversion H; subst. auto.
Qed.
Lemma reconstruct_none near m ok : reconstruct near m = (None, ok) -> ok = false.
Proof. unfold reconstruct. destruct (fold_left _ m _) as ((a, b), o). destruct (consistent a b); [discriminate|]. intros H; now inversion H. Qed.

Lemma main_table_near near p m : main_table near p m <> None <-> main_table (fun _ => false) p m <> None.
Proof. unfold main_table. now destruct (existsb _ m). Qed.
Lemma reconstruct_total near m n : named m -> contiguous m n -> exists a b ok, reconstruct near m = (Some (a, b), ok) /\ (masters_ok m -> slaves_ok m -> ok = true).
Proof.
  intros K (N0 & A & B). unfold reconstruct. destruct (passes near m K) as (a & b & ok & E & O1 & O2 & M & P & OK). rewrite E.
  rewrite (keys_consistent a b n O1 O2); auto.
  - exists a, b, ok. auto.
  - intros p. rewrite M, main_table_near. apply A.
  - intros p. rewrite P. apply B.
Qed.
