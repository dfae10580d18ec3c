From stdpp Require Import gmap.
From Coq Require Import Lia ZifyBool ZifyNat ZifyN.
From Verif Require Import Base BaseLemmas StorageModel StorageSpec StorageProofs StorageProofs2 StorageProofs4 ConcModel ConcSpec ConcProofs.
Local Open Scope N_scope.

(** * Which commands are still to come *)
Definition phase_cmds (p : phase) : list ConcModel.cmd :=
  match p with
  | Want o | HaveWhole o | Body o _ => [o]
  | Release o r => follow o r
  | TLock _ | TBody | TMid => [KTruncate]
  | Idle | TUnlock _ => []
  end.
Definition th_cmds (th : thread) := phase_cmds (ph th) ++ todo th.
Definition pending (c : conf) : list ConcModel.cmd := List.concat (map th_cmds (c_threads c)).

Section Count.
  Variables (slot : key -> nat) (nslots : nat).
  Notation step := (step slot nslots). Notation run_conc := (run_conc slot nslots).
  Lemma step_shape c t c' ev : step c t = Some (c', ev) -> exists th th', c_threads c !! t = Some th /\ c_threads c' = <[t := th']> (c_threads c) /\
    ((forallb (fun x => negb (is_lin x)) ev = true /\ th_cmds th' = th_cmds th) \/
     exists o r l, th_cmds th = o :: l /\ th_cmds th' = follow o r ++ l /\ (ev = [Lin t o r] \/ ev = [Lin t o r; Res t o r])).
  Proof.
    intros ST. unfold ConcModel.step in ST. destruct (c_threads c !! t) as [th|] eqn:Et; [|discriminate]. exists th. assert (TC : th_cmds th = phase_cmds (ph th) ++ todo th) by reflexivity. rewrite TC. clear TC. destruct (ph th) as [|o|o|o p|o r|i| | |i] eqn:E.
    - destruct (todo th) as [|o l]; [discriminate|]. injection ST as <- <-. eexists. split; [reflexivity|]. split; [reflexivity|]. left. split; reflexivity.
    - destruct (is_truncate o) eqn:Tr; [|destruct (is_get o)]; (destruct (ConcModel.can_wr _ _ _ _) || destruct (ConcModel.can_rd _ _ _ _)); try discriminate; injection ST as <- <-;
          eexists; (split; [reflexivity|]); (split; [reflexivity|]); left; split; try reflexivity. now destruct o.
    - destruct (ConcModel.can_wr _ _ _ _); try discriminate; injection ST as <- <-. eexists. split; [reflexivity|]. split; [reflexivity|]. left. split; reflexivity.
    - destruct p; try discriminate ST; try (cbn [access] in ST; injection ST as <- <-; eexists; (split; [reflexivity|]); (split; [reflexivity|]); left; split; reflexivity).
      destruct (is_get o); injection ST as <- <-; eexists; (split; [reflexivity|]); (split; [reflexivity|]); right; exists o, r, (todo th); (split; [reflexivity|]); (split; [reflexivity|]); auto.
    - injection ST as <- <-. eexists. split; [reflexivity|]. split; [reflexivity|]. left. split; reflexivity.
    - destruct (_ <? _)%nat; [destruct (ConcModel.can_wr _ _ _ _); [|discriminate]|]; injection ST as <- <-; eexists; (split; [reflexivity|]); (split; [reflexivity|]); left; split; reflexivity.
    - injection ST as <- <-. eexists. split; [reflexivity|]. split; [reflexivity|]. left. split; reflexivity.
    - injection ST as <- <-. eexists. split; [reflexivity|]. split; [reflexivity|]. right. exists KTruncate, (mkReply 0 None (empty_entry []) None), (todo th). split; [reflexivity|]. split; [reflexivity|]. now left.
    - destruct i; injection ST as <- <-; eexists; (split; [reflexivity|]); (split; [reflexivity|]); left; split; reflexivity.
  Qed.
  Lemma concat_insert {A B} (f : A -> list B) l t x y : l !! t = Some x ->
    exists a b, List.concat (map f l) = a ++ f x ++ b /\ List.concat (map f (<[t := y]> l)) = a ++ f y ++ b.
  Proof.
    revert t. induction l as [|z l IH]; intros [|t] E; try discriminate.
    - cbn in E. injection E as ->. exists [], (List.concat (map f l)). split; reflexivity.
    - cbn in E. destruct (IH t E) as (a & b & E1 & E2). exists (f z ++ a), b. change (<[S t := y]> (z :: l)) with (z :: <[t := y]> l). cbn [map List.concat]. rewrite E1, E2, <- !app_assoc. split; reflexivity.
  Qed.
  Lemma pending_step c t c' ev : step c t = Some (c', ev) -> exists a b,
    ((forallb (fun x => negb (is_lin x)) ev = true /\ pending c' = pending c) \/
     exists o r, pending c = a ++ o :: b /\ pending c' = a ++ follow o r ++ b /\ (ev = [Lin t o r] \/ ev = [Lin t o r; Res t o r])).
  Proof.
    intros ST. destruct (step_shape c t c' ev ST) as (th & th' & L & C' & H). destruct (concat_insert th_cmds _ t th th' L) as (a & b & E1 & E2).
    unfold pending. rewrite C', E1, E2. destruct H as [[H1 ->]|(o & r & l & -> & -> & H)].
    - exists a, b. left. split; [exact H1|reflexivity].
    - exists a, (l ++ b). right. exists o, r. cbn. rewrite <- app_assoc. auto.
  Qed.
  Lemma start_pending s work : pending (start s work) = List.concat work.
  Proof. unfold pending, start. cbn. rewrite map_map. rewrite <- (map_id work) at 2. reflexivity. Qed.
  Lemma finished_pending c : finished c -> pending c = [].
  Proof. unfold finished, pending. induction 1 as [|th l [P T] F IH]; [reflexivity|]. cbn. rewrite IH. unfold th_cmds. now rewrite P, T. Qed.

  (** * Increments *)
  Hypothesis slots_ok : forall k, (slot k < nslots)%nat.
  Variables (keys : list key) (size : N) (K : key).
  Notation inv := (inv slot nslots keys size).
  Notation M := (2 ^ 64 - 1).

  Lemma added_cons o l : added K (o :: l) = match o with KIncr _ e v _ _ => if beq (e_key e) K then v else 0 | _ => 0 end + added K l.
  Proof. unfold added. cbn [fold_right]. destruct o; try reflexivity. destruct (beq _ _); reflexivity. Qed.
  Lemma increments_cons o l : increments K (o :: l) = match o with KIncr _ e v _ _ => if beq (e_key e) K then 1 else 0 | _ => 0 end + increments K l.
  Proof. unfold increments. cbn [fold_right]. destruct o; try reflexivity. destruct (beq _ _); reflexivity. Qed.
  Lemma added_app a b : added K (a ++ b) = added K a + added K b.
  Proof. induction a as [|o a IH]; [reflexivity|]. cbn [app]. rewrite !added_cons, IH. lia. Qed.
  Lemma increments_app a b : increments K (a ++ b) = increments K a + increments K b.
  Proof. induction a as [|o a IH]; [reflexivity|]. cbn [app]. rewrite !increments_cons, IH. lia. Qed.
  Lemma follow_zero o r : added K (follow o r) = 0 /\ increments K (follow o r) = 0.
  Proof. unfold follow. destruct (r_expired r); [|auto]. destruct o; auto. Qed.

  (** the counter, with [todo] still to be added *)
  Definition counts (g : store) (fl n v : N) (l : list ConcModel.cmd) (fresh : bool) : Prop :=
    exists m w d, holds g K (Some (mkRec fl 0 w d)) /\ wf_rec (mkRec fl 0 w d) /\ leading_number d = m /\
      N.min (m + added K l) M = n /\ u64 (w + increments K l) = v /\ (fresh = true -> d = dec m).
  Lemma num_dec n : n < 2 ^ 64 -> leading_number (dec n) = n.
  Proof.
    intros H. eapply starts_with_number_fun; [apply leading_number_spec|]. destruct (dec_numeral n) as (A & B & C & D). exists (dec n), []. rewrite app_nil_r.
    split; [reflexivity|]. split; [exact B|]. split; [discriminate|]. rewrite C. destruct (N.ltb_spec n (2 ^ 64)); [reflexivity|lia].
  Qed.

  Lemma sexec_other k p : k <> K -> forall s r s', sexec s k p = Some (r, s') -> db s' !! K = db s !! K.
  Proof.
    intros N0. induction p as [r| |c IH|raw q IH|q IH|c IH|v q IH]; cbn; intros s r0 s' E; try discriminate.
    - now injection E as _ <-.
    - exact (IH _ _ _ _ E).
    - rewrite (IH _ _ _ E). cbn. now rewrite lookup_insert_ne.
    - rewrite (IH _ _ _ E). cbn. now rewrite lookup_delete_ne.
    - exact (IH _ _ _ _ E).
    - rewrite (IH _ _ _ E). reflexivity.
  Qed.
  Lemma not_stale g now e b fl w d : e_key e = K -> holds g K (Some (mkRec fl 0 w d)) -> wf_rec (mkRec fl 0 w d) -> stale g now e b = None.
  Proof.
    intros E H W. unfold stale. unfold holds in H. rewrite E, H. cbn [fmap option_fmap option_map]. rewrite unser_encode by exact W.
    cbn [fill e_expire with_data r_expire]. now rewrite andb_false_r.
  Qed.
  Definition counted (o : ConcModel.cmd) : bool := match o with KIncr _ e _ _ _ => beq (e_key e) K | _ => false end.
  Lemma counts_one g o r g' fl n v a b fresh : counter_only K o -> one g o = Some (r, g') -> counts g fl n v (a ++ o :: b) fresh ->
    (forall o', In o' (follow o r) -> counter_only K o') /\ counts g' fl n v (a ++ follow o r ++ b) (fresh || counted o).
  Proof.
    intros Co O (m & w & d & H & W & L & Ad & Inc & Fr). destruct (follow_zero o r) as [F1 F2]. unfold counts.
    rewrite !added_app, F1. rewrite !increments_app, F2. rewrite added_app, added_cons in Ad. rewrite increments_app, increments_cons in Inc.
    destruct (List.list_eq_dec N.eq_dec (cmd_key o) K) as [E|E].
    - destruct o as [now e b0|now e b0|now e x i b0|now e b0|]; cbn [cmd_key counter_only] in *; try contradiction.
      + cbn [one] in O. pose proof (not_stale g now e b0 fl w d E H W) as St. rewrite St in O. injection O as <- <-.
        split; [intros o' []|]. exists m, w, d. unfold out. rewrite (get_store _ _ _ _ St). cbn [counted]. rewrite orb_false_r. exact (conj H (conj W (conj L (conj Ad (conj Inc Fr))))).
      + destruct (Co E) as [-> Hx]. cbn [one] in O. rewrite (not_stale g now (empty_entry (e_key e)) b0 fl w d E H W) in O.
        rewrite <- E in H. rewrite (incr_some g now e x true b0 _ H W Hx) in O. cbn [r_expire] in O. change (expired_at now 0) with false in O. rewrite andb_false_r in O.
        cbn [option_map out o_ret o_res o_entry o_store] in O. injection O as <- <-. split; [intros o' []|].
        cbn [counted]. rewrite E, beq_refl in *. rewrite orb_true_r.
        pose proof (incr_entry_wf e _ x true W Hx) as W'. set (y := incr_value (leading_number d) x true) in *.
        assert (Hy : y = N.min (m + x) M) by (unfold y; rewrite incr_value_spec; [now rewrite L|apply leading_number_lt|exact Hx]).
        assert (Hy' : y < 2 ^ 64) by (rewrite Hy; clear; change (2 ^ 64) with 18446744073709551616; lia).
        exists y, (u64 (w + 1)), (dec y). split.
        { unfold holds. cbn. rewrite <- E. rewrite lookup_insert. reflexivity. }
        split; [exact W'|]. split; [now apply num_dec|]. split; [rewrite Hy, <- Ad; clear; change (2 ^ 64) with 18446744073709551616; lia|].
        split; [|auto]. rewrite <- Inc. unfold u64. change (2 ^ 64) with 18446744073709551616. rewrite N.add_mod_idemp_l by discriminate. f_equal. lia.
    - assert (Tr : is_truncate o = false) by (destruct o; auto; contradiction). rewrite one_sexec in O by exact Tr.
      assert (Ct : counted o = false) by (destruct o; auto; cbn in *; now apply beq_neq). rewrite Ct, orb_false_r. split.
      + intros o' I. rewrite <- one_sexec in O by exact Tr. unfold follow in I. destruct (r_expired r) as [e1|] eqn:X; [|destruct I].
        destruct o as [now e b0|now e b0|now e x i b0|now e b0|]; try (destruct I; fail); destruct I as [<-|[]]; cbn [cmd_key counter_only] in *; cbn [one] in O.
        * destruct (stale _ _ _ _) as [e2|] eqn:St; injection O as <- <-; cbn in X; [|discriminate]. injection X as <-. now rewrite (stale_key _ _ _ _ _ St).
        * destruct (stale _ _ _ _) as [e2|] eqn:St.
          -- injection O as <- <-. cbn in X. injection X as <-. now rewrite (stale_key _ _ _ _ _ St).
          -- destruct (incr _ _ _ _ _ _); [|discriminate]. injection O as <- <-. discriminate.
      + exists m, w, d. split; [unfold holds; now rewrite (sexec_other _ _ E _ _ _ O)|]. split; [exact W|]. split; [exact L|].
        destruct o; auto. cbn [counted] in Ct. rewrite Ct in *. exact (conj Ad (conj Inc Fr)).
  Qed.

  Definition cinvK (c : conf) (g : store) (fl n v : N) (fresh : bool) : Prop :=
    inv c g /\ Forall (counter_only K) (pending c) /\ counts g fl n v (pending c) fresh.
  Lemma replay_lin_inv g t o r ev g' : ev = [Lin t o r] \/ ev = [Lin t o r; Res t o r] -> replay g ev g' -> one g o = Some (r, g').
  Proof.
    intros [-> | ->] R; inversion R as [|? ? ? ? s1 ? ? O R1|? ? ? ? X]; subst; try discriminate.
    - inversion R1; subst. exact O.
    - inversion R1 as [| |? ? ? ? X R2]; subst. inversion R2; subst. exact O.
  Qed.
  Lemma replay_nolin_inv g ev g' : forallb (fun x => negb (is_lin x)) ev = true -> replay g ev g' -> g' = g.
  Proof. intros H R. revert H. induction R; cbn; intros F; auto; try discriminate. apply andb_prop in F as [_ F]. auto. Qed.
  Lemma cinvK_step c g fl n v fresh t c' ev : cinvK c g fl n v fresh -> step c t = Some (c', ev) -> 
    exists g' fresh', cinvK c' g' fl n v fresh' /\ (fresh || (increments K (pending c') <? increments K (pending c)) = true -> fresh' = true) /\ increments K (pending c') <= increments K (pending c).
  Proof.
    intros (I & Fc & Ct) ST. destruct (inv_step slot nslots slots_ok keys size c g t c' ev I ST) as (g' & I' & R). exists g'.
    destruct (pending_step c t c' ev ST) as (a & b & [[F E]|(o & r & E1 & E2 & Ev)]).
    - rewrite (replay_nolin_inv _ _ _ F R) in *. exists fresh. split; [split; [exact I'|]; rewrite E; auto|]. rewrite E. split; [|lia]. destruct (N.ltb_spec (increments K (pending c)) (increments K (pending c))); [lia|]. now rewrite orb_false_r.
    - pose proof (replay_lin_inv _ _ _ _ _ _ Ev R) as O. rewrite E1 in Fc, Ct. rewrite Forall_app, Forall_cons in Fc. destruct Fc as (Fa & Fo & Fb).
      destruct (counts_one g o r g' fl n v a b fresh Fo O Ct) as [Ff Ct']. exists (fresh || counted o). split.
      + split; [exact I'|]. rewrite E2. split; [|exact Ct']. rewrite !Forall_app. split; [exact Fa|]. split; [|exact Fb]. apply List.Forall_forall. exact Ff.
      + rewrite E1, E2. rewrite !increments_app, increments_cons. destruct (follow_zero o r) as [_ ->]. destruct fresh; [split; [auto|]|];
        destruct o; cbn [counted orb]; try lia; try (split; [|lia]); try (intros X; exfalso; apply N.ltb_lt in X; lia); destruct (beq _ _); auto; try lia.
  Qed.
  Lemma cinvK_run sched : forall c g fl n v fresh, cinvK c g fl n v fresh -> exists g' fresh', let c' := fst (run_conc c sched) in
    cinvK c' g' fl n v fresh' /\ (fresh || (increments K (pending c') <? increments K (pending c)) = true -> fresh' = true) /\ increments K (pending c') <= increments K (pending c).
  Proof.
    induction sched as [|t l IH]; intros c g fl n v fresh I; cbn.
    - exists g, fresh. split; [exact I|]. split; [|lia]. rewrite N.ltb_irrefl. now rewrite orb_false_r.
    - destruct (step c t) as [[c' ev]|] eqn:ST; [|apply (IH c g fl n v fresh I)].
      destruct (cinvK_step c g fl n v fresh t c' ev I ST) as (g1 & f1 & I1 & H1 & L1). destruct (IH c' g1 fl n v f1 I1) as (g2 & f2 & I2 & H2 & L2).
      destruct (run_conc c' l) as [c'' tr]. cbn [fst] in *. exists g2, f2. split; [exact I2|]. split; [|lia]. intros X. apply H2. apply orb_true_iff in X as [X|X].
      + rewrite H1; [reflexivity|]. now rewrite X.
      + destruct (increments K (pending c') <? increments K (pending c)) eqn:E1.
        * rewrite H1; [reflexivity|]. now rewrite orb_true_r.
        * apply orb_true_iff. right. clear - X E1 L2. lia.
  Qed.
End Count.

(** Increments of one key by any number of threads add up. *)
Lemma conc_increments slot nslots s work sched K r n : (forall k, (slot k < nslots)%nat) -> roomy s work ->
  holds s K (Some r) -> wf_rec r -> r_expire r = 0%Z -> starts_with_number (r_data r) n ->
  Forall (Forall (counter_only K)) work ->
  let c := fst (run_conc slot nslots (start s work) sched) in
  finished c ->
  exists d, holds (c_store c) K (Some (mkRec (r_flag r) 0 (u64 (r_version r + increments K (List.concat work))) d)) /\
    starts_with_number d (N.min (n + added K (List.concat work)) (2 ^ 64 - 1)) /\
    (0 < increments K (List.concat work) -> is_numeral d (N.min (n + added K (List.concat work)) (2 ^ 64 - 1))).
Proof.
  intros SL (keys & Ro & ND & K1 & K2) H W X Hn Fw c Fc.
  assert (I0 : inv slot nslots keys (hcache_size s) (start s work) s).
  { apply start_inv; [split; auto|]. intros l o A B Tr. eauto. }
  assert (Fp : Forall (counter_only K) (pending (start s work))).
  { rewrite start_pending. apply List.Forall_forall. intros o I. apply in_concat in I as (l & I1 & I2). rewrite List.Forall_forall in Fw. specialize (Fw l I1). rewrite List.Forall_forall in Fw. auto. }
  destruct r as [fl ex w d]. cbn [r_expire r_flag r_version r_data] in *. subst ex.
  assert (n = leading_number d) as -> by eauto using starts_with_number_fun, leading_number_spec.
  destruct (cinvK_run slot nslots SL keys (hcache_size s) K sched (start s work) s fl (N.min (leading_number d + added K (pending (start s work))) (2 ^ 64 - 1)) (u64 (w + increments K (pending (start s work)))) false)
    as (g & fresh & (I & _ & (m & w' & d' & H' & W' & L' & A' & C' & D')) & Fr & _).
  { split; [exact I0|]. split; [exact Fp|]. exists (leading_number d), w, d. repeat split; auto; try apply W. discriminate. }
  fold c in I, A', C', Fr. rewrite (finished_pending _ Fc) in *. rewrite start_pending in *. cbn [added increments fold_right] in A', C', Fr.
  assert (V : view (c_store c) K = view g K).
  { apply (i_view _ _ _ _ _ _ I). intros j b B Wr. unfold finished in Fc. rewrite List.Forall_forall in Fc.
    destruct (Fc b) as [P _]; [apply elem_of_list_In; eapply elem_of_list_lookup_2; eauto|]. rewrite P in Wr. exact Wr. }
  unfold view in V. injection V as V _. exists d'.
  assert (m < 2 ^ 64) by (rewrite <- L'; apply leading_number_lt).
  assert (Em : N.min (leading_number d + added K (List.concat work)) (2 ^ 64 - 1) = m) by (clear - A' H0; change (2 ^ 64) with 18446744073709551616 in *; lia).
  rewrite Em. split; [|split].
  - unfold holds. rewrite V. rewrite <- C'. rewrite N.add_0_r. rewrite u64_small; [exact H'|apply W'].
  - rewrite <- L'. apply leading_number_spec.
  - intros P. apply N.ltb_lt in P. rewrite (D' (Fr P)). apply dec_numeral.
Qed.

(** ** No deadlock *)
Lemma forallb_false {A} (f : A -> bool) l : forallb f l = false -> exists i x, l !! i = Some x /\ f x = false.
Proof.
  induction l as [|x l IH]; cbn; [discriminate|]. destruct (f x) eqn:E; [|exists 0%nat, x; auto]. cbn. intros H. destruct (IH H) as (i & y & L & F). exists (S i), y. auto.
Qed.
Section Deadlock.
  Variables (slot : key -> nat) (nslots : nat).
  Notation step := (step slot nslots).
  Lemma stuck_shape c t th : c_threads c !! t = Some th -> step c t = None ->
    (ph th = Idle /\ todo th = []) \/ (exists o, ph th = Body o Bad) \/
    (exists o, ph th = Want o /\ exists j b l, c_threads c !! j = Some b /\ held slot nslots (ph b) l <> None) \/
    (exists o, ph th = HaveWhole o /\ exists j b i, c_threads c !! j = Some b /\ held slot nslots (ph b) (Slot i) <> None) \/
    (exists i, ph th = TLock i /\ exists j b, c_threads c !! j = Some b /\ held slot nslots (ph b) (Slot i) <> None).
  Proof.
    intros T ST. unfold ConcModel.step in ST. rewrite T in ST. destruct (ph th) as [|o|o|o p|o r|i| | |i] eqn:E; try discriminate ST.
    - destruct (todo th); [auto|discriminate].
    - right; right; left. exists o. split; [reflexivity|]. destruct (is_truncate o); [|destruct (is_get o)].
      + destruct (can_wr _ _ _ _) eqn:C; [discriminate|]. apply forallb_false in C as (j & b & B & F). exists j, b, Whole. split; [exact B|]. intros X. rewrite X in F. discriminate.
      + destruct (can_rd _ _ _ _) eqn:C; [discriminate|]. apply forallb_false in C as (j & b & B & F). eexists j, b, _. split; [exact B|]. intros X. rewrite X in F. discriminate.
      + destruct (can_rd _ _ _ _) eqn:C; [discriminate|]. apply forallb_false in C as (j & b & B & F). eexists j, b, _. split; [exact B|]. intros X. rewrite X in F. discriminate.
    - right; right; right; left. exists o. split; [reflexivity|]. destruct (can_wr _ _ _ _) eqn:C; [discriminate|]. apply forallb_false in C as (j & b & B & F).
      eexists j, b, _. split; [exact B|]. intros X. rewrite X in F. discriminate.
    - destruct p; try discriminate ST; eauto. destruct (is_get o); discriminate.
    - right; right; right; right. destruct (_ <? _)%nat; [|discriminate]. exists i. split; [reflexivity|]. destruct (can_wr _ _ _ _) eqn:C; [discriminate|].
      apply forallb_false in C as (j & b & B & F). exists j, b. split; [exact B|]. intros X. rewrite X in F. discriminate.
    - destruct i; discriminate.
  Qed.
  Lemma no_deadlock keys size c g : inv slot nslots keys size c g -> (forall t, step c t = None) -> finished c \/ undefined c.
  Proof.
    intros I ST.
    assert (SH : forall t th, c_threads c !! t = Some th -> (exists o, ph th = Body o Bad) \/ (ph th = Idle /\ todo th = []) \/ (exists o, ph th = Want o) \/ (exists o, ph th = HaveWhole o) \/ (exists i, ph th = TLock i)).
    { intros t th T. destruct (stuck_shape c t th T (ST t)) as [|[|[(o & P & _)|[(o & P & _)|(i & P & _)]]]]; eauto 6. }
    assert (DEC : undefined c \/ forall t th, c_threads c !! t = Some th -> ~ exists o, ph th = Body o Bad).
    { unfold undefined. clear. generalize (c_threads c). intros l. induction l as [|x l IH]; [right; intros t th E; destruct t; discriminate|]. 
      assert ((exists o, ph x = Body o Bad) \/ ~ exists o, ph x = Body o Bad) as [(o & E)|N0].
      { destruct (ph x) as [| | |o p| | | | |]; try (right; intros (o' & E); discriminate). destruct p; try (right; intros (o' & E); discriminate). eauto. }
      - left. exists x, o. split; [now left|exact E].
      - destruct IH as [(th & o & A & B)|IH]; [left; exists th, o; split; [now right|exact B]|]. right. intros [|t] th E; [cbn in E; injection E as <-; exact N0|exact (IH t th E)]. }
    destruct DEC as [U|NB]; [now right|left].
    (* nobody holds a slot below which somebody waits *)
    assert (NT : forall t th i, c_threads c !! t = Some th -> ph th <> TLock i).
    { intros t th i T P. destruct (stuck_shape c t th T (ST t)) as [[X _]|[(o & X)|[(o & X & _)|[(o & X & _)|(i' & X & j & b & B & HB)]]]]; try congruence.
      assert (i' = i) by congruence. subst i'. destruct (Nat.eq_dec j t) as [->|N0].
      - assert (b = th) by congruence. subst b. rewrite P in HB. cbn [held] in HB. destruct (Nat.ltb_spec i i); [lia|congruence].
      - destruct (SH j b B) as [Y|[[Y _]|[(o & Y)|[(o & Y)|(i' & Y)]]]].
        + exact (NB j b B Y).
        + rewrite Y in HB. now apply HB.
        + rewrite Y in HB. now apply HB.
        + rewrite Y in HB. now apply HB.
        + pose proof (i_locks _ _ _ _ _ _ I j t b th N0 B T Whole) as C. rewrite Y, P in C. exact C. }
    assert (NH : forall t th o, c_threads c !! t = Some th -> ph th <> HaveWhole o).
    { intros t th o T P. destruct (stuck_shape c t th T (ST t)) as [[X _]|[(o' & X)|[(o' & X & _)|[(o' & X & j & b & i & B & HB)|(i' & X & _)]]]]; try congruence.
      destruct (SH j b B) as [Y|[[Y _]|[(o2 & Y)|[(o2 & Y)|(i' & Y)]]]].
      - exact (NB j b B Y).
      - rewrite Y in HB. now apply HB.
      - rewrite Y in HB. now apply HB.
      - rewrite Y in HB. now apply HB.
      - exact (NT j b i' B Y). }
    apply List.Forall_forall. intros th IN. apply elem_of_list_In, elem_of_list_lookup_1 in IN as (t & T).
    destruct (SH t th T) as [Y|[Y|[(o & Y)|[(o & Y)|(i & Y)]]]].
    - destruct (NB t th T Y).
    - exact Y.
    - exfalso. destruct (stuck_shape c t th T (ST t)) as [[X _]|[(o' & X)|[(o' & X & j & b & l & B & HB)|[(o' & X & _)|(i' & X & _)]]]]; try congruence.
      destruct (SH j b B) as [Z|[[Z _]|[(o2 & Z)|[(o2 & Z)|(i' & Z)]]]].
      + exact (NB j b B Z).
      + rewrite Z in HB. now apply HB.
      + rewrite Z in HB. now apply HB.
      + exact (NH j b o2 B Z).
      + exact (NT j b i' B Z).
    - destruct (NH t th o T Y).
    - destruct (NT t th i T Y).
  Qed.
End Deadlock.
Lemma conc_no_deadlock slot nslots s work sched : (forall k, (slot k < nslots)%nat) -> roomy s work ->
  let c := fst (run_conc slot nslots (start s work) sched) in
  (forall t, step slot nslots c t = None) -> finished c \/ undefined c.
Proof.
  intros SL (keys & Ro & ND & K1 & K2) c ST.
  assert (I0 : inv slot nslots keys (hcache_size s) (start s work) s).
  { apply start_inv; [split; auto|]. intros l o A B Tr. eauto. }
  pose proof (run_inv slot nslots SL keys (hcache_size s) sched _ _ [] s I0 (start_tinv s work) (replay_nil s)) as R. unfold c in *.
  destruct (run_conc _ _ _ _) as [c' tr]. destruct R as (g & I & _). eapply no_deadlock; eauto.
Qed.
