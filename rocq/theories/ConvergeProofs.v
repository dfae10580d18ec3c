(** Proofs for C11. *)
From stdpp Require Import gmap.
From Coq Require Import ZifyBool ZifyNat ZifyN.
From Verif Require Import Base BaseLemmas StorageModel StorageSpec StorageProofs StorageProofs2 StorageProofs3 StorageProofs4 StorageProofs5 StorageProofs6 StorageProofs7 ConvergeSpec.
Local Open Scope N_scope.
Ltac Zify.zify_post_hook ::= Z.div_mod_to_equations.

Definition lives (s : store) (k : key) : Prop := exists r, holds s k (Some r) /\ wf_rec r.

Lemma set_step s now e b q w : wf_store s -> wf_entry e -> is_i64 now -> (b = 0 \/ b = behavior_dump) -> e_version e <> 0 ->
  knows s (e_key e) w -> (forall r, holds s (e_key e) (Some r) -> wf_rec r -> ~ expired now r) -> set s now e b = Some q ->
  (o_store q = s /\ (lives s (e_key e) \/ b = behavior_dump) /\ e_version e <= w)
  \/ (holds (o_store q) (e_key e) (Some (rec_of e)) /\ wf_rec (rec_of e) /\ (lives s (e_key e) \/ b = behavior_dump -> w < e_version e)).
Proof.
  intros Hwf He Hn Hb Hv Hk Hx Hset.
  assert (Hsb : sane_behavior b) by (destruct Hb; subst b; discriminate).
  destruct (set_inv _ _ _ _ _ Hwf He Hsb Hset) as (s1&cur&st&Hc&H).
  pose proof (cur_case_knows _ _ _ _ _ _ _ Hwf Hc) as Hkc.
  assert (Hw : e_version cur = w) by (eapply knows_fun; eauto).
  assert (Hbits : has b behavior_add = false /\ has b behavior_replace = false /\ has b behavior_touch = false
    /\ has b behavior_cas = false /\ has b behavior_skip_version = false /\ has b behavior_append = false
    /\ has b behavior_prepend = false /\ reads_record b = false /\ has b behavior_skip_timestamp = false)
    by (destruct Hb; subst b; now repeat split).
  destruct Hbits as (B1&B2&B3&B4&B5&B6&B7&B8&B9).
  assert (Hs1 : s1 = s) by (inversion Hc; subst; rewrite ?B8; reflexivity).
  assert (Hnv : next_version st cur e b =
     if (cur_state_eqb st st_alive || has b behavior_dump) && (e_version e <=? e_version cur)
     then inl result_not_stored else inr (e_version e)).
  { unfold next_version. rewrite B4, B3, B5. cbn [negb andb].
    destruct (e_version e =? 0) eqn:E0; [lia|reflexivity]. }
  assert (Hlive : cur_state_eqb st st_alive = true <-> lives s (e_key e)).
  { inversion Hc as [x c H1 H2 H3 H4 H5 H6 H7 H8 X1 X2 X3|x c s2 H1 H2 H3 H4 H5 H6 X1 X2 X3|x y c H1 H2 H3 H4 H5 H6 X1 X2 X3|c H1 H2 H3 X1 X2 X3]; subst; cbn [cur_state_eqb].
    - split; [intros _; exists x; auto|reflexivity].
    - exfalso. eapply Hx; eauto.
    - split; [discriminate|]. intros (r&Hr&_). exfalso. eauto using holds_none_some.
    - split; [discriminate|]. intros (r&Hr&_). exfalso. eauto using holds_none_some. }
  assert (Hdump : has b behavior_dump = true <-> b = behavior_dump) by (destruct Hb; subst b; split; auto; discriminate).
  rewrite <- Hlive, <- Hdump, <- orb_true_iff. rewrite Hw in Hnv.
  destruct H as [(E&[(E1&r0&E2&E3&HR&_)|(E1&E2&_&[?|?])])|(r'&Hr'&Est&Eret&Er&Erec&Ek&Esz&(A1&A2&A3&A4)&Enew)]; try congruence.
  - left. destruct HR as [(?&_)|[(?&_)|[(?&_)|HR]]]; try congruence. rewrite HR in Hnv.
    destruct (_ && _) eqn:C in Hnv; [|discriminate]. apply andb_true_iff in C as [C1 C2]. split; [congruence|]. split; [exact C1|lia].
  - right. assert (EV : next_version st cur e b = inr (e_version e)).
    { rewrite Hnv. destruct (_ && _) eqn:C; [|reflexivity]. exfalso. congruence. }
    assert (C : (cur_state_eqb st st_alive || has b behavior_dump) && (e_version e <=? w) = false).
    { destruct (_ && _) eqn:C; [|reflexivity]. congruence. }
    assert (R : r' = rec_of e).
    { unfold new_record in Enew. rewrite B6, B7, B3 in Enew. rewrite Enew. unfold rec_of. f_equal. congruence. }
    split; [|split].
    + rewrite Est. unfold holds. cbn [db set_db]. rewrite lookup_insert. cbn [fmap option_fmap option_map]. now rewrite R.
    + now rewrite <- R.
    + intros L. rewrite L in C. cbn [andb] in C. lia.
Qed.

Lemma remove_step s now e w : wf_store s -> e_version e <> 0 -> knows s (e_key e) w ->
  let q := remove s now e 0 in
  (o_store q = s /\ e_version e < w)
  \/ (w <= e_version e /\ holds (o_store q) (e_key e) None
      /\ (tomb (o_store q) (e_key e) = None \/ exists x, tomb (o_store q) (e_key e) = Some (x, e_version e))
      /\ (1 <= hcache_size s -> exists x, tomb (o_store q) (e_key e) = Some (x, e_version e))).
Proof.
  intros Hwf Hv Hk. cbv zeta. assert (V0 : e_version e =? 0 = false) by lia.
  destruct (wf_holds s (e_key e) Hwf) as ([r|] & Ho & Hr).
  - specialize (Hr r eq_refl). assert (r_version r = w) as Hw by (eapply knows_fun; [|exact Hk]; left; eauto).
    rewrite (remove_some _ _ _ _ r) by auto. rewrite V0. change (has 0 behavior_skip_version) with false. change (has 0 behavior_version_equal) with false. cbn [negb andb orb].
    rewrite orb_false_r, Hw. destruct (e_version e <? w) eqn:C; cbn [o_store]; [left; split; [reflexivity|lia]|right].
    assert (Hwf1 : wf_store (set_db s (delete (e_key e) (db s)))) by now apply delete_wf.
    split; [lia|]. split; [unfold holds; cbn; apply lookup_delete|]. split.
    + destruct (shc_tomb_same (set_db s (delete (e_key e) (db s))) now (e_key e) e) as [E|E]; [apply Hwf1|right; eauto|now left].
    + intros L. eexists. apply shc_kept; auto.
  - assert (match tomb s (e_key e) with Some (_, v) => v | None => 0 end = w) as Hw.
    { destruct Hk as [(r&H&_)|[(_&x&E)|(_&E&->)]]; [exfalso; eauto using holds_none_some|now rewrite E|now rewrite E]. }
    rewrite remove_none by auto. cbv zeta. rewrite Hw, V0. change (has 0 behavior_skip_version) with false. change (has 0 behavior_version_equal) with false. cbn [negb andb orb].
    rewrite orb_false_r. destruct (e_version e <? w) eqn:C; cbn [o_store]; [left; split; [reflexivity|lia]|right].
    split; [lia|]. split; [exact Ho|]. split.
    + destruct (shc_tomb_same s now (e_key e) e) as [E|E]; [apply Hwf|right; eauto|now left].
    + intros L. eexists. apply shc_kept; auto.
Qed.

(** One operation, whatever its key. *)
Inductive moved (k : key) (s : store) (w : N) (o : op) (s' : store) : Prop :=
| mv_other : db s' !! k = db s !! k -> (tomb s' k = tomb s k \/ tomb s' k = None) -> (forall r, ~ delivers k o r) -> (forall d, ~ deletes k o d) -> moved k s w o s'
| mv_refused e b now : o = OSet now e b -> e_key e = k -> s' = s -> lives s k \/ b = behavior_dump -> e_version e <= w -> moved k s w o s'
| mv_stored e b now : o = OSet now e b -> e_key e = k -> b = 0 \/ b = behavior_dump -> holds s' k (Some (rec_of e)) -> wf_rec (rec_of e) -> (lives s k \/ b = behavior_dump -> w < e_version e) -> moved k s w o s'
| mv_kept e now : o = ORemove now e 0 -> e_key e = k -> s' = s -> e_version e < w -> moved k s w o s'
| mv_removed e now : o = ORemove now e 0 -> e_key e = k -> w <= e_version e -> holds s' k None -> (tomb s' k = None \/ exists x, tomb s' k = Some (x, e_version e)) ->
    (1 <= hcache_size s -> exists x, tomb s' k = Some (x, e_version e)) -> moved k s w o s'.

Lemma op_moves k s o q w : wf_store s -> wf_op o -> sane_op o -> mixed_delivery k o -> run_op s o = Some q -> knows s k w ->
  (op_key o = Some k -> forall r, holds s k (Some r) -> wf_rec r -> ~ expired (op_time o) r) -> moved k s w o (o_store q).
Proof.
  intros Hwf W1 S1 D1 Er Hk Hx.
  destruct (op_key o) as [k0|] eqn:Hko; [|destruct o; try discriminate; destruct D1].
  destruct (decide (k0 = k)) as [->|Hne].
  2:{ pose proof (run_op_local _ _ _ _ Hwf W1 S1 Hko Er) as (_&_&Hl). destruct (Hl k) as [H1 H2]; [congruence|].
      apply mv_other; auto.
      - intros r (now&e&b&->&E&_). cbn in Hko. congruence.
      - intros r (now&e&b&->&E&_). cbn in Hko. congruence. }
  specialize (Hx eq_refl).
  destruct o as [now e b|now e vv i b|now e b|now e b|]; cbn in Hko, D1; try discriminate; assert (Ek : e_key e = k) by congruence; subst k.
  - destruct (D1 eq_refl) as [Hv Hb]. destruct W1 as [We Wn]. cbn in Er.
    destruct (set_step s now e b q w Hwf We Wn Hb Hv Hk Hx Er) as [(A&B&C)|(A&B&C)]; [eapply mv_refused; eauto|eapply mv_stored; eauto].
  - now destruct D1.
  - cbn in Er. apply Some_inv in Er; subst q. apply mv_other.
    + destruct (wf_holds s (e_key e) Hwf) as ([r|] & Ho & Hr).
      * rewrite (get_some _ _ _ _ r) by auto. destruct (expired_at now (r_expire r)) eqn:E; [apply expired_at_spec in E; exfalso; eapply Hx; eauto|]. now rewrite andb_false_r.
      * now rewrite get_none.
    + left. destruct (wf_holds s (e_key e) Hwf) as ([r|] & Ho & Hr).
      * rewrite (get_some _ _ _ _ r) by auto. destruct (expired_at now (r_expire r)) eqn:E; [apply expired_at_spec in E; exfalso; eapply Hx; eauto|]. now rewrite andb_false_r.
      * now rewrite get_none.
    + intros r (?&?&?&?&_); discriminate.
    + intros r (?&?&?&?&_); discriminate.
  - destruct (D1 eq_refl) as [Hv ->]. cbn in Er. apply Some_inv in Er; subst q.
    destruct (remove_step s now e w Hwf Hv Hk) as [(A&B)|(A&B&C&D)]; [eapply mv_kept; eauto|eapply mv_removed; eauto].
Qed.

Lemma moved_cur k s w o s' cur l : moved k s w o s' -> holds s k cur -> (forall r, cur = Some r -> wf_rec r) -> fresh k cur (o :: l) ->
  exists cur', holds s' k cur' /\ (forall r, cur' = Some r -> wf_rec r) /\ fresh k cur' l.
Proof.
  intros M Hh Hc Hf.
  assert (Hfd : forall i, (forall r, i = Some r -> cur = Some r \/ delivers k o r) -> fresh k i l).
  { intros i Hir p r Hin Hk [E|(o'&Ho'&Hdl)]; apply (Hf p r); try (now right); auto.
    - destruct (Hir r E) as [?|?]; [now left|right]. exists o. split; [now left|auto].
    - right. exists o'. split; [now right|auto]. }
  destruct M as [E _ _ _|e b now -> <- -> _ _|e b now -> <- _ H W _|e now -> <- -> _|e now -> <- _ H _ _].
  - exists cur. split; [unfold holds; now rewrite E|]. split; auto.
  - exists cur. auto.
  - exists (Some (rec_of e)). split; [auto|]. split; [intros r [= <-]; auto|]. apply Hfd. intros r [= <-]. right. exists now, e, b. auto.
  - exists cur. auto.
  - exists None. split; [auto|]. split; [discriminate|]. apply Hfd. discriminate.
Qed.
Lemma knows_same s s' k w w' : db s' !! k = db s !! k -> (tomb s' k = tomb s k \/ tomb s' k = None) -> knows s k w -> knows s' k w' -> w' = w \/ w' = 0.
Proof.
  intros E T K K'. destruct (decide (w' = 0)) as [->|N]; [now right|left].
  assert (Hh : forall x, holds s' k x <-> holds s k x) by (intros x; unfold holds; now rewrite E).
  destruct K' as [(r&H&W&<-)|[(H&x&H2)|(_&_&->)]]; [|(destruct T as [T|T]; [|congruence])|congruence].
  - apply (knows_fun s k); [left; exists r; rewrite <- Hh; auto|auto].
  - apply (knows_fun s k); [right; left; rewrite <- Hh; split; [auto|]; exists x; congruence|auto].
Qed.
Lemma moved_knows k s w o s' w' B : moved k s w o s' -> knows s k w -> knows s' k w' -> w <= B -> (forall r, delivers k o r -> r_version r <= B) -> (forall d, deletes k o d -> d <= B) -> w' <= B.
Proof.
  intros M K K' Hw Hr Hd. destruct M as [E T _ _|e b now -> <- -> _ _|e b now -> <- _ H W _|e now -> <- -> _|e now -> <- _ H T _].
  - destruct (knows_same _ _ _ _ _ E T K K') as [->| ->]; lia.
  - rewrite <- (knows_fun _ _ _ _ K K'). auto.
  - rewrite (knows_fun _ _ _ (e_version e) K'); [|left; exists (rec_of e); auto]. apply (Hr (rec_of e)). exists now, e, b. auto.
  - rewrite <- (knows_fun _ _ _ _ K K'). auto.
  - assert (D : e_version e <= B) by (apply Hd; exists now, e, 0; auto).
    destruct T as [T|[x T]]; [rewrite (knows_fun _ _ _ 0 K'); [lia|right; right; auto]|rewrite (knows_fun _ _ _ (e_version e) K'); [lia|right; left; eauto]].
Qed.

Lemma run_bound k B l : forall s s' cur w w', wf_store s -> Forall wf_op l -> Forall sane_op l -> Forall (mixed_delivery k) l -> run s l = Some s' ->
  holds s k cur -> (forall r, cur = Some r -> wf_rec r) -> fresh k cur l -> knows s k w -> w <= B ->
  (forall o r, In o l -> delivers k o r -> r_version r <= B) -> (forall o d, In o l -> deletes k o d -> d <= B) ->
  knows s' k w' -> w' <= B /\ wf_store s' /\ hcache_size s' = hcache_size s.
Proof.
  induction l as [|o l IH]; intros s s' cur w w' Hwf Hw Hs Hd Hrun Hh Hc Hf Hk Hwb HR HD Hk'.
  - apply Some_inv in Hrun; subst s'. rewrite <- (knows_fun _ _ _ _ Hk Hk'). auto.
  - inversion_clear Hw as [|? ? W1 W2]. inversion_clear Hs as [|? ? S1 S2]. inversion_clear Hd as [|? ? D1 D2].
    cbn [run] in Hrun. destruct (run_op s o) as [q|] eqn:Er; [|discriminate].
    assert (Hwf' : wf_store (o_store q)) by eauto using run_op_wf.
    assert (Hsz : hcache_size (o_store q) = hcache_size s).
    { destruct (op_key o) as [k0|] eqn:Hko; [|destruct o; try discriminate; destruct D1]. now destruct (run_op_local _ _ _ _ Hwf W1 S1 Hko Er) as (_&?&_). }
    assert (M : moved k s w o (o_store q)).
    { apply op_moves; auto. intros Hko r Hr W. assert (cur = Some r) as -> by (destruct cur as [r'|]; [f_equal; eapply holds_some_fun; eauto|exfalso; eauto using holds_none_some]).
      apply (Hf o r); [now left|auto|now left]. }
    destruct (moved_cur _ _ _ _ _ _ _ M Hh Hc Hf) as (cur'&A1&A2&A3).
    destruct (knows_total (o_store q) k Hwf') as (v1&K1&_).
    destruct (IH (o_store q) s' cur' v1 w') as (Z1&Z2&Z3); auto.
    + eapply moved_knows; eauto; intros; [eapply HR|eapply HD]; eauto; now left.
    + intros; eapply HR; eauto; now right.
    + intros; eapply HD; eauto; now right.
    + split; [auto|]. split; [auto|congruence].
Qed.

(** The newest operation is a store. *)
Lemma newest_store k r l : forall s s' cur w, wf_store s -> Forall wf_op l -> Forall sane_op l -> Forall (mixed_delivery k) l -> run s l = Some s' ->
  holds s k cur -> (forall r, cur = Some r -> wf_rec r) -> fresh k cur l -> knows s k w ->
  (forall o r', In o l -> delivers k o r' -> r' = r \/ r_version r' < r_version r) -> (forall o d, In o l -> deletes k o d -> d < r_version r) ->
  0 < r_version r -> cur = Some r \/ (w < r_version r /\ exists o, In o l /\ delivers k o r) -> holds s' k (Some r).
Proof.
  induction l as [|o l IH]; intros s s' cur w Hwf Hw Hs Hd Hrun Hh Hc Hf Hk HR HD HP HI.
  - apply Some_inv in Hrun; subst s'. destruct HI as [->|(_&o&[]&_)]. exact Hh.
  - inversion_clear Hw as [|? ? W1 W2]. inversion_clear Hs as [|? ? S1 S2]. inversion_clear Hd as [|? ? D1 D2].
    cbn [run] in Hrun. destruct (run_op s o) as [q|] eqn:Er; [|discriminate].
    assert (Hwf' : wf_store (o_store q)) by eauto using run_op_wf.
    assert (M : moved k s w o (o_store q)).
    { apply op_moves; auto. intros Hko r0 Hr W. assert (cur = Some r0) as -> by (destruct cur as [r'|]; [f_equal; eapply holds_some_fun; eauto|exfalso; eauto using holds_none_some]).
      apply (Hf o r0); [now left|auto|now left]. }
    destruct (moved_cur _ _ _ _ _ _ _ M Hh Hc Hf) as (cur'&A1&A2&A3).
    destruct (knows_total (o_store q) k Hwf') as (v1&K1&_).
    apply (IH (o_store q) s' cur' v1); auto.
    { intros; eapply HR; eauto; now right. } { intros; eapply HD; eauto; now right. }
    assert (Same : forall x, holds (o_store q) k (Some x) -> wf_rec x -> cur' = Some x).
    { intros x X Wx. destruct cur' as [r'|]; [f_equal; eapply holds_some_fun; eauto|exfalso; eauto using holds_none_some]. }
    destruct HI as [->|(Hw&p&Hp&Hdp)].
    + assert (w = r_version r) as -> by (eapply knows_fun; [exact Hk|left; eauto]).
      assert (Wr : wf_rec r) by auto. left. apply Same; [|exact Wr].
      destruct M as [E _ _ _|e b now -> <- -> _ _|e b now -> <- _ H W L|e now -> <- -> _|e now -> <- L H T _].
      * unfold holds. now rewrite E.
      * exact Hh.
      * exfalso. assert (r_version r < e_version e) by (apply L; left; exists r; auto).
        destruct (HR (OSet now e b) (rec_of e)) as [X|X]; [now left|exists now, e, b; auto|subst r; cbn in *; lia|cbn in *; lia].
      * exact Hh.
      * exfalso. assert (e_version e < r_version r) by (apply (HD (ORemove now e 0)); [now left|exists now, e, 0; auto]). lia.
    + destruct M as [E T NS ND|e b now -> <- Q _ L|e b now -> <- _ H W L|e now -> <- Q _|e now -> <- L H T _].
      * right. split; [destruct (knows_same _ _ _ _ _ E T Hk K1) as [->| ->]; lia|]. exists p. destruct Hp as [<-|Hp]; [now apply NS in Hdp|auto].
      * rewrite Q in K1. right. split; [now rewrite <- (knows_fun _ _ _ _ Hk K1)|]. exists p. destruct Hp as [<-|Hp]; [|auto].
        exfalso. destruct Hdp as (n'&e'&b'&[= -> -> ->]&_&->). cbn in Hw. lia.
      * destruct (HR (OSet now e b) (rec_of e)) as [X|X]; [now left|exists now, e, b; auto|left; subst r; auto|].
        right. split; [rewrite (knows_fun _ _ _ (e_version e) K1); [exact X|left; exists (rec_of e); auto]|].
        exists p. destruct Hp as [<-|Hp]; [|auto]. exfalso. destruct Hdp as (n'&e'&b'&[= -> -> ->]&_&->). lia.
      * rewrite Q in K1. right. split; [now rewrite <- (knows_fun _ _ _ _ Hk K1)|]. exists p. destruct Hp as [<-|Hp]; [|auto]. destruct Hdp as (?&?&?&?&_); discriminate.
      * right. split; [|exists p; destruct Hp as [<-|Hp]; [destruct Hdp as (?&?&?&?&_); discriminate|auto]].
        assert (D : e_version e < r_version r) by (apply (HD (ORemove now e 0)); [now left|exists now, e, 0; auto]).
        destruct T as [T|[x T]]; [rewrite (knows_fun _ _ _ 0 K1); [lia|right; right; auto]|rewrite (knows_fun _ _ _ (e_version e) K1); [lia|right; left; eauto]].
Qed.

(** After the newest delete. *)
Lemma stays_away k d l : forall s s', wf_store s -> Forall wf_op l -> Forall sane_op l -> Forall (mixed_delivery k) l -> run s l = Some s' ->
  holds s k None -> fresh k None l -> (forall now e, In (OSet now e 0) l -> e_key e <> k) ->
  (forall o r', In o l -> delivers k o r' -> r_version r' <= d) -> (forall o d', In o l -> deletes k o d' -> d' <= d) ->
  (dumps k l -> (exists x, tomb s k = Some (x, d)) /\ never_forgets k s l /\ 1 <= hcache_size s) -> holds s' k None.
Proof.
  induction l as [|o l IH]; intros s s' Hwf Hw Hs Hd Hrun Hh Hf HO HR HD HT.
  - apply Some_inv in Hrun; subst s'. exact Hh.
  - inversion_clear Hw as [|? ? W1 W2]. inversion_clear Hs as [|? ? S1 S2]. inversion_clear Hd as [|? ? D1 D2].
    cbn [run] in Hrun. destruct (run_op s o) as [q|] eqn:Er; [|discriminate].
    assert (Hwf' : wf_store (o_store q)) by eauto using run_op_wf.
    destruct (knows_total s k Hwf) as (w&Hk&_).
    assert (Hsz : hcache_size (o_store q) = hcache_size s).
    { destruct (op_key o) as [k0|] eqn:Hko; [|destruct o; try discriminate; destruct D1]. now destruct (run_op_local _ _ _ _ Hwf W1 S1 Hko Er) as (_&?&_). }
    assert (M : moved k s w o (o_store q)).
    { apply op_moves; auto. intros Hko r0 Hr W. exfalso. eauto using holds_none_some. }
    destruct (moved_cur _ _ _ _ _ None _ M Hh ltac:(discriminate) Hf) as (cur'&A1&A2&A3).
    assert (HT' : dumps k l -> (exists x, tomb s k = Some (x, d)) /\ never_forgets k s (o :: l) /\ 1 <= hcache_size s).
    { intros (n'&e'&I'&E'). apply HT. exists n', e'. split; [now right|auto]. }
    assert (Hn : holds (o_store q) k None /\ (dumps k l -> exists x, tomb (o_store q) k = Some (x, d))).
    { destruct M as [E T NS ND|e b now -> <- Q _ L|e b now -> <- Hb H W L|e now -> <- Q _|e now -> <- L H T T'].
      - split; [unfold holds; now rewrite E|]. intros Dm. destruct (HT' Dm) as ((x&X)&N&_). exists x.
        destruct T as [T|T]; [congruence|]. exfalso.
        destruct (N [] o l s q eq_refl eq_refl Er) as [(r&R)|R]; [right; congruence| |congruence].
        unfold holds in R. rewrite E in R. unfold holds in Hh. rewrite Hh in R. discriminate.
      - rewrite Q. split; [exact Hh|]. intros Dm. now apply HT' in Dm.
      - exfalso. destruct Hb as [-> | ->]; [now apply (HO now e (or_introl eq_refl))|].
        destruct HT as ((x&X)&_); [exists now, e; split; [now left|auto]|].
        assert (w = d) as -> by (eapply knows_fun; [exact Hk|right; left; eauto]).
        assert (r_version (rec_of e) <= d) by (apply (HR (OSet now e behavior_dump)); [now left|exists now, e, behavior_dump; auto]). cbn in *. specialize (L (or_intror eq_refl)). lia.
      - rewrite Q. split; [exact Hh|]. intros Dm. now apply HT' in Dm.
      - split; [exact H|]. intros Dm. destruct (HT' Dm) as ((x&X)&_&Sz). destruct (T' Sz) as [y Y]. exists y. rewrite Y. do 2 f_equal.
        assert (w = d) as -> by (eapply knows_fun; [exact Hk|right; left; eauto]).
        assert (e_version e <= d) by (apply (HD (ORemove now e 0)); [now left|exists now, e, 0; auto]). lia. }
    destruct Hn as [Hn1 Hn2].
    assert (cur' = None) as -> by (destruct cur' as [r'|]; [exfalso; eauto using holds_none_some|reflexivity]).
    apply (IH (o_store q) s'); auto.
    + intros n' e' I'. apply (HO n' e'). now right.
    + intros; eapply HR; eauto; now right.
    + intros; eapply HD; eauto; now right.
    + intros Dm. destruct (HT' Dm) as (_&N&Sz). split; [auto|]. split; [|lia]. eapply never_forgets_cons; eauto.
Qed.

Lemma run_app_inv l1 l2 s s' : run s (l1 ++ l2) = Some s' -> exists s1, run s l1 = Some s1 /\ run s1 l2 = Some s'.
Proof. rewrite run_app. destruct (run s l1) as [s1|]; [eauto|discriminate]. Qed.

Lemma fresh_app k l1 : forall l2 s s1 cur, wf_store s -> Forall wf_op l1 -> Forall sane_op l1 -> Forall (mixed_delivery k) l1 -> run s l1 = Some s1 ->
  holds s k cur -> (forall r, cur = Some r -> wf_rec r) -> fresh k cur (l1 ++ l2) -> exists cur', holds s1 k cur' /\ (forall r, cur' = Some r -> wf_rec r) /\ fresh k cur' l2.
Proof.
  induction l1 as [|o l IH]; intros l2 s s1 cur Hwf Hw Hs Hd Hrun Hh Hc Hf.
  - apply Some_inv in Hrun; subst s1. exists cur. auto.
  - inversion_clear Hw as [|? ? W1 W2]. inversion_clear Hs as [|? ? S1 S2]. inversion_clear Hd as [|? ? D1 D2].
    cbn [run] in Hrun. destruct (run_op s o) as [q|] eqn:Er; [|discriminate].
    assert (Hwf' : wf_store (o_store q)) by eauto using run_op_wf.
    destruct (knows_total s k Hwf) as (w&Hk&_).
    assert (M : moved k s w o (o_store q)).
    { apply op_moves; auto. intros Hko r0 Hr W. assert (cur = Some r0) as -> by (destruct cur as [r'|]; [f_equal; eapply holds_some_fun; eauto|exfalso; eauto using holds_none_some]).
      apply (Hf o r0); [now left|auto|now left]. }
    destruct (moved_cur _ _ _ _ _ _ _ M Hh Hc Hf) as (cur'&A1&A2&A3). eapply IH; eauto.
Qed.

Theorem decided k init v s l s' w : receives k init v s l s' -> (forall r, init = Some r -> wf_rec r) -> news k v l -> decides k l w -> holds s' k w.
Proof.
  intros [Hwf (Hw&Hs&Hd) Hrun (Hh&Hk) Hf Ho Hkept] Hi (N1&N2) Hdec. destruct w as [r|].
  - destruct Hdec as ((o&Hin&Hdel)&HR&HD). pose proof (N1 _ _ Hin Hdel).
    eapply (newest_store k r l s s' init v); eauto. lia.
  - destruct Hdec as (o&d&Hin&Hdel&HR&HD). destruct (in_split _ _ Hin) as (l1&l2&->).
    rewrite Forall_app, Forall_cons in Hw, Hs, Hd. destruct Hw as (Hw1&Hwo&Hw2), Hs as (Hs1&Hso&Hs2), Hd as (Hd1&Hdo&Hd2).
    destruct (run_app_inv _ _ _ _ Hrun) as (s1&R1&R2). cbn [run] in R2. destruct (run_op s1 o) as [q|] eqn:Er; [|discriminate].
    assert (Hwf1 : wf_store s1) by eauto using run_wf.
    destruct (fresh_app k l1 (o :: l2) s s1 init) as (cur&C1&C2&C3); auto.
    destruct (knows_total s1 k Hwf1) as (v1&K1&_).
    assert (Hb : v1 <= d /\ wf_store s1 /\ hcache_size s1 = hcache_size s).
    { eapply (run_bound k d l1 s s1 init v v1); eauto.
      - intros p r' Hp' Hq. specialize (Hf p r'). intros. apply Hf; auto; [apply in_or_app; auto|]. destruct H as [?|(o'&?&?)]; [now left|right]. exists o'. split; [apply in_or_app; auto|auto].
      - intros p r' I. apply HR. apply in_or_app. auto.
      - intros p r' I. apply HD. apply in_or_app. auto. }
    destruct Hb as (Hb1&_&Hb2).
    assert (M : moved k s1 v1 o (o_store q)).
    { apply op_moves; auto. intros Hko r0 Hr W. assert (cur = Some r0) as -> by (destruct cur as [r'|]; [f_equal; eapply holds_some_fun; eauto|exfalso; eauto using holds_none_some]).
      apply (C3 o r0); [now left|auto|now left]. }
    assert (Hwf2 : wf_store (o_store q)) by eauto using run_op_wf.
    destruct (moved_cur _ _ _ _ _ _ _ M C1 C2 C3) as (cur'&A1&A2&A3).
    assert (HN : holds (o_store q) k None /\ (1 <= hcache_size s1 -> exists x, tomb (o_store q) k = Some (x, d))).
    { destruct Hdel as (now&e&b&->&Ek&->). destruct M as [E T NS ND|e' b' now' E|e' b' now' E|e' now' E Ek' _ L|e' now' E Ek' L H T T']; try discriminate.
      - exfalso. apply (ND (e_version e)). exists now, e, b. auto.
      - injection E as -> -> ->. exfalso. lia.
      - injection E as -> -> ->. auto. }
    destruct HN as [HN1 HN2].
    assert (cur' = None) as -> by (destruct cur' as [r'|]; [exfalso; eauto using holds_none_some|reflexivity]).
    apply (stays_away k d l2 (o_store q) s'); auto.
    + intros now e I E. pose proof (Ho l1 o l2 d now e eq_refl Hdel I E).
      assert (r_version (rec_of e) <= d); [|cbn in *; lia].
      apply (HR (OSet now e 0)); [apply in_or_app; right; now right|exists now, e, 0; auto].
    + intros p r' I. apply HR. apply in_or_app. right. now right.
    + intros p r' I. apply HD. apply in_or_app. right. now right.
    + intros (n'&e'&I'&E'). destruct Hkept as [NF Sz]; [exists n', e'; split; [apply in_or_app; right; now right|auto]|].
      rewrite <- Hb2 in Sz. split; [auto|]. split.
      * apply (never_forgets_app k s (l1 ++ [o]) l2); [now rewrite <- app_assoc|]. rewrite run_app, R1. cbn. now rewrite Er.
      * assert (hcache_size (o_store q) = hcache_size s1); [|lia].
        destruct (op_key o) as [k0|] eqn:Hko; [|destruct o; try discriminate; destruct Hdo]. now destruct (run_op_local _ _ _ _ Hwf1 Hwo Hso Hko Er) as (_&?&_).
Qed.

(** ** Two replicas *)
Lemma op_kind k o : (exists r, delivers k o r) \/ (exists d, deletes k o d) \/ ((forall r, ~ delivers k o r) /\ (forall d, ~ deletes k o d)).
Proof.
  assert (X : forall e : entry, {e_key e = k} + {e_key e <> k}) by (intros e; apply decide; apply _).
  destruct o as [now e b|now e vv i b|now e b|now e b|]; try (right; right; split; intros r (?&?&?&?&_); discriminate).
  - destruct (X e) as [E|E]; [left; exists (rec_of e), now, e, b; auto|]. right; right. split; intros r (?&?&?&[= -> -> ->]&?&_); auto.
  - destruct (X e) as [E|E]; [right; left; exists (e_version e), now, e, b; auto|]. right; right. split; intros r (?&?&?&[= -> -> ->]&?&_); auto.
Qed.
Lemma delivers_fun k o r r' : delivers k o r -> delivers k o r' -> r = r'.
Proof. intros (?&?&?&->&_&->) (?&?&?&[= -> -> ->]&_&->). reflexivity. Qed.
Lemma deletes_fun k o r r' : deletes k o r -> deletes k o r' -> r = r'.
Proof. intros (?&?&?&->&_&->) (?&?&?&[= -> -> ->]&_&->). reflexivity. Qed.
Lemma delivers_deletes k o r d : delivers k o r -> deletes k o d -> False.
Proof. intros (?&?&?&->&_&->) (?&?&?&?&_). discriminate. Qed.

Lemma some_decision k l : distinct k l -> (forall o, In o l -> (forall r, ~ delivers k o r) /\ (forall d, ~ deletes k o d)) \/ exists w, decides k l w.
Proof.
  induction l as [|o l IH]; intros Hx; [left; intros o []|].
  destruct IH as [IH|(w&IH)]; [intros p p' r r' H H'; apply Hx; now right| |].
  - destruct (op_kind k o) as [(r&Hr)|[(d&Hd)|H]].
    + right. exists (Some r). split; [exists o; split; [now left|auto]|]. split.
      * intros p r' [<-|Hp] H; [left; eapply delivers_fun; eauto|exfalso; now apply (IH p Hp) in H].
      * intros p d [<-|Hp] H; [exfalso; eauto using delivers_deletes|exfalso; now apply (IH p Hp) in H].
    + right. exists None, o, d. split; [now left|]. split; [auto|]. split.
      * intros p r' [<-|Hp] H; [exfalso; eauto using delivers_deletes|exfalso; now apply (IH p Hp) in H].
      * intros p d' [<-|Hp] H; [rewrite (deletes_fun _ _ _ _ H Hd); lia|exfalso; now apply (IH p Hp) in H].
    + left. intros p [<-|Hp]; auto.
  - right. destruct w as [r|].
    + destruct IH as ((p&Hp&Hpr)&I2&I3). destruct (op_kind k o) as [(r0&Hr)|[(d&Hd)|[H H']]].
      * destruct (N.lt_trichotomy (r_version r0) (r_version r)) as [L|[L|L]].
        -- exists (Some r). split; [exists p; split; [now right|auto]|]. split.
           ++ intros q r' [<-|Hq] Hx'; [right; now rewrite (delivers_fun _ _ _ _ Hx' Hr)|eauto].
           ++ intros q d [<-|Hq] Hx'; [exfalso; eauto using delivers_deletes|eauto].
        -- assert (r0 = r) as -> by (apply (Hx o p); auto; [now left|now right]). exists (Some r). split; [exists p; split; [now right|auto]|]. split.
           ++ intros q r' [<-|Hq] Hx'; [left; now rewrite (delivers_fun _ _ _ _ Hx' Hr)|eauto].
           ++ intros q d [<-|Hq] Hx'; [exfalso; eauto using delivers_deletes|eauto].
        -- exists (Some r0). split; [exists o; split; [now left|auto]|]. split.
           ++ intros q r' [<-|Hq] Hx'; [left; now rewrite (delivers_fun _ _ _ _ Hx' Hr)|]. right. destruct (I2 _ _ Hq Hx') as [->|?]; lia.
           ++ intros q d [<-|Hq] Hx'; [exfalso; eauto using delivers_deletes|]. specialize (I3 _ _ Hq Hx'). lia.
      * destruct (N.lt_ge_cases d (r_version r)) as [L|L].
        -- exists (Some r). split; [exists p; split; [now right|auto]|]. split.
           ++ intros q r' [<-|Hq] Hx'; [exfalso; eauto using delivers_deletes|eauto].
           ++ intros q d' [<-|Hq] Hx'; [now rewrite (deletes_fun _ _ _ _ Hx' Hd)|eauto].
        -- exists None, o, d. split; [now left|]. split; [auto|]. split.
           ++ intros q r' [<-|Hq] Hx'; [exfalso; eauto using delivers_deletes|]. destruct (I2 _ _ Hq Hx') as [->|?]; lia.
           ++ intros q d' [<-|Hq] Hx'; [rewrite (deletes_fun _ _ _ _ Hx' Hd); lia|]. specialize (I3 _ _ Hq Hx'). lia.
      * exists (Some r). split; [exists p; split; [now right|auto]|]. split.
        ++ intros q r' [<-|Hq] Hx'; [now apply H in Hx'|eauto].
        ++ intros q d' [<-|Hq] Hx'; [now apply H' in Hx'|eauto].
    + destruct IH as (p&d&Hp&Hpd&I2&I3). destruct (op_kind k o) as [(r0&Hr)|[(d0&Hd)|[H H']]].
      * destruct (N.le_gt_cases (r_version r0) d) as [L|L].
        -- exists None, p, d. split; [now right|]. split; [auto|]. split.
           ++ intros q r' [<-|Hq] Hx'; [now rewrite (delivers_fun _ _ _ _ Hx' Hr)|eauto].
           ++ intros q d' [<-|Hq] Hx'; [exfalso; eauto using delivers_deletes|eauto].
        -- exists (Some r0). split; [exists o; split; [now left|auto]|]. split.
           ++ intros q r' [<-|Hq] Hx'; [left; now rewrite (delivers_fun _ _ _ _ Hx' Hr)|]. right. specialize (I2 _ _ Hq Hx'). lia.
           ++ intros q d' [<-|Hq] Hx'; [exfalso; eauto using delivers_deletes|]. specialize (I3 _ _ Hq Hx'). lia.
      * destruct (N.le_gt_cases d0 d) as [L|L].
        -- exists None, p, d. split; [now right|]. split; [auto|]. split.
           ++ intros q r' [<-|Hq] Hx'; [exfalso; eauto using delivers_deletes|eauto].
           ++ intros q d' [<-|Hq] Hx'; [now rewrite (deletes_fun _ _ _ _ Hx' Hd)|eauto].
        -- exists None, o, d0. split; [now left|]. split; [auto|]. split.
           ++ intros q r' [<-|Hq] Hx'; [exfalso; eauto using delivers_deletes|]. specialize (I2 _ _ Hq Hx'). lia.
           ++ intros q d' [<-|Hq] Hx'; [rewrite (deletes_fun _ _ _ _ Hx' Hd); lia|]. specialize (I3 _ _ Hq Hx'). lia.
      * exists None, p, d. split; [now right|]. split; [auto|]. split.
        ++ intros q r' [<-|Hq] Hx'; [now apply H in Hx'|eauto].
        ++ intros q d' [<-|Hq] Hx'; [now apply H' in Hx'|eauto].
Qed.

Lemma untouched k l : forall s s' cur, wf_store s -> Forall wf_op l -> Forall sane_op l -> Forall (mixed_delivery k) l -> run s l = Some s' ->
  holds s k cur -> (forall r, cur = Some r -> wf_rec r) -> fresh k cur l ->
  (forall o, In o l -> (forall r, ~ delivers k o r) /\ (forall d, ~ deletes k o d)) -> holds s' k cur.
Proof.
  induction l as [|o l IH]; intros s s' cur Hwf Hw Hs Hd Hrun Hh Hc Hf HN.
  - apply Some_inv in Hrun; subst s'. auto.
  - inversion_clear Hw as [|? ? W1 W2]. inversion_clear Hs as [|? ? S1 S2]. inversion_clear Hd as [|? ? D1 D2].
    cbn [run] in Hrun. destruct (run_op s o) as [q|] eqn:Er; [|discriminate].
    assert (Hwf' : wf_store (o_store q)) by eauto using run_op_wf.
    destruct (knows_total s k Hwf) as (w&Hk&_).
    assert (M : moved k s w o (o_store q)).
    { apply op_moves; auto. intros Hko r0 Hr W. assert (cur = Some r0) as -> by (destruct cur as [r'|]; [f_equal; eapply holds_some_fun; eauto|exfalso; eauto using holds_none_some]).
      apply (Hf o r0); [now left|auto|now left]. }
    assert (E : db (o_store q) !! k = db s !! k).
    { destruct (HN o (or_introl eq_refl)) as [N1 N2]. destruct M as [E _ _ _|e b now -> <- Q _ L|e b now -> <- Hb H W L|e now -> <- Q _|e now -> <- L H T T']; [exact E| | | |]; exfalso.
      - apply (N1 (rec_of e)). exists now, e, b. auto.
      - apply (N1 (rec_of e)). exists now, e, b. auto.
      - apply (N2 (e_version e)). exists now, e, 0. auto.
      - apply (N2 (e_version e)). exists now, e, 0. auto. }
    apply (IH (o_store q) s'); auto.
    + unfold holds. now rewrite E.
    + intros p r Hp Hkp [?|(p'&?&?)]; apply (Hf p r); auto; [now right|now right|right; exists p'; split; [now right|auto]].
    + intros p Hp. apply HN. now right.
Qed.

Theorem agreement k init v s1 l1 s1' s2 l2 s2' : receives k init v s1 l1 s1' -> receives k init v s2 l2 s2' ->
  (forall r, init = Some r -> wf_rec r) -> news k v l1 ->
  (forall r, (exists o, In o l1 /\ delivers k o r) <-> (exists o, In o l2 /\ delivers k o r)) ->
  (forall d, (exists o, In o l1 /\ deletes k o d) <-> (exists o, In o l2 /\ deletes k o d)) ->
  distinct k l1 -> exists x, holds s1' k x /\ holds s2' k x.
Proof.
  intros R1 R2 Hi (N1&N2) HR HD Hx.
  assert (News2 : news k v l2).
  { split.
    - intros o r I D. destruct (proj2 (HR r) (ex_intro _ o (conj I D))) as (o'&?&?). eauto.
    - intros o r I D. destruct (proj2 (HD r) (ex_intro _ o (conj I D))) as (o'&?&?). eauto. }
  destruct (some_decision k l1 Hx) as [Hn|(w&Hw)].
  - exists init. destruct R1 as [Hwf (Hw&Hs&Hd) Hrun (Hh&Hk) Hf _ _], R2 as [Hwf2 (Hw2&Hs2&Hd2) Hrun2 (Hh2&Hk2) Hf2 _ _].
    split; [apply (untouched k l1 s1 s1'); auto|]. apply (untouched k l2 s2 s2'); auto. intros o I. split; intros x D.
    + destruct (proj2 (HR x) (ex_intro _ o (conj I D))) as (o'&I'&D'). now apply (Hn o' I') in D'.
    + destruct (proj2 (HD x) (ex_intro _ o (conj I D))) as (o'&I'&D'). now apply (Hn o' I') in D'.
  - exists w. split; [apply (decided k init v s1 l1); auto; split; auto|]. apply (decided k init v s2 l2); auto.
    destruct w as [r|].
    + destruct Hw as (H1&H2&H3). split; [now apply HR|]. split.
      * intros o r' I D. destruct (proj2 (HR r') (ex_intro _ o (conj I D))) as (o'&?&?). eauto.
      * intros o r' I D. destruct (proj2 (HD r') (ex_intro _ o (conj I D))) as (o'&?&?). eauto.
    + destruct Hw as (o&d&I&D&H2&H3). destruct (proj1 (HD d) (ex_intro _ o (conj I D))) as (o'&I'&D'). exists o', d. split; [auto|]. split; [auto|]. split.
      * intros p r' Ip Dp. destruct (proj2 (HR r') (ex_intro _ p (conj Ip Dp))) as (p'&?&?). eauto.
      * intros p r' Ip Dp. destruct (proj2 (HD r') (ex_intro _ p (conj Ip Dp))) as (p'&?&?). eauto.
Qed.
