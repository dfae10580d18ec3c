From stdpp Require Import gmap.
From Verif Require Import Base BaseLemmas StorageModel StorageSpec StorageProofs StorageProofs2 StorageProofs3 StorageProofs4 StorageProofs5.
From Coq Require Import ZifyBool ZifyNat ZifyN.
Local Open Scope N_scope.
Ltac Zify.zify_post_hook ::= Z.div_mod_to_equations.

Lemma run_app l1 l2 s : run s (l1 ++ l2) = match run s l1 with Some s1 => run s1 l2 | None => None end.
Proof.
  revert s. induction l1 as [|o l1 IH]; intros s; [reflexivity|]. cbn [run app].
  destruct (run_op s o); [apply IH|reflexivity].
Qed.

Lemma never_forgets_cons k s o l r : never_forgets k s (o :: l) -> run_op s o = Some r ->
  (remembered s k -> remembered (o_store r) k) /\ never_forgets k (o_store r) l.
Proof.
  intros H Hr. split.
  - apply (H [] o l s r); auto.
  - intros l1 o' l2 s1 r' -> H1 H2. apply (H (o :: l1) o' l2 s1 r'); auto. cbn [run]. now rewrite Hr.
Qed.
Lemma never_forgets_app k s l1 l2 s1 : never_forgets k s (l1 ++ l2) -> run s l1 = Some s1 ->
  never_forgets k s l1 /\ never_forgets k s1 l2.
Proof.
  intros H Hr. split.
  - intros a o b s2 r -> H1 H2. apply (H a o (b ++ l2) s2 r); auto. now rewrite <- app_assoc.
  - intros a o b s2 r -> H1 H2. apply (H (l1 ++ a) o b s2 r); auto.
    + now rewrite <- app_assoc.
    + now rewrite run_app, Hr.
Qed.

Lemma remembered_dec s k v : knows s k v -> remembered s k \/ v = 0.
Proof.
  intros [(r&?&_)|[(_&x&E)|(_&_&?)]]; auto; left; [left; eauto|right; congruence].
Qed.

Lemma history_version l : forall s s' k v v' M,
  wf_store s -> Forall wf_op l -> Forall sane_op l -> Forall version_checked l ->
  never_forgets k s l -> run s l = Some s' -> knows s k v -> knows s' k v' ->
  v <= M -> Forall (fun o => op_version o <= M) l -> M + N.of_nat (length l) < 2 ^ 64 ->
  v <= v' /\ v' <= M + N.of_nat (length l).
Proof.
  induction l as [|o l IH]; intros s s' k v v' M Hwf Hw Hs Hv Hnf Hrun Hk Hk' HM HMl Hlen.
  - apply Some_inv in Hrun; subst s'. assert (v' = v) by eauto using knows_fun. cbn [length]. lia.
  - inversion_clear Hw as [|? ? W1 W2]. inversion_clear Hs as [|? ? S1 S2].
    inversion_clear Hv as [|? ? V1 V2]. inversion_clear HMl as [|? ? M1 M2].
    cbn [run] in Hrun. destruct (run_op s o) as [r|] eqn:Er; [|discriminate].
    destruct (never_forgets_cons _ _ _ _ _ Hnf Er) as [F1 F2].
    assert (Hwf' : wf_store (o_store r)) by eauto using run_op_wf.
    destruct (knows_total (o_store r) k Hwf') as (v1&K1&_).
    cbn [length] in Hlen |- *.
    assert (Hrem : remembered (o_store r) k \/ v = 0) by (destruct (remembered_dec _ _ _ Hk); auto).
    destruct (step_version s o r k v v1) as (A1&A2&_); auto; [lia|].
    destruct (IH (o_store r) s' k v1 v' (M + 1)) as [B1 B2]; auto; try lia.
    eapply Forall_impl; [exact M2|]. cbn. intros; lia.
Qed.

(** Every store answered STORED under [k] gets a version above everything
    known before and at most what is known at the end. *)
Lemma history_stored l1 o l2 s s1 r s' k v v' M :
  wf_store s -> Forall wf_op (l1 ++ o :: l2) -> Forall sane_op (l1 ++ o :: l2) ->
  Forall version_checked (l1 ++ o :: l2) -> never_forgets k s (l1 ++ o :: l2) ->
  run s l1 = Some s1 -> run_op s1 o = Some r -> run (o_store r) l2 = Some s' ->
  knows s k v -> knows s' k v' -> v <= M -> Forall (fun o => op_version o <= M) (l1 ++ o :: l2) ->
  M + N.of_nat (length (l1 ++ o :: l2)) < 2 ^ 64 ->
  op_key o = Some k -> o_res r = Some result_stored ->
  v < e_version (o_entry r) /\ e_version (o_entry r) <= v'.
Proof.
  intros Hwf Hw Hs Hv Hnf R1 R2 R3 Hk Hk' HM HMl Hlen Hko Hres.
  apply Forall_app in Hw as [W1 W2]. apply Forall_app in Hs as [S1 S2].
  apply Forall_app in Hv as [V1 V2]. apply Forall_app in HMl as [M1 M2].
  inversion_clear W2 as [|? ? Wo W3]. inversion_clear S2 as [|? ? So S3].
  inversion_clear V2 as [|? ? Vo V3]. inversion_clear M2 as [|? ? Mo M3].
  destruct (never_forgets_app _ _ _ _ _ Hnf R1) as [F1 F2].
  destruct (never_forgets_cons _ _ _ _ _ F2 R2) as [Fo F3].
  rewrite app_length in Hlen. cbn [length] in Hlen.
  assert (Hwf1 : wf_store s1) by eauto using run_wf.
  assert (Hwf2 : wf_store (o_store r)) by eauto using run_op_wf.
  destruct (knows_total s1 k Hwf1) as (v1&K1&_). destruct (knows_total (o_store r) k Hwf2) as (v2&K2&_).
  destruct (history_version l1 s s1 k v v1 M) as [A1 A2]; auto; [lia|].
  assert (Hrem : remembered (o_store r) k \/ v1 = 0) by (destruct (remembered_dec _ _ _ K1); auto).
  destruct (step_version s1 o r k v1 v2) as (B1&B2&B3); auto; [lia|].
  destruct (B3 Hko Hres) as [B4 B5].
  destruct (history_version l2 (o_store r) s' k v2 v' (M + N.of_nat (length l1) + 1)) as [C1 C2]; auto; try lia.
  { eapply Forall_impl; [exact M3|]. cbn. intros; lia. }
Qed.

(** *** A cache large enough for the keys in use never forgets *)
Definition cache_in (K : list key) (s : store) : Prop := forall k, tomb s k <> None -> In k K.

Lemma hc_get_none c k : hc_get c k = None <-> ~ In k (map fst c).
Proof.
  split.
  - intros H Hin. apply in_map_iff in Hin as ([k' v]&E&Hin). cbn in E; subst k'.
    induction c as [|[k1 v1] c IH]; [destruct Hin|]. cbn in H. destruct (beq k1 k) eqn:Eb; [discriminate|].
    destruct Hin as [E|Hin]; [|auto]. injection E as -> ->. now rewrite beq_refl in Eb.
  - intros H. destruct (hc_get c k) as [v|] eqn:E; auto. exfalso. apply H.
    apply hc_get_in in E. apply in_map_iff. now exists (k, v).
Qed.

Lemma shc_all s now k e K : wf_store s -> cache_in K s -> In k K ->
  N.of_nat (length K) <= hcache_size s ->
  tomb (set_header_cache s now k e) k = Some (shc_expire now e, e_version e)
  /\ (forall k', k' <> k -> tomb (set_header_cache s now k e) k' = tomb s k')
  /\ cache_in K (set_header_cache s now k e).
Proof.
  intros (_&Hn&Hl&_) HK Hin Hlen.
  set (c := hc_put (hcache s) k (shc_expire now e, e_version e)).
  assert (Hsub : incl (map fst c) K).
  { intros x Hx. destruct (hc_put_keys (hcache s) k (shc_expire now e, e_version e)) as [E|[_ E]].
    - unfold c in Hx. rewrite E in Hx. apply HK. rewrite tomb_hc_get. intros En. now apply hc_get_none in En.
    - unfold c in Hx. rewrite E in Hx. apply in_app_or in Hx as [Hx|[<-|[]]]; auto.
      apply HK. rewrite tomb_hc_get. intros En. now apply hc_get_none in En. }
  assert (Hnc : List.NoDup (map fst c)) by now apply hc_put_nodup.
  pose proof (NoDup_incl_length Hnc Hsub) as Hle. rewrite map_length in Hle.
  assert (E : set_header_cache s now k e = set_hcache s c).
  { unfold set_header_cache. fold (shc_expire now e). fold c.
    replace (length c - N.to_nat (hcache_size s))%nat with 0%nat by lia. reflexivity. }
  rewrite E. split; [|split].
  - rewrite tomb_hc_get. cbn [hcache set_hcache]. unfold c. rewrite hc_put_get, beq_refl. reflexivity.
  - intros k' Hk'. rewrite !tomb_hc_get. cbn [hcache set_hcache]. unfold c. rewrite hc_put_get.
    destruct (beq k k') eqn:Eb; [|reflexivity]. apply beq_eq in Eb. congruence.
  - intros x Hx. rewrite tomb_hc_get in Hx. cbn [hcache set_hcache] in Hx.
    destruct (in_dec (List.list_eq_dec N.eq_dec) x (map fst c)) as [Hi|Hi]; [now apply Hsub|].
    apply hc_get_none in Hi. congruence.
Qed.

(** An operation within [K] keeps what was known of every key. *)
Definition keeps (K : list key) (s s' : store) : Prop :=
  hcache_size s' = hcache_size s /\ cache_in K s' /\ forall k, remembered s k -> remembered s' k.

Lemma keeps_refl K s : cache_in K s -> keeps K s s. Proof. now repeat split. Qed.
Lemma keeps_trans K s1 s2 s3 : keeps K s1 s2 -> keeps K s2 s3 -> keeps K s1 s3.
Proof. intros (A&_&B) (C&D&E). split; [congruence|]. split; auto. Qed.
Lemma keeps_shc K s now k e : wf_store s -> cache_in K s -> In k K -> N.of_nat (length K) <= hcache_size s ->
  keeps K s (set_header_cache s now k e).
Proof.
  intros Hwf HK Hi Hl. destruct (shc_all s now k e K Hwf HK Hi Hl) as (A&B&C).
  split; [reflexivity|]. split; [exact C|].
  intros k' [Hr|Hr]; [left; exact Hr|right].
  destruct (decide (k' = k)) as [->|Hne]; [rewrite A; discriminate|now rewrite B].
Qed.
Lemma keeps_removed K s now k e : wf_store s -> cache_in K s -> In k K -> N.of_nat (length K) <= hcache_size s ->
  keeps K s (removed s now k e).
Proof.
  intros Hwf HK Hi Hl. unfold removed.
  destruct (shc_all (set_db s (delete k (db s))) now k e K) as (A&B&C); auto; [now apply delete_wf|].
  split; [reflexivity|]. split; [exact C|].
  intros k' Hr. destruct (decide (k' = k)) as [->|Hne].
  - right. rewrite A. discriminate.
  - destruct Hr as [[x Hr]|Hr].
    + left. exists x. unfold holds in *. cbn. now rewrite lookup_delete_ne by congruence.
    + right. now rewrite B.
Qed.
Lemma keeps_put K s k r : cache_in K s -> keeps K s (set_db s (<[k := encode_rec r]> (db s))).
Proof.
  intros HK. split; [reflexivity|]. split; [exact HK|].
  intros k' Hr. destruct (decide (k' = k)) as [->|Hne].
  - left. exists r. unfold holds. cbn. now rewrite lookup_insert.
  - destruct Hr as [[x Hr]|Hr]; [|now right]. left. exists x. unfold holds in *. cbn.
    now rewrite lookup_insert_ne by congruence.
Qed.

Lemma run_op_keeps K s o r k : wf_store s -> wf_op o -> sane_op o -> op_key o = Some k -> In k K ->
  cache_in K s -> N.of_nat (length K) <= hcache_size s -> run_op s o = Some r -> keeps K s (o_store r).
Proof.
  intros Hwf Ho Hso Hko Hi HK Hl Hrun.
  destruct o as [now e b|now e vv i b|now e b|now e b|]; cbn in Hrun, Ho, Hso, Hko; try (injection Hko as <-).
  - destruct Ho as [He Hn]. destruct (set_inv _ _ _ _ _ Hwf He Hso Hrun) as (s1&cur&st&Hc&H).
    assert (H1 : keeps K s s1 /\ wf_store s1).
    { split; [|exact (proj1 (cur_case_local _ _ _ _ _ _ _ Hwf Hn Hc))].
      inversion Hc as [x c H1 H2 H3 H4 H5 H6 H7 H8 X1 X2 X3|x c s2 H1 H2 H3 H4 H5 H6 X1 X2 X3|x w c H1 H2 H3 H4 H5 H6 X1 X2 X3|c H1 H2 H3 X1 X2 X3];
        try (subst; now apply keeps_refl).
      subst. destruct (reads_record b); [now apply keeps_removed|now apply keeps_refl]. }
    destruct H1 as [H1 Hwf1].
    destruct H as [(E&_)|(r'&Hr'&Est&_)].
    + now rewrite E.
    + rewrite Est. eapply keeps_trans; [exact H1|]. apply keeps_put. apply H1.
  - destruct Ho as (He&Hvv&Hn). destruct (wf_holds s (e_key e) Hwf) as ([x|] & Hx & Hwx).
    + specialize (Hwx x eq_refl). rewrite (incr_some _ _ _ _ _ _ x) in Hrun by auto.
      destruct (_ && _); apply Some_inv in Hrun; subst r; cbn [o_store]; [now apply keeps_removed|now apply keeps_put].
    + rewrite incr_none in Hrun by auto. apply Some_inv in Hrun; subst r. now apply keeps_refl.
  - apply Some_inv in Hrun; subst r. destruct (wf_holds s (e_key e) Hwf) as ([x|] & Hx & Hwx).
    + rewrite (get_some _ _ _ _ x) by auto. destruct (_ && _); cbn [o_store]; [now apply keeps_removed|now apply keeps_refl].
    + rewrite get_none by auto. now apply keeps_refl.
  - apply Some_inv in Hrun; subst r. destruct (wf_holds s (e_key e) Hwf) as ([x|] & Hx & Hwx).
    + rewrite (remove_some _ _ _ _ x) by auto. destruct (_ && _); cbn [o_store]; [now apply keeps_refl|now apply keeps_removed].
    + rewrite remove_none by auto. cbn zeta. destruct (_ && _); cbn [o_store]; [now apply keeps_refl|].
      destruct (negb _); [now apply keeps_shc|now apply keeps_refl].
  - discriminate.
Qed.

Lemma small_key_set_never_forgets K l : forall s k,
  wf_store s -> Forall wf_op l -> Forall sane_op l ->
  Forall (fun o => exists k', op_key o = Some k' /\ In k' K) l ->
  cache_in K s -> N.of_nat (length K) <= hcache_size s -> never_forgets k s l.
Proof.
  intros s k Hwf Hw Hs Hk HK Hl l1 o l2 s1 r -> Hr1 Hr2 Hrem.
  apply Forall_app in Hw as [W1 W2]. apply Forall_app in Hs as [S1 S2]. apply Forall_app in Hk as [K1 K2].
  inversion_clear W2. inversion_clear S2. inversion_clear K2 as [|? ? (k'&Hk'&Hin) _].
  assert (H' : wf_store s1 /\ keeps K s s1).
  { clear - Hwf W1 S1 K1 HK Hl Hr1. revert s Hwf HK Hl Hr1.
    induction l1 as [|p l1 IH]; intros s Hwf HK Hl Hr1.
    - apply Some_inv in Hr1; subst s1. split; auto using keeps_refl.
    - inversion_clear W1. inversion_clear S1. inversion_clear K1 as [|? ? (k'&Hk'&Hin) ?]. cbn [run] in Hr1.
      destruct (run_op s p) as [q|] eqn:E; [|discriminate].
      assert (Q1 : wf_store (o_store q)) by eauto using run_op_wf.
      assert (Q2 : keeps K s (o_store q)) by eauto using run_op_keeps.
      destruct (IH ltac:(auto) ltac:(auto) ltac:(auto) (o_store q)) as [Q3 Q4]; auto.
      + apply Q2.
      + destruct Q2 as (Q2&_). now rewrite Q2.
      + split; auto. eapply keeps_trans; eauto. }
  destruct H' as [Hwf1 (Q1&Q2&Q3)].
  assert (Q : keeps K s1 (o_store r)) by (eapply run_op_keeps; eauto; now rewrite Q1).
  now apply Q.
Qed.

(** *** C04: one winner *)
Lemma cas_stored_knows s now e b o : wf_store s -> wf_entry e -> sane_behavior b ->
  has b behavior_cas = true -> set s now e b = Some o -> o_res o = Some result_stored ->
  knows s (e_key e) (e_version e).
Proof.
  intros Hwf He Hsb Hcas Hset Hres.
  destruct (set_inv _ _ _ _ _ Hwf He Hsb Hset) as (s1&cur&st&Hc&H).
  pose proof (cur_case_knows _ _ _ _ _ _ _ Hwf Hc) as Hkc.
  destruct H as [(E&[(E1&r0&E2&E3&_&N1&N2)|(E1&E2&_)])|(r'&Hr'&Est&Eret&Er&Erec&Ek&Esz&(A1&A2&A3&A4)&Enew)]; try congruence.
  unfold next_version in A4. rewrite Hcas in A4.
  destruct (cur_state_eqb _ _); [discriminate|]. destruct (e_version e =? e_version cur) eqn:E; [|discriminate].
  apply N.eqb_eq in E. now rewrite E.
Qed.

Lemma cas_one_winner s now1 e1 b1 o1 l s2 now2 e2 b2 o2 M :
  wf_store s -> wf_entry e1 -> wf_entry e2 -> is_i64 now1 -> is_i64 now2 ->
  sane_behavior b1 -> sane_behavior b2 ->
  has b1 behavior_cas = true -> has b2 behavior_cas = true ->
  has b1 behavior_skip_version = false ->
  e_key e1 = e_key e2 -> e_version e1 = e_version e2 ->
  Forall wf_op l -> Forall sane_op l -> Forall version_checked l ->
  never_forgets (e_key e1) s (OSet now1 e1 b1 :: l) ->
  Forall (fun o => op_version o <= M) (OSet now1 e1 b1 :: l) -> M + N.of_nat (length l) + 2 < 2 ^ 64 ->
  set s now1 e1 b1 = Some o1 -> o_res o1 = Some result_stored ->
  run (o_store o1) l = Some s2 ->
  set s2 now2 e2 b2 = Some o2 -> o_res o2 <> Some result_stored.
Proof.
  intros Hwf He1 He2 Hn1 Hn2 Hs1 Hs2 Hc1 Hc2 Hsv Ek Ev Hw Hs Hv Hnf HMl Hlen R1 Hr1 R2 R3 Hr2.
  pose proof (cas_stored_knows _ _ _ _ _ Hwf He1 Hs1 Hc1 R1 Hr1) as K1.
  inversion_clear HMl as [|? ? M1 M2]. cbn [op_version] in M1.
  destruct (never_forgets_cons _ _ _ _ o1 Hnf R1) as [F1 F2].
  assert (Hwf1 : wf_store (o_store o1)) by (apply (run_op_wf s (OSet now1 e1 b1) o1); cbn; auto).
  assert (Hwf2 : wf_store s2) by eauto using run_wf.
  destruct (knows_total (o_store o1) (e_key e1) Hwf1) as (v1&K1'&_).
  destruct (knows_total s2 (e_key e1) Hwf2) as (v2&K2'&_).
  destruct (step_version s (OSet now1 e1 b1) o1 (e_key e1) (e_version e1) v1) as (A1&A2&A3); cbn [wf_op sane_op version_checked run_op]; auto.
  { lia. } { destruct (remembered_dec _ _ _ K1); auto. }
  destruct (A3 eq_refl Hr1) as [A4 _]. cbn [op_version] in A2.
  destruct (history_version l (o_store o1) s2 (e_key e1) v1 v2 (M + 1)) as [B1 B2]; auto; try lia.
  { eapply Forall_impl; [exact M2|]. cbn. intros; lia. }
  pose proof (cas_stored_knows _ _ _ _ _ Hwf2 He2 Hs2 Hc2 R3 Hr2) as K3.
  rewrite <- Ek, <- Ev in K3. assert (e_version e1 = v2) by eauto using knows_fun. lia.
Qed.

(** *** C08 *)
Lemma step_stays_absent s o r k : wf_store s -> wf_op o -> sane_op o ->
  run_op s o = Some r -> holds s k None ->
  (op_key o = Some k -> o_res r <> Some result_stored /\ o_res r <> Some result_touched) ->
  holds (o_store r) k None.
Proof.
  intros Hwf Ho Hso Hrun Hh Hns.
  destruct (op_key o) as [k0|] eqn:Hko.
  2:{ destruct o; try discriminate. apply Some_inv in Hrun; subst r. cbn. unfold holds. cbn. apply lookup_empty. }
  destruct (decide (k0 = k)) as [->|Hne].
  2:{ pose proof (run_op_local _ _ _ _ Hwf Ho Hso Hko Hrun) as (_&_&Hl).
      destruct (Hl k) as [H1 _]; [congruence|]. unfold holds. now rewrite H1. }
  specialize (Hns eq_refl). destruct Hns as [N1 N2].
  destruct o as [now e b|now e vv i b|now e b|now e b|]; cbn in Hrun, Ho, Hso, Hko; try (injection Hko as <-).
  - destruct Ho as [He Hn]. destruct (set_inv _ _ _ _ _ Hwf He Hso Hrun) as (s1&cur&st&Hc&H).
    destruct H as [(E&_)|(r'&Hr'&Est&Eret&Er&_)].
    + rewrite E. inversion Hc; subst; auto; exfalso; eauto using holds_none_some.
    + destruct (has b behavior_touch); congruence.
  - rewrite incr_none in Hrun by auto. apply Some_inv in Hrun; subst r. auto.
  - rewrite get_none in Hrun by auto. apply Some_inv in Hrun; subst r. auto.
  - rewrite remove_none in Hrun by auto. cbn zeta in Hrun.
    destruct (_ && _) in Hrun; apply Some_inv in Hrun; subst r; cbn [o_store]; auto.
    destruct (negb _); auto.
  - discriminate.
Qed.

Lemma stays_absent l : forall s s' k, wf_store s -> Forall wf_op l -> Forall sane_op l ->
  run s l = Some s' -> holds s k None -> no_store k s l -> holds s' k None.
Proof.
  induction l as [|o l IH]; intros s s' k Hwf Hw Hs Hrun Hh Hns.
  - apply Some_inv in Hrun; now subst s'.
  - inversion_clear Hw as [|? ? W1 W2]. inversion_clear Hs as [|? ? S1 S2].
    cbn [run] in Hrun. destruct (run_op s o) as [r|] eqn:Er; [|discriminate].
    apply (IH (o_store r) s' k); auto.
    + eauto using run_op_wf.
    + eapply step_stays_absent; eauto. intros Hk. apply (Hns [] o l s r); auto.
    + intros l1 p l2 s1 q -> H1 H2. apply (Hns (o :: l1) p l2 s1 q); auto. cbn [run]. now rewrite Er.
Qed.

(** The tombstone of a delete is the youngest, so any cache of size at least
    one keeps it. *)
Lemma hc_put_last c k v : In k (map fst c) \/ exists c', hc_put c k v = c ++ [(k, v)] /\ c' = c.
Proof.
  destruct (in_dec (List.list_eq_dec N.eq_dec) k (map fst c)) as [H|H]; [now left|right]. exists c. split; auto.
  induction c as [|[k1 v1] c IH]; [reflexivity|]. cbn in *.
  destruct (beq k1 k) eqn:E; [apply beq_eq in E; tauto|]. rewrite IH; tauto.
Qed.
Lemma hc_put_len_in c k v : In k (map fst c) -> length (hc_put c k v) = length c.
Proof.
  induction c as [|[k1 v1] c IH]; [easy|]. cbn. intros H. destruct (beq k1 k) eqn:E; [reflexivity|].
  destruct H as [->|H]; [now rewrite beq_refl in E|]. cbn. now rewrite IH.
Qed.
Lemma shc_kept s now k e : wf_store s -> 1 <= hcache_size s ->
  tomb (set_header_cache s now k e) k = Some (shc_expire now e, e_version e).
Proof.
  intros (_&Hn&Hl&_) H1. rewrite tomb_hc_get. unfold set_header_cache. cbn [hcache set_hcache].
  fold (shc_expire now e). set (v := (shc_expire now e, e_version e)).
  destruct (hc_put_last (hcache s) k v) as [Hin|(c'&E&_)].
  - rewrite hc_put_len_in by auto.
    replace (length (hcache s) - N.to_nat (hcache_size s))%nat with 0%nat by lia.
    rewrite drop_0, hc_put_get, beq_refl. reflexivity.
  - assert (Hnd := hc_put_nodup (hcache s) k v Hn). rewrite E in *.
    rewrite app_length. cbn [length].
    rewrite skipn_app. apply in_hc_get.
    + rewrite <- skipn_app. now apply skipn_map_nodup.
    + apply in_or_app. right.
      replace (length (hcache s) + 1 - N.to_nat (hcache_size s) - length (hcache s))%nat with 0%nat by lia.
      left. reflexivity.
Qed.

(** What a successful delete leaves. *)
Lemma delete_leaves s now e b : wf_store s -> wf_entry e -> is_i64 now -> 1 <= hcache_size s ->
  has b behavior_skip_version = false ->
  let o := remove s now e b in
  o_res o = Some result_deleted ->
  exists r, holds s (e_key e) (Some r) /\ wf_rec r /\ holds (o_store o) (e_key e) None
  /\ exists w, knows (o_store o) (e_key e) w /\ r_version r <= w /\ remembered (o_store o) (e_key e).
Proof.
  intros Hwf He Hn Hsz Hsv o Hres. subst o.
  destruct (wf_holds s (e_key e) Hwf) as ([x|] & Hx & Hwx).
  - specialize (Hwx x eq_refl). exists x. split; auto. split; auto.
    rewrite (remove_some _ _ _ _ x) in * by auto. rewrite Hsv in *. cbn [negb andb] in *.
    destruct (negb (e_version e =? 0) && _) eqn:Eb; [discriminate|]. cbn [o_store] in *.
    set (e' := if e_version e =? 0 then _ else _) in *.
    assert (Hh : holds (removed s now (e_key e) e') (e_key e) None).
    { unfold holds. cbn. apply lookup_delete. }
    split; auto. exists (e_version e').
    assert (Ht : tomb (removed s now (e_key e) e') (e_key e) = Some (shc_expire now e', e_version e')).
    { apply shc_kept; auto. now apply delete_wf. }
    split; [|split].
    + right; left. eauto.
    + subst e'. destruct (e_version e =? 0) eqn:E0; cbn [e_version with_version]; [lia|].
      cbn [negb andb] in Eb. destruct (has b behavior_version_equal); cbn [negb andb orb] in Eb; lia.
    + right. congruence.
  - rewrite remove_none in * by auto. cbn zeta in *. destruct (_ && _) in Hres; discriminate.
Qed.

(** A dump record no newer than what the node knows is refused. *)
Lemma dump_stale s now e o v : wf_store s -> wf_entry e ->
  set s now e behavior_dump = Some o -> knows s (e_key e) v -> 0 < e_version e <= v ->
  o_ret o = 0%Z /\ o_res o = Some result_not_stored /\ o_store o = s /\ o_entry o = e.
Proof.
  intros Hwf He Hset Hk Hv.
  assert (Hsb : sane_behavior behavior_dump) by discriminate.
  destruct (set_inv _ _ _ _ _ Hwf He Hsb Hset) as (s1&cur&st&Hc&H).
  pose proof (cur_case_knows _ _ _ _ _ _ _ Hwf Hc) as Hkc.
  assert (Ecv : e_version cur = v) by eauto using knows_fun.
  assert (Hs1 : s1 = s) by (inversion Hc; subst; reflexivity).
  assert (Hnv : next_version st cur e behavior_dump = inl result_not_stored).
  { unfold next_version. change (has behavior_dump behavior_cas) with false.
    change (has behavior_dump behavior_touch) with false.
    change (has behavior_dump behavior_skip_version) with false.
    change (has behavior_dump behavior_dump) with true. rewrite orb_true_r. cbn [negb andb].
    destruct (e_version e =? 0) eqn:E0; [lia|]. cbn [negb].
    destruct (e_version e <=? e_version cur) eqn:E1; [reflexivity|lia]. }
  destruct H as [(E&[(E1&r0&E2&E3&HR&_)|(E1&E2&_&[?|?])])|(r'&Hr'&Est&Eret&Er&Erec&Ek&Esz&(A1&A2&A3&A4)&Enew)]; try discriminate; try congruence.
  destruct HR as [(?&_)|[(?&_)|[(?&_)|HR]]]; try discriminate.
  rewrite Hnv in HR. injection HR as <-. rewrite E, Hs1. auto.
Qed.

(** *** C09 *)
Lemma truncate_empty s k : holds (truncate s) k None /\ tomb (truncate s) k = None.
Proof. split; [|reflexivity]. unfold holds. cbn. apply lookup_empty. Qed.

(** *** C12 *)
Lemma header_roundtrip e e0 rest : e_flag e < 2 ^ 32 -> is_i64 (e_expire e) -> e_size e < 2 ^ 64 -> e_version e < 2 ^ 64 ->
  unser_header (ser_header e ++ rest) e0
  = (mkEntry (e_key e0) (e_flag e) (e_expire e) (e_size e) (e_version e) (e_option e0) (e_data e0), true)
  /\ blen (ser_header e) = 28.
Proof.
  intros H1 H2 H3 H4. split.
  - unfold ser_header. rewrite <- !app_assoc. now apply unser_fields.
  - unfold ser_header, blen. rewrite !app_length, !le_enc_length. reflexivity.
Qed.
Lemma header_short raw e : blen raw < 28 -> snd (unser_header raw e) = false.
Proof.
  intros H. unfold unser_header.
  destruct (blen raw <? 4) eqn:E1; [reflexivity|]. destruct (blen raw <? 12) eqn:E2; [reflexivity|].
  destruct (blen raw <? 20) eqn:E3; [reflexivity|]. destruct (blen raw <? 28) eqn:E4; [reflexivity|lia].
Qed.
(** Reading never looks past the header. *)
Lemma header_only raw rest e : blen raw = 28 -> unser_header (raw ++ rest) e = unser_header raw e.
Proof.
  intros H. unfold unser_header. rewrite !blen_app.
  assert (Hl : length raw = 28%nat) by (unfold blen in H; lia).
  destruct (blen raw + blen rest <? 4) eqn:E1; [lia|]. destruct (blen raw + blen rest <? 12) eqn:E2; [lia|].
  destruct (blen raw + blen rest <? 20) eqn:E3; [lia|]. destruct (blen raw + blen rest <? 28) eqn:E4; [lia|].
  destruct (blen raw <? 4) eqn:E5; [lia|]. destruct (blen raw <? 12) eqn:E6; [lia|].
  destruct (blen raw <? 20) eqn:E7; [lia|]. destruct (blen raw <? 28) eqn:E8; [lia|].
  rewrite !slice_app_l by (rewrite Hl; lia). reflexivity.
Qed.
