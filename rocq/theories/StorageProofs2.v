From stdpp Require Import gmap.
From Verif Require Import Base BaseLemmas StorageModel StorageSpec StorageProofs.
From Coq Require Import ZifyBool ZifyNat ZifyN.
Local Open Scope N_scope.
Ltac Zify.zify_post_hook ::= Z.div_mod_to_equations.

(** ** incr *)
Lemma leading_number_lt d : leading_number d < 2 ^ 64.
Proof. unfold leading_number. destruct (_ <? _) eqn:E; [|reflexivity]. lia. Qed.

Lemma incr_value_lt n v i : n < 2 ^ 64 -> v < 2 ^ 64 -> incr_value n v i < 2 ^ 64.
Proof.
  intros. unfold incr_value.
  destruct (_ && _); [reflexivity|]. destruct (_ && _); [reflexivity|].
  destruct i; apply u64_lt.
Qed.

Lemma incr_value_spec n v i : n < 2 ^ 64 -> v < 2 ^ 64 ->
  incr_value n v i = if i then N.min (n + v) (2 ^ 64 - 1) else n - v.
Proof.
  intros Hn Hv. unfold incr_value, u64. change (2 ^ 64) with 18446744073709551616 in *.
  destruct i; cbn [andb negb].
  - destruct (_ <? _) eqn:E; lia.
  - destruct (n <? _) eqn:E; lia.
Qed.

Definition incr_entry (e : entry) (r : rec) (v : N) (i : bool) : entry :=
  let d := dec (incr_value (leading_number (r_data r)) v i) in
  mkEntry (e_key e) (r_flag r) (r_expire r) (blen d) (u64 (r_version r + 1)) (e_option e) d.

Lemma incr_none s now e v i b : holds s (e_key e) None ->
  incr s now e v i b = Some (mkOut s 0 (Some result_not_found) e).
Proof. unfold holds, incr. intros ->. reflexivity. Qed.

Lemma incr_some s now e v i b r : holds s (e_key e) (Some r) -> wf_rec r -> v < 2 ^ 64 ->
  incr s now e v i b =
    if negb (has b behavior_skip_timestamp) && expired_at now (r_expire r)
    then Some (mkOut (removed s now (e_key e) (fill (empty_entry (e_key e)) r)) 0 (Some result_not_found) e)
    else Some (mkOut (set_db s (<[e_key e := encode_rec (rec_of (incr_entry e r v i))]> (db s)))
                 0 (Some result_stored) (incr_entry e r v i)).
Proof.
  intros H Hr Hv. unfold incr. pose proof H as H'. unfold holds in H'. rewrite H'. cbn [fmap option_fmap option_map].
  rewrite unser_encode by auto. cbn [negb fill e_flag e_expire e_size e_version].
  rewrite blen_encode. unfold header_size at 1.
  replace (28 + blen (r_data r) - 28 =? blen (r_data r)) with true by lia. cbn [negb].
  destruct (negb _ && expired_at _ _) eqn:E.
  - rewrite (remove_some _ _ _ _ r) by (cbn; auto).
    destruct (has_equal_bits b) as (B1&B2&B3). rewrite B1, B2, B3. cbn [e_version fill negb andb orb].
    rewrite N.eqb_refl. cbn [negb orb andb]. rewrite andb_false_r.
    cbn [o_store o_entry e_key fill].
    destruct (r_version r =? 0) eqn:E0; [|reflexivity].
    reflexivity.
  - rewrite skipn_encode.
    change (mkEntry _ _ _ _ _ _ _) with (incr_entry e r v i).
    set (m := incr_value _ _ _).
    assert (Hm : m < 2 ^ 64) by (apply incr_value_lt; auto using leading_number_lt).
    assert (Hl : blen (dec m) <= 20).
    { pose proof (dec_length_u64 _ Hm). unfold blen. lia. }
    rewrite (ser_header_encode (incr_entry e r v i) (dec m)).
    2:{ change (2^64) with 18446744073709551616. lia. } 2:{ reflexivity. }
    unfold db_put. rewrite blen_encode. cbn [r_data].
    replace (28 + blen (dec m) <=? 2147483647) with true by lia. reflexivity.
Qed.

Lemma incr_entry_wf e r v i : wf_rec r -> v < 2 ^ 64 -> wf_rec (rec_of (incr_entry e r v i)).
Proof.
  intros (W1&W2&W3&W4&W5) Hv. unfold rec_of, incr_entry.
  set (m := incr_value _ _ _).
  assert (Hm : m < 2 ^ 64) by (apply incr_value_lt; auto using leading_number_lt).
  pose proof (dec_length_u64 _ Hm) as Hl.
  split; [exact W1|]. split; [exact W2|]. split; [apply u64_lt|]. split; [|apply dec_wf].
  cbn [r_data e_data]. unfold blen. lia.
Qed.

(** ** Local effect of every operation *)
Lemma removed_wf s now k e : wf_store s -> is_i64 now -> is_i64 (e_expire e) -> e_version e < 2 ^ 64 ->
  wf_store (removed s now k e).
Proof. intros. apply shc_wf; auto. now apply delete_wf. Qed.

(** [touches_only k s s']: [s'] differs from [s] at most at key [k], apart from
    forgotten tombstones. *)
Definition touches_only (k : key) (s s' : store) : Prop :=
  wf_store s' /\ hcache_size s' = hcache_size s
  /\ (forall k', k' <> k -> db s' !! k' = db s !! k' /\ (tomb s' k' = tomb s k' \/ tomb s' k' = None)).

Lemma touches_only_refl k s : wf_store s -> touches_only k s s.
Proof. intros H. split; [auto|split; auto]. Qed.
Lemma touches_only_shc k s now e : wf_store s -> is_i64 now -> is_i64 (e_expire e) -> e_version e < 2 ^ 64 ->
  touches_only k s (set_header_cache s now k e).
Proof.
  intros H Hn He Hv. split; [now apply shc_wf|]. split; [reflexivity|].
  intros k' Hk. split; [reflexivity|]. apply shc_tomb_other; [apply H|congruence].
Qed.
Lemma touches_only_removed k s now e : wf_store s -> is_i64 now -> is_i64 (e_expire e) -> e_version e < 2 ^ 64 ->
  touches_only k s (removed s now k e).
Proof.
  intros H Hn He Hv. split; [now apply removed_wf|]. split; [reflexivity|].
  intros k' Hk. split.
  - cbn. now rewrite lookup_delete_ne by congruence.
  - apply (shc_tomb_other (set_db s (delete k (db s)))); [apply H|congruence].
Qed.
Lemma touches_only_put k s r : wf_store s -> wf_rec r ->
  touches_only k s (set_db s (<[k := encode_rec r]> (db s))).
Proof.
  intros H Hr. split; [now apply insert_wf|]. split; [reflexivity|].
  intros k' Hk. split; [|now left]. cbn. now rewrite lookup_insert_ne by congruence.
Qed.
Lemma touches_only_trans k s1 s2 s3 : touches_only k s1 s2 -> touches_only k s2 s3 -> touches_only k s1 s3.
Proof.
  intros (A1&A2&A3) (B1&B2&B3). split; [auto|]. split; [congruence|].
  intros k' Hk. destruct (A3 k' Hk) as [C1 C2], (B3 k' Hk) as [D1 D2].
  split; [congruence|]. destruct D2 as [D2|D2]; rewrite D2; auto.
Qed.

Lemma fill_range e r : wf_rec r -> is_i64 (e_expire (fill e r)) /\ e_version (fill e r) < 2 ^ 64.
Proof. intros (_&H2&H3&_). auto. Qed.

Lemma remove_local s now e b : wf_store s -> is_i64 now -> is_i64 (e_expire e) -> e_version e < 2 ^ 64 ->
  touches_only (e_key e) s (o_store (remove s now e b)).
Proof.
  intros Hwf Hn He Hv. destruct (wf_holds s (e_key e) Hwf) as ([r|] & Ho & Hr).
  - specialize (Hr r eq_refl). rewrite (remove_some _ _ _ _ r) by auto.
    destruct (_ && _); cbn [o_store]; [now apply touches_only_refl|].
    apply touches_only_removed; auto; destruct (_ =? _); auto. apply Hr.
  - rewrite remove_none by auto. cbn zeta.
    destruct (_ && _); cbn [o_store]; [now apply touches_only_refl|].
    destruct (negb _); [|now apply touches_only_refl]. now apply touches_only_shc.
Qed.

Lemma get_local s now e b : wf_store s -> is_i64 now -> touches_only (e_key e) s (o_store (get s now e b)).
Proof.
  intros Hwf Hn. destruct (wf_holds s (e_key e) Hwf) as ([r|] & Ho & Hr).
  - specialize (Hr r eq_refl). rewrite (get_some _ _ _ _ r) by auto.
    destruct (_ && _); cbn [o_store]; [|now apply touches_only_refl].
    destruct (fill_range e r Hr). now apply touches_only_removed.
  - rewrite get_none by auto. now apply touches_only_refl.
Qed.

Lemma incr_local s now e v i b o : wf_store s -> is_i64 now -> v < 2 ^ 64 ->
  incr s now e v i b = Some o -> touches_only (e_key e) s (o_store o).
Proof.
  intros Hwf Hn Hv. destruct (wf_holds s (e_key e) Hwf) as ([r|] & Ho & Hr).
  - specialize (Hr r eq_refl). rewrite (incr_some _ _ _ _ _ _ r) by auto.
    destruct (_ && _); intros H; apply Some_inv in H; subst o; cbn [o_store].
    + destruct (fill_range (empty_entry (e_key e)) r Hr). now apply touches_only_removed.
    + apply touches_only_put; auto. now apply incr_entry_wf.
  - rewrite incr_none by auto. intros H; apply Some_inv in H; subst o. now apply touches_only_refl.
Qed.

Lemma cur_case_local s now k b s1 cur st : wf_store s -> is_i64 now -> cur_case s now k b s1 cur st ->
  touches_only k s s1.
Proof.
  intros Hwf Hn [r c H1 H2 H3 H4 H5 H6 H7 H8|r c s2 H1 H2 H3 H4 H5 H6|x v c H1 H2 H3 H4 H5 H6|c H1 H2 H3];
    try now apply touches_only_refl.
  subst s2. destruct (reads_record b); [|now apply touches_only_refl].
  destruct (fill_range (empty_entry k) r H2). now apply touches_only_removed.
Qed.

Lemma set_local s now e b o : wf_store s -> wf_entry e -> is_i64 now -> sane_behavior b ->
  set s now e b = Some o -> touches_only (e_key e) s (o_store o).
Proof.
  intros Hwf He Hn Hb Hs. destruct (set_inv _ _ _ _ _ Hwf He Hb Hs) as (s1&cur&st&Hc&H).
  pose proof (cur_case_local _ _ _ _ _ _ _ Hwf Hn Hc) as Hl.
  destruct H as [[-> _]|(r'&Hr'&->&_)]; auto.
  eapply touches_only_trans; eauto. apply touches_only_put; auto. apply Hl.
Qed.

Definition sane_op (o : op) : Prop :=
  match o with OSet _ _ b => sane_behavior b | _ => True end.

Lemma run_op_local s o r k : wf_store s -> wf_op o -> sane_op o -> op_key o = Some k ->
  run_op s o = Some r -> touches_only k s (o_store r).
Proof.
  intros Hwf Ho Hso Hk. destruct o as [now e b|now e v i b|now e b|now e b|]; cbn in *;
    try (injection Hk as <-).
  - destruct Ho. now apply set_local.
  - destruct Ho as (?&?&?). now apply incr_local.
  - intros H. apply Some_inv in H; subst r. now apply get_local.
  - intros H. apply Some_inv in H; subst r. destruct Ho as ((H1&H2&H3&H4)&?). now apply remove_local.
  - discriminate.
Qed.

Lemma truncate_wf s : wf_store (truncate s).
Proof.
  split; [|split; [|split]]; cbn.
  - intros k raw. rewrite lookup_empty. discriminate.
  - constructor.
  - lia.
  - discriminate.
Qed.
Lemma init_wf n : wf_store (init_store n).
Proof. exact (truncate_wf (init_store n)). Qed.

Lemma run_op_wf s o r : wf_store s -> wf_op o -> sane_op o -> run_op s o = Some r -> wf_store (o_store r).
Proof.
  intros Hwf Ho Hso H. destruct (op_key o) as [k|] eqn:Hk.
  - eapply run_op_local in H; eauto. apply H.
  - destruct o; try discriminate. cbn in H. injection H as <-. apply truncate_wf.
Qed.

Lemma run_wf l s s' : wf_store s -> Forall wf_op l -> Forall sane_op l -> run s l = Some s' -> wf_store s'.
Proof.
  revert s; induction l as [|o l IH]; intros s Hwf Hl Hs; cbn.
  - now intros [= <-].
  - inversion Hl; inversion Hs; subst. destruct (run_op s o) as [r|] eqn:E; [|discriminate].
    apply IH; auto. eapply run_op_wf; eauto.
Qed.

(** Reads depend only on the database bytes of their key. *)
Lemma get_answer_db s s' now e b : wf_store s -> db s' !! e_key e = db s !! e_key e ->
  o_ret (get s' now e b) = o_ret (get s now e b)
  /\ o_res (get s' now e b) = o_res (get s now e b)
  /\ o_entry (get s' now e b) = o_entry (get s now e b).
Proof.
  intros Hwf Hdb. destruct (wf_holds s (e_key e) Hwf) as ([r|] & Ho & Hr).
  - specialize (Hr r eq_refl).
    rewrite (get_some s _ _ _ r) by auto.
    rewrite (get_some s' _ _ _ r) by (unfold holds in *; auto; congruence).
    destruct (_ && _); auto.
  - rewrite (get_none s) by auto. rewrite (get_none s') by (unfold holds in *; congruence). auto.
Qed.

Lemma frame_reads s o r k : wf_store s -> wf_op o -> sane_op o -> op_key o = Some k ->
  run_op s o = Some r -> same_reads_for (fun k' => k' <> k) s (o_store r).
Proof.
  intros Hwf Ho Hso Hk H now e b Hne. eapply run_op_local in H; eauto.
  destruct H as (_&_&H). destruct (H _ Hne) as [H1 _]. now apply get_answer_db.
Qed.
