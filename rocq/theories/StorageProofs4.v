From stdpp Require Import gmap.
From Verif Require Import Base BaseLemmas StorageModel StorageSpec StorageProofs StorageProofs2 StorageProofs3.
From Coq Require Import ZifyBool ZifyNat ZifyN.
Local Open Scope N_scope.
Ltac Zify.zify_post_hook ::= Z.div_mod_to_equations.

(** *** Definedness of set *)
Lemma set_defined s now e b : wf_store s -> wf_entry e -> sane_behavior b ->
  blen (e_data e) <= 2147483647 - 28 ->
  (has b behavior_append = true \/ has b behavior_prepend = true ->
     forall r, live s now (e_key e) r -> blen (r_data r) + blen (e_data e) <= 2147483647 - 28) ->
  exists o, set s now e b = Some o.
Proof.
  intros Hwf (He1&He2&He3&He4&He5) Hb Hlen Happ. unfold set.
  destruct (current_entry s now (e_key e) b) as [[s1 cur] ex] eqn:Ec.
  pose proof (current_spec _ _ _ _ _ _ _ Hwf Ec) as Hcc.
  set (st := current_state now b cur ex) in *. clearbody st.
  assert (Hput : forall hdr d, (length hdr = 28)%nat -> blen d <= 2147483647 - 28 ->
     exists s2, db_put s1 (e_key e) (hdr ++ d) = Some s2).
  { intros hdr d Hh Hd. unfold db_put. rewrite blen_app. unfold blen at 1. rewrite Hh.
    replace (N.of_nat 28 + blen d <=? 2147483647) with true by lia. eauto. }
  assert (Hh : forall x, (length (ser_header x) = 28)%nat).
  { intros. unfold ser_header. rewrite !app_length, !le_enc_length. reflexivity. }
  destruct (has b behavior_add && _); [eauto|].
  destruct (has b behavior_replace && _); [eauto|].
  destruct (has b behavior_touch && negb (cur_state_eqb st st_alive)) eqn:E3; [eauto|].
  destruct (next_version st cur e b) as [r|v]; [eauto|].
  rewrite has_lor.
  destruct (has b behavior_append || has b behavior_prepend) eqn:E4.
  - destruct (cur_state_eqb st st_alive) eqn:E5; cbn [negb]; [|eauto].
    apply cur_state_eqb_eq in E5. subst st.
    inversion Hcc as [r c H1 H2 H3 H4 H5 H6 H7 H8 X1 X2 X3| | |]; subst c s1.
    assert (Hrr : reads_record b = true) by (unfold reads_record; now rewrite E4).
    specialize (H8 Hrr). rewrite H6, <- H8, memcpy_all. cbn [e_data with_version e_size]. rewrite He4, memcpy_all.
    set (d := if has b behavior_append then _ else _) in *.
    assert (Hd : blen d <= 2147483647 - 28).
    { apply orb_prop in E4. assert (Hne : ~ expired now r) by (destruct H3 as [H3|[_ H3]]; [exact H3|congruence]).
      specialize (Happ E4 r (conj H1 (conj H2 Hne))). rewrite <- H8 in Happ. unfold d.
      destruct (has b behavior_append); rewrite blen_app; lia. }
    set (e2 := with_size _ _).
    destruct (Hput (ser_header e2) d (Hh e2) Hd) as [s2 ->]. eauto.
  - destruct (has b behavior_touch) eqn:Et.
    + cbn in E3. destruct (cur_state_eqb st st_alive) eqn:E5; [|discriminate].
      apply cur_state_eqb_eq in E5. subst st.
      inversion Hcc as [r c H1 H2 H3 H4 H5 H6 H7 H8 X1 X2 X3| | |]; subst c s1.
      assert (Hrr : reads_record b = true) by (unfold reads_record; rewrite Et; now rewrite orb_true_r).
      specialize (H8 Hrr). rewrite H6, <- H8, memcpy_all.
      set (e2 := with_data _ _).
      destruct (Hput (ser_header e2) (e_data cur) (Hh e2)) as [s2 ->]; [|eauto].
      rewrite H8. apply H2.
    + cbn [e_data with_version e_size]. rewrite He4, memcpy_all.
      set (e2 := with_version _ _).
      destruct (Hput (ser_header e2) (e_data e) (Hh e2)) as [s2 ->]; eauto.
Qed.

(** *** C06 *)
Lemma get_exact s now e b v : wf_store s -> has b behavior_skip_timestamp = false ->
  visible s now (e_key e) v ->
  o_ret (get s now e b) = 0%Z /\
  match v with
  | Some r => o_res (get s now e b) = Some result_none /\ o_store (get s now e b) = s
      /\ rec_of (o_entry (get s now e b)) = r /\ e_size (o_entry (get s now e b)) = blen (r_data r)
  | None => o_res (get s now e b) = Some result_not_found
      /\ holds (o_store (get s now e b)) (e_key e) None
      /\ unchanged_from now s (o_store (get s now e b))
  end.
Proof.
  intros Hwf Hb Hv. destruct v as [r|]; cbn in Hv.
  - destruct Hv as (H&W&Hx). rewrite (get_visible_eq _ _ _ _ r); auto. cbn. repeat split. now destruct r.
  - destruct Hv as [H|(r&H&W&Hx)].
    + rewrite get_none by auto. cbn. repeat split; auto; apply unchanged_refl.
    + rewrite (get_some _ _ _ _ r) by auto. rewrite Hb.
      replace (expired_at now (r_expire r)) with true by (symmetry; now apply expired_at_spec).
      cbn [negb andb o_ret o_res o_store]. repeat split; auto.
      * unfold holds, removed. cbn. apply lookup_delete.
      * eapply removed_unchanged; eauto.
      * eapply removed_unchanged; eauto.
Qed.

Lemma visible_total s now k : wf_store s -> exists v, visible s now k v.
Proof.
  intros Hwf. destruct (wf_holds s k Hwf) as ([r|] & Ho & Hr).
  - specialize (Hr r eq_refl). destruct (expired_at now (r_expire r)) eqn:E.
    + apply expired_at_spec in E. exists None. right; eauto.
    + exists (Some r). repeat split; auto; try apply Hr. rewrite <- expired_at_spec. congruence.
  - exists None. now left.
Qed.

(** *** remove *)
Lemma remove_exact s now e b : wf_store s -> has b behavior_skip_timestamp = false ->
  has b behavior_skip_version = false -> has b behavior_version_equal = false ->
  let o := remove s now e b in
  o_ret o = 0%Z
  /\ (forall r, live s now (e_key e) r ->
        (e_version e = 0 \/ r_version r <= e_version e ->
           o_res o = Some result_deleted /\ holds (o_store o) (e_key e) None)
        /\ (e_version e <> 0 -> e_version e < r_version r ->
           o_res o = Some result_not_found /\ o_store o = s))
  /\ ((forall r, ~ live s now (e_key e) r) -> o_res o = Some result_not_found /\ unchanged_from now s (o_store o)).
Proof.
  intros Hwf H1 H2 H3 o.
  destruct (wf_holds s (e_key e) Hwf) as ([r|] & Ho & Hr).
  - specialize (Hr r eq_refl). unfold o. rewrite (remove_some _ _ _ _ r) by auto. rewrite H1, H2, H3.
    cbn [negb andb orb]. rewrite orb_false_r.
    destruct (negb (e_version e =? 0) && (e_version e <? r_version r)) eqn:E; cbn [o_ret o_res o_store].
    + split; [auto|]. split; [|split; auto using unchanged_refl].
      intros r' (A&B&C). assert (r = r') by eauto using holds_some_fun. subst r'. split; [intros; lia|auto].
    + split; [auto|]. split.
      * intros r' (A&B&C). assert (r = r') by eauto using holds_some_fun. subst r'.
        split; [|lia]. intros _.
        replace (expired_at now (r_expire r)) with false.
        { split; auto. unfold holds, removed. cbn. apply lookup_delete. }
        symmetry. apply not_true_iff_false. now rewrite expired_at_spec.
      * intros Hn. destruct (expired_at now (r_expire r)) eqn:Ex.
        -- apply expired_at_spec in Ex. split; auto. eapply removed_unchanged; eauto.
        -- exfalso. eapply (Hn r). repeat split; auto; try apply Hr. rewrite <- expired_at_spec. congruence.
  - unfold o. rewrite remove_none by auto. cbn zeta.
    destruct (_ && _); cbn [o_ret o_res o_store].
    + split; [auto|]. split; [|split; auto using unchanged_refl].
      intros r' Hl. exfalso. eapply not_live_none; eauto.
    + split; [auto|]. split.
      * intros r' Hl. exfalso. eapply not_live_none; eauto.
      * intros _. split; auto. destruct (negb _); [|apply unchanged_refl].
        intros k n x _. unfold visible, live, holds. rewrite shc_db. tauto.
Qed.

(** *** incr *)
Lemma leading_number_spec d : starts_with_number d (leading_number d).
Proof.
  exists (fst (span is_digit d)), (snd (span is_digit d)). split; [symmetry; apply span_app|].
  split; [|split].
  - eapply Forall_impl; [apply span_all|]. cbn. intros c H. now apply is_digit_range.
  - intros c rest' E. pose proof (span_stop is_digit d) as H. rewrite E in H.
    rewrite <- is_digit_range. congruence.
  - reflexivity.
Qed.
Lemma starts_with_number_fun d n m : starts_with_number d n -> starts_with_number d m -> n = m.
Proof.
  assert (G : forall ds rest, Forall (fun c => 48 <= c <= 57) ds ->
    (forall c rest', rest = c :: rest' -> ~ 48 <= c <= 57) -> span is_digit (ds ++ rest) = (ds, rest)).
  { intros ds rest H1 H2. apply span_prefix.
    - eapply Forall_impl; [exact H1|]. cbn. intros c H. now apply is_digit_range.
    - destruct rest as [|c rest]; auto. specialize (H2 _ _ eq_refl). rewrite <- is_digit_range in H2.
      now destruct (is_digit c). }
  intros (a&b&E&H1&H2&->) (a'&b'&E'&H1'&H2'&->).
  pose proof (G a b H1 H2) as G1. pose proof (G a' b' H1' H2') as G2.
  rewrite <- E in G1. rewrite <- E' in G2. assert (a = a') by congruence. now subst.
Qed.
Lemma dec_numeral n : is_numeral (dec n) n.
Proof.
  split; [apply dec_nonnil|]. split; [|split; [apply dec_val_dec|apply dec_no_leading_zero]].
  eapply Forall_impl; [apply dec_digits|]. cbn. intros c H. now apply is_digit_range.
Qed.

Lemma incr_exact s now e v i b o : wf_store s -> v < 2 ^ 64 -> has b behavior_skip_timestamp = false ->
  incr s now e v i b = Some o ->
  o_ret o = 0%Z
  /\ (forall r n, live s now (e_key e) r -> starts_with_number (r_data r) n ->
       o_res o = Some result_stored
       /\ exists d, is_numeral d (if i then N.min (n + v) (2 ^ 64 - 1) else n - v)
          /\ holds (o_store o) (e_key e) (Some (mkRec (r_flag r) (r_expire r) (u64 (r_version r + 1)) d))
          /\ rec_of (o_entry o) = mkRec (r_flag r) (r_expire r) (u64 (r_version r + 1)) d)
  /\ ((forall r, ~ live s now (e_key e) r) ->
       o_res o = Some result_not_found /\ unchanged_from now s (o_store o)).
Proof.
  intros Hwf Hv Hb Hi.
  destruct (wf_holds s (e_key e) Hwf) as ([r|] & Ho & Hr).
  - specialize (Hr r eq_refl). rewrite (incr_some _ _ _ _ _ _ r) in Hi by auto. rewrite Hb in Hi. cbn [negb andb] in Hi.
    destruct (expired_at now (r_expire r)) eqn:E; apply Some_inv in Hi; subst o; cbn [o_ret o_res o_store o_entry].
    + apply expired_at_spec in E. split; [auto|]. split.
      * intros r' n Hl. exfalso. eapply not_live_expired; eauto.
      * intros _. split; auto. eapply removed_unchanged; eauto.
    + split; [auto|]. split.
      * intros r' n (A&B&C) Hn. assert (r = r') by eauto using holds_some_fun. subst r'.
        split; auto. exists (dec (incr_value (leading_number (r_data r)) v i)).
        assert (n = leading_number (r_data r)) as -> by eauto using starts_with_number_fun, leading_number_spec.
        split; [|split].
        -- rewrite incr_value_spec by auto using leading_number_lt. apply dec_numeral.
        -- unfold holds. cbn. now rewrite lookup_insert.
        -- reflexivity.
      * intros Hn. exfalso. eapply (Hn r). repeat split; auto; try apply Hr. rewrite <- expired_at_spec. congruence.
  - rewrite incr_none in Hi by auto. apply Some_inv in Hi; subst o. cbn. split; [auto|]. split.
    + intros r n Hl. exfalso. eapply not_live_none; eauto.
    + intros _. split; auto. apply unchanged_refl.
Qed.
Lemma incr_defined s now e v i b : wf_store s -> v < 2 ^ 64 -> exists o, incr s now e v i b = Some o.
Proof.
  intros Hwf Hv. destruct (wf_holds s (e_key e) Hwf) as ([r|] & Ho & Hr).
  - rewrite (incr_some _ _ _ _ _ _ r) by auto. destruct (_ && _); eauto.
  - rewrite incr_none by auto. eauto.
Qed.
