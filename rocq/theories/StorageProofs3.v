From stdpp Require Import gmap.
From Verif Require Import Base BaseLemmas StorageModel StorageSpec StorageProofs StorageProofs2.
From Coq Require Import ZifyBool ZifyNat ZifyN.
Local Open Scope N_scope.
Ltac Zify.zify_post_hook ::= Z.div_mod_to_equations.

Lemma holds_fun s k o1 o2 : (forall r, o1 = Some r -> wf_rec r) -> (forall r, o2 = Some r -> wf_rec r) ->
  holds s k o1 -> holds s k o2 -> o1 = o2.
Proof.
  unfold holds. intros W1 W2 H1 H2. rewrite H1 in H2.
  destruct o1 as [r1|], o2 as [r2|]; cbn [fmap option_fmap option_map] in H2; try discriminate; auto.
  apply Some_inv in H2. f_equal. apply encode_inj; auto.
Qed.
Lemma wf_store_holds s k r : wf_store s -> holds s k (Some r) -> exists r', wf_rec r' /\ holds s k (Some r').
Proof.
  intros (H&_) Hh. unfold holds in *. destruct (H _ _ Hh) as (r'&W&E). exists r'. split; auto.
  cbn in *. congruence.
Qed.

(** Records compared by field need the ranges; on well-formed states [holds]
    identifies the record among well-formed ones. *)
Lemma holds_some_fun s k r1 r2 : wf_rec r1 -> wf_rec r2 -> holds s k (Some r1) -> holds s k (Some r2) -> r1 = r2.
Proof.
  intros W1 W2 H1 H2. assert (E : Some r1 = Some r2); [|congruence].
  eapply holds_fun; eauto; congruence.
Qed.
Lemma holds_none_some s k r : holds s k None -> holds s k (Some r) -> False.
Proof. unfold holds. intros -> H. discriminate. Qed.

Lemma knows_fun s k v1 v2 : knows s k v1 -> knows s k v2 -> v1 = v2.
Proof.
  intros [(r1&H1&W1&E1)|[(H1&x1&E1)|(H1&E1&->)]] [(r2&H2&W2&E2)|[(H2&x2&E2)|(H2&E2&->)]];
    try (exfalso; eauto using holds_none_some; fail); try congruence.
  assert (r1 = r2) by eauto using holds_some_fun. congruence.
Qed.

Lemma cur_case_knows s now k b s1 cur st : wf_store s -> cur_case s now k b s1 cur st -> knows s k (e_version cur).
Proof.
  intros Hwf [r c H1 H2 H3 H4 H5 H6 H7 H8|r c s2 H1 H2 H3 H4 H5 H6|x v c H1 H2 H3 H4 H5 H6|c H1 H2 H3].
  - left. eauto.
  - left. eauto.
  - right; left. split; auto. exists x. congruence.
  - right. rewrite H2. destruct (tomb s k) as [[x v]|] eqn:E; [left|right]; eauto.
Qed.

Lemma next_version_assigned st cur e b v : next_version st cur e b = inr v ->
  v = assigned_version b e (e_version cur).
Proof.
  unfold next_version, assigned_version.
  destruct (has b behavior_cas).
  - destruct (cur_state_eqb _ _); [discriminate|]. destruct (negb _); [discriminate|]. congruence.
  - destruct (has b behavior_touch); [congruence|].
    destruct (e_version e =? 0) eqn:E.
    + rewrite andb_false_r. congruence.
    + destruct (negb _ && negb false); [|congruence].
      destruct (_ && _); [discriminate|congruence].
Qed.

Lemma get_visible_eq s now q b r : wf_store s -> wf_rec r -> holds s (e_key q) (Some r) ->
  (~ expired now r \/ has b behavior_skip_timestamp = true) ->
  get s now q b = mkOut s 0 (Some result_none) (with_data (fill q r) (r_data r)).
Proof.
  intros Hwf Hr H Hx. rewrite (get_some _ _ _ _ r) by auto.
  destruct (has b behavior_skip_timestamp) eqn:E; cbn [negb andb]; auto.
  destruct (expired_at now (r_expire r)) eqn:E2; auto.
  apply expired_at_spec in E2. destruct Hx; [tauto|discriminate].
Qed.

(** *** C01 *)
Lemma store_then_get s now e b o : wf_store s -> wf_entry e -> sane_behavior b ->
  set s now e b = Some o ->
  o_res o = Some result_stored \/ o_res o = Some result_touched ->
  let r := rec_of (o_entry o) in
  o_ret o = 0%Z
  /\ wf_rec r /\ holds (o_store o) (e_key e) (Some r)
  /\ (exists cv, knows s (e_key e) cv /\ r_version r = assigned_version b e cv)
  /\ (exists old, r = new_record b e old (r_version r)
        /\ (reads_record b = true -> live s now (e_key e) old))
  /\ (forall now' q bq, e_key q = e_key e ->
        ~ expired now' r \/ has bq behavior_skip_timestamp = true ->
        let g := get (o_store o) now' q bq in
        o_ret g = 0%Z /\ o_res g = Some result_none /\ o_store g = o_store o
        /\ rec_of (o_entry g) = r /\ e_size (o_entry g) = blen (r_data r) /\ e_key (o_entry g) = e_key e).
Proof.
  intros Hwf He Hb Hs Hres r.
  destruct (set_inv _ _ _ _ _ Hwf He Hb Hs) as (s1&cur&st&Hc&H).
  destruct H as [(E&[(E1&r0&E2&E3&_&N1&N2)|(E1&E2&_)])|(r'&Hr'&Est&Eret&Er&Erec&Ek&Esz&(A1&A2&A3&A4)&Enew)].
  { exfalso. destruct Hres; congruence. }
  { exfalso. destruct Hres; congruence. }
  assert (Hh : holds (o_store o) (e_key e) (Some r')).
  { unfold holds. rewrite Est. cbn. now rewrite lookup_insert. }
  fold r in Erec. rewrite Erec.
  split; [auto|]. split; [auto|]. split; [auto|]. split; [|split].
  - exists (e_version cur). split; [eapply cur_case_knows; eauto|]. eapply next_version_assigned; eauto.
  - destruct (reads_record b) eqn:Hrr.
    + specialize (A3 eq_refl). subst st.
      inversion Hc as [r2 c H1 H2 H3 H4 H5 H6 H7 H8 X1 X2 X3| | |]; subst c.
      subst s1. exists r2. split; [|intros _; split; [auto|]; split; [auto|]; destruct H3 as [?|[_ ?]]; [auto|congruence]].
      rewrite Enew at 1. unfold cur_rec. rewrite H4, H5, H7, (H8 Hrr). now destruct r2.
    + exists (cur_rec cur). split; [auto|discriminate].
  - intros now' q bq Hq Hx. cbn zeta.
    assert (Hwf' : wf_store (o_store o)).
    { rewrite Est. apply insert_wf; auto. 
      inversion Hc as [r2 c H1 H2 H3 H4 H5 H6 H7 H8 X1 X2 X3|r2 c s2 H1 H2 H3 H4 H5 H6 X1 X2 X3|x v c H1 H2 H3 H4 H5 H6 X1 X2 X3|c H1 H2 H3 X1 X2 X3]; subst; auto.
      destruct (reads_record b); auto.
      apply shc_wf'; [now apply delete_wf| |apply H2].
      unfold shc_expire. cbn [fill e_expire].
      replace (r_expire r2 =? 0)%Z with false by (unfold expired in H3; lia). apply H2. }
    rewrite (get_visible_eq _ _ _ _ r') by (auto; now rewrite Hq).
    cbn. repeat split; auto. now destruct r'.
Qed.

(** *** C05 *)
Lemma not_live_expired s now k r : wf_rec r -> holds s k (Some r) -> expired now r -> forall r', ~ live s now k r'.
Proof.
  intros W H Hx r' (H'&W'&Hx'). assert (r = r') by eauto using holds_some_fun. now subst.
Qed.
Lemma not_live_none s now k : holds s k None -> forall r', ~ live s now k r'.
Proof. intros H r' (H'&_). eauto using holds_none_some. Qed.
Lemma not_pending_some s now k r : holds s k (Some r) -> ~ pending_delete s now k.
Proof. intros H (H'&_). eauto using holds_none_some. Qed.

Lemma cc_alive s now k b s1 cur : wf_store s -> has b behavior_skip_timestamp = false ->
  cur_case s now k b s1 cur st_alive ->
  s1 = s /\ exists r, live s now k r /\ e_version cur = r_version r.
Proof.
  intros Hwf Hb Hc. inversion Hc as [r c H1 H2 H3 H4 H5 H6 H7 H8 X1 X2 X3| | |]; subst.
  split; auto. exists r. split; auto. split; auto. split; auto.
  destruct H3 as [?|[? _]]; [auto|congruence].
Qed.
Lemma cc_pending s now k b s1 cur : cur_case s now k b s1 cur st_not_expired ->
  s1 = s /\ pending_delete s now k /\ forall r, ~ live s now k r.
Proof.
  intros Hc. inversion Hc as [| |x v c H1 H2 H3 H4 H5 H6 X1 X2 X3|]; subst.
  split; auto. split; [|now apply not_live_none]. split; eauto 6.
Qed.
Lemma removed_unchanged s now k r e : holds s k (Some r) -> wf_rec r -> expired now r ->
  unchanged_from now s (removed s now k e).
Proof.
  intros H W Hx k' now' o Hn.
  assert (Hd : k' <> k -> forall o', holds (removed s now k e) k' o' <-> holds s k' o').
  { intros Hk o'. unfold holds. cbn. rewrite lookup_delete_ne by congruence. tauto. }
  assert (Hd' : holds (removed s now k e) k None).
  { unfold holds. cbn. now rewrite lookup_delete. }
  destruct (decide (k' = k)) as [->|Hk].
  - assert (Hx' : expired now' r) by (unfold expired in *; lia).
    destruct o as [r'|]; cbn.
    + split; intros H'; exfalso.
      * eapply not_live_none; eauto.
      * eapply (not_live_expired s now' k r); eauto.
    + split; intros _; [right; eauto|left; auto].
  - specialize (Hd Hk). destruct o as [r'|]; cbn; unfold live.
    + now rewrite Hd.
    + rewrite Hd. split; (intros [?|(r'&?&?&?)]; [left; auto|right; exists r'; rewrite Hd in *; auto]).
Qed.
Lemma unchanged_refl now s : unchanged_from now s s.
Proof. intros k n o _. tauto. Qed.
Lemma cc_gone s now k b s1 cur : wf_store s -> has b behavior_skip_timestamp = false ->
  cur_case s now k b s1 cur st_gone ->
  (reads_record b = false -> s1 = s) /\ unchanged_from now s s1
  /\ (forall r, ~ live s now k r) /\ ~ pending_delete s now k.
Proof.
  intros Hwf Hb Hc. inversion Hc as [|r c s2 H1 H2 H3 H4 H5 H6 X1 X2 X3| |c H1 H2 H3 X1 X2 X3]; subst.
  - split; [now intros ->|]. split.
    + destruct (reads_record b); [|apply unchanged_refl]. eapply removed_unchanged; eauto.
    + split; [eapply not_live_expired; eauto|eapply not_pending_some; eauto].
  - split; [auto|]. split; [apply unchanged_refl|].
    split; [now apply not_live_none|]. destruct H3; [congruence|auto].
Qed.

Lemma command_conditions c s now e o : wf_store s -> wf_entry e ->
  set s now e (cmd_behavior c) = Some o ->
  (o_ret o = 0%Z /\ o_res o = Some (store_answer c) /\ can_store c s now e)
  \/ (exists r, o_ret o = 0%Z /\ o_res o = Some r /\ refuse_answer c s now e r /\ ~ can_store c s now e
        /\ (c <> CmdAppend -> c <> CmdPrepend -> c <> CmdTouch -> o_store o = s)
        /\ unchanged_from now s (o_store o) /\ o_entry o = e).
Proof.
  intros Hwf He Hs.
  assert (Hb : sane_behavior (cmd_behavior c)) by (destruct c; repeat split; discriminate).
  destruct (set_inv _ _ _ _ _ Hwf He Hb Hs) as (s1&cur&st&Hc&H).
  pose proof (cur_case_knows _ _ _ _ _ _ _ Hwf Hc) as Hkn.
  assert (Hts : has (cmd_behavior c) behavior_skip_timestamp = false) by (destruct c; reflexivity).
  assert (Hst : match st with
     | st_alive => s1 = s /\ exists r, live s now (e_key e) r /\ e_version cur = r_version r
     | st_not_expired => s1 = s /\ pending_delete s now (e_key e) /\ forall r, ~ live s now (e_key e) r
     | st_gone => (reads_record (cmd_behavior c) = false -> s1 = s) /\ unchanged_from now s s1
         /\ (forall r, ~ live s now (e_key e) r) /\ ~ pending_delete s now (e_key e)
     end).
  { destruct st; eauto using cc_alive, cc_pending, cc_gone. }
  assert (Hu : unchanged_from now s s1).
  { destruct st; [destruct Hst as [-> _]|destruct Hst as [-> _]|apply Hst]; auto using unchanged_refl. }
  assert (Hsame : c <> CmdAppend -> c <> CmdPrepend -> c <> CmdTouch -> s1 = s).
  { intros N1 N2 N3. destruct st; [apply Hst|apply Hst|]. apply Hst. destruct c; try reflexivity; congruence. }
  assert (Hlive : forall r, live s now (e_key e) r -> st = st_alive /\ e_version cur = r_version r).
  { intros r Hr. destruct st.
    - destruct Hst as (_&r'&Hr'&->). split; auto. f_equal.
      destruct Hr as (?&?&_), Hr' as (?&?&_). eauto using holds_some_fun.
    - exfalso. destruct Hst as (_&_&Hx). eapply Hx; eauto.
    - exfalso. destruct Hst as (_&_&Hx&_). eapply Hx; eauto. }
  destruct H as [(E&[(E1&r0&E2&E3&Href&N1&N2)|(E1&E2&N1&N2)])|(r'&Hr'&Est&Eret&Er&Erec&Ek&Esz&(A1&A2&A3&A4)&Enew)].
  - right. exists r0. split; [auto|]. split; [auto|].
    rewrite E. split; [|split; [|auto]]; clear E E1 E2 E3 Hs N1 N2.
    + destruct c; cbn in Href; unfold refusal in Href; cbn in Href;
        repeat match goal with H : _ \/ _ |- _ => destruct H as [H|H] | H : _ /\ _ |- _ => destruct H end;
        try discriminate; subst; cbn; auto.
      all: try (revert Href; unfold next_version; cbn;
                repeat match goal with |- (if ?c then _ else _) = _ -> _ => destruct c eqn:? end;
                try discriminate; intros [= <-]; auto).
      * left. split; auto. destruct st; try discriminate. tauto.
      * right. split; auto. split. { destruct st; [left; destruct Hst as (_&r&Hr&_); eauto|right; tauto|discriminate]. }
        intros Hk. assert (e_version e = e_version cur) by eauto using knows_fun. lia.
    + destruct c; cbn in Href; unfold refusal in Href; cbn in Href;
        destruct Href as [(F1&F2&F3)|[(F1&F2&F3)|[(F1&F2&F3)|Href]]];
        try discriminate; cbn [can_store].
      all: try (revert Href; unfold next_version; cbn;
                repeat match goal with |- (if ?c then _ else _) = _ -> _ => destruct c eqn:? end;
                try discriminate; intros _).
      all: intros Hcs; repeat match goal with H : (_ && _) = true |- _ => apply andb_prop in H as [? ?] end.
      * rewrite orb_false_r in *. assert (st = st_alive) by now apply cur_state_eqb_eq. subst st.
        destruct Hst as (_&r&Hr&Ev). destruct Hcs as [Hcs|Hcs]; [lia|]. specialize (Hcs r Hr). lia.
      * destruct Hcs as [Hc1 Hc2]. destruct st; [|tauto|tauto]. destruct Hst as (_&r&Hr&_). eapply Hc1; eauto.
      * rewrite orb_false_r in *. assert (st = st_alive) by now apply cur_state_eqb_eq. subst st.
        destruct Hst as (_&r&Hr&Ev). destruct Hcs as [Hcs _]. eapply Hcs; eauto.
      * destruct Hcs as (r&Hr&_). destruct (Hlive r Hr). congruence.
      * destruct Hcs as (r&Hr&Hv). destruct (Hlive r Hr). lia.
      * assert (st = st_gone) by now apply cur_state_eqb_eq. subst st.
        destruct Hst as (_&_&Hx&Hy). destruct Hcs as [[(r&Hr)|Hp] _]; [eapply Hx; eauto|tauto].
      * assert (e_version e = e_version cur) by (destruct Hcs; eauto using knows_fun). lia.
      * destruct Hcs as (r&Hr&_). destruct (Hlive r Hr). congruence.
      * destruct Hcs as (r&Hr&Hv). destruct (Hlive r Hr). lia.
      * destruct Hcs as (r&Hr&_). destruct (Hlive r Hr). congruence.
      * destruct Hcs as (r&Hr&Hv). destruct (Hlive r Hr). lia.
      * destruct Hcs as (r&Hr). destruct (Hlive r Hr). congruence.
  - exfalso. (* append/prepend carry replace, which refuses first *)
    revert Hs. unfold set. destruct (current_entry s now (e_key e) (cmd_behavior c)) as [[s1' cur'] ex'] eqn:Ec'.
    destruct c; cbn in N2; destruct N2 as [N2|N2]; try discriminate; cbn [has cmd_behavior].
    all: change (has (N.lor behavior_replace behavior_append) behavior_add) with false;
         change (has (N.lor behavior_replace behavior_append) behavior_replace) with true;
         change (has (N.lor behavior_replace behavior_append) behavior_touch) with false;
         change (has (N.lor behavior_replace behavior_prepend) behavior_add) with false;
         change (has (N.lor behavior_replace behavior_prepend) behavior_replace) with true;
         change (has (N.lor behavior_replace behavior_prepend) behavior_touch) with false.
    all: cbn [andb]; destruct (cur_state_eqb _ st_alive) eqn:Est2; cbn [negb].
    all: try (intros Hs; apply Some_inv in Hs; subst o; discriminate E2).
    all: destruct (next_version _ _ _ _); [intros Hs; apply Some_inv in Hs; subst o; discriminate E2|].
    all: match goal with |- context [has ?b (N.lor behavior_append behavior_prepend)] =>
           change (has b (N.lor behavior_append behavior_prepend)) with true end.
    all: destruct (memcpy _ _); [|discriminate]; destruct (memcpy _ _); [|discriminate];
         destruct (db_put _ _ _); [|discriminate]; intros Hs; apply Some_inv in Hs; subst o; discriminate E2.
  - left. split; [auto|]. split.
    { rewrite Er. destruct c; reflexivity. }
    clear Enew Esz Ek Erec Er Eret Est Hr' Hs.
    destruct c; cbn in A1, A2, A3, A4; cbn [can_store].
    + revert A4. unfold next_version. cbn. destruct (e_version e =? 0) eqn:E0; cbn [negb].
      * intros _. left. lia.
      * rewrite orb_false_r. intros A4. right. intros r Hr. destruct (Hlive r Hr) as [-> Ev].
        cbn in A4. destruct (e_version e <=? e_version cur) eqn:E1; [discriminate|]. lia.
    + specialize (A1 eq_refl). subst st. tauto.
    + specialize (A2 eq_refl). subst st. destruct Hst as (_&r&Hr&Ev). exists r. split; auto.
      revert A4. unfold next_version. cbn. destruct (e_version e =? 0) eqn:E0; cbn [negb]; [intros _; left; lia|].
      destruct (e_version e <=? e_version cur) eqn:E1; [discriminate|]. intros _. right. lia.
    + revert A4. unfold next_version. cbn. destruct (cur_state_eqb st st_gone) eqn:Eg; [discriminate|].
      destruct (e_version e =? e_version cur) eqn:E1; cbn; [|discriminate]. intros _.
      assert (e_version e = e_version cur) as -> by lia. split; auto.
      destruct st; [left|right|discriminate]; [|tauto]. destruct Hst as (_&r&Hr&_). eauto.
    + specialize (A2 eq_refl). subst st. destruct Hst as (_&r&Hr&Ev). exists r. split; auto.
      revert A4. unfold next_version. cbn. destruct (e_version e =? 0) eqn:E0; cbn [negb]; [intros _; left; lia|].
      destruct (e_version e <=? e_version cur) eqn:E1; [discriminate|]. intros _. right. lia.
    + specialize (A2 eq_refl). subst st. destruct Hst as (_&r&Hr&Ev). exists r. split; auto.
      revert A4. unfold next_version. cbn. destruct (e_version e =? 0) eqn:E0; cbn [negb]; [intros _; left; lia|].
      destruct (e_version e <=? e_version cur) eqn:E1; [discriminate|]. intros _. right. lia.
    + specialize (A3 eq_refl). subst st. destruct Hst as (_&r&Hr&Ev). eauto.
Qed.
