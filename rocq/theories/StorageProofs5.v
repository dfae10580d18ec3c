From stdpp Require Import gmap.
From Verif Require Import Base BaseLemmas StorageModel StorageSpec StorageProofs StorageProofs2 StorageProofs3 StorageProofs4.
From Coq Require Import ZifyBool ZifyNat ZifyN.
Local Open Scope N_scope.
Ltac Zify.zify_post_hook ::= Z.div_mod_to_equations.

(** *** Versions along histories *)
Lemma knows_total s k : wf_store s -> exists v, knows s k v /\ v < 2 ^ 64.
Proof.
  intros Hwf. destruct (wf_holds s k Hwf) as ([r|] & Ho & Hr).
  - exists (r_version r). split; [left; eauto|]. now apply Hr.
  - destruct (tomb s k) as [[x v]|] eqn:E.
    + exists v. split; [right; left; eauto|]. now apply Hwf in E.
    + exists 0. split; [right; right; auto|]. reflexivity.
Qed.
Lemma not_remembered_zero s k v : ~ remembered s k -> knows s k v -> v = 0.
Proof.
  intros Hn [(r&H&_)|[(_&x&H)|(_&_&H)]]; auto; exfalso; apply Hn; [left|right]; eauto. congruence.
Qed.

Lemma knows_shc s now k e v' : wf_store s -> holds s k None ->
  knows (set_header_cache s now k e) k v' -> remembered (set_header_cache s now k e) k -> v' = e_version e.
Proof.
  intros (_&Hn&_) Hh Hk Hr.
  assert (Hh' : holds (set_header_cache s now k e) k None) by exact Hh.
  destruct (shc_tomb_same s now k e Hn) as [E|E].
  - eapply knows_fun; eauto. right; left. eauto.
  - exfalso. destruct Hr as [[r Hr]|Hr]; [eauto using holds_none_some|congruence].
Qed.
Lemma knows_removed s now k e v' : wf_store s ->
  knows (removed s now k e) k v' -> remembered (removed s now k e) k -> v' = e_version e.
Proof.
  intros Hwf. apply knows_shc; [now apply delete_wf|]. unfold holds. cbn. apply lookup_delete.
Qed.
Lemma knows_put s k r v' : wf_rec r -> knows (set_db s (<[k := encode_rec r]> (db s))) k v' -> v' = r_version r.
Proof.
  intros W H. eapply knows_fun; [exact H|]. left. exists r. split; auto.
  unfold holds. cbn. now rewrite lookup_insert.
Qed.

Lemma next_version_checked st cur e b v' :
  has b behavior_skip_version = false ->
  (e_version e = 0 \/ has b behavior_cas = true \/ has b behavior_touch = true \/ has b behavior_dump = true) ->
  e_version cur < 2 ^ 64 - 1 ->
  next_version st cur e b = inr v' ->
  e_version cur <= v' /\ v' <= N.max (e_version cur + 1) (e_version e)
  /\ (has b behavior_touch = false \/ has b behavior_cas = true -> e_version cur < v').
Proof.
  intros Hsv Hch Hw. unfold next_version. rewrite Hsv. cbn [negb andb].
  destruct (has b behavior_cas) eqn:Ec.
  - destruct (cur_state_eqb _ _); [discriminate|]. destruct (e_version e =? e_version cur) eqn:E; [|discriminate].
    cbn [negb]. intros [= <-]. apply N.eqb_eq in E. rewrite E, u64_small by lia. lia.
  - destruct (has b behavior_touch) eqn:Et.
    + intros [= <-]. split; [lia|]. split; [lia|]. intros [?|?]; discriminate.
    + destruct (e_version e =? 0) eqn:E0; cbn [negb].
      * intros [= <-]. rewrite u64_small by lia. lia.
      * destruct Hch as [?|[?|[?|Hd]]]; [lia|discriminate|discriminate|]. rewrite Hd, orb_true_r. cbn [andb].
        destruct (e_version e <=? e_version cur) eqn:E1; [discriminate|]. intros [= <-]. lia.
Qed.

Lemma step_version s o r k v v' : wf_store s -> wf_op o -> sane_op o -> version_checked o ->
  run_op s o = Some r -> knows s k v -> knows (o_store r) k v' ->
  v < 2 ^ 64 - 1 -> (remembered (o_store r) k \/ v = 0) ->
  v <= v' /\ v' <= N.max (v + 1) (op_version o)
  /\ (op_key o = Some k -> o_res r = Some result_stored -> v < v' /\ e_version (o_entry r) = v').
Proof.
  intros Hwf Ho Hso Hvc Hrun Hk Hk' Hw Hrem.
  assert (Hrem' : v' = 0 /\ v = 0 \/ remembered (o_store r) k).
  { destruct Hrem as [?| -> ]; [now right|].
    destruct (decide (v' = 0)) as [->|]; [now left|]. right.
    destruct Hk' as [(x&?&_)|[(_&x&Hx)|(_&_&?)]]; [left; eauto|right; congruence|congruence]. }
  clear Hrem. destruct (op_key o) as [k0|] eqn:Hko; [|destruct o; cbn in *; discriminate || tauto].
  destruct (decide (k0 = k)) as [->|Hne].
  2:{ (* another key *)
    pose proof (run_op_local _ _ _ _ Hwf Ho Hso Hko Hrun) as (Hwf'&_&Hl).
    destruct (Hl k) as [H1 H2]; [congruence|].
    assert (v' = v \/ (v' = 0 /\ v = 0)) as [->|[-> ->]].
    { destruct Hrem' as [?|Hrem]; [tauto|]. left.
      assert (Hh : forall x, holds (o_store r) k x <-> holds s k x) by (unfold holds; intros; rewrite H1; tauto).
      destruct H2 as [H2|H2].
      - eapply knows_fun; eauto.
        destruct Hk as [(x&?&?&?)|[(?&x&?)|(?&?&?)]].
        + left. exists x. rewrite Hh. auto.
        + right; left. rewrite Hh. split; auto. exists x. congruence.
        + right; right. rewrite Hh. split; auto. split; congruence.
      - destruct Hrem as [[x Hx]|]; [|congruence]. apply Hh in Hx.
        destruct Hk as [(y&?&?&?)|[(?&y&?)|(?&?&?)]]; try (exfalso; eauto using holds_none_some; fail).
        eapply knows_fun; eauto. left. exists y. rewrite Hh. auto. }
    - split; [lia|]. split; [lia|]. congruence.
    - split; [lia|]. split; [lia|]. congruence. }
  destruct Hrem' as [ [-> ->] | Hrem ].
  { (* nothing known before or after: no store happened *)
    split; [lia|]. split; [lia|]. intros _ Hres. exfalso.
    destruct o as [now e b|now e vv i b|now e b|now e b|]; cbn in Hrun, Ho, Hso, Hvc, Hko; try (injection Hko as <-).
    - destruct Ho as [He Hn]. destruct (set_inv _ _ _ _ _ Hwf He Hso Hrun) as (s1&cur&st&Hc&H).
      pose proof (cur_case_knows _ _ _ _ _ _ _ Hwf Hc) as Hkc.
      assert (Ecv : e_version cur = 0) by eauto using knows_fun.
      destruct H as [(E&[(E1&r0&E2&E3&_&N1&N2)|(E1&E2&_)])|(r'&Hr'&Est&Eret&Er&Erec&Ek&Esz&(A1&A2&A3&A4)&Enew)]; try congruence.
      rewrite Est in Hk'. apply knows_put in Hk'; auto.
      destruct Hvc as [V1 V2]. rewrite Er in Hres.
      destruct (next_version_checked _ _ _ _ _ V1 V2 ltac:(rewrite Ecv; lia) A4) as (_&_&Hlt). rewrite <- Hk' in Hlt.
      destruct (has b behavior_touch) eqn:Et; [congruence|]. pose proof (Hlt (or_introl eq_refl)). lia.
    - destruct Ho as (He&Hvv&Hn).
      destruct (wf_holds s (e_key e) Hwf) as ([x|] & Hx & Hwx).
      + specialize (Hwx x eq_refl). rewrite (incr_some _ _ _ _ _ _ x) in Hrun by auto.
        destruct (_ && _); apply Some_inv in Hrun; subst r; cbn in Hres; [discriminate|].
        cbn [o_store] in Hk'. apply knows_put in Hk'; [|now apply incr_entry_wf].
        assert (r_version x = 0). { eapply knows_fun; [|exact Hk]. left; eauto. }
        cbn [rec_of r_version incr_entry e_version] in Hk'. rewrite H in Hk'. discriminate.
      + rewrite incr_none in Hrun by auto. apply Some_inv in Hrun; subst r. discriminate.
    - apply Some_inv in Hrun; subst r. destruct (wf_holds s (e_key e) Hwf) as ([x|] & Hx & Hwx).
      + rewrite (get_some _ _ _ _ x) in Hres by auto. destruct (_ && _); discriminate.
      + rewrite get_none in Hres by auto. discriminate.
    - apply Some_inv in Hrun; subst r. destruct (wf_holds s (e_key e) Hwf) as ([x|] & Hx & Hwx).
      + rewrite (remove_some _ _ _ _ x) in Hres by auto. destruct (_ && _); [discriminate|].
        cbn in Hres. destruct (_ && _); discriminate.
      + rewrite remove_none in Hres by auto. cbn zeta in Hres. destruct (_ && _); discriminate.
    - discriminate. }
  destruct o as [now e b|now e vv i b|now e b|now e b|]; cbn in Hrun, Ho, Hso, Hvc, Hko; try (injection Hko as <-).
  - destruct Ho as [He Hn]. destruct (set_inv _ _ _ _ _ Hwf He Hso Hrun) as (s1&cur&st&Hc&H).
    pose proof (cur_case_knows _ _ _ _ _ _ _ Hwf Hc) as Hkc.
    assert (Ecv : e_version cur = v) by eauto using knows_fun.
    cbn [op_version op_key].
    assert (Hs1 : o_store r = s1 -> v' = v).
    { intros E. rewrite E in Hk', Hrem. clear H E.
      inversion Hc as [x c H1 H2 H3 H4 H5 H6 H7 H8 X1 X2 X3|x c s2 H1 H2 H3 H4 H5 H6 X1 X2 X3|x w c H1 H2 H3 H4 H5 H6 X1 X2 X3|c H1 H2 H3 X1 X2 X3];
        subst c; try (subst; eauto using knows_fun; fail).
      subst s2. subst s1. destruct (reads_record b); [|eauto using knows_fun].
      apply knows_removed in Hk'; auto. cbn in Hk'. congruence. }
    destruct H as [(E&[(E1&r0&E2&E3&_&N1&N2)|(E1&E2&_)])|(r'&Hr'&Est&Eret&Er&Erec&Ek&Esz&(A1&A2&A3&A4)&Enew)].
    + rewrite (Hs1 E). split; [lia|]. split; [lia|]. congruence.
    + rewrite (Hs1 E). split; [lia|]. split; [lia|]. congruence.
    + rewrite Est in Hk'. apply knows_put in Hk'; auto. subst v'.
      destruct Hvc as [V1 V2].
      destruct (next_version_checked _ _ _ _ _ V1 V2 ltac:(rewrite Ecv; lia) A4) as (B1&B2&B3). rewrite Ecv in *.
      split; [lia|]. split; [lia|]. intros _ Hres. split.
      * apply B3. left. rewrite Er in Hres. destruct (has b behavior_touch); congruence.
      * rewrite <- Erec. reflexivity.
  - destruct Ho as (He&Hvv&Hn). cbn [op_version op_key].
    destruct (wf_holds s (e_key e) Hwf) as ([x|] & Hx & Hwx).
    + specialize (Hwx x eq_refl). rewrite (incr_some _ _ _ _ _ _ x) in Hrun by auto.
      assert (Ev : r_version x = v). { eapply knows_fun; [|exact Hk]. left; eauto. }
      destruct (_ && _); apply Some_inv in Hrun; subst r; cbn [o_store o_res o_entry] in *.
      * apply knows_removed in Hk'; auto. cbn [fill e_version] in Hk'. split; [lia|]. split; [lia|]. discriminate.
      * apply knows_put in Hk'; [|now apply incr_entry_wf].
        cbn [rec_of r_version incr_entry e_version] in *. rewrite u64_small in * by lia. lia.
    + rewrite incr_none in Hrun by auto. apply Some_inv in Hrun; subst r. cbn [o_store o_res] in *.
      assert (v' = v) by eauto using knows_fun. split; [lia|]. split; [lia|]. discriminate.
  - apply Some_inv in Hrun; subst r. cbn [op_version op_key].
    destruct (wf_holds s (e_key e) Hwf) as ([x|] & Hx & Hwx).
    + specialize (Hwx x eq_refl).
      assert (Ev : r_version x = v). { eapply knows_fun; [|exact Hk]. left; eauto. }
      rewrite (get_some _ _ _ _ x) in * by auto. destruct (_ && _); cbn [o_store o_res] in *.
      * apply knows_removed in Hk'; auto. cbn [fill e_version] in Hk'. split; [lia|]. split; [lia|]. discriminate.
      * assert (v' = v) by eauto using knows_fun. split; [lia|]. split; [lia|]. discriminate.
    + rewrite get_none in * by auto. cbn [o_store o_res] in *.
      assert (v' = v) by eauto using knows_fun. split; [lia|]. split; [lia|]. discriminate.
  - apply Some_inv in Hrun; subst r. cbn [op_version op_key]. destruct Ho as (He&Hn).
    destruct (wf_holds s (e_key e) Hwf) as ([x|] & Hx & Hwx).
    + specialize (Hwx x eq_refl).
      assert (Ev : r_version x = v). { eapply knows_fun; [|exact Hk]. left; eauto. }
      rewrite (remove_some _ _ _ _ x) in * by auto. rewrite Hvc in *. cbn [negb andb] in *.
      destruct (negb (e_version e =? 0) && _) eqn:Eb; cbn [o_store o_res] in *.
      * assert (v' = v) by eauto using knows_fun. split; [lia|]. split; [lia|]. discriminate.
      * apply knows_removed in Hk'; auto.
        assert (v <= v' /\ v' <= N.max (v + 1) (e_version e)).
        { destruct (e_version e =? 0) eqn:E0; cbn [with_version e_version] in Hk'; [lia|].
          cbn [negb andb] in Eb. destruct (has b behavior_version_equal); cbn [negb andb orb] in Eb; lia. }
        split; [lia|]. split; [lia|]. intros _ Hc. exfalso. destruct (_ && _) in Hc; discriminate Hc.
    + rewrite remove_none in * by auto. cbn zeta in *. rewrite Hvc in *. cbn [negb andb] in *.
      assert (Ev : match tomb s (e_key e) with Some (_, v0) => v0 | None => 0 end = v).
      { eapply knows_fun; [|exact Hk]. right. destruct (tomb s (e_key e)) as [[y w]|] eqn:Et; [left|right]; eauto. }
      rewrite Ev in *.
      destruct (negb (e_version e =? 0) && _) eqn:Eb; cbn [o_store o_res] in *.
      * assert (v' = v) by eauto using knows_fun. split; [lia|]. split; [lia|]. discriminate.
      * destruct (e_version e =? 0) eqn:E0; cbn [negb andb] in *.
        -- assert (v' = v) by eauto using knows_fun. split; [lia|]. split; [lia|]. discriminate.
        -- apply knows_shc in Hk'; auto.
           assert (v <= e_version e) by (destruct (has b behavior_version_equal); cbn [negb andb orb] in Eb; lia).
           split; [lia|]. split; [lia|]. discriminate.
  - discriminate.
Qed.
