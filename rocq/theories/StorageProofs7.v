From stdpp Require Import gmap.
From Verif Require Import Base BaseLemmas StorageModel StorageSpec StorageProofs StorageProofs2 StorageProofs3 StorageProofs4 StorageProofs5 StorageProofs6.
From Coq Require Import ZifyBool ZifyNat ZifyN.
Local Open Scope N_scope.
Ltac Zify.zify_post_hook ::= Z.div_mod_to_equations.

(** *** C10: convergence of versioned stores *)
Lemma versioned_set_step s now e b o init : wf_store s -> wf_entry e -> is_i64 now ->
  (b = 0 \/ b = behavior_dump) -> e_version e <> 0 ->
  holds s (e_key e) init -> (forall r, init = Some r -> wf_rec r /\ ~ expired now r) ->
  (b = behavior_dump -> init = None -> tomb s (e_key e) = None) ->
  set s now e b = Some o ->
  match init with
  | Some r => if e_version e <=? r_version r
      then o_store o = s /\ o_res o = Some result_not_stored
      else holds (o_store o) (e_key e) (Some (rec_of e)) /\ o_res o = Some result_stored
  | None => holds (o_store o) (e_key e) (Some (rec_of e)) /\ o_res o = Some result_stored
  end.
Proof.
  intros Hwf He Hn Hb Hv Hh Hr Ht Hset.
  assert (Hsb : sane_behavior b) by (destruct Hb; subst b; discriminate).
  destruct (set_inv _ _ _ _ _ Hwf He Hsb Hset) as (s1&cur&st&Hc&H).
  pose proof (cur_case_knows _ _ _ _ _ _ _ Hwf Hc) as Hkc.
  assert (Hbits : has b behavior_add = false /\ has b behavior_replace = false /\ has b behavior_touch = false
    /\ has b behavior_cas = false /\ has b behavior_skip_version = false /\ has b behavior_append = false
    /\ has b behavior_prepend = false /\ reads_record b = false /\ has b behavior_skip_timestamp = false)
    by (destruct Hb; subst b; now repeat split).
  destruct Hbits as (B1&B2&B3&B4&B5&B6&B7&B8&B9).
  assert (Hs1 : s1 = s) by (inversion Hc; subst; rewrite ?B8; reflexivity).
  assert (Hnv : next_version st cur e b =
     if (cur_state_eqb st st_alive || has b behavior_dump) && (e_version e <=? e_version cur)
     then inl result_not_stored else inr (e_version e)).
  { unfold next_version. rewrite B4, B3, B5. cbn [negb andb].
    destruct (e_version e =? 0) eqn:E0; [lia|reflexivity]. }
  assert (Hgo : (cur_state_eqb st st_alive || has b behavior_dump) && (e_version e <=? e_version cur) = false ->
    holds (o_store o) (e_key e) (Some (rec_of e)) /\ o_res o = Some result_stored).
  { intros E0. rewrite E0 in Hnv.
    destruct H as [(E&[(E1&r0&E2&E3&HR&_)|(E1&E2&_&[?|?])])|(r'&Hr'&Est&Eret&Er&Erec&Ek&Esz&(A1&A2&A3&A4)&Enew)]; try congruence.
    - exfalso. destruct HR as [(?&_)|[(?&_)|[(?&_)|HR]]]; congruence.
    - rewrite B3 in Er. split; auto. rewrite Est. unfold holds. cbn [db set_db]. rewrite lookup_insert.
      cbn [fmap option_fmap option_map]. do 2 f_equal.
      unfold new_record in Enew. rewrite B6, B7, B3 in Enew. rewrite Enew.
      unfold rec_of. f_equal. congruence. }
  destruct init as [r|].
  - destruct (Hr r eq_refl) as [W Hx].
    assert (Ev : e_version cur = r_version r). { eapply knows_fun; [exact Hkc|]. left; eauto. }
    assert (Est : st = st_alive).
    { inversion Hc as [x c H1 H2 H3 H4 H5 H6 H7 H8 X1 X2 X3|x c s2 H1 H2 H3 H4 H5 H6 X1 X2 X3|x w c H1 H2 H3 H4 H5 H6 X1 X2 X3|c H1 H2 H3 X1 X2 X3]; try (symmetry; assumption); try reflexivity; exfalso.
      - assert (x = r) by eauto using holds_some_fun. subst x. tauto.
      - subst; eauto using holds_none_some.
      - subst; eauto using holds_none_some. }
    subst st. cbn [cur_state_eqb orb andb] in *. rewrite Ev in *.
    destruct (e_version e <=? r_version r) eqn:E0; [|now apply Hgo].
    destruct H as [(E&[(E1&r0&E2&E3&HR&_)|(E1&E2&_&[?|?])])|(r'&Hr'&Est&Eret&Er&Erec&Ek&Esz&(A1&A2&A3&A4)&Enew)]; try congruence.
    destruct HR as [(?&_)|[(?&_)|[(?&_)|HR]]]; try congruence.
    rewrite Hnv in HR. injection HR as <-. split; congruence.
  - apply Hgo.
    assert (Est : cur_state_eqb st st_alive = false).
    { inversion Hc as [x c H1 H2 H3 H4 H5 H6 H7 H8 X1 X2 X3|x c s2 H1 H2 H3 H4 H5 H6 X1 X2 X3|x w c H1 H2 H3 H4 H5 H6 X1 X2 X3|c H1 H2 H3 X1 X2 X3]; try (symmetry; assumption); try reflexivity; exfalso.
      subst; eauto using holds_none_some. }
    rewrite Est. cbn [orb].
    destruct Hb as [ -> | -> ]; [reflexivity|]. specialize (Ht eq_refl eq_refl).
    assert (Ev : e_version cur = 0). { eapply knows_fun; [exact Hkc|]. right; right; auto. }
    rewrite Ev. destruct (e_version e <=? 0) eqn:E0; [lia|]. now rewrite andb_false_r.
Qed.

Lemma delivery_final l : forall s s' k init,
  wf_store s -> Forall wf_op l -> Forall sane_op l -> Forall (delivery k) l -> run s l = Some s' ->
  holds s k init -> (forall r, init = Some r -> wf_rec r) -> fresh k init l ->
  (dumps k l -> init = None -> tomb s k = None) ->
  (holds s' k None /\ init = None /\ (forall o r, In o l -> ~ delivers k o r))
  \/ (exists r, holds s' k (Some r) /\ wf_rec r /\ newest k init l r).
Proof.
  induction l as [|o l IH]; intros s s' k init Hwf Hw Hs Hd Hrun Hh Hi Hf Ht.
  - apply Some_inv in Hrun; subst s'. destruct init as [r|].
    + right. exists r. split; auto. split; auto. split; [now left|]. intros r' [[= <-]|(o&[]&_)]. lia.
    + left. auto.
  - inversion_clear Hw as [|? ? W1 W2]. inversion_clear Hs as [|? ? S1 S2]. inversion_clear Hd as [|? ? D1 D2].
    cbn [run] in Hrun. destruct (run_op s o) as [q|] eqn:Er; [|discriminate].
    assert (Hwf' : wf_store (o_store q)) by eauto using run_op_wf.
    assert (Hfd : forall i, (forall r, i = Some r -> init = Some r \/ delivers k o r) -> fresh k i l).
    { intros i Hir p r Hin Hk [E|(o'&Ho'&Hdl)]; apply (Hf p r); try (now right); auto.
      - destruct (Hir r E) as [?|?]; [now left|right]. exists o. split; [now left|auto].
      - right. exists o'. split; [now right|auto]. }
    destruct (op_key o) as [k0|] eqn:Hko; [|destruct o; try discriminate; destruct D1].
    destruct (decide (k0 = k)) as [->|Hne].
    2:{ (* another key *)
      pose proof (run_op_local _ _ _ _ Hwf W1 S1 Hko Er) as (_&_&Hl).
      destruct (Hl k) as [H1 H2]; [congruence|].
      assert (Hnd : forall r, ~ delivers k o r).
      { intros r (now&e&b&->&E&_). cbn in Hko. congruence. }
      destruct (IH (o_store q) s' k init) as [(A1&A2&A3)|(r&A1&A2&A3&A4)]; auto.
      - unfold holds. now rewrite H1.
      - intros (now&e&Hin&E) Hin0. destruct H2 as [H2|H2]; auto. rewrite H2. apply Ht; auto.
        exists now, e. split; [now right|auto].
      - left. split; auto. split; auto. intros p r [<-|Hin]; [apply Hnd|now apply A3].
      - right. exists r. split; auto. split; auto. split.
        + destruct A3 as [?|(p&?&?)]; [now left|right]. exists p. split; [now right|auto].
        + intros r' [?|(p&[<-|?]&Hp)]; [apply A4; now left|now apply Hnd in Hp|]. apply A4. right. eauto. }
    destruct o as [now e b|now e vv i b|now e b|now e b|]; cbn [delivery] in D1; try (cbn in Hko, D1; congruence).
    + cbn in Hko. injection Hko as <-. destruct (D1 eq_refl) as [Hv Hb]. cbn in W1. destruct W1 as [We Wn]. cbn in Er.
      assert (Hwe : wf_rec (rec_of e) \/ o_res q <> Some result_stored).
      { destruct (set_inv _ _ _ _ _ Hwf We S1 Er) as (s1&cur&st&Hc&H).
        destruct H as [(E&[(E1&r0&E2&E3&HR&N1&_)|(E1&E2&_&[?|?])])|(r'&Hr'&Est&Eret&Er'&Erec&Ek&Esz&(A1&A2&A3&A4)&Enew)]; try (right; congruence).
        left. destruct We as (?&?&?&?&?). destruct Hr' as (?&?&?&Hlen&?).
        unfold wf_rec. cbn [rec_of r_flag r_expire r_version r_data]. split; [auto|]. split; [auto|]. split; [auto|]. split; [|auto]. rewrite Enew in Hlen. destruct Hb; subst b; exact Hlen. }
      pose proof (versioned_set_step s now e b q init Hwf We Wn Hb Hv Hh) as Hstep.
      assert (Hstep' : match init with
        | Some r => if e_version e <=? r_version r
            then o_store q = s /\ o_res q = Some result_not_stored
            else holds (o_store q) (e_key e) (Some (rec_of e)) /\ o_res q = Some result_stored
        | None => holds (o_store q) (e_key e) (Some (rec_of e)) /\ o_res q = Some result_stored
        end).
      { apply Hstep; auto.
        - intros r ->. split; auto. apply (Hf (OSet now e b) r); cbn; auto.
        - intros -> ->. apply Ht; auto. exists now, e. split; [now left|auto]. }
      clear Hstep.
      assert (Hcase : (exists r, init = Some r /\ e_version e <= r_version r /\ o_store q = s)
        \/ (holds (o_store q) (e_key e) (Some (rec_of e)) /\ wf_rec (rec_of e) /\
            (forall r, init = Some r -> r_version r <= e_version e))).
      { destruct init as [r|].
        - destruct (e_version e <=? r_version r) eqn:E0.
          + left. exists r. destruct Hstep'. split; auto. split; [lia|auto].
          + right. destruct Hstep' as [? ?]. destruct Hwe as [?|?]; [|congruence].
            split; auto. split; auto. intros r' [= <-]. lia.
        - right. destruct Hstep' as [? ?]. destruct Hwe as [?|?]; [|congruence]. split; auto. split; auto. discriminate. }
      assert (Hdel : delivers (e_key e) (OSet now e b) (rec_of e)) by (exists now, e, b; auto).
      assert (Hdeq : forall r, delivers (e_key e) (OSet now e b) r -> r = rec_of e).
      { intros r (n'&e'&b'&[= -> -> ->]&_&->). reflexivity. }
      destruct Hcase as [(r0&->&Hle&Eq)|(Hst&Hwr&Hle)].
      * rewrite Eq in *.
        destruct (IH s s' (e_key e) (Some r0)) as [(A1&A2&A3)|(r&A1&A2&A3&A4)]; auto; try discriminate.
        right. exists r. split; auto. split; auto. split.
        -- destruct A3 as [?|(p&?&?)]; [now left|right]. exists p. split; [now right|auto].
        -- intros r' [?|(p&[<-|?]&Hp)]; [apply A4; now left| |apply A4; right; eauto].
           apply Hdeq in Hp as ->. cbn [r_version rec_of]. etransitivity; [exact Hle|]. apply A4. now left.
      * destruct (IH (o_store q) s' (e_key e) (Some (rec_of e))) as [(A1&A2&A3)|(r&A1&A2&A3&A4)]; auto; try discriminate.
        -- intros r [= <-]. exact Hwr.
        -- apply Hfd. intros r [= <-]. now right.
        -- right. exists r. split; auto. split; auto. split.
           ++ right. destruct A3 as [[= <-]|(p&?&?)]; [exists (OSet now e b); split; [now left|auto]|].
              exists p. split; [now right|auto].
           ++ assert (Hrv : e_version e <= r_version r) by (apply (A4 (rec_of e)); now left).
              intros r' [Hr'|(p&[<-|?]&Hp)].
              ** apply Hle in Hr'. lia.
              ** apply Hdeq in Hp as ->. exact Hrv.
              ** apply A4. right. eauto.
    + (* a read *)
      cbn in Hko. injection Hko as <-. cbn in Er. apply Some_inv in Er; subst q.
      assert (Eq : o_store (get s now e b) = s).
      { destruct init as [r|].
        - rewrite (get_some _ _ _ _ r) by auto.
          assert (Hx : ~ expired now r) by (apply (Hf (OGet now e b) r); cbn; auto).
          destruct (expired_at now (r_expire r)) eqn:E; [apply expired_at_spec in E; tauto|].
          now rewrite andb_false_r.
        - now rewrite get_none. }
      rewrite Eq in *.
      assert (Hnd : forall r, ~ delivers (e_key e) (OGet now e b) r) by (intros r (n'&e'&b'&?&_); discriminate).
      destruct (IH s s' (e_key e) init) as [(A1&A2&A3)|(r&A1&A2&A3&A4)]; auto.
      * intros (n'&e'&Hin&E) Hin0. apply Ht; auto. exists n', e'. split; [now right|auto].
      * left. split; auto. split; auto. intros p r [<-|Hin]; [apply Hnd|now apply A3].
      * right. exists r. split; auto. split; auto. split.
        -- destruct A3 as [?|(p&?&?)]; [now left|right]. exists p. split; [now right|auto].
        -- intros r' [?|(p&[<-|?]&Hp)]; [apply A4; now left|now apply Hnd in Hp|]. apply A4. right. eauto.
Qed.

(** Two replicas that received the same records (in any order, any number of
    times, interleaved with anything on other keys) hold the same. *)
Lemma replicas_agree k init s1 l1 s1' s2 l2 s2' :
  wf_store s1 -> Forall wf_op l1 -> Forall sane_op l1 -> Forall (delivery k) l1 -> run s1 l1 = Some s1' ->
  wf_store s2 -> Forall wf_op l2 -> Forall sane_op l2 -> Forall (delivery k) l2 -> run s2 l2 = Some s2' ->
  holds s1 k init -> holds s2 k init -> (forall r, init = Some r -> wf_rec r) ->
  fresh k init l1 -> fresh k init l2 ->
  (dumps k l1 -> init = None -> tomb s1 k = None) ->
  (dumps k l2 -> init = None -> tomb s2 k = None) ->
  (forall r, (exists o, In o l1 /\ delivers k o r) <-> (exists o, In o l2 /\ delivers k o r)) ->
  (forall r r', (init = Some r \/ exists o, In o l1 /\ delivers k o r) ->
     (init = Some r' \/ exists o, In o l1 /\ delivers k o r') -> r_version r = r_version r' -> r = r') ->
  forall o, holds s1' k o <-> holds s2' k o.
Proof.
  intros W1 X1 Y1 D1 R1 W2 X2 Y2 D2 R2 H1 H2 Hi F1 F2 T1 T2 Hsame Hdist.
  assert (Hfin : exists o, holds s1' k o /\ holds s2' k o).
  { destruct (delivery_final l1 s1 s1' k init) as [(A1&A2&A3)|(r1&A1&A2&A3&A4)]; auto;
    destruct (delivery_final l2 s2 s2' k init) as [(B1&B2&B3)|(r2&B1&B2&B3&B4)]; auto.
    - exists None. auto.
    - exfalso. destruct B3 as [?|B3]; [congruence|]. apply Hsame in B3 as (o&?&?). eapply A3; eauto.
    - exfalso. destruct A3 as [?|A3]; [congruence|]. apply Hsame in A3 as (o&?&?). eapply B3; eauto.
    - assert (B3' : init = Some r2 \/ exists o, In o l1 /\ delivers k o r2).
      { destruct B3 as [?|B3]; [now left|right; now apply Hsame]. }
      assert (A3' : init = Some r1 \/ exists o, In o l2 /\ delivers k o r1).
      { destruct A3 as [?|A3]; [now left|right; now apply Hsame]. }
      assert (r1 = r2). { apply Hdist; auto. specialize (A4 r2 B3'). specialize (B4 r1 A3'). lia. }
      subst r2. eauto. }
  destruct Hfin as (x&E1&E2). unfold holds in *. intros o. rewrite E1, E2. tauto.
Qed.

(** *** C08 over histories *)
Lemma deleted_version_stays_out s now e b l s' now' e' o M :
  wf_store s -> wf_entry e -> is_i64 now -> 1 <= hcache_size s ->
  has b behavior_skip_version = false ->
  o_res (remove s now e b) = Some result_deleted ->
  Forall wf_op l -> Forall sane_op l -> Forall version_checked l ->
  never_forgets (e_key e) (o_store (remove s now e b)) l ->
  run (o_store (remove s now e b)) l = Some s' ->
  knows (o_store (remove s now e b)) (e_key e) M ->
  (exists M', M <= M' /\ Forall (fun o => op_version o <= M') l /\ M' + N.of_nat (length l) < 2 ^ 64) ->
  wf_entry e' -> e_key e' = e_key e -> 0 < e_version e' ->
  (forall r, holds s (e_key e) (Some r) -> wf_rec r -> e_version e' <= r_version r) ->
  set s' now' e' behavior_dump = Some o ->
  o_res o = Some result_not_stored /\ o_store o = s'.
Proof.
  intros Hwf He Hn Hsz Hsv Hres Hw Hs Hv Hnf Hrun Hk (M'&HM&HMl&Hlen) He' Ek Hpos Hold Hset.
  destruct (delete_leaves s now e b Hwf He Hn Hsz Hsv Hres) as (r&Hr&Wr&Hh&w&Kw&Hle&_).
  assert (w = M) by eauto using knows_fun. subst w.
  assert (Hwf1 : wf_store (o_store (remove s now e b))).
  { apply (run_op_wf s (ORemove now e b) (remove s now e b)); cbn; auto. }
  assert (Hwf2 : wf_store s') by eauto using run_wf.
  destruct (knows_total s' (e_key e) Hwf2) as (v'&K'&_).
  destruct (history_version l (o_store (remove s now e b)) s' (e_key e) M v' M') as [A1 A2]; auto.
  specialize (Hold r Hr Wr).
  destruct (dump_stale s' now' e' o v') as (_&B1&B2&_); auto.
  - now rewrite Ek.
  - lia.
Qed.

(** *** C01: a value of the largest size the parser lets through *)
Lemma oversize_undefined now k d : 2147483647 - 28 < blen d -> blen d < 2 ^ 64 ->
  set (init_store 4) now (mkEntry k 0 0 (blen d) 0 0 d) 0 = None.
Proof.
  intros H1 H2. unfold set.
  destruct (current_entry _ _ _ _) as [[s1 cur] ex] eqn:E.
  assert (E' : s1 = init_store 4 /\ cur = empty_entry [] /\ ex = false).
  { unfold current_entry in E. change (has 0 _) with false in E. cbn iota in E.
    rewrite get_header_none in E by apply lookup_empty. cbn [tomb hcache init_store List.find] in E.
    now injection E as <- <- <-. }
  destruct E' as (->&->&->).
  change (has 0 behavior_add) with false. change (has 0 behavior_replace) with false.
  change (has 0 behavior_touch) with false. cbn [andb].
  unfold next_version. change (has 0 behavior_cas) with false. change (has 0 behavior_touch) with false.
  change (has 0 behavior_skip_version) with false. cbn [e_version empty_entry negb andb].
  change (0 =? 0) with true. cbn [negb andb].
  change (has 0 (N.lor behavior_append behavior_prepend)) with false. cbn iota.
  cbn [e_data e_size with_version]. rewrite memcpy_all. unfold db_put.
  rewrite blen_app. unfold ser_header. rewrite !blen_app.
  destruct (_ <=? 2147483647) eqn:E1; [|reflexivity]. exfalso. unfold blen in *. rewrite !le_enc_length in E1. lia.
Qed.
Lemma oversize_exists : exists d : bytes, blen d = max_data_size /\ wf_bytes d.
Proof.
  exists (List.repeat 0 (N.to_nat max_data_size)). split.
  - unfold blen. rewrite repeat_length. apply N2Nat.id.
  - apply List.Forall_forall. intros x Hx. apply repeat_spec in Hx. subst x. red; lia.
Qed.
Lemma oversize_refuted : exists d : bytes, blen d = max_data_size /\ wf_bytes d
  /\ forall now k, set (init_store 4) now (mkEntry k 0 0 (blen d) 0 0 d) 0 = None.
Proof.
  destruct oversize_exists as (d&H1&H2). exists d. split; auto. split; auto. intros now k.
  apply oversize_undefined; rewrite H1; reflexivity.
Qed.
