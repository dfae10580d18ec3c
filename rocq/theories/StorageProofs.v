From stdpp Require Import gmap.
From Verif Require Import Base BaseLemmas StorageModel StorageSpec.
From Coq Require Import ZifyBool ZifyNat ZifyN.
Local Open Scope N_scope.
Ltac Zify.zify_post_hook ::= Z.div_mod_to_equations.

Lemma has_lor b m1 m2 : has b (N.lor m1 m2) = has b m1 || has b m2.
Proof.
  unfold has. rewrite N.land_lor_distr_r.
  destruct (N.land b m1 =? 0) eqn:E1, (N.land b m2 =? 0) eqn:E2; cbn;
    rewrite ?N.eqb_eq, ?N.eqb_neq in *; rewrite ?E1, ?E2; cbn; auto;
    rewrite ?N.lor_0_r, ?N.lor_0_l;
    try (apply negb_true_iff, N.eqb_neq; auto).
  intros H. apply N.lor_eq_0_iff in H. tauto.
Qed.

Lemma tomb_hc_get s k : tomb s k = hc_get (hcache s) k.
Proof.
  unfold tomb. induction (hcache s) as [|[k' v] c IH]; cbn; auto.
  destruct (beq k' k); auto.
Qed.

(** ** Codec *)
Lemma slice_app_l a b off len :
  (off + len <= length a)%nat -> slice off len (a ++ b) = slice off len a.
Proof.
  intros H. unfold slice. rewrite skipn_app, firstn_app.
  replace (len - length (skipn off a))%nat with 0%nat by (rewrite skipn_length; lia).
  cbn. now rewrite app_nil_r.
Qed.
Lemma slice_app_r a b off len :
  (length a <= off)%nat -> slice off len (a ++ b) = slice (off - length a) len b.
Proof.
  intros H. unfold slice. rewrite skipn_app. rewrite skipn_all2 by lia. reflexivity.
Qed.
Lemma slice_all a b len : len = length a -> slice 0 len (a ++ b) = a.
Proof. intros ->. unfold slice. rewrite skipn_O, firstn_app, Nat.sub_diag, firstn_all. apply app_nil_r. Qed.

Definition fill (e : entry) (r : rec) : entry :=
  mkEntry (e_key e) (r_flag r) (r_expire r) (blen (r_data r)) (r_version r) (e_option e) (e_data e).

Lemma pow_256_4 : 256 ^ N.of_nat 4 = 2 ^ 32. Proof. reflexivity. Qed.
Lemma pow_256_8 : 256 ^ N.of_nat 8 = 2 ^ 64. Proof. reflexivity. Qed.

Lemma unser_fields e fl ex sz ve rest :
  fl < 2 ^ 32 -> is_i64 ex -> sz < 2 ^ 64 -> ve < 2 ^ 64 ->
  unser_header (le_enc 4 fl ++ le_enc 8 (i64_to_u64 ex) ++ le_enc 8 sz ++ le_enc 8 ve ++ rest) e
  = (mkEntry (e_key e) fl ex sz ve (e_option e) (e_data e), true).
Proof.
  intros Hf He Hs Hv. unfold unser_header.
  set (raw := _ ++ _).
  assert (Hl : 28 <= blen raw).
  { unfold raw, blen. rewrite !app_length, !le_enc_length. lia. }
  replace (blen raw <? 4) with false by lia.
  replace (blen raw <? 12) with false by lia.
  replace (blen raw <? 20) with false by lia.
  replace (blen raw <? 28) with false by lia.
  unfold raw.
  rewrite (slice_all (le_enc 4 fl)) by now rewrite le_enc_length.
  rewrite !(slice_app_r (le_enc 4 fl)) by (rewrite le_enc_length; lia).
  rewrite !le_enc_length. cbn [Nat.sub].
  rewrite (slice_all (le_enc 8 (i64_to_u64 ex))) by now rewrite le_enc_length.
  rewrite !(slice_app_r (le_enc 8 (i64_to_u64 ex))) by (rewrite le_enc_length; lia).
  rewrite !le_enc_length. cbn [Nat.sub].
  rewrite (slice_all (le_enc 8 sz)) by now rewrite le_enc_length.
  rewrite !(slice_app_r (le_enc 8 sz)) by (rewrite le_enc_length; lia).
  rewrite !le_enc_length. cbn [Nat.sub].
  rewrite (slice_all (le_enc 8 ve)) by now rewrite le_enc_length.
  rewrite !le_dec_enc; rewrite ?pow_256_4, ?pow_256_8; auto using i64_to_u64_bound.
  rewrite i64_roundtrip by auto. reflexivity.
Qed.

Lemma blen_encode r : blen (encode_rec r) = 28 + blen (r_data r).
Proof. unfold blen, encode_rec. rewrite !app_length, !le_enc_length. lia. Qed.

Lemma wf_rec_len r : wf_rec r -> blen (r_data r) < 2 ^ 64.
Proof. intros (_&_&_&H&_). change (2^64) with 18446744073709551616. lia. Qed.

Lemma unser_encode r e : wf_rec r -> unser_header (encode_rec r) e = (fill e r, true).
Proof.
  intros H. pose proof (wf_rec_len _ H). destruct H as (H1&H2&H3&H4&H5).
  unfold encode_rec. rewrite unser_fields; auto.
Qed.

Lemma skipn_encode r : skipn (N.to_nat header_size) (encode_rec r) = r_data r.
Proof.
  unfold encode_rec, header_size. rewrite !app_assoc.
  rewrite skipn_app, skipn_all2.
  - rewrite !app_length, !le_enc_length. reflexivity.
  - rewrite !app_length, !le_enc_length. lia.
Qed.

Lemma firstn_encode r : firstn (N.to_nat header_size) (encode_rec r) =
  le_enc 4 (r_flag r) ++ le_enc 8 (i64_to_u64 (r_expire r)) ++ le_enc 8 (blen (r_data r)) ++ le_enc 8 (r_version r).
Proof.
  unfold encode_rec, header_size. rewrite !app_assoc, firstn_app, firstn_all2.
  - rewrite !app_length, !le_enc_length.
    change (N.to_nat 28 - (4 + 8 + 8 + 8))%nat with 0%nat. now rewrite firstn_O, app_nil_r.
  - rewrite !app_length, !le_enc_length. lia.
Qed.

Lemma unser_encode_first r e : wf_rec r ->
  unser_header (firstn (N.to_nat header_size) (encode_rec r)) e = (fill e r, true).
Proof.
  intros H. pose proof (wf_rec_len _ H). destruct H as (H1&H2&H3&H4&H5).
  rewrite firstn_encode. rewrite <- (app_nil_r (le_enc 8 (r_version r))).
  rewrite unser_fields; auto.
Qed.

Lemma encode_inj r1 r2 : wf_rec r1 -> wf_rec r2 -> encode_rec r1 = encode_rec r2 -> r1 = r2.
Proof.
  intros H1 H2 H. pose proof (unser_encode r1 (empty_entry []) H1) as E1.
  rewrite H, (unser_encode r2 _ H2) in E1. unfold fill in E1. injection E1 as Ea Eb Ec Ed.
  pose proof (skipn_encode r1) as S1. rewrite H, skipn_encode in S1.
  destruct r1, r2; cbn in *; congruence.
Qed.

(** ** Header access on well-formed states *)
Lemma wf_holds s k : wf_store s -> exists o, holds s k o /\ (forall r, o = Some r -> wf_rec r).
Proof.
  intros (H&_). unfold holds. destruct (db s !! k) as [raw|] eqn:E.
  - destruct (H _ _ E) as (r & Hr & ->). exists (Some r). split; auto.
    intros ? [= <-]; auto.
  - exists None. split; auto. discriminate.
Qed.

Lemma get_header_some s k e r : holds s k (Some r) -> wf_rec r ->
  get_header s k e = (fill e r, true).
Proof. unfold holds, get_header. intros -> Hr. cbn. now apply unser_encode_first. Qed.

Lemma get_header_none s k e : holds s k None ->
  get_header s k e = (match tomb s k with Some (x, v) => with_version (with_expire e x) v | None => e end, false).
Proof.
  unfold holds, get_header, get_header_cache. intros ->. cbn. rewrite tomb_hc_get.
  destruct (hc_get _ _) as [[? ?]|]; auto.
Qed.

(** ** The header cache *)
Lemma hc_put_get c k v k' : hc_get (hc_put c k v) k' = if beq k k' then Some v else hc_get c k'.
Proof.
  induction c as [|[k0 v0] c IH]; cbn.
  - destruct (beq k k') eqn:E; auto.
  - destruct (beq k0 k) eqn:E0; cbn.
    + apply beq_eq in E0. subst. destruct (beq k k') eqn:E; auto.
    + destruct (beq k0 k') eqn:E1; cbn; auto.
      apply beq_eq in E1. subst.
      destruct (beq k k') eqn:E; auto. apply beq_eq in E. subst.
      rewrite beq_refl in E0. discriminate.
Qed.
Lemma hc_get_in c k v : hc_get c k = Some v -> In (k, v) c.
Proof.
  induction c as [|[k0 v0] c IH]; cbn; [discriminate|].
  destruct (beq k0 k) eqn:E; auto. apply beq_eq in E. intros [= ->]. subst. auto.
Qed.
Lemma in_hc_get c k v : List.NoDup (map fst c) -> In (k, v) c -> hc_get c k = Some v.
Proof.
  induction c as [|[k0 v0] c IH]; cbn; [easy|]. intros Hn [H|H].
  - injection H as -> ->. now rewrite beq_refl.
  - inversion Hn; subst. destruct (beq k0 k) eqn:E; auto.
    apply beq_eq in E. subst. exfalso. apply H2. apply in_map_iff. now exists (k, v).
Qed.
Lemma hc_put_keys c k v :
  map fst (hc_put c k v) = map fst c \/ (~ In k (map fst c) /\ map fst (hc_put c k v) = map fst c ++ [k]).
Proof.
  induction c as [|[k0 v0] c IH]; cbn.
  - right. tauto.
  - destruct (beq k0 k) eqn:E; cbn; auto.
    apply beq_neq in E. destruct IH as [IH|[IH1 IH2]]; rewrite ?IH, ?IH2; auto.
    right. split; auto. intros [?|?]; auto.
Qed.
Lemma hc_put_nodup c k v : List.NoDup (map fst c) -> List.NoDup (map fst (hc_put c k v)).
Proof.
  intros H. destruct (hc_put_keys c k v) as [E|[E1 E2]]; rewrite ?E; auto.
  rewrite E2. rewrite <- (rev_involutive (map fst c ++ [k])). apply NoDup_rev. rewrite rev_app_distr. cbn.
  constructor; [|now apply NoDup_rev]. rewrite <- in_rev. auto.
Qed.

Lemma hc_get_skipn c n k : List.NoDup (map fst c) ->
  hc_get (skipn n c) k = hc_get c k \/ hc_get (skipn n c) k = None.
Proof.
  revert c; induction n as [|n IH]; intros c Hn; [now left|].
  destruct c as [|[k0 v0] c]; [now left|]. cbn in *. inversion Hn; subst.
  destruct (beq k0 k) eqn:E; [|now apply IH].
  right. apply beq_eq in E. subst.
  destruct (hc_get (skipn n c) k) as [v|] eqn:E; auto.
  destruct (IH c) as [H|H]; auto; try congruence.
  rewrite E in H. symmetry in H. apply hc_get_in in H.
  exfalso. apply H1. apply in_map_iff. now exists (k, v).
Qed.

Lemma skipn_map_nodup {A B} (f : A -> B) n c : List.NoDup (map f c) -> List.NoDup (map f (skipn n c)).
Proof.
  revert c; induction n as [|n IH]; intros c Hn; auto.
  destruct c; cbn in *; auto. inversion Hn; auto.
Qed.

Lemma hc_put_length c k v : (length (hc_put c k v) <= S (length c))%nat.
Proof. induction c as [|[k0 v0] c IH]; cbn; try lia. destruct (beq k0 k); cbn; lia. Qed.

Definition shc_expire (now : Z) (e : entry) : Z := if (e_expire e =? 0)%Z then now else e_expire e.

Lemma shc_db s now k e : db (set_header_cache s now k e) = db s.
Proof. reflexivity. Qed.
Lemma shc_size s now k e : hcache_size (set_header_cache s now k e) = hcache_size s.
Proof. reflexivity. Qed.

Lemma shc_tomb_same s now k e : List.NoDup (map fst (hcache s)) ->
  tomb (set_header_cache s now k e) k = Some (shc_expire now e, e_version e)
  \/ tomb (set_header_cache s now k e) k = None.
Proof.
  intros H. rewrite !tomb_hc_get. cbn.
  destruct (hc_get_skipn (hc_put (hcache s) k (shc_expire now e, e_version e))
    (length (hc_put (hcache s) k (shc_expire now e, e_version e)) - N.to_nat (hcache_size s)) k) as [E|E].
  - now apply hc_put_nodup.
  - left. fold (shc_expire now e). rewrite E, hc_put_get, beq_refl. reflexivity.
  - right. exact E.
Qed.
Lemma shc_tomb_other s now k e k' : List.NoDup (map fst (hcache s)) -> k <> k' ->
  tomb (set_header_cache s now k e) k' = tomb s k'
  \/ tomb (set_header_cache s now k e) k' = None.
Proof.
  intros H Hk. rewrite !tomb_hc_get. cbn.
  destruct (hc_get_skipn (hc_put (hcache s) k (shc_expire now e, e_version e))
    (length (hc_put (hcache s) k (shc_expire now e, e_version e)) - N.to_nat (hcache_size s)) k') as [E|E].
  - now apply hc_put_nodup.
  - left. fold (shc_expire now e). rewrite E, hc_put_get.
    destruct (beq k k') eqn:E1; auto. apply beq_eq in E1. congruence.
  - right. exact E.
Qed.

Lemma shc_wf' s now k e : wf_store s -> is_i64 (shc_expire now e) -> e_version e < 2 ^ 64 ->
  wf_store (set_header_cache s now k e).
Proof.
  intros (H1&H2&H3&H4) He Hv. split; [|split; [|split]].
  - exact H1.
  - cbn. now apply skipn_map_nodup, hc_put_nodup.
  - cbn. rewrite skipn_length. lia.
  - intros k' x v Hx. destruct (decide (k = k')) as [->|Hk].
    + destruct (shc_tomb_same s now k' e H2) as [E|E]; rewrite E in Hx; [|discriminate].
      injection Hx as <- <-. auto.
    + destruct (shc_tomb_other s now k e k' H2 Hk) as [E|E]; rewrite E in Hx; [|discriminate].
      eauto.
Qed.

Lemma shc_wf s now k e : wf_store s -> is_i64 now -> is_i64 (e_expire e) -> e_version e < 2 ^ 64 ->
  wf_store (set_header_cache s now k e).
Proof.
  intros H Hn He Hv. apply shc_wf'; auto. unfold shc_expire. destruct (_ =? _)%Z; auto.
Qed.

Lemma delete_wf s k : wf_store s -> wf_store (set_db s (delete k (db s))).
Proof.
  intros (H1&H2&H3&H4). split; [|split; [|split]]; auto.
  intros k' raw. cbn. destruct (decide (k = k')) as [->|E].
  - rewrite lookup_delete. discriminate.
  - rewrite lookup_delete_ne by auto. apply H1.
Qed.
Lemma insert_wf s k r : wf_store s -> wf_rec r -> wf_store (set_db s (<[k := encode_rec r]> (db s))).
Proof.
  intros (H1&H2&H3&H4) Hr. split; [|split; [|split]]; auto.
  intros k' raw. cbn. destruct (decide (k = k')) as [->|E].
  - rewrite lookup_insert. intros [= <-]. eauto.
  - rewrite lookup_insert_ne by auto. apply H1.
Qed.

Lemma expired_at_spec now r : expired_at now (r_expire r) = true <-> expired now r.
Proof. unfold expired_at, expired. lia. Qed.

(** ** remove *)
Definition removed (s : store) (now : Z) (k : key) (e : entry) : store :=
  set_header_cache (set_db s (delete k (db s))) now k e.

Lemma remove_none s now e b : holds s (e_key e) None ->
  let v := match tomb s (e_key e) with Some (_, v) => v | None => 0 end in
  remove s now e b =
    if negb (has b behavior_skip_version) && negb (e_version e =? 0)
       && ((negb (has b behavior_version_equal) && (e_version e <? v))
           || (has b behavior_version_equal && negb (e_version e =? v)))
    then mkOut s 0 (Some result_not_found) e
    else mkOut (if negb (e_version e =? 0) then set_header_cache s now (e_key e) e else s)
           0 (Some result_not_found) e.
Proof.
  intros H v. unfold remove. rewrite get_header_none by auto.
  unfold v. now destruct (tomb s (e_key e)) as [[? ?]|].
Qed.

Lemma remove_some s now e b r : holds s (e_key e) (Some r) -> wf_rec r ->
  remove s now e b =
    if negb (has b behavior_skip_version) && negb (e_version e =? 0)
       && ((negb (has b behavior_version_equal) && (e_version e <? r_version r))
           || (has b behavior_version_equal && negb (e_version e =? r_version r)))
    then mkOut s 0 (Some result_not_found) e
    else let e' := if e_version e =? 0 then with_version e (r_version r) else e in
      mkOut (removed s now (e_key e) e') 0
        (Some (if negb (has b behavior_skip_timestamp) && expired_at now (r_expire r)
               then result_not_found else result_deleted)) e'.
Proof.
  intros H Hr. unfold remove. rewrite (get_header_some _ _ _ r) by auto. cbn [e_version fill negb].
  reflexivity.
Qed.

(** ** get *)
Lemma has_equal_bits b : has (N.lor (N.land b behavior_skip_lock) behavior_version_equal) behavior_version_equal = true
  /\ has (N.lor (N.land b behavior_skip_lock) behavior_version_equal) behavior_skip_version = false
  /\ has (N.lor (N.land b behavior_skip_lock) behavior_version_equal) behavior_skip_timestamp = false.
Proof.
  unfold has, behavior_skip_lock, behavior_version_equal, behavior_skip_version, behavior_skip_timestamp.
  assert (E : N.land b 1 = 0 \/ N.land b 1 = 1).
  { pose proof (N.land_ones b 1) as H. change (N.ones 1) with 1 in H. change (2 ^ 1) with 2 in H.
    rewrite H. assert (b mod 2 < 2) by (apply N.mod_lt; lia). lia. }
  destruct E as [-> | ->]; cbn; auto.
Qed.

Lemma get_none s now e b : holds s (e_key e) None ->
  get s now e b = mkOut s 0 (Some result_not_found) e.
Proof. unfold holds, get. intros ->. reflexivity. Qed.

Lemma get_some s now e b r : holds s (e_key e) (Some r) -> wf_rec r ->
  get s now e b =
    if negb (has b behavior_skip_timestamp) && expired_at now (r_expire r)
    then mkOut (removed s now (e_key e) (fill e r)) 0 (Some result_not_found) (fill e r)
    else mkOut s 0 (Some result_none) (with_data (fill e r) (r_data r)).
Proof.
  intros H Hr. unfold get. pose proof H as H'. unfold holds in H'. rewrite H'. cbn [fmap option_fmap option_map].
  rewrite unser_encode by auto. cbn [negb].
  rewrite blen_encode. unfold header_size at 1. cbn [e_size fill e_expire].
  replace (28 + blen (r_data r) - 28 =? blen (r_data r)) with true by lia. cbn [negb].
  destruct (negb _ && expired_at _ _) eqn:E.
  - rewrite (remove_some _ _ _ _ r) by (cbn; auto).
    destruct (has_equal_bits b) as (B1&B2&B3). rewrite B1, B2, B3. cbn [e_version fill negb andb orb].
    rewrite N.eqb_refl. cbn [negb orb andb]. rewrite andb_false_r.
    cbn [o_store o_entry e_key fill].
    replace (if r_version r =? 0 then with_version (fill e r) (r_version r) else fill e r) with (fill e r);
      [reflexivity|]. destruct (_ =? _); reflexivity.
  - now rewrite skipn_encode.
Qed.

(** ** The situation [set] finds *)
Inductive cur_case (s : store) (now : Z) (k : key) (b : N) : store -> entry -> cur_state -> Prop :=
| CC_alive r cur :
    holds s k (Some r) -> wf_rec r ->
    (~ expired now r \/ (has b behavior_skip_timestamp = true /\ reads_record b = false)) ->
    e_flag cur = r_flag r -> e_expire cur = r_expire r -> e_size cur = blen (r_data r) ->
    e_version cur = r_version r -> (reads_record b = true -> e_data cur = r_data r) ->
    cur_case s now k b s cur st_alive
| CC_expired r cur s1 :
    holds s k (Some r) -> wf_rec r -> expired now r ->
    (reads_record b = true \/ has b behavior_skip_timestamp = false) ->
    e_version cur = r_version r ->
    s1 = (if reads_record b then removed s now k (fill (empty_entry k) r) else s) ->
    cur_case s now k b s1 cur st_gone
| CC_pending x v cur :
    holds s k None -> tomb s k = Some (x, v) -> (0 < x)%Z -> (now < x)%Z ->
    has b behavior_skip_timestamp = false ->
    e_version cur = v -> cur_case s now k b s cur st_not_expired
| CC_absent cur :
    holds s k None ->
    e_version cur = match tomb s k with Some (_, v) => v | None => 0 end ->
    (has b behavior_skip_timestamp = true \/ ~ pending_delete s now k) ->
    cur_case s now k b s cur st_gone.

Lemma reads_record_lor b :
  has b (N.lor behavior_append (N.lor behavior_prepend behavior_touch)) = reads_record b.
Proof. rewrite !has_lor. unfold reads_record. now rewrite orb_assoc. Qed.

Lemma current_spec s now k b s1 cur ex : wf_store s ->
  current_entry s now k b = (s1, cur, ex) ->
  cur_case s now k b s1 cur (current_state now b cur ex).
Proof.
  intros Hwf. destruct (wf_holds s k Hwf) as (o & Ho & Hor).
  unfold current_entry. rewrite reads_record_lor.
  destruct o as [r|].
  - specialize (Hor r eq_refl). destruct (reads_record b) eqn:Hb.
    + rewrite (get_some _ _ _ _ r) by (cbn; auto).
      change (has behavior_skip_lock behavior_skip_timestamp) with false. cbn [negb andb].
      destruct (expired_at now (r_expire r)) eqn:Hx.
      * cbn [o_res o_store o_entry o_ret].
        set (s1' := removed _ _ _ _). intros [= <- <- <-].
        assert (Hc : e_version (get_header_cache s1' k (fill (empty_entry k) r)) = r_version r
                     /\ e_expire (get_header_cache s1' k (fill (empty_entry k) r)) = r_expire r).
        { unfold get_header_cache. rewrite <- tomb_hc_get. unfold s1', removed.
          destruct Hwf as (_&Hn&_).
          destruct (shc_tomb_same (set_db s (delete k (db s))) now k (fill (empty_entry k) r) Hn) as [E|E].
          - cbn [e_key empty_entry] in *. rewrite E. cbn. unfold shc_expire. cbn.
            apply expired_at_spec in Hx. unfold expired in Hx.
            replace (r_expire r =? 0)%Z with false by lia. auto.
          - cbn [e_key empty_entry] in *. rewrite E. auto. }
        destruct Hc as [Hc1 Hc2].
        replace (current_state _ _ _ false) with st_gone.
        2:{ unfold current_state. rewrite Hc2. apply expired_at_spec in Hx. unfold expired in Hx.
            replace (now <? r_expire r)%Z with false by lia. now rewrite andb_false_r. }
        eapply CC_expired; eauto.
        -- now apply expired_at_spec.
        -- rewrite Hb. reflexivity.
      * cbn. intros [= <- <- <-].
        unfold current_state. cbn [with_data fill e_expire]. rewrite Hx, andb_false_r.
        eapply CC_alive; eauto. left. rewrite <- expired_at_spec. congruence.
    + rewrite (get_header_some _ _ _ r) by auto. intros [= <- <- <-].
      unfold current_state. cbn [fill e_expire].
      destruct (has b behavior_skip_timestamp) eqn:Ht; cbn [negb andb].
      * eapply CC_alive; eauto. rewrite Hb. discriminate.
      * destruct (expired_at now (r_expire r)) eqn:Hx.
        -- eapply CC_expired; eauto. { now apply expired_at_spec. } rewrite Hb; reflexivity.
        -- eapply CC_alive; eauto. { left. rewrite <- expired_at_spec. congruence. } rewrite Hb; discriminate.
  - assert (Hm : forall c0, e_expire c0 = 0%Z -> e_version c0 = 0 ->
      let cur := get_header_cache s k c0 in
      cur_case s now k b s cur (current_state now b cur false)).
    { intros c0 H0 H1. unfold get_header_cache. rewrite <- tomb_hc_get.
      unfold current_state.
      destruct (tomb s k) as [[x v]|] eqn:Et; cbn [e_expire with_version with_expire].
      - destruct (has b behavior_skip_timestamp) eqn:Ht; cbn [negb andb].
        + apply CC_absent; cbn; rewrite ?Et; auto.
        + destruct (0 <? x)%Z eqn:E1, (now <? x)%Z eqn:E2; cbn [andb];
          try (eapply CC_pending; eauto; lia);
          (apply CC_absent; [auto|cbn; now rewrite Et|]; right; intros (_&x'&v'&Ex&?&?);
           rewrite Et in Ex; injection Ex as <- <-; lia).
      - rewrite H0. cbn. rewrite andb_false_r. apply CC_absent; rewrite ?Et; auto.
        right. intros (_&x'&v'&Ex&?&?). rewrite Et in Ex. discriminate. }
    destruct (reads_record b) eqn:Hb.
    + rewrite get_none by auto. cbn [o_res o_store o_entry o_ret]. intros [= <- <- <-].
      apply Hm; reflexivity.
    + rewrite get_header_none by auto. intros [= <- <- <-].
      specialize (Hm (empty_entry []) eq_refl eq_refl). unfold get_header_cache in Hm.
      rewrite tomb_hc_get. destruct (hc_get (hcache s) k) as [[? ?]|]; exact Hm.
Qed.

(** ** set *)
Definition refusal (st : cur_state) (cur e : entry) (b : N) (r : result) : Prop :=
  (has b behavior_add = true /\ st <> st_gone /\ r = result_not_stored)
  \/ (has b behavior_replace = true /\ st <> st_alive /\ r = result_not_stored)
  \/ (has b behavior_touch = true /\ st <> st_alive /\ r = result_not_found)
  \/ next_version st cur e b = inl r.

Definition accepts (st : cur_state) (cur e : entry) (b : N) (v : N) : Prop :=
  (has b behavior_add = true -> st = st_gone)
  /\ (has b behavior_replace = true -> st = st_alive)
  /\ (reads_record b = true -> st = st_alive)
  /\ next_version st cur e b = inr v.

Definition cur_rec (cur : entry) : rec := mkRec (e_flag cur) (e_expire cur) (e_version cur) (e_data cur).

Lemma cur_state_eqb_eq a b : cur_state_eqb a b = true <-> a = b.
Proof. destruct a, b; cbn; split; congruence. Qed.
Lemma cur_state_eqb_neq a b : negb (cur_state_eqb a b) = true <-> a <> b.
Proof. destruct a, b; cbn; split; congruence. Qed.

Lemma cur_case_version s now k b s1 cur st : wf_store s -> cur_case s now k b s1 cur st -> e_version cur < 2 ^ 64.
Proof.
  intros (_&_&_&Ht) [r c H1 H2 H3 H4 H5 H6 H7 H8|r c s2 H1 H2 H3 H4 H5 H6|x v c H1 H2 H3 H4 H5 H6|c H1 H2 H3].
  - rewrite H7. apply H2.
  - rewrite H5. apply H2.
  - rewrite H6. eapply Ht; eauto.
  - rewrite H2. destruct (tomb s k) as [[x v]|] eqn:E; [eapply Ht; eauto|reflexivity].
Qed.

Lemma next_version_range st cur e b v : e_version cur < 2 ^ 64 -> e_version e < 2 ^ 64 ->
  next_version st cur e b = inr v -> v < 2 ^ 64.
Proof.
  intros Hc He. unfold next_version.
  repeat match goal with |- (if ?c then _ else _) = _ -> _ => destruct c end;
    try discriminate; intros [= <-]; auto using u64_lt.
Qed.

Lemma memcpy_all d : memcpy d (blen d) = Some d.
Proof.
  unfold memcpy. replace (blen d <=? blen d) with true by lia.
  unfold blen. now rewrite Nat2N.id, firstn_all.
Qed.

Lemma blen_app a b : blen (a ++ b) = blen a + blen b.
Proof. unfold blen. rewrite app_length. lia. Qed.

Lemma ser_header_encode e d : blen d < 2 ^ 64 ->
  e_size e = blen d -> ser_header e ++ d = encode_rec (mkRec (e_flag e) (e_expire e) (e_version e) d).
Proof. intros Hd Hs. unfold ser_header, encode_rec. cbn [r_flag r_expire r_version r_data]. rewrite Hs. now rewrite <- !app_assoc. Qed.

Lemma db_put_inv s k raw s2 : db_put s k raw = Some s2 ->
  blen raw <= 2147483647 /\ s2 = set_db s (<[k := raw]> (db s)).
Proof. unfold db_put. destruct (_ <=? _) eqn:E; [|discriminate]. intros [= <-]. split; auto. lia. Qed.

Lemma Some_inv {A} (x y : A) : Some x = Some y -> y = x.
Proof. congruence. Qed.

Lemma set_inv s now e b o : wf_store s -> wf_entry e -> sane_behavior b ->
  set s now e b = Some o ->
  exists s1 cur st, cur_case s now (e_key e) b s1 cur st /\
  ((o_store o = s1 /\
    ((o_ret o = 0%Z /\ exists r, o_res o = Some r /\ o_entry o = e /\ refusal st cur e b r /\ r <> result_stored /\ r <> result_touched)
     \/ (o_ret o = (-1)%Z /\ o_res o = None /\ st <> st_alive
         /\ (has b behavior_append = true \/ has b behavior_prepend = true))))
   \/
   (exists r', wf_rec r' /\ o_store o = set_db s1 (<[e_key e := encode_rec r']> (db s1))
      /\ o_ret o = 0%Z
      /\ o_res o = Some (if has b behavior_touch then result_touched else result_stored)
      /\ rec_of (o_entry o) = r' /\ e_key (o_entry o) = e_key e /\ e_size (o_entry o) = blen (r_data r')
      /\ accepts st cur e b (r_version r')
      /\ r' = new_record b e (cur_rec cur) (r_version r'))).
Proof.
  intros Hwf He Hsb. unfold set.
  destruct (current_entry s now (e_key e) b) as [[s1 cur] ex] eqn:Ec.
  pose proof (current_spec _ _ _ _ _ _ _ Hwf Ec) as Hcc.
  set (st := current_state now b cur ex) in *.
  pose proof (cur_case_version _ _ _ _ _ _ _ Hwf Hcc) as Hcv.
  intros Hset. exists s1, cur, st. split; auto.
  destruct He as (He1&He2&He3&He4&He5).
  destruct (has b behavior_add && negb (cur_state_eqb st st_gone)) eqn:E1.
  { left. apply andb_prop in E1 as [E1 E1']. apply cur_state_eqb_neq in E1'.
    apply Some_inv in Hset; subst o. cbn. split; auto. left. split; auto. eexists; repeat split; auto; try discriminate. left; auto. }
  destruct (has b behavior_replace && negb (cur_state_eqb st st_alive)) eqn:E2.
  { left. apply andb_prop in E2 as [E2 E2']. apply cur_state_eqb_neq in E2'.
    apply Some_inv in Hset; subst o. cbn. split; auto. left. split; auto. eexists; repeat split; auto; try discriminate. right; left; auto. }
  destruct (has b behavior_touch && negb (cur_state_eqb st st_alive)) eqn:E3.
  { left. apply andb_prop in E3 as [E3 E3']. apply cur_state_eqb_neq in E3'.
    apply Some_inv in Hset; subst o. cbn. split; auto. left. split; auto. eexists; repeat split; auto; try discriminate. right; right; left; auto. }
  destruct (next_version st cur e b) as [r|v] eqn:Env.
  { left. apply Some_inv in Hset; subst o. cbn. split; auto. left. split; auto. eexists; repeat split; auto.
    - right; right; right; auto.
    - intros ->. revert Env. unfold next_version.
      repeat match goal with |- (if ?c then _ else _) = _ -> _ => destruct c end; discriminate.
    - intros ->. revert Env. unfold next_version.
      repeat match goal with |- (if ?c then _ else _) = _ -> _ => destruct c end; discriminate. }
  pose proof (next_version_range _ _ _ _ _ Hcv He3 Env) as Hv.
  assert (A1 : has b behavior_add = true -> st = st_gone).
  { intros H; rewrite H in E1. cbn in E1. apply cur_state_eqb_eq. now destruct (cur_state_eqb st st_gone). }
  assert (A2 : has b behavior_replace = true -> st = st_alive).
  { intros H; rewrite H in E2. cbn in E2. apply cur_state_eqb_eq. now destruct (cur_state_eqb st st_alive). }
  assert (A3 : has b behavior_touch = true -> st = st_alive).
  { intros H; rewrite H in E3. cbn in E3. apply cur_state_eqb_eq. now destruct (cur_state_eqb st st_alive). }
  rewrite has_lor in Hset.
  destruct (has b behavior_append || has b behavior_prepend) eqn:E4.
  - destruct (cur_state_eqb st st_alive) eqn:E5; cbn [negb] in Hset.
    2:{ left. apply Some_inv in Hset; subst o. cbn. split; auto. right. repeat split; auto.
        - apply cur_state_eqb_neq. now rewrite E5.
        - now apply orb_prop in E4. }
    apply cur_state_eqb_eq in E5. right.
    destruct (has b behavior_touch) eqn:Et.
    { exfalso. destruct (Hsb Et) as (Ha & Hp & _). rewrite Ha, Hp in E4. discriminate. }
    clearbody st. rewrite E5 in *. inversion Hcc as [r c H1 H2 H3 H4 H5 H6 H7 H8 X1 X2 X3| | |]; subst c.
    assert (Hrr : reads_record b = true) by (unfold reads_record; now rewrite E4).
    specialize (H8 Hrr). rewrite H6, <- H8, memcpy_all in Hset.
    cbn [e_data with_version e_size] in Hset. rewrite He4, memcpy_all in Hset.
    set (d := if has b behavior_append then _ else _) in *.
    set (e2 := with_size _ _) in *.
    destruct (db_put s1 (e_key e) (ser_header e2 ++ d)) as [s2|] eqn:Ep; [|discriminate].
    apply db_put_inv in Ep as [Hlen ->]. apply Some_inv in Hset; subst o.
    assert (Hd : blen d = blen (e_data e) + blen (e_data cur)).
    { unfold d. destruct (has b behavior_append); rewrite blen_app; lia. }
    assert (Hbl : blen (ser_header e2 ++ d) = 28 + blen d).
    { rewrite blen_app. unfold ser_header, blen at 1. rewrite !app_length, !le_enc_length. lia. }
    assert (Hsum : blen (e_data e) + blen (e_data cur) < 2 ^ 64).
    { change (2^64) with 18446744073709551616. lia. }
    assert (Hs2 : e_size e2 = blen d).
    { unfold e2. cbn. rewrite u64_small; lia. }
    rewrite Hbl in Hlen. assert (Hd64 : blen d < 2 ^ 64) by lia.
    exists (mkRec (r_flag r) (r_expire r) v d).
    cbn [o_store]. rewrite (ser_header_encode e2 d Hd64 Hs2).
    assert (Henc : mkRec (e_flag e2) (e_expire e2) (e_version e2) d = mkRec (r_flag r) (r_expire r) v d).
    { unfold e2. cbn. congruence. }
    rewrite Henc. cbn [o_store o_ret o_res o_entry r_version r_data].
    destruct H2 as (W1&W2&W3&W4&W5).
    repeat split; cbn; auto.
    + apply W2.
    + apply W2.
    + lia.
    + unfold d. rewrite H8. destruct (has b behavior_append); apply wf_bytes_app; auto.
    + unfold new_record, d. cbn. rewrite H4, H5. destruct (has b behavior_append); [reflexivity|].
      now destruct (has b behavior_prepend).
  - destruct (has b behavior_touch) eqn:Et.
    + right. specialize (A3 eq_refl). clearbody st. rewrite A3 in *.
      inversion Hcc as [r c H1 H2 H3 H4 H5 H6 H7 H8 X1 X2 X3| | |]; subst c.
      assert (Hrr : reads_record b = true) by (unfold reads_record; rewrite Et; now rewrite orb_true_r).
      specialize (H8 Hrr). rewrite H6, <- H8, memcpy_all in Hset.
      assert (v = r_version r) as ->.
      { revert Env. unfold next_version. rewrite Et. destruct (Hsb Et) as (_&_&->). congruence. }
      set (e2 := with_data _ _) in *.
      destruct (db_put s1 (e_key e) _) as [s2|] eqn:Ep; [|discriminate].
      apply db_put_inv in Ep as [Hlen ->]. apply Some_inv in Hset; subst o.
      pose proof (wf_rec_len _ H2) as Hl.
      exists (mkRec (r_flag r) (e_expire e) (r_version r) (r_data r)).
      assert (Hs2 : e_size e2 = blen (e_data cur)) by (unfold e2; cbn; congruence).
      cbn [o_store]. rewrite (ser_header_encode e2 (e_data cur)) by (auto; now rewrite H8).
      assert (Henc : mkRec (e_flag e2) (e_expire e2) (e_version e2) (e_data cur) = mkRec (r_flag r) (e_expire e) (r_version r) (r_data r)).
      { unfold e2. cbn. congruence. }
      rewrite Henc. destruct H2 as (W1&W2&W3&W4&W5).
      repeat split; cbn; auto.
      * apply He2.
      * apply He2.
      * unfold rec_of, e2. cbn. congruence.
      * now rewrite H8.
      * unfold new_record. destruct (Hsb Et) as (Ha&Hp&_). rewrite Ha, Hp, Et. cbn. congruence.
    + right. cbn [e_data with_version e_size] in Hset. rewrite He4, memcpy_all in Hset.
      set (e1 := with_version _ _) in *.
      destruct (db_put s1 (e_key e) _) as [s2|] eqn:Ep; [|discriminate].
      apply db_put_inv in Ep as [Hlen ->]. apply Some_inv in Hset; subst o.
      assert (Hbl : blen (ser_header e1 ++ e_data e) = 28 + blen (e_data e)).
      { rewrite blen_app. unfold ser_header, blen at 1. rewrite !app_length, !le_enc_length. lia. }
      assert (Hl : blen (e_data e) < 2 ^ 64) by (change (2^64) with 18446744073709551616; lia).
      rewrite Hbl in Hlen.
      exists (mkRec (e_flag e) (e_expire e) v (e_data e)).
      cbn [o_store]. rewrite (ser_header_encode e1 (e_data e)) by auto.
      cbn [e1 with_version e_flag e_expire e_version].
      apply orb_false_elim in E4 as [E4 E4'].
      repeat split; cbn; auto.
      * apply He2.
      * apply He2.
      * lia.
      * unfold reads_record. rewrite E4, E4', Et. discriminate.
      * unfold new_record. now rewrite E4, E4', Et.
Qed.
