(** Proofs about the storage engines: the B+ tree of Tokyo Cabinet. *)
From stdpp Require Import gmap.
From Coq Require Import Lia ZArith.
From Coq Require Import ZifyBool ZifyNat ZifyN.
From Verif Require Import Base BaseLemmas StorageModel StorageSpec StorageProofs StorageProofs2 StorageProofs6 EngineModel EngineSpec.
Local Open Scope N_scope.

(** The two engines agree on a remembered deletion, as far as it matters from [now] on. *)
Definition tomb_sim (now : Z) (a b : option (Z * N)) : Prop :=
  match a, b with
  | None, None => True
  | Some (x, v), Some (y, w) => v = w /\ (x = y \/ (x <= now /\ y <= now)%Z)
  | _, _ => False
  end.
(** [t] (B+ tree) holds what [s] (hash) holds; it may still hold an expired record that [s] has removed. *)
Definition key_sim (now : Z) (s t : store) (k : key) : Prop :=
  (db s !! k = db t !! k /\ (db s !! k = None -> tomb_sim now (tomb s k) (tomb t k)))
  \/ (exists r x, db s !! k = None /\ db t !! k = Some (encode_rec r) /\ wf_rec r /\ expired now r /\
        tomb s k = Some (x, r_version r) /\ (x <= now)%Z).
Record sim (K : list key) (now : Z) (s t : store) : Prop := mkSim {
  sim_ws : wf_store s; sim_wt : wf_store t;
  sim_cs : cache_in K s; sim_ct : cache_in K t;
  sim_ls : N.of_nat (length K) <= hcache_size s; sim_lt : N.of_nat (length K) <= hcache_size t;
  sim_key : forall k, key_sim now s t k;
  sim_empty : db t !! [] = None;
}.

Lemma tomb_sim_refl now a : tomb_sim now a a.
Proof. destruct a as [[x v]|]; cbn; auto. Qed.
Lemma tomb_sim_later now now' a b : (now <= now')%Z -> tomb_sim now a b -> tomb_sim now' a b.
Proof. intros H. destruct a as [[x v]|], b as [[y w]|]; cbn; auto. intros (-> & [->|[]]); split; auto. right; lia. Qed.
Lemma key_sim_later now now' s t k : (now <= now')%Z -> key_sim now s t k -> key_sim now' s t k.
Proof.
  intros H [(E & T)|(r & x & A & B & W & X & T & L)].
  - left. split; auto. intros N. eapply tomb_sim_later; eauto.
  - right. exists r, x. split; [exact A|]. split; [exact B|]. split; [exact W|]. unfold expired in *. split; [lia|]. split; [exact T|lia].
Qed.
Lemma sim_later K now now' s t : (now <= now')%Z -> sim K now s t -> sim K now' s t.
Proof. intros H []. split; auto. intros k. eapply key_sim_later; eauto. Qed.

(** Both put the same record. *)
Lemma sim_put K now s t k r : sim K now s t -> k <> [] -> wf_rec r ->
  sim K now (set_db s (<[k := encode_rec r]> (db s))) (set_db t (<[k := encode_rec r]> (db t))).
Proof.
  intros [] Hk Hr. split; auto using insert_wf.
  - intros k'. destruct (decide (k = k')) as [<-|N].
    + left. cbn. rewrite !lookup_insert. split; auto. discriminate.
    + destruct (sim_key0 k') as [(E & T)|(r' & x & A & B & W & X & T & L)].
      * left. cbn. rewrite !lookup_insert_ne by auto. auto.
      * right. exists r', x. cbn. rewrite !lookup_insert_ne by auto. auto 10.
  - cbn. rewrite lookup_insert_ne; auto.
Qed.

(** A change of one key in both. *)
Lemma sim_change K now s t k s' t' : sim K now s t ->
  wf_store s' -> wf_store t' -> cache_in K s' -> cache_in K t' ->
  hcache_size s' = hcache_size s -> hcache_size t' = hcache_size t ->
  (forall k', k' <> k -> db s' !! k' = db s !! k' /\ tomb s' k' = tomb s k' /\ db t' !! k' = db t !! k' /\ tomb t' k' = tomb t k') ->
  k <> [] -> key_sim now s' t' k -> sim K now s' t'.
Proof.
  intros [] W1 W2 C1 C2 H1 H2 O Hk S. split; auto; try congruence.
  - intros k'. destruct (decide (k' = k)) as [->|N]; auto.
    destruct (O k' N) as (E1 & E2 & E3 & E4). specialize (sim_key0 k'). unfold key_sim in *. now rewrite E1, E2, E3, E4.
  - assert (N : [] <> k) by auto. destruct (O [] N) as (_ & _ & E & _). congruence.
Qed.

(** What [removed] does. *)
Lemma removed_all s now k e K : wf_store s -> cache_in K s -> In k K -> N.of_nat (length K) <= hcache_size s ->
  is_i64 now -> is_i64 (e_expire e) -> e_version e < 2 ^ 64 ->
  let s' := removed s now k e in
  wf_store s' /\ cache_in K s' /\ hcache_size s' = hcache_size s /\ db s' !! k = None /\
  tomb s' k = Some (shc_expire now e, e_version e) /\
  (forall k', k' <> k -> db s' !! k' = db s !! k' /\ tomb s' k' = tomb s k').
Proof.
  intros W C I L N X V s'. unfold s', removed.
  assert (W1 : wf_store (set_db s (delete k (db s)))) by now apply delete_wf.
  destruct (shc_all (set_db s (delete k (db s))) now k e K W1 C I L) as (T1 & T2 & T3).
  split; [now apply shc_wf|]. split; [exact T3|]. split; [reflexivity|]. split; [cbn; apply lookup_delete|].
  split; [exact T1|]. intros k' Hk. split; [cbn; rewrite lookup_delete_ne; auto|]. rewrite T2 by auto. reflexivity.
Qed.
Lemma shc_all' s now k e K : wf_store s -> cache_in K s -> In k K -> N.of_nat (length K) <= hcache_size s ->
  is_i64 now -> is_i64 (e_expire e) -> e_version e < 2 ^ 64 ->
  let s' := set_header_cache s now k e in
  wf_store s' /\ cache_in K s' /\ hcache_size s' = hcache_size s /\ db s' = db s /\
  tomb s' k = Some (shc_expire now e, e_version e) /\
  (forall k', k' <> k -> db s' !! k' = db s !! k' /\ tomb s' k' = tomb s k').
Proof.
  intros W C I L N X V s'. unfold s'.
  destruct (shc_all s now k e K W C I L) as (T1 & T2 & T3).
  split; [now apply shc_wf|]. split; [exact T3|]. split; [reflexivity|]. split; [reflexivity|].
  split; [exact T1|]. intros k' Hk. split; [reflexivity|]. now apply T2.
Qed.

(** The cases of a key. *)
Inductive key_case (now : Z) (s t : store) (k : key) : Prop :=
| KBoth r : holds s k (Some r) -> holds t k (Some r) -> wf_rec r -> key_case now s t k
| KNone : holds s k None -> holds t k None -> tomb_sim now (tomb s k) (tomb t k) -> key_case now s t k
| KStale r x : holds s k None -> holds t k (Some r) -> wf_rec r -> expired now r -> tomb s k = Some (x, r_version r) -> (x <= now)%Z ->
    key_case now s t k.
Lemma sim_case K now s t k : sim K now s t -> key_case now s t k.
Proof.
  intros []. destruct (sim_key0 k) as [(E & T)|(r & x & A & B & W & X & T & L)].
  - destruct (wf_holds s k sim_ws0) as (o & Ho & Hr). unfold holds in Ho. destruct o as [r|].
    + eapply KBoth; unfold holds; eauto. rewrite <- E. exact Ho.
    + apply KNone; unfold holds; auto. rewrite <- E. exact Ho.
  - eapply KStale; unfold holds; eauto.
Qed.

Lemma expired_at_true now r : expired now r -> expired_at now (r_expire r) = true.
Proof. apply expired_at_spec. Qed.

(** *** remove *)
Lemma sim_remove K now s t e b : sim K now s t -> In (e_key e) K -> e_key e <> [] -> is_i64 now -> is_i64 (e_expire e) -> e_version e < 2 ^ 64 ->
  has b behavior_skip_timestamp = false -> (e_version e = 0 -> (e_expire e <= now)%Z) ->
  answer (remove s now e b) = answer (remove t now e b) /\ sim K now (o_store (remove s now e b)) (o_store (remove t now e b)).
Proof.
  intros S I NE NW EX EV B TM. pose proof S as [W1 W2 C1 C2 L1 L2 _ _].
  destruct (sim_case K now s t (e_key e) S) as [r Hs Ht Hr|Hs Ht T|r x Hs Ht Hr X T L].
  - rewrite (remove_some s now e b r), (remove_some t now e b r) by auto.
    destruct (_ && _ && _); [split; [reflexivity|exact S]|]. cbv zeta.
    set (e' := if e_version e =? 0 then with_version e (r_version r) else e).
    assert (Xe : is_i64 (e_expire e')) by (unfold e'; destruct (_ =? _); auto).
    assert (Ve : e_version e' < 2 ^ 64) by (unfold e'; destruct (_ =? _); auto; apply Hr).
    clearbody e'. split.
    { reflexivity. }
    cbn [o_store].
    destruct (removed_all s now (e_key e) e' K) as (A1 & A2 & A3 & A4 & A5 & A6); auto.
    destruct (removed_all t now (e_key e) e' K) as (B1 & B2 & B3 & B4 & B5 & B6); auto.
    eapply (sim_change K now s t) ; [exact S|..]; eauto; try (intros k' N; destruct (A6 k' N), (B6 k' N); auto; fail).
    left. rewrite A4, B4, A5, B5. split; auto. intros _. apply tomb_sim_refl.
  - rewrite (remove_none s now e b), (remove_none t now e b) by auto.
    assert (V : match tomb s (e_key e) with Some (_, v) => v | None => 0 end = match tomb t (e_key e) with Some (_, v) => v | None => 0 end).
    { destruct (tomb s (e_key e)) as [[? ?]|], (tomb t (e_key e)) as [[? ?]|]; cbn in T; tauto. }
    rewrite V. destruct (_ && _ && _); [split; [reflexivity|exact S]|]. split; [reflexivity|]. cbn [o_store].
    destruct (negb (e_version e =? 0)); [|exact S].
    destruct (shc_all' s now (e_key e) e K) as (A1 & A2 & A3 & A4 & A5 & A6); auto.
    destruct (shc_all' t now (e_key e) e K) as (B1 & B2 & B3 & B4 & B5 & B6); auto.
    eapply (sim_change K now s t) ; [exact S|..]; eauto; try (intros k' N; destruct (A6 k' N), (B6 k' N); auto; fail).
    left. rewrite A4, B4, A5, B5. unfold holds in *. rewrite Hs, Ht. split; auto. intros _. apply tomb_sim_refl.
  - rewrite (remove_none s now e b), (remove_some t now e b r) by auto. rewrite T.
    destruct (_ && _ && _); [split; [reflexivity|exact S]|]. cbv zeta. rewrite B, (expired_at_true now r X).
    split; [reflexivity|]. cbn [o_store].
    set (e' := if e_version e =? 0 then with_version e (r_version r) else e).
    assert (Xe : is_i64 (e_expire e')) by (unfold e'; destruct (_ =? _); auto).
    assert (Ve : e_version e' < 2 ^ 64) by (unfold e'; destruct (_ =? _); auto; apply Hr).
    destruct (removed_all t now (e_key e) e' K) as (B1 & B2 & B3 & B4 & B5 & B6); auto.
    destruct (e_version e =? 0) eqn:Ez; cbn [negb].
    + eapply (sim_change K now s t) ; [exact S|..]; eauto; try (intros k' N; destruct (B6 k' N); auto; fail).
      left. rewrite B4, B5. unfold holds in Hs. rewrite Hs. split; [reflexivity|]. intros _. rewrite T. unfold e'. cbn [e_version with_version].
        cbn. split; [reflexivity|]. right. split; [exact L|]. unfold shc_expire. cbn. specialize (TM ltac:(lia)).
        destruct (e_expire e =? 0)%Z; lia.
    + destruct (shc_all' s now (e_key e) e K) as (A1 & A2 & A3 & A4 & A5 & A6); auto.
      eapply (sim_change K now s t) ; [exact S|..]; eauto; try (intros k' N; destruct (A6 k' N), (B6 k' N); auto; fail).
      left. rewrite A4, A5, B4, B5. unfold holds in Hs. rewrite Hs. split; [reflexivity|]. intros _. unfold e'. apply tomb_sim_refl.
Qed.

(** *** get *)
Lemma sim_removed K now s t k e : sim K now s t -> In k K -> k <> [] -> is_i64 now -> is_i64 (e_expire e) -> e_version e < 2 ^ 64 ->
  sim K now (removed s now k e) (removed t now k e).
Proof.
  intros S I NE NW EX EV. pose proof S as [W1 W2 C1 C2 L1 L2 _ _].
  destruct (removed_all s now k e K) as (A1 & A2 & A3 & A4 & A5 & A6); auto.
  destruct (removed_all t now k e K) as (B1 & B2 & B3 & B4 & B5 & B6); auto.
  eapply (sim_change K now s t) ; [exact S|..]; eauto; try (intros k' N; destruct (A6 k' N), (B6 k' N); auto; fail).
  left. rewrite A4, B4, A5, B5. split; auto. intros _. apply tomb_sim_refl.
Qed.
(** The B+ tree gives up an expired record that the hash no longer has. *)
Lemma sim_late K now s t k e r x : sim K now s t -> In k K -> k <> [] -> is_i64 now ->
  holds s k None -> wf_rec r -> expired now r -> tomb s k = Some (x, r_version r) -> (x <= now)%Z ->
  e_expire e = r_expire r -> e_version e = r_version r ->
  sim K now s (removed t now k e).
Proof.
  intros S I NE NW Hs Hr X T L E1 E2. pose proof S as [W1 W2 C1 C2 L1 L2 _ _].
  assert (Xe : is_i64 (e_expire e)) by (rewrite E1; apply Hr).
  assert (Ve : e_version e < 2 ^ 64) by (rewrite E2; apply Hr).
  destruct (removed_all t now k e K) as (B1 & B2 & B3 & B4 & B5 & B6); auto.
  eapply (sim_change K now s t) ; [exact S|..]; eauto; try (intros k' N; destruct (B6 k' N); auto; fail).
  left. rewrite B4, B5. unfold holds in Hs. rewrite Hs. split; [reflexivity|]. intros _. rewrite T. cbn.
    split; [now rewrite E2|]. right. split; [exact L|]. unfold shc_expire. rewrite E1. unfold expired in X.
    destruct (_ =? _)%Z; lia.
Qed.

Lemma sim_get K now s t e b : sim K now s t -> In (e_key e) K -> e_key e <> [] -> is_i64 now -> has b behavior_skip_timestamp = false ->
  answer (get s now e b) = answer (get t now e b) /\ sim K now (o_store (get s now e b)) (o_store (get t now e b)).
Proof.
  intros S I NE NW B.
  destruct (sim_case K now s t (e_key e) S) as [r Hs Ht Hr|Hs Ht T|r x Hs Ht Hr X T L].
  - rewrite (get_some s now e b r), (get_some t now e b r) by auto. rewrite B. cbn [negb andb].
    destruct (fill_range e r Hr).
    destruct (expired_at now (r_expire r)); (split; [reflexivity|]); cbn [o_store]; [|exact S].
    now apply sim_removed.
  - rewrite !get_none by auto. split; [reflexivity|exact S].
  - rewrite (get_none s), (get_some t now e b r) by auto. rewrite B, (expired_at_true now r X). cbn [negb andb].
    split; [reflexivity|]. cbn [o_store]. eapply sim_late; eauto.
Qed.

(** *** incr *)
Lemma tcb_incr_some s now e v i b r : db s !! [] = None -> tomb s [] = None -> e_key e <> [] -> holds s (e_key e) (Some r) -> wf_rec r -> v < 2 ^ 64 ->
  has b behavior_skip_timestamp = false ->
  tcb_incr s now e v i b = if expired_at now (r_expire r) then Some (mkOut s 0 (Some result_not_found) e) else incr s now e v i b.
Proof.
  intros N T NE H Hr Hv B. unfold tcb_incr, incr. unfold holds in H. rewrite H. cbn [fmap option_fmap option_map].
  rewrite unser_encode by auto. cbn [negb fill e_flag e_expire e_size e_version]. rewrite B. cbn [negb andb].
  rewrite blen_encode.
  replace (28 + blen (r_data r) - header_size =? blen (r_data r)) with true by (unfold header_size; lia). cbn [negb].
  destruct (expired_at now (r_expire r)); [|reflexivity].
  rewrite (remove_none s) by exact N. cbn [e_key e_version]. rewrite T.
  destruct (has_equal_bits b) as (B1&B2&B3). rewrite B1, B2. cbn [negb andb orb].
  destruct (r_version r =? 0) eqn:E; cbn; rewrite ?E; cbn; reflexivity.
Qed.

Lemma sim_incr K now s t e v i b : sim K now s t -> ~ In [] K -> In (e_key e) K -> e_key e <> [] -> is_i64 now -> v < 2 ^ 64 ->
  has b behavior_skip_timestamp = false ->
  match incr s now e v i b, tcb_incr t now e v i b with
  | Some o, Some p => answer o = answer p /\ sim K now (o_store o) (o_store p)
  | None, None => True
  | _, _ => False
  end.
Proof.
  intros S KE I NE NW V B.
  assert (TE : tomb t [] = None).
  { destruct (tomb t []) eqn:E; [|reflexivity]. destruct KE. apply (sim_ct _ _ _ _ S). congruence. }
  destruct (sim_case K now s t (e_key e) S) as [r Hs Ht Hr|Hs Ht T|r x Hs Ht Hr X T L].
  - rewrite (tcb_incr_some t now e v i b r); auto. 2: apply S.
    rewrite (incr_some s now e v i b r), (incr_some t now e v i b r) by auto. rewrite B. cbn [negb andb].
    destruct (expired_at now (r_expire r)) eqn:X; (split; [reflexivity|]); cbn [o_store].
    + apply expired_at_spec in X. pose proof S as [W1 W2 C1 C2 L1 L2 _ _].
      assert (Xe : is_i64 (r_expire r)) by apply Hr.
      assert (Ve : r_version r < 2 ^ 64) by apply Hr.
      destruct (removed_all s now (e_key e) (fill (empty_entry (e_key e)) r) K) as (A1 & A2 & A3 & A4 & A5 & A6); auto.
      eapply (sim_change K now s t) ; [exact S|..]; eauto; try (intros k' N; destruct (A6 k' N); auto; fail).
      right. exists r, (r_expire r). unfold holds in Ht. split; [exact A4|]. split; [exact Ht|]. split; [exact Hr|]. split; [exact X|].
        rewrite A5. unfold shc_expire. cbn. unfold expired in X. replace (r_expire r =? 0)%Z with false by lia. split; [reflexivity|lia].
    + apply sim_put; auto. now apply incr_entry_wf.
  - rewrite incr_none by auto. unfold tcb_incr. unfold holds in Ht. rewrite Ht. split; [reflexivity|exact S].
  - rewrite incr_none by auto. rewrite (tcb_incr_some t now e v i b r); auto. 2: apply S.
    rewrite (expired_at_true now r X). split; [reflexivity|exact S].
Qed.

(** *** set *)
Lemma sim_current K now s t k b : sim K now s t -> In k K -> k <> [] -> is_i64 now -> has b behavior_skip_timestamp = false ->
  let '(s1, cur, ex) := current_entry s now k b in
  let '(t1, cur', ex') := current_entry t now k b in
  sim K now s1 t1 /\ current_state now b cur ex = current_state now b cur' ex' /\ e_version cur = e_version cur' /\
  (current_state now b cur ex = st_alive -> cur = cur').
Proof.
  intros S I NE NW B. unfold current_entry. rewrite reads_record_lor.
  assert (HT : has behavior_skip_lock behavior_skip_timestamp = false) by reflexivity.
  destruct (sim_case K now s t k S) as [r Hs Ht Hr|Hs Ht T|r x Hs Ht Hr X T L].
  - destruct (reads_record b).
    + rewrite (get_some s now (empty_entry k) _ r), (get_some t now (empty_entry k) _ r) by (cbn; auto). rewrite HT. cbn [negb andb].
      destruct (fill_range (empty_entry k) r Hr) as [F1 F2].
      destruct (expired_at now (r_expire r)) eqn:X; cbn [o_res o_store o_entry o_ret].
      * split; [now apply sim_removed|].
        pose proof S as [W1 W2 C1 C2 L1 L2 _ _].
        destruct (removed_all s now k (fill (empty_entry k) r) K) as (_ & _ & _ & _ & A5 & _); auto.
        destruct (removed_all t now k (fill (empty_entry k) r) K) as (_ & _ & _ & _ & B5 & _); auto.
        cbn [e_key empty_entry]. unfold get_header_cache. rewrite <- !tomb_hc_get, A5, B5.
        split; [reflexivity|]. split; [reflexivity|]. reflexivity.
      * split; [exact S|]. auto.
    + rewrite (get_header_some s k _ r), (get_header_some t k _ r) by auto. split; [exact S|]. auto.
  - assert (Q : forall c, e_expire c = 0%Z -> let cur := get_header_cache s k c in let cur' := get_header_cache t k c in
        current_state now b cur false = current_state now b cur' false /\ e_version cur = e_version cur').
    { intros c C. unfold get_header_cache. rewrite <- !tomb_hc_get. unfold current_state. rewrite B. cbn [negb andb].
      destruct (tomb s k) as [[x v]|], (tomb t k) as [[y w]|]; cbn in T; try contradiction; [|split; reflexivity].
      destruct T as (-> & D). cbn. split; [|reflexivity]. destruct D as [-> |[D1 D2]]; [reflexivity|].
      replace (now <? x)%Z with false by lia. replace (now <? y)%Z with false by lia. now rewrite !andb_false_r. }
    assert (G : forall c, current_state now b c false <> st_alive).
    { intros c. unfold current_state. destruct (_ && _); discriminate. }
    destruct (reads_record b).
    + rewrite !get_none by auto. cbn [o_res o_store o_entry o_ret]. destruct (Q (empty_entry k) eq_refl) as [Q1 Q2].
      split; [exact S|]. split; [exact Q1|]. split; [exact Q2|]. intros X. now apply G in X.
    + unfold get_header. unfold holds in Hs, Ht. rewrite Hs, Ht. cbn [fmap option_fmap option_map]. destruct (Q (empty_entry []) eq_refl) as [Q1 Q2].
      split; [exact S|]. split; [exact Q1|]. split; [exact Q2|]. intros X. now apply G in X.
  - assert (D : forall c, e_expire c = x -> current_state now b c false = st_gone).
    { intros c C. unfold current_state. rewrite C. replace (now <? x)%Z with false by lia. now rewrite andb_false_r. }
    destruct (reads_record b).
    + rewrite (get_none s), (get_some t now (empty_entry k) _ r) by (cbn; auto). rewrite HT, (expired_at_true now r X). cbn [negb andb].
      cbn [o_res o_store o_entry o_ret e_key empty_entry].
      split; [eapply sim_late; eauto|].
      pose proof S as [W1 W2 C1 C2 L1 L2 _ _]. destruct (fill_range (empty_entry k) r Hr) as [F1 F2].
      destruct (removed_all t now k (fill (empty_entry k) r) K) as (_ & _ & _ & _ & B5 & _); auto.
      unfold get_header_cache. rewrite <- !tomb_hc_get, T. fold (empty_entry k). rewrite B5.
      rewrite D by reflexivity. unfold current_state. unfold shc_expire. cbn. unfold expired in X.
      replace (r_expire r =? 0)%Z with false by lia. replace (now <? r_expire r)%Z with false by lia. rewrite andb_false_r.
      split; [reflexivity|]. split; [reflexivity|]. discriminate.
    + unfold get_header at 1. unfold holds in Hs. rewrite Hs. cbn [fmap option_fmap option_map]. rewrite (get_header_some t k _ r) by auto.
      unfold get_header_cache. rewrite <- tomb_hc_get, T. split; [exact S|]. rewrite D by reflexivity.
      unfold current_state. rewrite B. cbn. rewrite (expired_at_true now r X). split; [reflexivity|]. split; [reflexivity|]. discriminate.
Qed.


Lemma sim_raw K now s t k raw : sim K now s t -> k <> [] -> wf_store (set_db s (<[k := raw]> (db s))) -> wf_store (set_db t (<[k := raw]> (db t))) ->
  sim K now (set_db s (<[k := raw]> (db s))) (set_db t (<[k := raw]> (db t))).
Proof.
  intros [] Hk W1 W2. split; auto.
  - intros k'. destruct (decide (k = k')) as [<-|N].
    + left. cbn. rewrite !lookup_insert. split; auto. discriminate.
    + destruct (sim_key0 k') as [(E & T)|(r' & x & A & B & W & X & T & L)].
      * left. cbn. rewrite !lookup_insert_ne by auto. auto.
      * right. exists r', x. cbn. rewrite !lookup_insert_ne by auto. auto 10.
  - cbn. rewrite lookup_insert_ne; auto.
Qed.

Lemma next_version_same st cur cur' e b : e_version cur = e_version cur' -> next_version st cur e b = next_version st cur' e b.
Proof. intros E. unfold next_version. now rewrite E. Qed.

Definition same_end K now (a b : option outcome) : Prop :=
  match a, b with
  | Some o, Some p => answer o = answer p /\ sim K now (o_store o) (o_store p)
  | None, None => True
  | _, _ => False
  end.
Lemma sim_set K now s t e b : sim K now s t -> In (e_key e) K -> e_key e <> [] -> is_i64 now -> wf_entry e -> sane_behavior b ->
  has b behavior_skip_timestamp = false -> same_end K now (set s now e b) (set t now e b).
Proof.
  intros S I NE NW WE SB B.
  assert (Ws : forall o, set s now e b = Some o -> wf_store (o_store o)).
  { intros o O. apply (run_op_wf s (OSet now e b) o); cbn; auto. apply S. }
  assert (Wt : forall o, set t now e b = Some o -> wf_store (o_store o)).
  { intros o O. apply (run_op_wf t (OSet now e b) o); cbn; auto. apply S. }
  revert Ws Wt. unfold set. pose proof (sim_current K now s t (e_key e) b S I NE NW B) as C.
  destruct (current_entry s now (e_key e) b) as [[s1 cur] ex]. destruct (current_entry t now (e_key e) b) as [[t1 cur'] ex'].
  destruct C as (S1 & C1 & C2 & C3). rewrite <- C1. set (st := current_state now b cur ex) in *. clearbody st.
  destruct (has b behavior_add && _); [intros _ _; split; [reflexivity|exact S1]|].
  destruct (has b behavior_replace && _); [intros _ _; split; [reflexivity|exact S1]|].
  destruct (has b behavior_touch && negb (cur_state_eqb st st_alive)) eqn:TA; [intros _ _; split; [reflexivity|exact S1]|].
  rewrite <- (next_version_same st cur cur' e b C2).
  destruct (next_version st cur e b) as [r|v]; [intros _ _; split; [reflexivity|exact S1]|].
  cbv zeta. destruct (has b (N.lor behavior_append behavior_prepend)).
  - destruct (cur_state_eqb st st_alive) eqn:A; cbn [negb]; [|intros _ _; split; [reflexivity|exact S1]].
    apply cur_state_eqb_eq in A. rewrite <- (C3 A).
    destruct (memcpy (e_data cur) (e_size cur)) as [dc|]; [|intros _ _; exact Logic.I].
    destruct (memcpy (e_data (with_version e v)) _) as [dn|]; [|intros _ _; exact Logic.I].
    match goal with |- context [db_put s1 (e_key e) ?x] => generalize x end. intros raw.
    unfold db_put. destruct (blen raw <=? 2147483647); [|intros _ _; exact Logic.I].
    intros Ws Wt. specialize (Ws _ eq_refl). specialize (Wt _ eq_refl). unfold same_end.
    destruct (has b behavior_touch); (split; [reflexivity|]); cbn [o_store] in *; now apply sim_raw.
  - destruct (has b behavior_touch).
    + assert (A : st = st_alive). { apply cur_state_eqb_eq. cbn in TA. now destruct (cur_state_eqb st st_alive). }
      rewrite <- (C3 A).
      destruct (memcpy (e_data cur) (e_size cur)) as [dc|]; [|intros _ _; exact Logic.I].
      match goal with |- context [db_put s1 (e_key e) ?x] => generalize x end. intros raw.
      unfold db_put. destruct (blen raw <=? 2147483647); [|intros _ _; exact Logic.I].
      intros Ws Wt. specialize (Ws _ eq_refl). specialize (Wt _ eq_refl). split; [reflexivity|]. cbn [o_store] in *. now apply sim_raw.
    + destruct (memcpy (e_data (with_version e v)) _) as [dn|]; [|intros _ _; exact Logic.I].
      match goal with |- context [db_put s1 (e_key e) ?x] => generalize x end. intros raw.
      unfold db_put. destruct (blen raw <=? 2147483647); [|intros _ _; exact Logic.I].
      intros Ws Wt. specialize (Ws _ eq_refl). specialize (Wt _ eq_refl). split; [reflexivity|]. cbn [o_store] in *. now apply sim_raw.
Qed.

(** *** Histories *)
Lemma sim_truncate K now s t : sim K now s t -> sim K now (truncate s) (truncate t).
Proof.
  intros []. split; auto using truncate_wf.
  - intros k H. now cbn in H.
  - intros k H. now cbn in H.
  - intros k. left. cbn. rewrite !lookup_empty. split; auto.
Qed.

Lemma sim_op K now s t o : sim K now s t -> ~ In [] K -> (forall k, op_key o = Some k -> In k K) -> wf_op o -> sane_op o -> plain_op o ->
  match o with OTruncate => True | _ => (now <= op_time o)%Z end ->
  let now' := match o with OTruncate => now | _ => op_time o end in
  same_end K now' (run_op_on Tch s o) (run_op_on Tcb t o).
Proof.
  intros S KE IK W SO P TM.
  assert (NE : forall k, In k K -> k <> []) by (intros k X ->; auto).
  destruct o as [n e b|n e v i b|n e b|n e b|]; cbn in *.
  - specialize (IK _ eq_refl). apply sim_set; auto; try tauto. now apply (sim_later K now).
  - specialize (IK _ eq_refl). apply sim_incr; auto; try tauto. now apply (sim_later K now).
  - specialize (IK _ eq_refl). apply sim_get; auto; try tauto. now apply (sim_later K now).
  - specialize (IK _ eq_refl). destruct P, W as (W & ?). apply sim_remove; auto; try apply W. now apply (sim_later K now).
  - split; [reflexivity|]. cbn. now apply sim_truncate.
Qed.

Lemma tcb_answers K now s t l : sim K now s t -> ~ In [] K -> (forall o k, In o l -> op_key o = Some k -> In k K) ->
  Forall wf_op l -> Forall sane_op l -> Forall plain_op l -> rising now l ->
  answers Tch s l = answers Tcb t l.
Proof.
  revert now s t. induction l as [|o l IH]; intros now s t S KE IK W SO P R; [reflexivity|].
  inversion W as [|? ? W1 W2]; subst. inversion SO as [|? ? O1 O2]; subst. inversion P as [|? ? P1 P2]; subst.
  assert (TM : match o with OTruncate => True | _ => (now <= op_time o)%Z end) by (destruct o; cbn in R; tauto).
  assert (R2 : rising (match o with OTruncate => now | _ => op_time o end) l) by (destruct o; cbn in R; tauto).
  pose proof (sim_op K now s t o S KE (fun k => IK o k (or_introl eq_refl)) W1 O1 P1 TM) as E. cbv zeta in E.
  unfold answers. cbn [outcomes]. unfold same_end in E.
  destruct (run_op_on Tch s o) as [r|], (run_op_on Tcb t o) as [r'|]; try contradiction; [|reflexivity].
  destruct E as (E1 & E2).
  specialize (IH _ _ _ E2 KE (fun o' k X => IK o' k (or_intror X)) W2 O2 P2 R2). unfold answers in IH.
  destruct (outcomes Tch (o_store r) l), (outcomes Tcb (o_store r') l); try discriminate; [|reflexivity].
  cbn [map]. rewrite E1. injection IH as ->. reflexivity.
Qed.

Lemma sim_init K now n : N.of_nat (length K) <= n -> sim K now (init_store n) (init_store n).
Proof.
  intros L. split; auto using init_wf.
  - intros k H. now cbn in H.
  - intros k H. now cbn in H.
  - intros k. left. cbn. rewrite lookup_empty. auto.
Qed.
