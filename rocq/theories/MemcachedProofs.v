(** The states a text session leads to: no key is held back by a delete, and versions are bounded. *)
From Coq Require Import String.
From stdpp Require Import gmap.
From Coq Require Import ZifyBool ZifyNat ZifyN.
From Verif Require Import Base BaseLemmas StorageModel StorageSpec StorageProofs StorageProofs2 StorageProofs3 StorageProofs4
  TextModel TextSpec SessionModel ServerModel ServerProofs ServerProofs2 ReplicaProofs.
Local Open Scope N_scope.
Local Open Scope list_scope.

Record quiet (T : Z) (M : N) (s : store) : Prop := {
  q_wf : wf_store s;
  q_tombs : forall k x v, tomb s k = Some (x, v) -> (x <= T)%Z /\ v <= M;
  q_recs : forall k r, holds s k (Some r) -> wf_rec r -> r_version r <= M;
}.
Lemma quiet_mono T T' M M' s : (T <= T')%Z -> M <= M' -> quiet T M s -> quiet T' M' s.
Proof.
  intros HT HM [H1 H2 H3]. split; auto.
  - intros k x v H. destruct (H2 k x v H). split; lia.
  - intros k r H W. specialize (H3 k r H W). lia.
Qed.
Lemma quiet_knows T M s k v : quiet T M s -> knows s k v -> v <= M.
Proof.
  intros Q [(r & H & W & <-)|[(_ & x & H)|(_ & _ & ->)]]; [eapply q_recs; eauto|eapply q_tombs; eauto|lia].
Qed.
Lemma quiet_not_pending T M s now k : quiet T M s -> (T <= now)%Z -> ~ pending_delete s now k.
Proof. intros Q HT (_ & x & v & H & _ & Hx). apply (q_tombs _ _ _ Q) in H. lia. Qed.

Lemma quiet_shc T M s now k e : quiet T M s -> (T <= now)%Z -> is_i64 now -> is_i64 (e_expire e) -> (e_expire e <= now)%Z -> e_version e <= M -> M < 2 ^ 64 ->
  quiet now M (set_header_cache s now k e).
Proof.
  intros Q HT Hi Hi' He Hv HM. pose proof (q_wf _ _ _ Q) as W. split.
  - apply shc_wf; auto. lia.
  - intros k' x v H. destruct (List.list_eq_dec N.eq_dec k k') as [<-|Hne].
    + destruct (shc_tomb_same s now k e) as [E|E]; [apply W| |]; rewrite E in H; [|discriminate].
      assert (x = shc_expire now e /\ v = e_version e) as [-> ->] by (split; congruence).
      unfold shc_expire. destruct (e_expire e =? 0)%Z; split; lia.
    + destruct (shc_tomb_other s now k e k') as [E|E]; [apply W|auto| |]; rewrite E in H; [|discriminate].
      apply (q_tombs _ _ _ Q) in H. split; lia.
  - intros k' r H. apply (q_recs _ _ _ Q k' r H).
Qed.
Lemma quiet_delete T M s k : quiet T M s -> quiet T M (set_db s (delete k (db s))).
Proof.
  intros Q. pose proof (q_wf _ _ _ Q) as (W1 & W2 & W3 & W4). split.
  - split; [|auto]. intros k' raw. cbn. rewrite lookup_delete_Some. intros [_ H]. eauto.
  - apply Q.
  - intros k' r H. unfold holds in H. cbn in H. apply lookup_delete_Some in H as [_ H]. exact (q_recs _ _ _ Q k' r H).
Qed.
Lemma quiet_removed T M s now k e : quiet T M s -> (T <= now)%Z -> is_i64 now -> is_i64 (e_expire e) -> (e_expire e <= now)%Z -> e_version e <= M -> M < 2 ^ 64 ->
  quiet now M (removed s now k e).
Proof. intros Q. intros. unfold removed. eapply quiet_shc; eauto using quiet_delete. Qed.
Lemma quiet_put T M M' s k r : quiet T M s -> M <= M' -> wf_rec r -> r_version r <= M' -> quiet T M' (set_db s (<[k := encode_rec r]> (db s))).
Proof.
  intros Q HM Hr Hv. pose proof (q_wf _ _ _ Q) as (W1 & W2 & W3 & W4). split.
  - split; [|auto]. intros k' raw. cbn. rewrite lookup_insert_Some. intros [[_ <-]|[_ H]]; eauto.
  - intros k' x v H. apply (q_tombs _ _ _ Q) in H. lia.
  - intros k' r' H W. unfold holds in H. change (<[k := encode_rec r]> (db s) !! k' = Some (encode_rec r')) in H. destruct (List.list_eq_dec N.eq_dec k k') as [<-|Hne].
    + rewrite lookup_insert in H. assert (E : encode_rec r = encode_rec r') by (apply Some_inv; symmetry; exact H).
      assert (Hh : holds (set_db s (<[k:=encode_rec r]> (db s))) k (Some r)) by (unfold holds; cbn; apply lookup_insert).
      assert (Hh' : holds (set_db s (<[k:=encode_rec r]> (db s))) k (Some r')) by (unfold holds; cbn; rewrite lookup_insert; exact (f_equal Some E)).
      rewrite <- (holds_some_fun _ _ _ _ Hr W Hh Hh'). exact Hv.
    + rewrite lookup_insert_ne in H by auto. pose proof (q_recs _ _ _ Q k' r' H W). lia.
Qed.

Section Ops.
Context (T : Z) (M : N) (s : store) (now : Z) (Q : quiet T M s) (HT : (T <= now)%Z) (Hi : is_i64 now) (H0 : (0 <= now)%Z) (HM : M < 2 ^ 64).
Lemma fill_removed k e r : holds s k (Some r) -> wf_rec r -> expired now r -> quiet now M (removed s now k (fill e r)).
Proof.
  intros H W X. unfold expired in X. eapply quiet_removed; eauto; cbn; try apply W; try lia. eapply q_recs; eauto.
Qed.
Lemma quiet_now : quiet now M s.
Proof. exact (quiet_mono T now M M s HT (N.le_refl M) Q). Qed.
Lemma quiet_get e b : quiet now M (o_store (get s now e b)).
Proof.
  destruct (wf_holds s (e_key e) (q_wf _ _ _ Q)) as ([r|] & H & W).
  - specialize (W r eq_refl). rewrite (get_some _ _ _ _ r) by auto. destruct (negb _ && expired_at _ _) eqn:E; cbn; [|apply quiet_now].
    apply fill_removed; auto. apply andb_true_iff in E as [_ E]. now apply expired_at_spec.
  - rewrite get_none by auto. apply quiet_now.
Qed.
Lemma quiet_run_get t keys : quiet now M (fst (run_get now s t keys)).
Proof.
  assert (G : forall s0, quiet now M s0 -> quiet now M (fst (run_get now s0 t keys))).
  { induction keys as [|k keys' IH]; intros s0 Q0; [exact Q0|]. cbn [run_get].
    assert (Q1 : quiet now M (o_store (get s0 now (empty_entry k) 0))).
    { destruct (wf_holds s0 k (q_wf _ _ _ Q0)) as ([r|] & H & W).
      - specialize (W r eq_refl). rewrite (get_some _ _ _ _ r) by auto. destruct (negb _ && expired_at _ _) eqn:E; cbn; [|exact Q0].
        apply andb_true_iff in E as [_ E]. apply expired_at_spec in E. unfold expired in E.
        eapply quiet_removed; eauto; cbn; try apply W; try lia. eapply q_recs; eauto.
      - rewrite get_none by auto. exact Q0. }
    specialize (IH _ Q1). destruct (run_get now _ t keys'). exact IH. }
  apply G, quiet_now.
Qed.
Lemma quiet_remove e : e_version e = 0 -> e_expire e = 0%Z -> quiet now M (o_store (remove s now e 0)).
Proof.
  intros Hv Hx. destruct (wf_holds s (e_key e) (q_wf _ _ _ Q)) as ([r|] & H & W).
  - specialize (W r eq_refl). rewrite (remove_some _ _ _ _ r) by auto. rewrite Hv. rewrite andb_false_r. cbn [andb o_store].
    change (0 =? 0) with true. cbn match.
    eapply quiet_removed; eauto; cbn [with_version e_expire e_version]; rewrite ?Hx; [unfold is_i64; lia|lia|eapply q_recs; eauto].
  - rewrite remove_none by auto. rewrite Hv, andb_false_r. cbn [andb o_store]. apply quiet_now.
Qed.
Lemma quiet_incr e v i o : v < 2 ^ 64 -> M + 1 < 2 ^ 64 -> incr s now e v i 0 = Some o -> quiet now (M + 1) (o_store o).
Proof.
  intros Hv HM1. destruct (wf_holds s (e_key e) (q_wf _ _ _ Q)) as ([r|] & H & W).
  - specialize (W r eq_refl). rewrite (incr_some _ _ _ _ _ _ r) by auto. destruct (negb _ && expired_at _ _) eqn:E; intros X; apply Some_inv in X; subst o; cbn [o_store].
    + eapply quiet_mono with (M := M); [apply Z.le_refl|lia|]. apply fill_removed; auto. apply andb_true_iff in E as [_ E]. now apply expired_at_spec.
    + eapply quiet_put; [apply quiet_now|lia|apply incr_entry_wf; auto|].
      change (r_version (rec_of (incr_entry e r v i))) with (u64 (r_version r + 1)).
      pose proof (q_recs _ _ _ Q _ _ H W). unfold u64. rewrite N.mod_small by lia. lia.
  - rewrite incr_none by auto. intros X. apply Some_inv in X. subst o. cbn [o_store]. eapply quiet_mono with (M := M); [apply Z.le_refl|lia|apply quiet_now].
Qed.
Lemma quiet_cur_case k b s1 cur st : cur_case s now k b s1 cur st -> quiet now M s1.
Proof.
  intros [r c H W| r c s2 H W X _ _ ->| |]; try apply quiet_now. destruct (reads_record b); [now apply fill_removed|apply quiet_now].
Qed.
Lemma quiet_set c e o : wf_entry e -> (e_version e = 0 \/ c = CmdCas) -> M + 1 < 2 ^ 64 -> set s now e (cmd_behavior c) = Some o -> quiet now (M + 1) (o_store o).
Proof.
  intros He Hv HM1 Hs. pose proof (q_wf _ _ _ Q) as Hwf.
  destruct (set_inv _ _ _ _ _ Hwf He (cmd_sane c) Hs) as (s1 & cur & st & Hcc & [(-> & _)|(r' & Hr' & Hst & Hret & Hres & Hrec & _)]).
  - eapply quiet_mono with (M := M); [apply Z.le_refl|lia|]. eapply quiet_cur_case; eauto.
  - rewrite Hst. eapply quiet_put; [eapply quiet_cur_case; eauto|lia|auto|].
    assert (Hres' : o_res o = Some result_stored \/ o_res o = Some result_touched) by (rewrite Hres; destruct (has _ _); auto).
    destruct (store_then_get _ _ _ _ _ Hwf He (cmd_sane c) Hs Hres') as (_ & _ & _ & (cv & Hk & Hav) & _).
    rewrite Hrec in Hav. rewrite Hav. pose proof (quiet_knows _ _ _ _ _ Q Hk) as Hcv.
    unfold assigned_version. destruct Hv as [Hv| ->].
    + rewrite Hv. change (0 =? 0) with true. cbn match. assert (u64 (cv + 1) <= M + 1 /\ u64 (0 + 1) <= M + 1) as [? ?].
      { unfold u64. rewrite !N.mod_small by lia. lia. }
      destruct (has _ behavior_cas); [auto|]. destruct (has _ behavior_touch); lia.
    + change (has (cmd_behavior CmdCas) behavior_cas) with true. cbn match.
      assert (Hkn : knows s (e_key e) (e_version e)).
      { destruct (command_conditions CmdCas s now e o Hwf He Hs) as [(_ & _ & Hc)|(x & _ & Hx & Hr & _)]; [apply Hc|].
        rewrite Hx in Hres'. destruct Hr as [(-> & _)|(-> & _)]; destruct Hres'; discriminate. }
      pose proof (quiet_knows _ _ _ _ _ Q Hkn). unfold u64. rewrite N.mod_small by lia. lia.
Qed.
End Ops.
