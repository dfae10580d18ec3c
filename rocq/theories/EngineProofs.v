(** Proofs about the storage engines: Kyoto Cabinet. *)
From stdpp Require Import gmap.
From Coq Require Import Lia ZArith.
From Coq Require Import ZifyBool ZifyNat ZifyN.
From Verif Require Import Base BaseLemmas StorageModel StorageSpec StorageProofs EngineModel EngineSpec.
Local Open Scope N_scope.

Lemma to_int_small n : n <= 2147483647 -> to_int n = Z.of_N n.
Proof.
  intros H. unfold to_int. change (2 ^ 32) with 4294967296. change (2 ^ 31) with 2147483648.
  rewrite N.mod_small by lia. replace (n <? 2147483648) with true by lia. reflexivity.
Qed.

Lemma kch_unser_eq raw e : blen raw <= 2147483647 -> kch_unser (to_int (blen raw)) raw e = unser_header raw e.
Proof.
  intros H. rewrite to_int_small by auto. unfold kch_unser, unser_header.
  replace (Z.of_N (blen raw) <? 4)%Z with (blen raw <? 4) by lia.
  replace (Z.of_N (blen raw) <? 12)%Z with (blen raw <? 12) by lia.
  replace (Z.of_N (blen raw) <? 20)%Z with (blen raw <? 20) by lia.
  replace (Z.of_N (blen raw) <? 28)%Z with (blen raw <? 28) by lia.
  reflexivity.
Qed.

Lemma kch_unser_first raw e : blen raw <= 2147483647 ->
  kch_unser (to_int (blen raw)) (firstn (N.to_nat header_size) raw) e = unser_header (firstn (N.to_nat header_size) raw) e.
Proof.
  intros H. rewrite to_int_small by auto. unfold kch_unser, unser_header.
  set (f := firstn _ raw).
  assert (L : blen f = N.min 28 (blen raw)).
  { unfold f, blen. rewrite firstn_length. unfold header_size. lia. }
  clearbody f.
  replace (Z.of_N (blen raw) <? 4)%Z with (blen f <? 4) by lia.
  replace (Z.of_N (blen raw) <? 12)%Z with (blen f <? 12) by lia.
  replace (Z.of_N (blen raw) <? 20)%Z with (blen f <? 20) by lia.
  replace (Z.of_N (blen raw) <? 28)%Z with (blen f <? 28) by lia.
  reflexivity.
Qed.

Definition small (s : store) : Prop := forall k raw, db s !! k = Some raw -> blen raw <= 2147483647.

Lemma kch_header_eq s k e : small s -> kch_get_header s k e = get_header s k e.
Proof.
  intros H. unfold kch_get_header, get_header. destruct (db s !! k) as [raw|] eqn:E; [|reflexivity].
  pose proof (H _ _ E) as L. rewrite kch_unser_first by auto. rewrite to_int_small by auto.
  replace (Z.of_N (blen raw) <? 0)%Z with false by lia. reflexivity.
Qed.
Lemma kch_remove_eq s now e b : small s -> kch_remove s now e b = remove s now e b.
Proof. intros H. unfold kch_remove, remove. now rewrite kch_header_eq. Qed.
Lemma kch_get_eq s now e b : small s -> kch_get s now e b = get s now e b.
Proof.
  intros H. unfold kch_get, get. destruct (db s !! e_key e) as [raw|] eqn:E; [|reflexivity].
  rewrite kch_unser_eq by eauto. destruct (unser_header raw e) as [e1 ok]. now rewrite kch_remove_eq.
Qed.
Lemma kch_current_eq s now k b : small s -> kch_current s now k b = current_entry s now k b.
Proof. intros H. unfold kch_current, current_entry. now rewrite kch_get_eq, kch_header_eq. Qed.

Lemma kch_set_eq s now e b o : small s -> set s now e b = Some o -> kch_set s now e b = Some o.
Proof.
  intros H. unfold kch_set, set. rewrite kch_current_eq by auto.
  destruct (current_entry s now (e_key e) b) as [[s1 cur] ex].
  repeat (match goal with |- (if ?c then _ else _) = _ -> _ => destruct c end; [exact (fun x => x)|]).
  destruct (next_version _ cur e b) as [r|v]; [exact (fun x => x)|].
  destruct (has b (N.lor behavior_append behavior_prepend)).
  - match goal with |- (if ?c then _ else _) = _ -> _ => destruct c end; [exact (fun x => x)|].
    destruct (memcpy (e_data cur) (e_size cur)); [|exact (fun x => x)].
    destruct (memcpy (e_data (with_version e v)) _); [|exact (fun x => x)].
    cbv zeta. destruct (db_put _ _ _) eqn:P; [|discriminate]. apply db_put_inv in P as (_ & ->). exact (fun x => x).
  - destruct (has b behavior_touch).
    + destruct (memcpy (e_data cur) (e_size cur)); [|exact (fun x => x)].
      cbv zeta. destruct (db_put _ _ _) eqn:P; [|discriminate]. apply db_put_inv in P as (_ & ->). exact (fun x => x).
    + destruct (memcpy (e_data (with_version e v)) _); [|exact (fun x => x)].
      cbv zeta. destruct (db_put _ _ _) eqn:P; [|discriminate]. apply db_put_inv in P as (_ & ->). exact (fun x => x).
Qed.

Lemma kch_incr_eq s now e v i b o : small s -> incr s now e v i b = Some o -> kch_incr s now e v i b = o.
Proof.
  intros H. unfold kch_incr, incr. destruct (db s !! e_key e) as [raw|] eqn:E; [|congruence].
  rewrite kch_unser_eq by eauto. destruct (unser_header raw _) as [e1 ok].
  destruct ok; cbn [negb]; [|congruence]. rewrite kch_remove_eq by auto.
  repeat (match goal with |- (if ?c then _ else _) = _ -> _ => destruct c end; [congruence|]).
  cbv zeta. destruct (db_put _ _ _) eqn:P; [|discriminate]. apply db_put_inv in P as (_ & ->). intros [= <-]. reflexivity.
Qed.

Lemma kch_op_eq s o r : small s -> run_op s o = Some r -> run_op_on Kch s o = Some r.
Proof.
  intros H. destruct o as [now e b|now e v i b|now e b|now e b|]; cbn [run_op run_op_on].
  - now apply kch_set_eq.
  - intros E. f_equal. now apply kch_incr_eq.
  - now rewrite kch_get_eq.
  - now rewrite kch_remove_eq.
  - auto.
Qed.

(** Records stay within the limit. *)
Lemma small_delete s k : small s -> small (set_db s (delete k (db s))).
Proof. intros H k' raw. cbn. rewrite lookup_delete_Some. intros (_ & E). eauto. Qed.
Lemma small_shc s now k e : small s -> small (set_header_cache s now k e).
Proof. exact (fun H => H). Qed.
Lemma small_put s k raw s' : small s -> db_put s k raw = Some s' -> small s'.
Proof.
  intros H P. apply db_put_inv in P as (L & ->). intros k' raw'. cbn. rewrite lookup_insert_Some.
  intros [(_ & <-)|(_ & E)]; eauto.
Qed.
Lemma small_remove s now e b : small s -> small (o_store (remove s now e b)).
Proof.
  intros H. unfold remove. destruct (get_header s (e_key e) (empty_entry [])) as [cur ex].
  destruct (_ && _); [exact H|]. destruct (negb ex); cbn [o_store].
  - destruct (negb _); [now apply small_shc|exact H].
  - apply small_shc. now apply small_delete.
Qed.
Lemma small_get s now e b : small s -> small (o_store (get s now e b)).
Proof.
  intros H. unfold get. destruct (db s !! e_key e) as [raw|]; [|exact H].
  destruct (unser_header raw e) as [e1 ok].
  repeat (match goal with |- small (o_store (if ?c then _ else _)) => destruct c end; try exact H).
  cbn [o_store]. now apply small_remove.
Qed.
Lemma small_current s now k b : small s -> small (fst (fst (current_entry s now k b))).
Proof.
  intros H. unfold current_entry. destruct (has _ _).
  - destruct (match o_res _ with Some result_not_found => true | _ => _ end); cbn; now apply small_get.
  - destruct (get_header s k (empty_entry [])). exact H.
Qed.
Lemma small_set s now e b o : small s -> set s now e b = Some o -> small (o_store o).
Proof.
  intros H. unfold set. pose proof (small_current s now (e_key e) b H) as H1.
  destruct (current_entry s now (e_key e) b) as [[s1 cur] ex]. cbn [fst] in H1.
  repeat (match goal with |- (if ?c then _ else _) = _ -> _ => destruct c end; [intros [= <-]; exact H1|]).
  destruct (next_version _ cur e b) as [r|v]; [intros [= <-]; exact H1|].
  destruct (has b (N.lor behavior_append behavior_prepend)).
  - match goal with |- (if ?c then _ else _) = _ -> _ => destruct c end; [intros [= <-]; exact H1|].
    destruct (memcpy (e_data cur) (e_size cur)); [|discriminate].
    destruct (memcpy (e_data (with_version e v)) _); [|discriminate].
    cbv zeta. destruct (db_put _ _ _) eqn:P; [|discriminate]. intros [= <-].
    apply small_put in P; auto. destruct (has b behavior_touch); exact P.
  - destruct (has b behavior_touch).
    + destruct (memcpy (e_data cur) (e_size cur)); [|discriminate].
      cbv zeta. destruct (db_put _ _ _) eqn:P; [|discriminate]. intros [= <-].
      apply small_put in P; auto.
    + destruct (memcpy (e_data (with_version e v)) _); [|discriminate].
      cbv zeta. destruct (db_put _ _ _) eqn:P; [|discriminate]. intros [= <-].
      apply small_put in P; auto.
Qed.
Lemma small_incr s now e v i b o : small s -> incr s now e v i b = Some o -> small (o_store o).
Proof.
  intros H. unfold incr. destruct (db s !! e_key e) as [raw|] eqn:E; [|intros [= <-]; exact H].
  destruct (unser_header raw _) as [e1 ok]. destruct ok; cbn [negb]; [|intros [= <-]; exact H].
  match goal with |- (if ?c then _ else _) = _ -> _ => destruct c end; [intros [= <-]; exact H|].
  match goal with |- (if ?c then _ else _) = _ -> _ => destruct c end.
  { intros [= <-]. cbn [o_store]. now apply small_remove. }
  cbv zeta. destruct (db_put _ _ _) eqn:P; [|discriminate]. intros [= <-].
  apply small_put in P; auto.
Qed.
Lemma small_op s o r : small s -> run_op s o = Some r -> small (o_store r).
Proof.
  intros H. destruct o as [now e b|now e v i b|now e b|now e b|]; cbn [run_op].
  - now apply small_set.
  - now apply small_incr.
  - intros [= <-]. now apply small_get.
  - intros [= <-]. now apply small_remove.
  - intros [= <-]. intros k raw. cbn. rewrite lookup_empty. discriminate.
Qed.

Lemma kch_outcomes s l rs : small s -> outcomes Tch s l = Some rs -> outcomes Kch s l = Some rs.
Proof.
  revert s rs. induction l as [|o l IH]; intros s rs H; [exact (fun x => x)|].
  cbn [outcomes]. change (run_op_on Tch s o) with (run_op s o).
  destruct (run_op s o) as [r|] eqn:E; [|discriminate].
  rewrite (kch_op_eq s o r H E).
  destruct (outcomes Tch (o_store r) l) as [rs'|] eqn:E'; [|discriminate].
  intros [= <-]. rewrite (IH _ _ (small_op _ _ _ H E) E'). reflexivity.
Qed.

Lemma init_small n : small (init_store n).
Proof. intros k raw. cbn. rewrite lookup_empty. discriminate. Qed.

(** ** Locks *)
Lemma locks_fine g slot k : g <> Tcb -> lock_run [] (expired_incr_locks g slot k) = Some [].
Proof.
  intros H. destruct g; [|congruence|]; cbn; rewrite ?Nat.eqb_refl; cbn; rewrite ?Nat.eqb_refl; reflexivity.
Qed.
Lemma locks_tcb slot k : lock_run [] (expired_incr_locks Tcb slot k) = None <-> slot k = slot [].
Proof.
  cbn. destruct (Nat.eqb (slot k) (slot [])) eqn:E; cbn.
  - apply Nat.eqb_eq in E. tauto.
  - rewrite !Nat.eqb_refl. cbn. rewrite ?E, ?Nat.eqb_refl. cbn. split; [|intros X; apply Nat.eqb_neq in E; congruence].
    destruct (slot k); discriminate.
Qed.
