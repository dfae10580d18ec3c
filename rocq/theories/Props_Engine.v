(** C59: the choice of the storage engine. *)
From stdpp Require Import gmap.
From Coq Require Import Lia ZArith.
From Coq Require Import ZifyBool ZifyNat ZifyN.
From Verif Require Import Base BaseLemmas StorageModel StorageSpec StorageProofs StorageProofs2 EngineModel EngineSpec EngineProofs EngineProofs2.
Local Open Scope N_scope.

(** Kyoto Cabinet's hash database: every history that is defined with Tokyo Cabinet's (no record beyond
    INT_MAX bytes) has the same outcomes, states included. *)
Theorem c59_kch n l rs : outcomes Tch (init_store n) l = Some rs -> outcomes Kch (init_store n) l = Some rs.
Proof. exact (kch_outcomes (init_store n) l rs (init_small n)). Qed.
Print Assumptions c59_kch.

(** Tokyo Cabinet's B+ tree: every history has the same answers, and is undefined when the other is.
    Missing: histories in which more keys occur than tombstones are kept, or the clock runs backwards;
    the empty key and deletes with a time (refuted below). *)
Theorem c59_tcb_partial n l (K : list key) now :
  N.of_nat (length K) <= n -> ~ In [] K -> (forall o k, In o l -> op_key o = Some k -> In k K) ->
  Forall wf_op l -> Forall sane_op l -> Forall plain_op l -> rising now l ->
  answers Tch (init_store n) l = answers Tcb (init_store n) l.
Proof. intros L E IK. exact (tcb_answers K now _ _ l (sim_init K now n L) E IK). Qed.
Print Assumptions c59_tcb_partial.

(** *** A case *)
Definition ka : key := [97]. Definition kb : key := [98].
Definition item (k : key) (x : Z) (d : bytes) : entry := mkEntry k 0 x (blen d) 0 0 d.
Definition story : list op :=
  [OSet 100 (item ka 150 [53]) 0; OSet 110 (item kb 0 [55]) 0; OIncr 120 (item ka 0 []) 3 true 0;
   OIncr 200 (item ka 0 []) 3 true 0; OGet 201 (item kb 0 []) 0; OSet 202 (item ka 0 [57]) behavior_replace;
   OSet 203 (item ka 0 [57]) behavior_add; ORemove 204 (item kb 0 []) 0; OGet 205 (item ka 0 []) 0].
Example c59_case :
  Forall wf_op story /\ Forall sane_op story /\ Forall plain_op story /\ rising 0 story /\
  (forall o k, In o story -> op_key o = Some k -> In k [ka; kb]) /\
  option_map (map (fun a => snd (fst a))) (answers Tcb (init_store 4) story) =
    Some [Some result_stored; Some result_stored; Some result_stored; Some result_not_found; Some result_none;
          Some result_not_stored; Some result_stored; Some result_deleted; Some result_none] /\
  (** the engines really hold different things in between *)
  option_map (fun rs => map (fun r => size (db (o_store r))) rs) (outcomes Tch (init_store 4) story) <>
  option_map (fun rs => map (fun r => size (db (o_store r))) rs) (outcomes Tcb (init_store 4) story).
Proof.
  repeat match goal with |- _ /\ _ => split end.
  - repeat constructor; cbn; lia.
  - repeat constructor; cbn; discriminate.
  - repeat constructor; cbn; lia.
  - cbn; lia.
  - intros o k I. cbn in I. decompose [or] I; subst; try contradiction; cbn; intros E; injection E as <-; auto.
  - vm_compute. reflexivity.
  - vm_compute. discriminate.
Qed.

(** The empty key (binary clients can use it): an increment of an expired item deletes the item
    stored under the empty key if it has the same version. *)
Theorem c59_tcb_empty_key_refuted :
  let l := [OSet 100 (item [] 0 [49]) 0; OSet 100 (item ka 150 [53]) 0; OIncr 200 (item ka 0 []) 1 true 0; OGet 200 (item [] 0 []) 0] in
  Forall wf_op l /\ Forall plain_op l /\ rising 0 l /\
  option_map (map (fun a => snd (fst a))) (answers Tch (init_store 4) l) =
    Some [Some result_stored; Some result_stored; Some result_not_found; Some result_none] /\
  option_map (map (fun a => snd (fst a))) (answers Tcb (init_store 4) l) =
    Some [Some result_stored; Some result_stored; Some result_not_found; Some result_not_found].
Proof.
  repeat match goal with |- let _ := _ in _ => intro | |- _ /\ _ => split end.
  - repeat constructor; cbn; lia.
  - repeat constructor; cbn; lia.
  - cbn; lia.
  - vm_compute; reflexivity.
  - vm_compute; reflexivity.
Qed.
Print Assumptions c59_tcb_empty_key_refuted.

(** A delete with a time, after an increment of the expired item: with the B+ tree the key stays away until then. *)
Theorem c59_tcb_delete_time_refuted :
  let l := [OSet 100 (item ka 150 [53]) 0; OIncr 200 (item ka 0 []) 1 true 0; ORemove 200 (item ka 1000 []) 0; OSet 201 (item ka 0 [49]) behavior_add] in
  Forall wf_op l /\ rising 0 l /\
  option_map (map (fun a => snd (fst a))) (answers Tch (init_store 4) l) =
    Some [Some result_stored; Some result_not_found; Some result_not_found; Some result_stored] /\
  option_map (map (fun a => snd (fst a))) (answers Tcb (init_store 4) l) =
    Some [Some result_stored; Some result_not_found; Some result_not_found; Some result_not_stored].
Proof.
  repeat match goal with |- let _ := _ in _ => intro | |- _ /\ _ => split end.
  - repeat constructor; cbn; lia.
  - cbn; lia.
  - vm_compute; reflexivity.
  - vm_compute; reflexivity.
Qed.
Print Assumptions c59_tcb_delete_time_refuted.

(** The locks of an increment that meets an expired record: fine with the hash databases; with the B+ tree
    the thread asks for a lock it holds itself, exactly if the key shares the slot of the empty key. *)
Theorem c59_locks g slot k : g <> Tcb -> lock_run [] (expired_incr_locks g slot k) = Some [].
Proof. exact (locks_fine g slot k). Qed.
Print Assumptions c59_locks.
Theorem c59_tcb_lock_refuted slot k : lock_run [] (expired_incr_locks Tcb slot k) = None <-> slot k = slot [].
Proof. exact (locks_tcb slot k). Qed.
Print Assumptions c59_tcb_lock_refuted.
(** A release gives up exactly one hold of that lock, and is possible exactly if the thread has it. *)
Theorem c59_release l held : match lock_step held (Unlock l) with
  | Some h => exists w, In (l, w) held /\ Permutation held ((l, w) :: h)
  | None => ~ In l (map fst held)
  end.
Proof.
  cbn [lock_step]. induction held as [|[l' w] h IH]; cbn [release]; [intros []|].
  assert (Q : lock_eqb l' l = true <-> l' = l).
  { destruct l', l; cbn [lock_eqb]; try (split; discriminate || reflexivity). rewrite Nat.eqb_eq. split; congruence. }
  destruct (lock_eqb l' l) eqn:X.
  - rewrite (proj1 Q eq_refl). exists w. split; [now left|reflexivity].
  - destruct (release l h) as [h'|].
    + destruct IH as (w' & I & P). exists w'. split; [now right|]. rewrite P. apply perm_swap.
    + cbn [map fst In]. intros [E|I]; [|exact (IH I)]. discriminate (proj2 Q E).
Qed.
Print Assumptions c59_release.
(** With one slot this is every key. *)
Example c59_lock_case : lock_run [] (expired_incr_locks Tcb (fun _ => 0%nat) ka) = None
  /\ lock_run [] (expired_incr_locks Tcb (fun k => length k) ka) = Some [].
Proof. split; reflexivity. Qed.

(** A value near the limit of the protocol: Kyoto Cabinet stores it, and cannot read it back. *)
Theorem c59_kch_large_refuted n now e : blen (e_data e) = e_size e -> e_size e <= max_data_size -> max_data_size - 28 < e_size e ->
  exists o, run_op_on Kch (init_store n) (OSet now e 0) = Some o /\ o_res o = Some result_stored /\
    forall now' b, exists p, run_op_on Kch (o_store o) (OGet now' (empty_entry (e_key e)) b) = Some p /\ o_ret p = (-1)%Z.
Proof.
  intros D L1 L2. unfold max_data_size in *.
  unfold run_op_on, kch_set, kch_current. cbn [has N.lor N.land N.eqb negb].
  change (kch_get_header (init_store n) (e_key e) (empty_entry [])) with (empty_entry [], false).
  cbn [current_state has behavior_skip_timestamp N.land N.eqb negb andb e_expire empty_entry Z.ltb Z.compare].
  change (has 0 behavior_add) with false. change (has 0 behavior_replace) with false. change (has 0 behavior_touch) with false.
  cbn [andb]. destruct (next_version st_gone (empty_entry []) e 0) as [r|v] eqn:V.
  { exfalso. revert V. unfold next_version.
    change (has 0 behavior_cas) with false. change (has 0 behavior_touch) with false.
    change (has 0 behavior_skip_version) with false. change (has 0 behavior_dump) with false. cbn.
    destruct (e_version e =? 0); discriminate. }
  change (has 0 (N.lor behavior_append behavior_prepend)) with false. cbv zeta. cbn [e_data with_version e_size].
  rewrite <- D, memcpy_all. eexists. split; [reflexivity|]. split; [reflexivity|].
  intros now' b. eexists. split; [reflexivity|]. unfold kch_get. cbn [o_store e_key empty_entry].
  unfold kch_put. cbn [db set_db]. rewrite lookup_insert.
  set (raw := ser_header _ ++ _).
  assert (B : blen raw = 28 + e_size e).
  { unfold raw. rewrite blen_app, D. unfold ser_header, blen. rewrite !app_length, !le_enc_length. lia. }
  clearbody raw. unfold kch_unser.
  assert (T : (to_int (blen raw) < 4)%Z).
  { unfold to_int. change (2 ^ 32) with 4294967296. change (2 ^ 31) with 2147483648. rewrite N.mod_small by lia.
    destruct (blen raw <? 2147483648) eqn:E; lia. }
  replace (to_int (blen raw) <? 4)%Z with true by lia. reflexivity.
Qed.
Print Assumptions c59_kch_large_refuted.
Example c59_large_case : exists e, blen (e_data e) = e_size e /\ e_size e <= max_data_size /\ max_data_size - 28 < e_size e.
Proof.
  exists (mkEntry ka 0 0 max_data_size 0 0 (List.repeat 0 (N.to_nat max_data_size))). cbn [e_data e_size].
  split; [|unfold max_data_size; lia]. unfold blen. rewrite repeat_length. apply N2Nat.id.
Qed.
