(** Property theorems for the storage engine (C01-C12).  Vocabulary:
    StorageSpec.v.  Model: StorageModel.v. *)
From Coq Require Import String.
From stdpp Require Import gmap.
From Verif Require Import Base StorageModel StorageSpec StorageProofs2 StorageProofs3 StorageProofs4
  StorageProofs5 StorageProofs6 StorageProofs7.
Local Open Scope N_scope.

(** Concrete data for the examples. *)
Definition kA : key := [107; 49].
Definition kB : key := [107; 50].
Definition ent (k : key) (fl : N) (ex : Z) (ve : N) (d : bytes) : entry := mkEntry k fl ex (blen d) ve 0 d.
Definition st0 : store := init_store 4.
Definition after (s : store) (l : list op) : store := match run s l with Some s' => s' | None => s end.
Definition res_of (o : option outcome) : option result := match o with Some r => o_res r | None => None end.

(** Every state reached from an empty node by well-formed operations is
    well formed, so the theorems below apply to all reachable states. *)
Theorem reachable_wf n l s : Forall wf_op l -> Forall sane_op l -> run (init_store n) l = Some s -> wf_store s.
Proof. exact (run_wf l (init_store n) s (init_wf n)). Qed.
Print Assumptions reachable_wf.

(** C01. A successful store (STORED/TOUCHED) establishes exactly the record the
    command describes, and every later read of the key that finds it unexpired
    returns flag, expiry, length, bytes and version of that record. *)
Theorem c01_store_then_get s now e b o : wf_store s -> wf_entry e -> sane_behavior b ->
  set s now e b = Some o ->
  o_res o = Some result_stored \/ o_res o = Some result_touched ->
  let r := rec_of (o_entry o) in
  o_ret o = 0%Z
  /\ wf_rec r /\ holds (o_store o) (e_key e) (Some r)
  /\ (exists cv, knows s (e_key e) cv /\ r_version r = assigned_version b e cv)
  /\ (exists old, r = new_record b e old (r_version r)
        /\ (reads_record b = true -> live s now (e_key e) old))
  /\ (forall now' q bq, e_key q = e_key e ->
        ~ expired now' r \/ has bq behavior_skip_timestamp = true ->
        let g := get (o_store o) now' q bq in
        o_ret g = 0%Z /\ o_res g = Some result_none /\ o_store g = o_store o
        /\ rec_of (o_entry g) = r /\ e_size (o_entry g) = blen (r_data r) /\ e_key (o_entry g) = e_key e).
Proof. exact (store_then_get s now e b o). Qed.
Print Assumptions c01_store_then_get.
Example c01_nonvacuous :
  let s1 := after st0 [OSet 100 (ent kA 7 0 0 [65; 66]) 0] in
  res_of (set s1 200 (ent kA 9 500 0 [67]) (cmd_behavior CmdAppend)) = Some result_stored
  /\ res_of (set s1 200 (ent kA 9 500 0 []) (cmd_behavior CmdTouch)) = Some result_touched
  /\ e_data (o_entry (get (after s1 [OSet 200 (ent kA 9 500 0 [67]) (cmd_behavior CmdAppend)]) 300 (ent kA 0 0 0 []) 0)) = [65; 66; 67].
Proof. vm_compute. auto. Qed.

(** C01. Stores within the size limit never run into undefined behaviour. *)
Theorem c01_store_defined s now e b : wf_store s -> wf_entry e -> sane_behavior b ->
  blen (e_data e) <= 2147483647 - 28 ->
  (has b behavior_append = true \/ has b behavior_prepend = true ->
     forall r, live s now (e_key e) r -> blen (r_data r) + blen (e_data e) <= 2147483647 - 28) ->
  exists o, set s now e b = Some o.
Proof. exact (set_defined s now e b). Qed.
Print Assumptions c01_store_defined.

(** C01. The command parser lets sizes up to 2147483647 through
    ([max_data_size], storage.cc:150-153), but header and data together then
    exceed the [int] length of the database call. *)
Theorem c01_oversize_refuted : exists d : bytes, blen d = max_data_size /\ wf_bytes d
  /\ forall now k, set (init_store 4) now (mkEntry k 0 0 (blen d) 0 0 d) 0 = None.
Proof. exact oversize_refuted. Qed.
Print Assumptions c01_oversize_refuted.

(** C02. *)
Theorem c02_frame s o r k : wf_store s -> wf_op o -> sane_op o -> op_key o = Some k ->
  run_op s o = Some r -> same_reads_for (fun k' => k' <> k) s (o_store r).
Proof. exact (frame_reads s o r k). Qed.
Print Assumptions c02_frame.
Example c02_nonvacuous :
  let s1 := after st0 [OSet 100 (ent kA 7 0 0 [65; 66]) 0] in
  res_of (run_op s1 (OSet 100 (ent kB 1 0 0 [67]) 0)) = Some result_stored
  /\ o_res (get s1 100 (ent kA 0 0 0 []) 0) = Some result_none.
Proof. vm_compute. auto. Qed.

(** C03. Along any history in which the key is never forgotten, the version
    known for it never decreases ... *)
Theorem c03_version_monotone l s s' k v v' M :
  wf_store s -> Forall wf_op l -> Forall sane_op l -> Forall version_checked l ->
  never_forgets k s l -> run s l = Some s' -> knows s k v -> knows s' k v' ->
  v <= M -> Forall (fun o => op_version o <= M) l -> M + N.of_nat (length l) < 2 ^ 64 ->
  v <= v' /\ v' <= M + N.of_nat (length l).
Proof. exact (history_version l s s' k v v' M). Qed.
Print Assumptions c03_version_monotone.

(** ... and each store answered STORED gets a version above everything known
    before it, and below or equal to everything known later; so successive
    successful stores have strictly increasing versions. *)
Theorem c03_stored_strict l1 o l2 s s1 r s' k v v' M :
  wf_store s -> Forall wf_op (l1 ++ o :: l2) -> Forall sane_op (l1 ++ o :: l2) ->
  Forall version_checked (l1 ++ o :: l2) -> never_forgets k s (l1 ++ o :: l2) ->
  run s l1 = Some s1 -> run_op s1 o = Some r -> run (o_store r) l2 = Some s' ->
  knows s k v -> knows s' k v' -> v <= M -> Forall (fun o => op_version o <= M) (l1 ++ o :: l2) ->
  M + N.of_nat (length (l1 ++ o :: l2)) < 2 ^ 64 ->
  op_key o = Some k -> o_res r = Some result_stored ->
  v < e_version (o_entry r) /\ e_version (o_entry r) <= v'.
Proof. exact (history_stored l1 o l2 s s1 r s' k v v' M). Qed.
Print Assumptions c03_stored_strict.

(** The "never forgotten" hypothesis holds for every history over at most as
    many keys as the tombstone cache has places. *)
Theorem c03_small_key_set_never_forgets K l s k :
  wf_store s -> Forall wf_op l -> Forall sane_op l ->
  Forall (fun o => exists k', op_key o = Some k' /\ In k' K) l ->
  (forall k', tomb s k' <> None -> In k' K) -> N.of_nat (length K) <= hcache_size s -> never_forgets k s l.
Proof. exact (small_key_set_never_forgets K l s k). Qed.
Print Assumptions c03_small_key_set_never_forgets.
Definition c03_hist : list op :=
  [OSet 100 (ent kA 0 0 0 [65]) 0; OSet 101 (ent kA 0 0 0 [66]) 0; ORemove 102 (ent kA 0 0 0 []) 0;
   OSet 103 (ent kB 0 0 0 [67]) 0; OSet 104 (ent kA 0 0 0 [68]) 0].
Example c03_nonvacuous :
  Forall wf_op c03_hist /\ Forall sane_op c03_hist /\ Forall version_checked c03_hist
  /\ Forall (fun o => exists k', op_key o = Some k' /\ In k' [kA; kB]) c03_hist
  /\ e_version (o_entry (get (after st0 c03_hist) 200 (ent kA 0 0 0 []) 0)) = 3.
Proof.
  assert (W : forall l, Forall (fun c => 0 <= c < 256) l -> wf_bytes l) by (intros l H; eapply Forall_impl; [exact H|]; cbn; intros; red; lia).
  unfold c03_hist. split; [|split; [|split; [|split]]].
  - repeat constructor; cbn; try lia; apply W; repeat constructor; lia.
  - repeat constructor; cbn; intros; discriminate.
  - repeat constructor.
  - repeat constructor; [exists kA|exists kA|exists kA|exists kB|exists kA]; cbn; auto.
  - vm_compute. reflexivity.
Qed.

(** Beyond that condition the property fails: the bounded tombstone cache
    evicts the tombstone of [kA], whose next store restarts at version 1 although
    version 2 was visible before ... *)
Theorem c03_eviction_refuted : exists l1 l2 : list op,
  let s := init_store 1 in
  e_version (o_entry (get (after s l1) 50 (ent kA 0 0 0 []) 0)) = 2
  /\ e_version (o_entry (get (after s (l1 ++ l2)) 200 (ent kA 0 0 0 []) 0)) = 1
  /\ Forall version_checked (l1 ++ l2).
Proof.
  exists [OSet 10 (ent kA 0 0 0 [65]) 0; OSet 11 (ent kA 0 0 0 [66]) 0],
         [ORemove 12 (ent kA 0 0 0 []) 0; OSet 13 (ent kB 0 0 0 [67]) 0; ORemove 14 (ent kB 0 0 0 []) 0;
          OSet 15 (ent kA 0 0 0 [68]) 0].
  split; [vm_compute; reflexivity|]. split; [vm_compute; reflexivity|]. repeat constructor.
Qed.
Print Assumptions c03_eviction_refuted.

(** ... and flush_all restarts every key. *)
Theorem c03_flush_refuted : exists l1 l2 : list op,
  e_version (o_entry (get (after st0 l1) 50 (ent kA 0 0 0 []) 0)) = 2
  /\ e_version (o_entry (get (after st0 (l1 ++ l2)) 200 (ent kA 0 0 0 []) 0)) = 1.
Proof.
  exists [OSet 10 (ent kA 0 0 0 [65]) 0; OSet 11 (ent kA 0 0 0 [66]) 0],
         [OTruncate; OSet 15 (ent kA 0 0 0 [68]) 0].
  split; vm_compute; reflexivity.
Qed.
Print Assumptions c03_flush_refuted.

(** C04, C05. Exact preconditions of every store command: it stores iff
    [can_store]; otherwise it gives the protocol's refusal and changes nothing a
    client can see. *)
Theorem c05_command_conditions c s now e o : wf_store s -> wf_entry e ->
  set s now e (cmd_behavior c) = Some o ->
  (o_ret o = 0%Z /\ o_res o = Some (store_answer c) /\ can_store c s now e)
  \/ (exists r, o_ret o = 0%Z /\ o_res o = Some r /\ refuse_answer c s now e r /\ ~ can_store c s now e
        /\ (c <> CmdAppend -> c <> CmdPrepend -> c <> CmdTouch -> o_store o = s)
        /\ unchanged_from now s (o_store o) /\ o_entry o = e).
Proof. exact (command_conditions c s now e o). Qed.
Print Assumptions c05_command_conditions.
Example c05_nonvacuous :
  let s1 := after st0 [OSet 100 (ent kA 7 0 0 [65; 66]) 0] in
  res_of (set s1 200 (ent kA 1 0 0 [67]) (cmd_behavior CmdAdd)) = Some result_not_stored
  /\ res_of (set s1 200 (ent kB 1 0 0 [67]) (cmd_behavior CmdAdd)) = Some result_stored
  /\ res_of (set s1 200 (ent kB 1 0 0 [67]) (cmd_behavior CmdReplace)) = Some result_not_stored
  /\ res_of (set s1 200 (ent kB 1 0 0 [67]) (cmd_behavior CmdTouch)) = Some result_not_found
  /\ res_of (set s1 200 (ent kA 1 0 1 [67]) (cmd_behavior CmdCas)) = Some result_stored
  /\ res_of (set s1 200 (ent kA 1 0 2 [67]) (cmd_behavior CmdCas)) = Some result_exists
  /\ res_of (set s1 200 (ent kB 1 0 2 [67]) (cmd_behavior CmdCas)) = Some result_not_found.
Proof. vm_compute. repeat split. Qed.

(** C04. Of two cas commands with the same token at most one succeeds,
    whatever version-checked operations run in between. *)
Theorem c04_cas_one_winner s now1 e1 b1 o1 l s2 now2 e2 b2 o2 M :
  wf_store s -> wf_entry e1 -> wf_entry e2 -> is_i64 now1 -> is_i64 now2 ->
  sane_behavior b1 -> sane_behavior b2 ->
  has b1 behavior_cas = true -> has b2 behavior_cas = true ->
  has b1 behavior_skip_version = false ->
  e_key e1 = e_key e2 -> e_version e1 = e_version e2 ->
  Forall wf_op l -> Forall sane_op l -> Forall version_checked l ->
  never_forgets (e_key e1) s (OSet now1 e1 b1 :: l) ->
  Forall (fun o => op_version o <= M) (OSet now1 e1 b1 :: l) -> M + N.of_nat (length l) + 2 < 2 ^ 64 ->
  set s now1 e1 b1 = Some o1 -> o_res o1 = Some result_stored ->
  run (o_store o1) l = Some s2 ->
  set s2 now2 e2 b2 = Some o2 -> o_res o2 <> Some result_stored.
Proof. exact (cas_one_winner s now1 e1 b1 o1 l s2 now2 e2 b2 o2 M). Qed.
Print Assumptions c04_cas_one_winner.
(** When the tombstone is evicted in between, the token can win twice. *)
Theorem c04_eviction_refuted : exists (s : store) (e : entry) (l : list op),
  wf_store s /\ res_of (set s 20 e behavior_cas) = Some result_stored
  /\ Forall version_checked l
  /\ res_of (set (after s (OSet 20 e behavior_cas :: l)) 40 e behavior_cas) = Some result_stored.
Proof.
  exists (after (init_store 0) [OSet 10 (ent kA 0 0 0 [65]) 0]), (ent kA 0 0 1 [66]),
    [ORemove 21 (ent kA 0 0 0 []) 0; OSet 22 (ent kA 0 0 0 [67]) 0].
  split; [|split; [vm_compute; reflexivity|split; [repeat constructor|vm_compute; reflexivity]]].
  apply (reachable_wf 0 [OSet 10 (ent kA 0 0 0 [65]) 0]); [| |reflexivity].
  - repeat constructor; cbn; try lia.
  - repeat constructor; cbn; intros; discriminate.
Qed.
Print Assumptions c04_eviction_refuted.

(** C06. get answers exactly what is visible at the node's clock: the live
    record, or NOT_FOUND; expired records are never returned, live ones never
    dropped. *)
Theorem c06_get_exact s now e b v : wf_store s -> has b behavior_skip_timestamp = false ->
  visible s now (e_key e) v ->
  o_ret (get s now e b) = 0%Z /\
  match v with
  | Some r => o_res (get s now e b) = Some result_none /\ o_store (get s now e b) = s
      /\ rec_of (o_entry (get s now e b)) = r /\ e_size (o_entry (get s now e b)) = blen (r_data r)
  | None => o_res (get s now e b) = Some result_not_found
      /\ holds (o_store (get s now e b)) (e_key e) None
      /\ unchanged_from now s (o_store (get s now e b))
  end.
Proof. exact (get_exact s now e b v). Qed.
Print Assumptions c06_get_exact.
Theorem c06_visible_total s now k : wf_store s -> exists v, visible s now k v.
Proof. exact (visible_total s now k). Qed.
Print Assumptions c06_visible_total.
Example c06_nonvacuous :
  let s1 := after st0 [OSet 100 (ent kA 7 150 0 [65; 66]) 0] in
  o_res (get s1 149 (ent kA 0 0 0 []) 0) = Some result_none
  /\ o_res (get s1 150 (ent kA 0 0 0 []) 0) = Some result_not_found
  /\ o_res (remove s1 150 (ent kA 0 0 0 []) 0) = Some result_not_found
  /\ res_of (set s1 150 (ent kA 0 0 0 [67]) behavior_add) = Some result_stored.
Proof. vm_compute. auto. Qed.

(** C06, C08. delete *)
Theorem c08_remove_exact s now e b : wf_store s -> has b behavior_skip_timestamp = false ->
  has b behavior_skip_version = false -> has b behavior_version_equal = false ->
  let o := remove s now e b in
  o_ret o = 0%Z
  /\ (forall r, live s now (e_key e) r ->
        (e_version e = 0 \/ r_version r <= e_version e ->
           o_res o = Some result_deleted /\ holds (o_store o) (e_key e) None)
        /\ (e_version e <> 0 -> e_version e < r_version r ->
           o_res o = Some result_not_found /\ o_store o = s))
  /\ ((forall r, ~ live s now (e_key e) r) -> o_res o = Some result_not_found /\ unchanged_from now s (o_store o)).
Proof. exact (remove_exact s now e b). Qed.
Print Assumptions c08_remove_exact.

(** C07. *)
Theorem c07_incr_exact s now e v i b o : wf_store s -> v < 2 ^ 64 -> has b behavior_skip_timestamp = false ->
  incr s now e v i b = Some o ->
  o_ret o = 0%Z
  /\ (forall r n, live s now (e_key e) r -> starts_with_number (r_data r) n ->
       o_res o = Some result_stored
       /\ exists d, is_numeral d (if i then N.min (n + v) (2 ^ 64 - 1) else n - v)
          /\ holds (o_store o) (e_key e) (Some (mkRec (r_flag r) (r_expire r) (u64 (r_version r + 1)) d))
          /\ rec_of (o_entry o) = mkRec (r_flag r) (r_expire r) (u64 (r_version r + 1)) d)
  /\ ((forall r, ~ live s now (e_key e) r) ->
       o_res o = Some result_not_found /\ unchanged_from now s (o_store o)).
Proof. exact (incr_exact s now e v i b o). Qed.
Print Assumptions c07_incr_exact.
(** Every data string starts with exactly one number in that sense, and incr
    is always defined. *)
Theorem c07_number_total d : exists n, starts_with_number d n /\ forall m, starts_with_number d m -> m = n.
Proof. exact (ex_intro _ (leading_number d) (conj (leading_number_spec d)
  (fun m H => starts_with_number_fun d m (leading_number d) H (leading_number_spec d)))). Qed.
Print Assumptions c07_number_total.
Theorem c07_incr_defined s now e v i b : wf_store s -> v < 2 ^ 64 -> exists o, incr s now e v i b = Some o.
Proof. exact (incr_defined s now e v i b). Qed.
Print Assumptions c07_incr_defined.
Example c07_nonvacuous :
  let s1 := after st0 [OSet 100 (ent kA 7 0 0 (s2b "41 apples"%string)) 0] in
  (match incr s1 100 (ent kA 0 0 0 []) 1 true 0 with Some o => e_data (o_entry o) | None => [] end) = s2b "42"%string
  /\ (match incr s1 100 (ent kA 0 0 0 []) 50 false 0 with Some o => e_data (o_entry o) | None => [] end) = s2b "0"%string
  /\ (match incr s1 100 (ent kA 0 0 0 []) (2 ^ 64 - 1) true 0 with Some o => e_data (o_entry o) | None => [] end)
     = s2b "18446744073709551615"%string.
Proof. vm_compute. auto. Qed.

(** C08. A deleted key reads as not found until a store on it succeeds,
    whatever happens in between. *)
Theorem c08_stays_deleted l s s' k : wf_store s -> Forall wf_op l -> Forall sane_op l ->
  run s l = Some s' -> holds s k None -> no_store k s l ->
  holds s' k None /\ forall now e b, e_key e = k -> o_res (get s' now e b) = Some result_not_found.
Proof.
  exact (fun Hwf Hw Hs Hr Hh Hn => let H := stays_absent l s s' k Hwf Hw Hs Hr Hh Hn in
    conj H (fun now e b Hk => f_equal o_res (StorageProofs.get_none s' now e b (eq_rect_r (fun k => holds s' k None) H Hk)))).
Qed.
Print Assumptions c08_stays_deleted.

(** A successful delete leaves a tombstone with at least the deleted version. *)
Theorem c08_delete_leaves s now e b : wf_store s -> wf_entry e -> is_i64 now -> 1 <= hcache_size s ->
  has b behavior_skip_version = false ->
  let o := remove s now e b in
  o_res o = Some result_deleted ->
  exists r, holds s (e_key e) (Some r) /\ wf_rec r /\ holds (o_store o) (e_key e) None
  /\ exists w, knows (o_store o) (e_key e) w /\ r_version r <= w /\ remembered (o_store o) (e_key e).
Proof. exact (delete_leaves s now e b). Qed.
Print Assumptions c08_delete_leaves.

(** A dump record no newer than what the node knows is refused (for any later
    state: by [c03_version_monotone] the known version stays at least that of
    the deleted record while it is remembered). *)
Theorem c08_stale_dump_rejected s now e o v : wf_store s -> wf_entry e ->
  set s now e behavior_dump = Some o -> knows s (e_key e) v -> 0 < e_version e <= v ->
  o_ret o = 0%Z /\ o_res o = Some result_not_stored /\ o_store o = s /\ o_entry o = e.
Proof. exact (dump_stale s now e o v). Qed.
Print Assumptions c08_stale_dump_rejected.

(** Put together: after a delete answered DELETED, a dump record of the deleted
    version or older is refused in every later state, as long as the node does
    not forget the key. *)
Theorem c08_deleted_version_stays_out s now e b l s' now' e' o M :
  wf_store s -> wf_entry e -> is_i64 now -> 1 <= hcache_size s ->
  has b behavior_skip_version = false ->
  o_res (remove s now e b) = Some result_deleted ->
  Forall wf_op l -> Forall sane_op l -> Forall version_checked l ->
  never_forgets (e_key e) (o_store (remove s now e b)) l ->
  run (o_store (remove s now e b)) l = Some s' ->
  knows (o_store (remove s now e b)) (e_key e) M ->
  (exists M', M <= M' /\ Forall (fun o => op_version o <= M') l /\ M' + N.of_nat (length l) < 2 ^ 64) ->
  wf_entry e' -> e_key e' = e_key e -> 0 < e_version e' ->
  (forall r, holds s (e_key e) (Some r) -> wf_rec r -> e_version e' <= r_version r) ->
  set s' now' e' behavior_dump = Some o ->
  o_res o = Some result_not_stored /\ o_store o = s'.
Proof. exact (deleted_version_stays_out s now e b l s' now' e' o M). Qed.
Print Assumptions c08_deleted_version_stays_out.
Example c08_nonvacuous :
  let s1 := after st0 [OSet 100 (ent kA 7 0 5 [65; 66]) 0; ORemove 101 (ent kA 0 0 0 []) 0] in
  o_res (remove (after st0 [OSet 100 (ent kA 7 0 5 [65; 66]) 0]) 101 (ent kA 0 0 0 []) 0) = Some result_deleted
  /\ res_of (set s1 200 (ent kA 7 0 5 [65; 66]) behavior_dump) = Some result_not_stored
  /\ res_of (set s1 200 (ent kA 7 0 6 [65; 66]) behavior_dump) = Some result_stored.
Proof. vm_compute. auto. Qed.

(** C09. *)
Theorem c09_flush_all_empties s k : holds (truncate s) k None /\ tomb (truncate s) k = None.
Proof. exact (truncate_empty s k). Qed.
Print Assumptions c09_flush_all_empties.
Theorem c09_flush_all_reads s now e b : o_res (get (truncate s) now e b) = Some result_not_found
  /\ o_ret (get (truncate s) now e b) = 0%Z.
Proof. exact (conj (f_equal o_res (StorageProofs.get_none (truncate s) now e b (proj1 (truncate_empty s (e_key e)))))
  (f_equal o_ret (StorageProofs.get_none (truncate s) now e b (proj1 (truncate_empty s (e_key e)))))). Qed.
Print Assumptions c09_flush_all_reads.

(** C10. After any delivery of versioned records of a key (any order, any
    duplicates, mixed with reads and with anything on other keys) the replica
    holds exactly the newest of them and of its initial record. *)
Theorem c10_newest_wins l s s' k init :
  wf_store s -> Forall wf_op l -> Forall sane_op l -> Forall (delivery k) l -> run s l = Some s' ->
  holds s k init -> (forall r, init = Some r -> wf_rec r) -> fresh k init l ->
  (dumps k l -> init = None -> tomb s k = None) ->
  (holds s' k None /\ init = None /\ (forall o r, In o l -> ~ delivers k o r))
  \/ (exists r, holds s' k (Some r) /\ wf_rec r /\ newest k init l r).
Proof. exact (delivery_final l s s' k init). Qed.
Print Assumptions c10_newest_wins.

(** Two replicas that received the same records hold the same. *)
Theorem c10_replicas_agree k init s1 l1 s1' s2 l2 s2' :
  wf_store s1 -> Forall wf_op l1 -> Forall sane_op l1 -> Forall (delivery k) l1 -> run s1 l1 = Some s1' ->
  wf_store s2 -> Forall wf_op l2 -> Forall sane_op l2 -> Forall (delivery k) l2 -> run s2 l2 = Some s2' ->
  holds s1 k init -> holds s2 k init -> (forall r, init = Some r -> wf_rec r) ->
  fresh k init l1 -> fresh k init l2 ->
  (dumps k l1 -> init = None -> tomb s1 k = None) ->
  (dumps k l2 -> init = None -> tomb s2 k = None) ->
  (forall r, (exists o, In o l1 /\ delivers k o r) <-> (exists o, In o l2 /\ delivers k o r)) ->
  (forall r r', (init = Some r \/ exists o, In o l1 /\ delivers k o r) ->
     (init = Some r' \/ exists o, In o l1 /\ delivers k o r') -> r_version r = r_version r' -> r = r') ->
  forall o, holds s1' k o <-> holds s2' k o.
Proof. exact (replicas_agree k init s1 l1 s1' s2 l2 s2'). Qed.
Print Assumptions c10_replicas_agree.

(** One delivery: older or equal versions are answered NOT_STORED, newer ones
    STORED. *)
Theorem c10_versioned_set_step s now e b o init : wf_store s -> wf_entry e -> is_i64 now ->
  (b = 0 \/ b = behavior_dump) -> e_version e <> 0 ->
  holds s (e_key e) init -> (forall r, init = Some r -> wf_rec r /\ ~ expired now r) ->
  (b = behavior_dump -> init = None -> tomb s (e_key e) = None) ->
  set s now e b = Some o ->
  match init with
  | Some r => if e_version e <=? r_version r
      then o_store o = s /\ o_res o = Some result_not_stored
      else holds (o_store o) (e_key e) (Some (rec_of e)) /\ o_res o = Some result_stored
  | None => holds (o_store o) (e_key e) (Some (rec_of e)) /\ o_res o = Some result_stored
  end.
Proof. exact (versioned_set_step s now e b o init). Qed.
Print Assumptions c10_versioned_set_step.
Definition c10_recs (order : list N) : list op := map (fun v => OSet 100 (ent kA 0 0 v [v]) 0) order.
Example c10_nonvacuous :
  Forall (delivery kA) (c10_recs [3; 1; 5; 2; 5])
  /\ e_data (o_entry (get (after st0 (c10_recs [3; 1; 5; 2; 5])) 100 (ent kA 0 0 0 []) 0)) = [5]
  /\ e_data (o_entry (get (after st0 (c10_recs [5; 1; 2; 3])) 100 (ent kA 0 0 0 []) 0)) = [5]
  /\ fresh kA None (c10_recs [3; 1; 5; 2; 5]).
Proof.
  split; [repeat constructor; cbn; discriminate|]. split; [vm_compute; reflexivity|]. split; [vm_compute; reflexivity|].
  intros o r Hin _ [?|(o'&Ho'&now&e&b&->&_&->)]; [discriminate|].
  cbn in Ho'. destruct Ho' as [[= <- <- <-]|[[= <- <- <-]|[[= <- <- <-]|[[= <- <- <-]|[[= <- <- <-]|[]]]]]]; cbn; unfold expired; cbn; lia.
Qed.

(** Without the freshness condition convergence fails: an expired newest
    record lets an older one in. *)
Theorem c10_expiry_refuted : exists l1 l2 : list op,
  (forall o, In o l1 <-> In o l2) /\ Forall (delivery kA) l1
  /\ o_res (get (after st0 l1) 100 (ent kA 0 0 0 []) 0) = Some result_not_found
  /\ o_res (get (after st0 l2) 100 (ent kA 0 0 0 []) 0) = Some result_none.
Proof.
  exists [OSet 60 (ent kA 0 0 1 [1]) 0; OSet 60 (ent kA 0 50 2 [2]) 0], [OSet 60 (ent kA 0 50 2 [2]) 0; OSet 60 (ent kA 0 0 1 [1]) 0].
  split; [intros o; cbn; tauto|]. split; [repeat constructor; cbn; discriminate|]. split; vm_compute; reflexivity.
Qed.
Print Assumptions c10_expiry_refuted.

(** C11. Fails of the code: the same set (version 1) and delete (version 2) in
    two orders leave one replica without the key and the other with it. *)
Theorem c11_delete_order_refuted : exists l1 l2 : list op,
  (forall o, In o l1 <-> In o l2) /\ length l1 = length l2 /\ Forall (fun o => op_version o <> 0) l1
  /\ o_res (get (after st0 l1) 100 (ent kA 0 0 0 []) 0) = Some result_not_found
  /\ o_res (get (after st0 l2) 100 (ent kA 0 0 0 []) 0) = Some result_none.
Proof.
  exists [OSet 60 (ent kA 0 0 1 [1]) 0; ORemove 60 (ent kA 0 0 2 []) 0], [ORemove 60 (ent kA 0 0 2 []) 0; OSet 60 (ent kA 0 0 1 [1]) 0].
  split; [intros o; cbn; tauto|]. split; [reflexivity|]. split; [repeat constructor; cbn; discriminate|]. split; vm_compute; reflexivity.
Qed.
Print Assumptions c11_delete_order_refuted.

(** C12. *)
Theorem c12_header_roundtrip e e0 rest : e_flag e < 2 ^ 32 -> is_i64 (e_expire e) -> e_size e < 2 ^ 64 -> e_version e < 2 ^ 64 ->
  unser_header (ser_header e ++ rest) e0
  = (mkEntry (e_key e0) (e_flag e) (e_expire e) (e_size e) (e_version e) (e_option e0) (e_data e0), true)
  /\ blen (ser_header e) = 28.
Proof. exact (header_roundtrip e e0 rest). Qed.
Print Assumptions c12_header_roundtrip.
Theorem c12_short_header_rejected raw e : blen raw < 28 -> snd (unser_header raw e) = false.
Proof. exact (header_short raw e). Qed.
Print Assumptions c12_short_header_rejected.
Theorem c12_reads_header_only raw rest e : blen raw = 28 -> unser_header (raw ++ rest) e = unser_header raw e.
Proof. exact (header_only raw rest e). Qed.
Print Assumptions c12_reads_header_only.
Example c12_nonvacuous :
  unser_header (ser_header (ent kA 4294967295 (-1) 77 [1;2;3])) (empty_entry kB)
  = (mkEntry kB 4294967295 (-1) 3 77 0 [], true).
Proof. vm_compute. reflexivity. Qed.
