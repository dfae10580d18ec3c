(** C35: concurrent commands. *)
From stdpp Require Import gmap.
From Coq Require Import Lia.
From Verif Require Import Base BaseLemmas StorageModel StorageSpec StorageProofs ConcModel ConcSpec ConcProofs ConcProofs2.
Local Open Scope N_scope.

(** For every number of threads, all their requests and every schedule: the answers are those of the same commands
    executed one after the other in an order compatible with the order of calls and
    returns; once nobody is within a command, every key holds what that order leaves; and
    a thread that ran into undefined behaviour would also do so in that order.
    Missing: a header cache too small for the keys in use; and the removal of an expired record,
    which a get or incr asks for, is a command of its own (see c35_requests_refuted). *)
Theorem c35_linearizable_partial slot nslots s work sched : (forall k, (slot k < nslots)%nat) -> roomy s work ->
  let '(c, tr) := run_conc slot nslots (start s work) sched in
  exists g, linearizable s (calls tr) g /\ (quiet c -> forall k, view (c_store c) k = view g k) /\
    (forall th o, In th (c_threads c) -> ph th = Body o Bad -> one g o = None).
Proof. exact (conc_linearizable slot nslots s work sched). Qed.
Print Assumptions c35_linearizable_partial.

(** A get or incr that runs alone does what StorageModel says. *)
Theorem c35_alone_get s now e b : exists r s1, one s (KGet now e b) = Some (r, s1) /\
  match follow (KGet now e b) r with [] => o_store (get s now e b) = s1 | o :: _ => exists r', one s1 o = Some (r', o_store (get s now e b)) end /\
  r_ret r = o_ret (get s now e b) /\ r_res r = o_res (get s now e b).
Proof. exact (run_cmds_get s now e b). Qed.
Print Assumptions c35_alone_get.
Theorem c35_alone_incr s now e v i b o : incr s now e v i b = Some o -> exists r s1, one s (KIncr now e v i b) = Some (r, s1) /\
  match follow (KIncr now e v i b) r with [] => o_store o = s1 | x :: _ => exists r', one s1 x = Some (r', o_store o) end /\
  r_ret r = o_ret o /\ r_res r = o_res o.
Proof. exact (run_cmds_incr s now e v i b o). Qed.
Print Assumptions c35_alone_incr.

(** Increments of one key add up, whatever else happens to other keys. *)
Theorem c35_increments_partial slot nslots s work sched K r n : (forall k, (slot k < nslots)%nat) -> roomy s work ->
  holds s K (Some r) -> wf_rec r -> r_expire r = 0%Z -> starts_with_number (r_data r) n ->
  Forall (Forall (counter_only K)) work ->
  let c := fst (run_conc slot nslots (start s work) sched) in
  finished c ->
  exists d, holds (c_store c) K (Some (mkRec (r_flag r) 0 (u64 (r_version r + increments K (List.concat work))) d)) /\
    starts_with_number d (N.min (n + added K (List.concat work)) (2 ^ 64 - 1)) /\
    (0 < increments K (List.concat work) -> is_numeral d (N.min (n + added K (List.concat work)) (2 ^ 64 - 1))).
Proof. exact (conc_increments slot nslots s work sched K r n). Qed.
Print Assumptions c35_increments_partial.

(** The locks never block all threads for good. *)
Theorem c35_no_deadlock_partial slot nslots s work sched : (forall k, (slot k < nslots)%nat) -> roomy s work ->
  let c := fst (run_conc slot nslots (start s work) sched) in
  (forall t, step slot nslots c t = None) -> finished c \/ undefined c.
Proof. exact (conc_no_deadlock slot nslots s work sched). Qed.
Print Assumptions c35_no_deadlock_partial.

(** ** Examples *)
Definition kx : key := [120]. Definition ky : key := [121].
Definition slot2 (k : key) : nat := match k with [120] => 0 | _ => 1 end.
Definition cell (k : key) (d : bytes) (exp : Z) (v : N) : entry := mkEntry k 0 exp (blen d) v 0 d.
Definition store_x (r : rec) : store := mkStore {[ kx := encode_rec r ]} [] 16.
Definition ten := store_x (mkRec 0 0 1 [49;48]).
Definition work_incr : list (list ConcModel.cmd) :=
  [ [KIncr 100 (cell kx [] 0 0) 5 true 0; KGet 100 (cell kx [] 0 0) 0];
    [KIncr 100 (cell kx [] 0 0) 7 true 0];
    [KSet 100 (cell ky [49] 0 0) 0; KIncr 100 (cell kx [] 0 0) 1 true 0] ].
Definition sched_incr : list nat := List.concat (List.repeat [0; 1; 2]%nat 40).
Example c35_incr_example : roomy ten work_incr /\ Forall (Forall (counter_only kx)) work_incr /\
  let c := fst (run_conc slot2 2 (start ten work_incr) sched_incr) in
  finished c /\ db (c_store c) !! kx = Some (encode_rec (mkRec 0 0 4 [50;51])).
Proof.
  split; [|split; [|split; [|vm_compute; reflexivity]]].
  - exists [kx; ky]. split; [cbn; lia|]. split; [constructor|]. split; [intros k []|]. intros l o L O _.
    cbn in L. decompose [or] L; subst; cbn in O; decompose [or] O; subst; cbn; auto; contradiction.
  - repeat constructor; cbn; try lia; discriminate.
  - unfold finished. vm_compute. repeat constructor.
Qed.

(** ** The removal of an expired record *)
(** A get meets an expired record (version 1) and releases its locks; flush_all empties
    the database, and a set stores a new value, which gets version 1 again; the
    removal the get then asks for finds version 1 and deletes the new value. *)
Definition old_x := store_x (mkRec 0 50 1 [49]).
Definition e_get : entry := cell kx [] 0 0.
Definition e_set : entry := cell kx [50] 0 0.
Definition work_aba : list (list ConcModel.cmd) := [ [KGet 100 e_get 0]; [KTruncate; KSet 100 e_set 0] ].
Definition sched_aba : list nat := ([0;0;0;0] ++ List.repeat 1 30 ++ List.repeat 0 30)%nat.
Theorem c35_requests_refuted :
  roomy old_x work_aba /\
  (let '(c, tr) := run_conc slot2 2 (start old_x work_aba) sched_aba in
   finished c /\ holds (c_store c) kx None /\
   exists e, In (Res 1 (KSet 100 e_set 0) (mkReply 0 (Some result_stored) e None)) tr) /\
  (forall l s', merge [OGet 100 e_get 0] [OTruncate; OSet 100 e_set 0] l -> run old_x l = Some s' ->
    holds s' kx (Some (mkRec 0 0 1 [50]))).
Proof.
  split; [|split].
  - exists [kx]. split; [cbn; lia|]. split; [constructor|]. split; [intros k []|]. intros l o L O T.
    cbn in L. decompose [or] L; subst; cbn in O; decompose [or] O; subst; cbn in *; auto; try contradiction; discriminate.
  - destruct (run_conc slot2 2 (start old_x work_aba) sched_aba) as [c tr] eqn:R.
    assert (c = fst (run_conc slot2 2 (start old_x work_aba) sched_aba)) as -> by now rewrite R.
    assert (tr = snd (run_conc slot2 2 (start old_x work_aba) sched_aba)) as -> by now rewrite R.
    clear. split; [unfold finished; vm_compute; repeat constructor|]. split; [vm_compute; reflexivity|].
    eexists. vm_compute. repeat (try (left; reflexivity); right).
  - intros l s' M. 
    assert (l = [OGet 100 e_get 0; OTruncate; OSet 100 e_set 0] \/ l = [OTruncate; OGet 100 e_get 0; OSet 100 e_set 0] \/ l = [OTruncate; OSet 100 e_set 0; OGet 100 e_get 0]) as D.
    { repeat match goal with H : merge _ _ _ |- _ => inversion H; clear H; subst end; auto. }
    destruct D as [-> |[-> | ->]]; vm_compute; intros [= <-]; reflexivity.
Qed.
Print Assumptions c35_requests_refuted.
