(** C39, C40: dump and reconstruction. *)
From stdpp Require Import gmap.
From Coq Require Import String Lia ZifyBool ZifyNat ZifyN.
From Verif Require Import Base BaseLemmas StorageModel StorageSpec TextModel TextSpec TextProofs3 KeyResolverModel DumpModel DumpSpec DumpProofs DumpProofs2.
Local Open Scope N_scope.

Definition no_ext (_ : hash_algorithm) (_ : bytes) : Z := 0.
Definition cfg16 := mkConfig 16 1 64.
Definition kA := s2b "a". Definition kB := s2b "b". Definition kC := s2b "c".
Definition rA := mkRec 7 0 3 (s2b "one"). Definition rB := mkRec 0 50 2 (s2b "two"). Definition rC := mkRec 0 0 9 (s2b "three").
Definition donor := mkStore (<[kA := encode_rec rA]> (<[kB := encode_rec rB]> (<[kC := encode_rec rC]> ∅))) [] 16.
Definition quiet_turn (k : key) := mkTurn k 100 false None.
Definition turns_cab := [quiet_turn kC; quiet_turn kA; quiet_turn kB].
Definition nothing := mkStore ∅ [] 16.
Definition calm := mkRound false false 100.

Lemma wf_small r : (r_flag r <? 2 ^ 32) && (0 <=? r_expire r)%Z && (r_expire r <? 1000)%Z && (r_version r <? 1000) && (blen (r_data r) <? 1000) && forallb (fun c => c <? 256) (r_data r) = true -> wf_rec r.
Proof.
  intros H. rewrite !andb_true_iff in H. destruct H as (((((H1 & H2) & H3) & H4) & H5) & H6). unfold wf_rec, is_i64. change (2 ^ 64) with 18446744073709551616. split; [lia|]. split; [clear - H2 H3; lia|]. split; [lia|]. split; [lia|].
  apply List.Forall_forall. rewrite forallb_forall in H6. intros c Hc. specialize (H6 c Hc). unfold is_byte. lia.
Qed.
Lemma wf_put m k r : wf_store (mkStore m [] 16) -> wf_rec r -> wf_store (mkStore (<[k := encode_rec r]> m) [] 16).
Proof. exact (StorageProofs.insert_wf (mkStore m [] 16) k r). Qed.
Lemma nothing_wf : wf_store nothing.
Proof. split; [intros k raw H; discriminate H|]. split; [constructor|]. split; [vm_compute; discriminate|]. intros k x v H. discriminate H. Qed.
Ltac wf_example := repeat (apply wf_put; [|now apply wf_small]); exact nothing_wf.
Lemma donor_wf : wf_store donor. Proof. wf_example. Qed.
Lemma donor_walk : walk donor [kC; kA; kB].
Proof.
  split; [repeat constructor; cbn; intros H; repeat destruct H as [H|H]; discriminate || destruct H|]. intros k. cbn [donor db]. split.
  - intros [<-|[<-|[<-|[]]]]; vm_compute; discriminate.
  - intros H. cbn. destruct (List.list_eq_dec N.eq_dec kA k) as [|N1]; [tauto|]. destruct (List.list_eq_dec N.eq_dec kB k) as [|N2]; [tauto|]. destruct (List.list_eq_dec N.eq_dec kC k) as [|N3]; [tauto|].
    exfalso. apply H. rewrite !lookup_insert_ne by assumption. reflexivity.
Qed.

(** ** C40 *)
(** For every database and partition: the answer to a dump request is one record for
    each unexpired key that resolves to the partition, no key twice, and the end
    mark; the database changes only by losing expired records.  Missing: keys with a NUL byte, with which it fails (below), and
    hash values outside the table of the resolver (C13, C16). *)
Theorem c40_dump_partial cfg ext alg part psize s ts order : wf_store s -> walk s order -> map t_key ts = order -> Forall no_nul order -> Forall undisturbed ts ->
  Forall (resolvable cfg ext alg part psize) order ->
  exists s' sent, dump_server cfg ext alg part psize s ts iteration_end false = (s', record_blocks sent ++ s2b "END" ++ crlf, Ended) /\
    List.NoDup (map fst sent) /\
    (forall k r, In (k, r) sent <-> exists t, In t ts /\ t_key t = k /\ asked cfg ext alg part psize k /\ live s (t_now t) k r) /\
    wf_store s' /\ same_or_gone s s' ts.
Proof. exact (dump_whole cfg ext alg part psize s ts order). Qed.
Print Assumptions c40_dump_partial.
(** Keys a and c are in partition 0 of 2; b is in partition 1 and expired. *)
Example c40_dump_nonvacuous : wf_store donor /\ walk donor [kC; kA; kB] /\ map t_key turns_cab = [kC; kA; kB] /\ Forall no_nul [kC; kA; kB] /\ Forall undisturbed turns_cab /\
  Forall (resolvable cfg16 no_ext ha_simple 0 2) [kC; kA; kB] /\
  (let '(_, out, x) := dump_server cfg16 no_ext ha_simple 0 2 donor turns_cab iteration_end false in (out, x)) = (record_blocks [(kC, rC); (kA, rA)] ++ s2b "END" ++ crlf, Ended) /\
  (let '(_, out, x) := dump_server cfg16 no_ext ha_simple 1 2 donor turns_cab iteration_end false in (out, x)) = (s2b "END" ++ crlf, Ended).
Proof.
  split; [exact donor_wf|]. split; [exact donor_walk|]. split; [reflexivity|]. split; [repeat constructor; discriminate|]. split; [repeat constructor; vm_compute; discriminate|].
  split; [do 3 (apply List.Forall_cons; [right; vm_compute; discriminate|]); apply List.Forall_nil|]. split; vm_compute; reflexivity.
Qed.
(** A key with a NUL byte, which the binary protocol can store, is cut there: its record is not sent, or
    another one is sent twice. *)
Definition kNul : key := kA ++ [0] ++ kB.
Definition nul1 := mkStore (<[kNul := encode_rec rA]> ∅) [] 16.
Definition nul2 := mkStore (<[kNul := encode_rec rC]> (<[kA := encode_rec rA]> ∅)) [] 16.
Theorem c40_nul_refuted cfg ext alg psize :
  (exists s k r ts s', wf_store s /\ live s 100 k r /\ map t_key ts = [k] /\ Forall undisturbed ts /\
    dump_server cfg ext alg (-1) psize s ts iteration_end false = (s', s2b "END" ++ crlf, Ended)) /\
  (exists s k k' r ts s', wf_store s /\ k <> k' /\ live s 100 k r /\ map t_key ts = [k; k'] /\ Forall undisturbed ts /\
    dump_server cfg ext alg (-1) psize s ts iteration_end false = (s', record_block k r ++ record_block k r ++ s2b "END" ++ crlf, Ended)).
Proof.
  split.
  - exists nul1, kNul, rA, [quiet_turn kNul], nul1. split; [wf_example|]. split; [split; [reflexivity|]; split; [now apply wf_small|]|].
    { intros (X & _). vm_compute in X. discriminate X. }
    split; [reflexivity|]. split; [repeat constructor; vm_compute; discriminate|]. vm_compute. reflexivity.
  - exists nul2, kA, kNul, rA, [quiet_turn kA; quiet_turn kNul], nul2. split; [wf_example|].
    split; [discriminate|]. split; [split; [reflexivity|]; split; [now apply wf_small|]|].
    { intros (X & _). vm_compute in X. discriminate X. }
    split; [reflexivity|]. split; [repeat constructor; vm_compute; discriminate|]. vm_compute. reflexivity.
Qed.
Print Assumptions c40_nul_refuted.

(** dump_key sends each key of the partition once, the expired ones as well. *)
Theorem c40_dump_key_partial cfg ext alg part psize s ts order : walk s order -> map t_key ts = order -> Forall no_nul order -> Forall undisturbed ts ->
  Forall (resolvable cfg ext alg part psize) order ->
  exists ks, dump_keys cfg ext alg part psize ts iteration_end = (key_lines ks ++ s2b "END" ++ crlf, Ended) /\
    List.NoDup ks /\ (forall k, In k ks <-> db s !! k <> None /\ asked cfg ext alg part psize k).
Proof.
  intros [Wn Wd] E N0 U R. destruct (dump_keys_whole cfg ext alg part psize ts order E N0 U R) as (ks & A & B & C). exists ks. split; [exact A|]. split; [eapply sublist_NoDup; eauto|].
  intros k. rewrite C, Wd. reflexivity.
Qed.
Print Assumptions c40_dump_key_partial.
(** Whatever goes wrong at the sending node: only whole lines with keys of the partition come before the last one, and the
    last one is END only if the iteration came to its end and all of them were sent. *)
Theorem c40_dump_key_honest cfg ext alg part psize ts last out x : dump_keys cfg ext alg part psize ts last = (out, x) ->
  exists ks tail, out = key_lines ks ++ tail /\ sublist ks (map turn_key ts) /\ Forall (asked cfg ext alg part psize) ks /\
    match x with
    | Ended => tail = s2b "END" ++ crlf /\ last = iteration_end /\ (forall k, In k ks <-> In k (map turn_key ts) /\ asked cfg ext alg part psize k)
    | Canceled => tail = s2b "SERVER_ERROR" ++ crlf /\ last = iteration_error
    | Broken => exists k n, tail = firstn n (s2b "KEY " ++ k ++ crlf)
    | Undefined => tail = []
    | Interrupted => False
    end.
Proof. exact (dump_keys_shape cfg ext alg part psize ts last out x). Qed.
Print Assumptions c40_dump_key_honest.
Example c40_dump_key_nonvacuous : dump_keys cfg16 no_ext ha_simple 1 2 turns_cab iteration_end = (key_lines [kB] ++ s2b "END" ++ crlf, Ended).
Proof. vm_compute. reflexivity. Qed.

(** One dump at a time: for all numbers of requests and all schedules, at most one of them uses the
    iterator; one that comes to the end has seen every key once, in the order of the
    database, one that is stopped a prefix of them. *)
Theorem c40_one_at_a_time order left n sched :
  let '(i, ds) := dumpers order (mkIter false left) (repeat Waiting n) sched in
  (it_lock i = true <-> exists t d, nth_error ds t = Some d /\ active d) /\
  (forall t t' d d', nth_error ds t = Some d -> nth_error ds t' = Some d' -> active d -> active d' -> t = t') /\
  (forall t got, nth_error ds t = Some (Finished got true) -> got = order) /\
  (forall t got, nth_error ds t = Some (Finished got false) -> exists rest, got ++ rest = order).
Proof.
  pose proof (dumpers_inv order sched _ _ (iter_start order left n)) as H. destruct (dumpers order (mkIter false left) (repeat Waiting n) sched) as [i ds]. destruct H as [L O H].
  split; [exact L|]. split; [exact O|]. split; intros t got E; destruct (H _ _ E) as [A B]; auto.
Qed.
Print Assumptions c40_one_at_a_time.
(** A request that arrives while another one is served is refused and changes nothing; it is served when there is none. *)
Theorem c40_second_refused order left n sched t u d q :
  let '(i, ds) := dumpers order (mkIter false left) (repeat Waiting n) sched in
  nth_error ds t = Some Waiting -> 
  (nth_error ds u = Some d -> active d -> dumper_step order i Waiting q = (i, Busy)) /\
  ((forall u d, nth_error ds u = Some d -> ~ active d) -> dumper_step order i Waiting q = (mkIter true order, Dumping [])).
Proof.
  pose proof (dumpers_inv order sched _ _ (iter_start order left n)) as H. destruct (dumpers order (mkIter false left) (repeat Waiting n) sched) as [i ds]. destruct H as [L O H].
  intros Et. split.
  - intros Eu A. cbn. unfold iter_begin. replace (it_lock i) with true; [reflexivity|]. symmetry. apply L. eauto.
  - intros N0. cbn. unfold iter_begin. destruct (it_lock i) eqn:K; [|reflexivity]. destruct (proj1 L eq_refl) as (u0 & d0 & E & A). destruct (N0 _ _ E A).
Qed.
Print Assumptions c40_second_refused.
Example c40_two_dumps : dumpers [kA; kB] (mkIter false []) (repeat Waiting 3)
    [(0, false); (0, false); (1, false); (0, false); (0, false); (0, false); (2, false); (2, true); (2, false)]%nat
  = (mkIter false [kB], [Finished [kA; kB] true; Busy; Finished [] false]).
Proof. reflexivity. Qed.

(** The receiver of an undisturbed dump ends up with every record sent that is newer than what it knows; the rest stays
    as it was.  Missing: keys and expiry times that do not survive the text protocol. *)
Theorem c40_reconstruct_partial cfg ext alg part psize s ts rs s2 s' out x :
  wf_store s -> wf_store s2 -> walk s (map t_key ts) -> Forall undisturbed ts -> Forall (resolvable cfg ext alg part psize) (map t_key ts) ->
  (forall k, db s !! k <> None -> legal_key k) -> (forall k r, holds s k (Some r) -> wf_rec r -> absolute_expire (r_expire r) /\ 0 < r_version r) ->
  Forall no_stop rs -> (List.length ts < List.length rs)%nat ->
  dump_server cfg ext alg part psize s ts iteration_end false = (s', out, x) ->
  exists s2', dump_client rs s2 out = DDone s2' [] /\
    (forall k r v, asked cfg ext alg part psize k -> holds s k (Some r) -> wf_rec r -> lasting ts k r -> knows s2 k v ->
      if v <? r_version r then holds s2' k (Some r) else db s2' !! k = db s2 !! k) /\
    (forall k, (forall r, wf_rec r -> ~ (asked cfg ext alg part psize k /\ holds s k (Some r))) -> db s2' !! k = db s2 !! k).
Proof.
  intros W W2 [Wn Wd] U R Lk Lr NS Ln Sv.
  assert (NT : forall t, In t ts -> turn_key t = t_key t) by (intros t Ht; apply legal_cstr, Lk, Wd; now apply in_map).
  assert (Et : map turn_key ts = map t_key ts) by (apply map_ext_in; exact NT).
  destruct (reconstruct_succeeds cfg ext alg part psize s ts s' out rs s2 W W2) as (s2' & D); auto.
  - now rewrite Et.
  - rewrite List.Forall_forall in *. intros t Ht. destruct (U t Ht) as (U1 & U2 & U3). split; [exact U1|]. split; [exact U2|]. split; [exact U3|]. apply selected_resolvable, R. rewrite NT by exact Ht. now apply in_map.
  - intros t r Ht [_ (H1 & H2 & _)]. rewrite NT in * by exact Ht. destruct (Lr _ r H1 H2). split; [apply Lk, Wd; now apply in_map|auto].
  - eauto.
  - destruct (activation cfg ext alg part psize s ts iteration_end false s' out x (List.length out) rs s2 true (DDone s2' [])) as (_ & s3 & E & _ & A & B); auto.
    + eapply Forall_impl; [exact U|]. intros t Ht. apply Ht.
    + exists (map t_key ts), []. split; [split; auto|]. split; [apply app_nil_r|auto].
    + now rewrite firstn_all.
    + injection E as <-. exists s2'. auto.
Qed.
Print Assumptions c40_reconstruct_partial.
Definition behind := mkStore (<[kA := encode_rec (mkRec 0 0 5 (s2b "own"))]> ∅) [] 16.
Example c40_reconstruct_nonvacuous : exists s2', dump_client (repeat calm 4) behind (snd (fst (dump_server cfg16 no_ext ha_simple 0 2 donor turns_cab iteration_end false))) = DDone s2' [] /\
  holds s2' kC (Some rC) /\ holds s2' kA (Some (mkRec 0 0 5 (s2b "own"))).
Proof. eexists. split; [vm_compute; reflexivity|]. split; reflexivity. Qed.
(** A key with a space, which the binary protocol can store, makes every reconstruction from this node fail. *)
Definition kSpace := s2b "a b".
Definition spaced := mkStore (<[kSpace := encode_rec rA]> ∅) [] 16.
Theorem c40_space_refuted cfg ext alg psize : exists s k r ts s' out, wf_store s /\ live s 100 k r /\ map t_key ts = [k] /\ Forall undisturbed ts /\
  dump_server cfg ext alg (-1) psize s ts iteration_end false = (s', out, Ended) /\
  forall rs s2, Forall no_stop rs -> rs <> [] -> dump_client rs s2 out = DFail s2.
Proof.
  exists spaced, kSpace, rA, [quiet_turn kSpace], spaced, (record_block kSpace rA ++ s2b "END" ++ crlf).
  split; [wf_example|]. split; [split; [reflexivity|]; split; [now apply wf_small|]|].
  { intros (X & _). vm_compute in X. discriminate X. }
  split; [reflexivity|]. split; [repeat constructor; vm_compute; discriminate|]. split; [vm_compute; reflexivity|].
  intros rs s2 F N0. destruct rs as [|rd rs]; [congruence|]. apply Forall_cons in F as [[N1 N2] _]. cbn [dump_client]. rewrite N1.
  let x := eval vm_compute in (get_line (record_block kSpace rA ++ s2b "END" ++ crlf)) in replace (get_line (record_block kSpace rA ++ s2b "END" ++ crlf)) with x by (vm_compute; reflexivity).
  rewrite N2. vm_compute. reflexivity.
Qed.
Print Assumptions c40_space_refuted.

(** ** C39 *)
(** Whatever the sending node does (shutdown, failing iterator, breaking connection) and wherever the stream is cut: a slave is activated
    only when the connection ([c]) was made, the dump was complete and every record of it was received and applied.  Missing: a shutdown of the
    receiving node, with which it fails (below); a database write that fails, which the code ignores; keys and
    expiry times that do not survive the text protocol. *)
Theorem c39_slave_partial cfg ext alg part psize s ts last stop s' out x n rs s2 c d :
  wf_store s -> wf_store s2 -> Forall (fun t => is_i64 (t_now t)) ts -> walked s ts last ->
  (forall k, db s !! k <> None -> legal_key k) -> (forall k r, holds s k (Some r) -> wf_rec r -> absolute_expire (r_expire r) /\ 0 < r_version r) ->
  dump_server cfg ext alg part psize s ts last stop = (s', out, x) -> Forall no_stop rs ->
  dump_client rs s2 (firstn n out) = d -> slave_handler c d = Some Activate ->
  c = true /\ exists s2', d = DDone s2' [] /\ x = Ended /\
    (forall k r v, asked cfg ext alg part psize k -> holds s k (Some r) -> wf_rec r -> lasting ts k r -> knows s2 k v ->
      if v <? r_version r then holds s2' k (Some r) else db s2' !! k = db s2 !! k) /\
    (forall k, (forall r, wf_rec r -> ~ (asked cfg ext alg part psize k /\ holds s k (Some r))) -> db s2' !! k = db s2 !! k).
Proof. exact (activation cfg ext alg part psize s ts last stop s' out x n rs s2 c d). Qed.
Print Assumptions c39_slave_partial.
(** Complete: activated.  Cut, stopped, canceled or broken: deactivated. *)
Definition rebuild (ts : list turn) (last : iteration) (stop : bool) (n : nat) : option act :=
  slave_handler true (dump_client (repeat calm 6) nothing (firstn n (snd (fst (dump_server cfg16 no_ext ha_simple (-1) 2 donor ts last stop))))).
Example c39_slave_nonvacuous : rebuild turns_cab iteration_end false 200 = Some Activate /\ rebuild turns_cab iteration_end false 40 = Some Deactivate /\
  rebuild turns_cab iteration_end true 200 = Some Deactivate /\ rebuild [quiet_turn kC] iteration_error false 200 = Some Deactivate /\
  rebuild [quiet_turn kC; mkTurn kA 100 false (Some 10%nat)] iteration_end false 200 = Some Deactivate /\ rebuild [mkTurn kC 100 true None] iteration_end false 200 = Some Deactivate.
Proof. repeat split; vm_compute; reflexivity. Qed.
(** A shutdown request at the receiving node ends the dump as if it were complete: the node is activated with nothing received. *)
Theorem c39_shutdown_refuted : exists s k r ts s' out rs s2 d, wf_store s /\ wf_store s2 /\ live s 100 k r /\ Forall undisturbed ts /\ walk s (map t_key ts) /\
  dump_server cfg16 no_ext ha_simple (-1) 2 s ts iteration_end false = (s', out, Ended) /\
  dump_client rs s2 out = d /\ slave_handler true d = Some Activate /\ d = DDone s2 out /\ db s2 !! k = None.
Proof.
  eexists donor, kA, rA, turns_cab, _, _, [mkRound true false 100], nothing, _. split; [exact donor_wf|]. split; [exact nothing_wf|]. split; [split; [reflexivity|]; split; [now apply wf_small|]|].
  { intros (X & _). vm_compute in X. discriminate X. }
  split; [repeat constructor; vm_compute; discriminate|]. split; [exact donor_walk|]. split; [vm_compute; reflexivity|]. split; [reflexivity|]. split; [reflexivity|]. split; reflexivity.
Qed.
Print Assumptions c39_shutdown_refuted.
(** A new master with [n] donors is activated only after all of them are done, if the threads are started before the first of
    them finishes and no earlier attempt failed.  Missing: the other cases, with which it fails (below). *)
Theorem c39_master_partial n l m a : Forall is_finish l -> master_run (mkMaster 0 []) (repeat Spawn n ++ l) = (m, a) -> In Activate a ->
  Forall (fun w => w = Completed) (m_workers m) /\ List.length (m_workers m) = n.
Proof. exact (master_all n l m a). Qed.
Print Assumptions c39_master_partial.
Example c39_master_nonvacuous : master_run (mkMaster 0 []) (repeat Spawn 3 ++ [Finish 1 true; Finish 0 true; Finish 2 true]) = (mkMaster 0 [Completed; Completed; Completed], [Activate]) /\
  master_run (mkMaster 0 []) (repeat Spawn 3 ++ [Finish 1 true; Finish 0 false; Finish 2 true]) = (mkMaster 1 [Failed; Completed; Completed], [Deactivate]).
Proof. split; reflexivity. Qed.
(** The threads are counted while they are started one by one: the first may finish, and activate the node, before the second is counted. *)
Theorem c39_master_race_refuted : exists l1 l2 m1 m2, master_run (mkMaster 0 []) l1 = (m1, [Activate]) /\ master_run m1 l2 = (m2, [Deactivate]) /\
  List.length (m_workers m2) = 2%nat /\ nth_error (m_workers m2) 1 = Some Failed.
Proof. exists [Spawn; Finish 0 true], [Spawn; Finish 1 false]. do 2 eexists. repeat split; reflexivity. Qed.
Print Assumptions c39_master_race_refuted.
(** After a failed attempt the count stays above zero: a second attempt in which every donor completes does not activate the node. *)
Theorem c39_master_leak_refuted : exists l1 l2 m1 m2 a1 a2, master_run (mkMaster 0 []) l1 = (m1, a1) /\ In Deactivate a1 /\
  (forall w, In w (m_workers m1) -> w <> Running) /\ master_run m1 l2 = (m2, a2) /\ l2 = [Spawn; Spawn; Finish 2 true; Finish 3 true] /\
  skipn 2 (m_workers m2) = [Completed; Completed] /\ a2 = [].
Proof.
  exists [Spawn; Spawn; Finish 0 true; Finish 1 false], [Spawn; Spawn; Finish 2 true; Finish 3 true]. do 4 eexists. split; [reflexivity|]. split; [left; reflexivity|]. split.
  - cbn. intros w [<-|[<-|[]]]; discriminate.
  - repeat split; reflexivity.
Qed.
Print Assumptions c39_master_leak_refuted.
