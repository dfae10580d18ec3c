(** C65: a node that joins a partition while clients write. *)
From Coq Require Import String.
From stdpp Require Import gmap.
From Coq Require Import ZifyBool ZifyNat ZifyN.
From Verif Require Import Base BaseLemmas StorageModel StorageSpec StorageProofs StorageProofs2 TextModel TextSpec SessionModel ServerModel ServerProofs
  KeyResolverModel DumpModel DumpSpec Props_Dump ReplicaSpec ReplicationSpec Props_Replica Props_Replication JoinModel JoinSpec JoinProofs JoinProofs2.
From Verif Require ClusterProofs9.
From Verif Require Import ClusterModel ClusterSpec ClusterProofs2 ClusterProofs3 ClusterProofs8 NodeModel NodeSpec NodeProofs2 StartupModel StartupSpec Props_Cluster Props_Startup JoinProofs3.
Import JoinModel JoinSpec StorageSpec.
Local Open Scope string_scope.
Local Open Scope N_scope.
Local Open Scope list_scope.

(** ** The data *)
(** While the master dumps its partition to a node, clients write, and the writes are sent on.  Once the node has read the end of the dump and
    nothing written to [k] is still to be sent on, the node shows for [k] what the master shows, now and later: whether [k] was there from
    the start and has been returned by the iterator, was written meanwhile before or after that, was deleted, or was never there.
    The order in which records of the dump and writes arrive is free, except that writes to one key arrive in their order
    (C53); a write may arrive several times.
    Missing: touch and gat of [k], flush_all, records that expire meanwhile; tombstones of [k] that are dropped (see below). *)
Theorem c65_converges_partial cfg ext alg part psize k T st0 l T1 st :
  asked cfg ext alg part psize k -> beginning k T st0 -> joined cfg ext alg part psize k T st0 l T1 st ->
  j_whole st = true -> sent_on k st ->
  seen_by k l \/ (forall r, holds (j_master st) k (Some r) -> ~ holds (j_master st0) k (Some r)) ->
  agree_from T1 k (j_master st) (j_replica st).
Proof. intros A B H. now apply (joined_agree cfg ext alg part psize k A st0 T l T1 st). Qed.
Print Assumptions c65_converges_partial.

(** The rounds of the model are those of C46's. *)
Theorem c65_same_loops cfg ext alg part psize :
  (forall s e t ts last stop, t_stop t = false -> t_sent t = None ->
    dump_loop cfg ext alg part psize s e (t :: ts) last stop =
    match dump_turn cfg ext alg part psize s e (t_now t) (t_key t) with
    | Ok (s1, e1, b) => let '(s', out, x) := dump_loop cfg ext alg part psize s1 e1 ts last stop in (s', b ++ out, x)
    | _ => (s, [], Undefined)
    end) /\
  (forall rd rs s str, no_stop rd ->
    dump_client (rd :: rs) s str =
    match dump_round (r_now rd) s str with
    | LUndef => DUndef | LFail => DFail s | LEnd rest => DDone s rest | LStored s' rest => dump_client rs s' rest
    end).
Proof. split; [exact (dump_loop_turn cfg ext alg part psize)|exact dump_client_round]. Qed.
Print Assumptions c65_same_loops.

(** *** An execution *)
Definition known_version (s : store) (k : key) : N :=
  match db s !! k with Some raw => r_version (decode raw) | None => match tomb s k with Some (_, v) => v | None => 0 end end.
Lemma known_version_ok s k v : stored_b s k (fun _ => true) = true -> knows s k v -> v = known_version s k.
Proof.
  intros H. unfold known_version, stored_b in *. intros [(r & A & W & E)|[(A & x & E)|(A & E & ->)]]; unfold holds in A; cbn [fmap option_fmap option_map] in A; rewrite A in *.
  - rewrite !andb_true_iff in H. destruct H as [[H1 H2] _]. apply beq_eq in H1. apply wf_b_ok in H2. rewrite (encode_inj _ _ W H2 H1) in E. now symmetry.
  - now rewrite E.
  - now rewrite E.
Qed.
Definition remembered_b (s : store) (k : key) : bool := match db s !! k with Some _ => true | None => match tomb s k with Some _ => true | None => false end end.
Definition keeps_b (s s' : store) (k : key) : bool := negb (remembered_b s k) || (remembered_b s' k && stored_b s' k (fun _ => true)).
Lemma keeps_b_ok s s' k : keeps_b s s' k = true -> keeps k s s'.
Proof.
  unfold keeps_b, keeps, remembered_b, stored_b. intros H R.
  assert (E : match db s !! k with Some _ => true | None => match tomb s k with Some _ => true | None => false end end = true).
  { destruct R as [(r & R)|R]; [unfold holds in R; cbn in R; now rewrite R|]. destruct (db s !! k); [reflexivity|]. now destruct (tomb s k). }
  rewrite E in H. cbn [negb orb] in H. apply andb_true_iff in H as [H1 H2]. unfold remembered, holds. destruct (db s' !! k) as [raw|] eqn:D.
  - left. exists (decode raw). change (Some raw = Some (encode_rec (decode raw))). rewrite !andb_true_iff in H2. destruct H2 as [[H2 _] _]. apply beq_eq in H2. now f_equal.
  - right. now destruct (tomb s' k).
Qed.
Definition steady_b (s s' : store) (k : key) : bool := stored_b s k (fun _ => true) && stored_b s' k (fun _ => true) && (known_version s k <=? known_version s' k).
Lemma steady_b_ok s s' k : steady_b s s' k = true -> steady k s s'.
Proof.
  unfold steady_b. rewrite !andb_true_iff. intros [[A B] C] v v' H H'. apply known_version_ok in H, H'; auto. subst. lia.
Qed.
Definition leaves_b (k : key) (r : request) : bool := match r with RTouch _ e => negb (beq (e_key e) k) | RFlush _ => false | _ => true end.
Fixpoint oldest_b (k : key) (q : list (list bytes * (bytes * entry))) (i : nat) : bool :=
  match q, i with
  | x :: q', S i' => negb (beq (e_key (snd (snd x))) k) && oldest_b k q' i'
  | _, _ => true
  end.
Lemma oldest_b_ok k q : forall i, oldest_b k q i = true -> forall j y, (j < i)%nat -> nth_error q j = Some y -> e_key (snd (snd y)) <> k.
Proof.
  induction q as [|x q IH]; intros i H j y L E; [now destruct j|]. destruct i as [|i]; [lia|]. cbn [oldest_b] in H. apply andb_true_iff in H as [H1 H2].
  destruct j as [|j]; [|apply (IH i H2 j); [lia|exact E]]. cbn in E. injection E as <-. intros X. rewrite X, beq_refl in H1. discriminate.
Qed.
Definition sound_b (k : key) (st : joining) (ev : event) : bool :=
  stored_b (j_master st) k (lasts_b (JoinSpec.event_time ev)) &&
  match ev with
  | Client now stream => forallb (fun b => b <? 256) stream &&
      match serve_next now stream with Ok (Accepted c r, _) => match c_trail c with [] => leaves_b k r | _ => false end | _ => true end
  | Visit now k' => (beq k' (s2b "a") || beq k' (s2b "b")) && stored_b (j_master st) k' (fun r => negb (r_version r =? 0))
  | Attempt _ i | Deliver _ i => oldest_b k (j_pending st) i
  | _ => true
  end.
Lemma sound_b_ok k st ev : sound_b k st ev = true -> sound k st ev.
Proof.
  unfold sound_b, sound. intros H. apply andb_true_iff in H as [H1 H2]. split.
  { intros r Hr W. pose proof (stored_b_ok _ _ _ H1 r Hr W) as L. unfold lasts_b, expired in *. lia. }
  destruct ev as [now stream|now k'| | |now i|now i]; try exact I.
  - apply andb_true_iff in H2 as [H2 H3]. split.
    { apply List.Forall_forall. intros b Hb. rewrite forallb_forall in H2. apply H2 in Hb. now apply N.ltb_lt in Hb. }
    intros c r rest E. rewrite E in H3. destruct (c_trail c); [|discriminate]. split; [apply List.Forall_nil|].
    destruct r; cbn [leaves leaves_b] in *; auto; try discriminate; intros X; rewrite X, beq_refl in H3; discriminate.
  - apply andb_true_iff in H2 as [H2 H3]. split; [now apply legal_ab|]. intros r Hr W. pose proof (stored_b_ok _ _ _ H3 r Hr W) as V. cbv beta in V. lia.
  - intros x Hx Hk. now apply oldest_b_ok.
  - intros x Hx Hk. now apply oldest_b_ok.
Qed.
Section Run.
  Variables (cfg : config) (ext : hash_algorithm -> bytes -> Z) (alg : hash_algorithm) (part : Z) (psize : nat).
  Fixpoint joined_b (k : key) (T : Z) (st : joining) (l : list event) (P : joining -> bool) : bool :=
    match l with
    | [] => P st
    | h :: l' => (T <=? JoinSpec.event_time h)%Z && (JoinSpec.event_time h <? 2 ^ 62)%Z && sound_b k st h
        && match join_step cfg ext alg part psize st h with
           | Ok st' => stored_b (j_master st') k (fun r => negb (r_version r =? 0)) && steady_b (j_master st) (j_master st') k && keeps_b (j_replica st) (j_replica st') k
               && joined_b k (JoinSpec.event_time h) st' l' P
           | _ => false
           end
    end.
  Lemma joined_b_ok k T0 st0 l' P : forall l T st, joined cfg ext alg part psize k T0 st0 l T st -> joined_b k T st l' P = true ->
    exists T' st', joined cfg ext alg part psize k T0 st0 (l ++ l') T' st' /\ P st' = true.
  Proof.
    induction l' as [|h l' IH]; intros l T st H G; cbn [joined_b] in G.
    - exists T, st. now rewrite app_nil_r.
    - rewrite !andb_true_iff in G. destruct G as [[[G1 G2] G3] G4]. destruct (join_step cfg ext alg part psize st h) as [| |st'] eqn:E; try discriminate.
      rewrite !andb_true_iff in G4. destruct G4 as [[[G4 G5] G6] G7]. destruct (IH (l ++ [h]) (JoinSpec.event_time h) st') as (T' & st'' & A & B); [|exact G7|].
      { econstructor; eauto; [lia|now apply sound_b_ok| |now apply steady_b_ok|now apply keeps_b_ok]. intros r Hr W. pose proof (stored_b_ok _ _ _ G4 r Hr W) as V. cbv beta in V. lia. }
      exists T', st''. rewrite <- app_assoc in A. auto.
  Qed.
  (** without the conditions *)
  Fixpoint join_run (st : joining) (l : list event) : res joining :=
    match l with [] => Ok st | h :: l' => let* st' := join_step cfg ext alg part psize st h in join_run st' l' end.
End Run.

Definition joins (s r : store) : joining := mkJoining s r [] (empty_entry []) [] false false.
(** a (version 3) and b (version 2) in the master, nothing in the node that joins, which asks for everything. *)
Example c65_beginning k : k = s2b "a" \/ k = s2b "b" -> beginning k 1600000000 (joins here (init_store 16)) /\ asked cfg16 no_ext ha_simple 0 1 k.
Proof.
  intros Hk. split; [|destruct Hk as [-> | ->]; right; split; [lia|vm_compute; reflexivity|lia|vm_compute; reflexivity]].
  split; cbn [joins j_master j_replica j_pending j_entry j_wire j_ended j_whole]; try reflexivity; try apply here_wf; try apply init_wf.
  - lia.
  - intros k' r H W. destruct (here_holds _ _ H W) as [[_ ->]|[_ ->]]; vm_compute; left; reflexivity.
  - intros r H W. destruct (here_holds _ _ H W) as [[_ ->]|[_ ->]]; vm_compute; discriminate.
  - intros v v' A B. left. apply known_version_ok in A, B; [|destruct Hk as [-> | ->]; vm_compute; reflexivity..]. subst. destruct Hk as [-> | ->]; vm_compute; reflexivity.
Qed.
(** b is put on the connection as it was, then a client increments it and appends to it: one of these overtakes the record and is sent twice, the
    other comes later.  a is deleted while its record is on the connection, the delete overtakes it, and the record is not taken. *)
Definition joining_run : list event :=
  [ Visit 1600000000 (s2b "b"); Visit 1600000000 (s2b "a");
    Client 1600000001 (line "incr b 32");
    Client 1600000001 (line "delete a");
    Attempt 1600000001 0; Deliver 1600000001 0;
    Land 1600000002;
    Client 1600000002 (line "append b 0 0 1" ++ line "0");
    Deliver 1600000002 0;
    Finish 1600000003;
    Land 1600000003; Deliver 1600000003 0; Land 1600000003 ].
Definition over_b (out : bytes) (st : joining) : bool :=
  j_whole st && match j_pending st with [] => beq (snd (run_get 1600000005 (j_replica st) response_gets [s2b "a"; s2b "b"])) out | _ => false end.
Example c65_runs k : k = s2b "a" \/ k = s2b "b" -> exists T st, joined cfg16 no_ext ha_simple 0 1 k 1600000000 (joins here (init_store 16)) joining_run T st
  /\ j_whole st = true /\ j_pending st = []
  /\ snd (run_get 1600000005 (j_replica st) response_gets [s2b "a"; s2b "b"]) = line "VALUE b 0 3 4" ++ line "420" ++ line "END".
Proof.
  intros Hk. destruct (joined_b_ok cfg16 no_ext ha_simple 0 1 k 1600000000 (joins here (init_store 16)) joining_run (over_b (line "VALUE b 0 3 4" ++ line "420" ++ line "END"))
    [] 1600000000%Z (joins here (init_store 16))) as (T & st & H & P); [apply joined_nil|destruct Hk as [-> | ->]; vm_compute; reflexivity|].
  exists T, st. split; [exact H|]. unfold over_b in P. apply andb_true_iff in P as [P1 P2]. split; [exact P1|]. destruct (j_pending st); [|discriminate].
  split; [reflexivity|]. now apply beq_eq in P2.
Qed.

(** *** Where the node ends with other data *)
(** A touch that overtakes the record of the dump finds nothing; the record then comes with the old time of expiry, and the node that joined drops it
    when that is over, though the master does not. *)
Theorem c65_touch_refuted : exists l st, Forall (fun h => JoinSpec.event_time h = 1600000001%Z) l /\
  join_run cfg16 no_ext ha_simple 0 1 (joins short_lived (init_store 16)) l = Ok st /\ j_whole st = true /\ j_pending st = [] /\
  show (j_master st) "b" = line "VALUE b 6 4" ++ line "more" ++ line "END" /\ show (j_replica st) "b" = line "END".
Proof.
  exists [Visit 1600000001 (s2b "b"); Client 1600000001 (line "touch b 0"); Deliver 1600000001 0; Finish 1600000001; Land 1600000001; Land 1600000001].
  eexists. split; [repeat constructor|]. split; [vm_compute; reflexivity|]. vm_compute. auto.
Qed.
Print Assumptions c65_touch_refuted.
(** The header cache of the node that joins has room for one tombstone: that of b goes when a is deleted, and the record of b, which comes later,
    stays for ever, though the master deleted it. *)
Theorem c65_evicted_refuted : exists l st, Forall (fun h => JoinSpec.event_time h = 1600000001%Z) l /\
  join_run cfg16 no_ext ha_simple 0 1 (joins two (init_store 1)) l = Ok st /\ j_whole st = true /\ j_pending st = [] /\
  show (j_master st) "b" = line "END" /\ show (j_replica st) "b" = line "VALUE b 6 4" ++ line "more" ++ line "END".
Proof.
  exists [Visit 1600000001 (s2b "b"); Client 1600000001 (line "delete b"); Client 1600000001 (line "delete a"); Deliver 1600000001 0; Deliver 1600000001 0;
    Finish 1600000001; Land 1600000001; Land 1600000001].
  eexists. split; [repeat constructor|]. split; [vm_compute; reflexivity|]. vm_compute. auto.
Qed.
Print Assumptions c65_evicted_refuted.

(** ** From whom *)
(** A node without a role that is told by a map of the index server that it is a slave starts exactly one copy: of the keys of its partition, counted
    with the number of partitions the map describes, from the master of that partition, also one that is still being
    prepared, which then counts.  Only if the master went down meanwhile and nobody could take its place, is there nobody to copy from: the
    name of the source is empty, the connection cannot be made. *)
Theorem c65_slave_source near self c s v old new P : history s -> contiguous (i_map s) P -> (c_version c <= v) ->
  nfind self (c_map c) = Some old -> nfind self (i_map s) = Some new -> n_role old = ClusterModel.Proxy -> n_role new = ClusterModel.Slave ->
  exists src size, jobs near self c (map snd (i_map s)) v = [Copy src (n_partition new) size ClusterModel.Slave] /\
   ((exists n, nfind src (i_map s) = Some n /\ n_role n = ClusterModel.Master /\ n_partition n = n_partition new /\
      (n_state n = Active /\ Z.of_nat size = P \/ n_state n <> Active /\ n_state n <> Down /\ Z.of_nat size = (P + 1)%Z))
    \/ (src = [] /\ forall k n, nfind k (i_map s) = Some n -> n_role n = ClusterModel.Master -> n_partition n = n_partition new -> n_state n <> Active)).
Proof.
  intros H C V F F' R R'. destruct (history_inv s H) as (Q & IQ). assert (Q = P) as <- by (eapply JoinProofs3.contiguous_fun; [apply good_contiguous, (v_good _ _ IQ)|exact C]).
  now apply (slave_jobs near self c Q s v old new).
Qed.
Print Assumptions c65_slave_source.
(** One that is told that it is the master of a partition being prepared starts one copy from every active master, each of the keys that
    will belong to the new partition, counted with the new one. *)
Theorem c65_master_sources near self c s v old new P : history s -> contiguous (i_map s) P -> (c_version c <= v) ->
  nfind self (c_map c) = Some old -> nfind self (i_map s) = Some new -> n_role old = ClusterModel.Proxy -> n_role new = ClusterModel.Master -> n_state new <> Active -> n_state new <> Down ->
  exists l, jobs near self c (map snd (i_map s)) v = map (fun src => Copy src P (S (Z.to_nat P)) ClusterModel.Master) l /\ List.NoDup l /\
    forall k, In k l <-> exists n, nfind k (i_map s) = Some n /\ n_role n = ClusterModel.Master /\ n_state n = Active.
Proof.
  intros H C V F F' R R' S1 S2. destruct (history_inv s H) as (Q & IQ). assert (Q = P) as <- by (eapply JoinProofs3.contiguous_fun; [apply good_contiguous, (v_good _ _ IQ)|exact C]).
  destruct (master_jobs near self c Q s v old new IQ V F F' R R') as (l & size & E & ND & HI & HS). destruct HS as (E1 & E2); [intros [X|X]; contradiction|].
  exists l. rewrite E, E1. replace size with (S (Z.to_nat Q)) by (destruct C as (C0 & _); lia). split; [reflexivity|]. split; [exact ND|]. intros k. rewrite HI. split; [now intros (_ & ?)|].
  intros (n & A & B & D). split; [|eauto]. intros ->. rewrite F' in A. injection A as <-. contradiction.
Qed.
Print Assumptions c65_master_sources.
(** Nobody else copies: a node that had a role already, or has none now, starts nothing. *)
Theorem c65_no_other near self c s v old new : history s -> (c_version c <= v) ->
  nfind self (c_map c) = Some old -> nfind self (i_map s) = Some new -> n_role old <> ClusterModel.Proxy \/ n_role new = ClusterModel.Proxy ->
  jobs near self c (map snd (i_map s)) v = [].
Proof. intros H V F F' R. destruct (history_inv s H) as (Q & IQ). now apply (no_jobs near self c Q s v old new). Qed.
Print Assumptions c65_no_other.

(** f joins partition 0, whose master is a; a third partition is prepared by f; f is told that it is a slave when a has gone down. *)
Definition f_master := state_after (two_partitions ++ [A "f"; R "f" ClusterModel.Master 1 2]).
Definition only_one := state_after [A "a"; R "a" ClusterModel.Master 1 0; A "f"].
Definition left_alone := state_after [A "a"; R "a" ClusterModel.Master 1 0; A "f"; R "f" ClusterModel.Slave 1 0; St "a" Down].
Definition copy_of (s : index) : copy := snd (take_sync (fun _ => true) fresh_copy (map snd (i_map s)) (i_version s)).
Example c65_sources_nonvacuous :
  history f_slave /\ history f_master /\ history left_alone /\ contiguous (i_map f_slave) 2 /\ contiguous (i_map f_master) 2 /\
  jobs (fun _ => true) (K "f") (copy_of with_f) (map snd (i_map f_slave)) (i_version f_slave) = [Copy (K "a") 0 2 ClusterModel.Slave] /\
  jobs (fun _ => true) (K "f") (copy_of with_f) (map snd (i_map f_master)) (i_version f_master) = [Copy (K "a") 2 3 ClusterModel.Master; Copy (K "b") 2 3 ClusterModel.Master] /\
  jobs (fun _ => true) (K "f") (copy_of only_one) (map snd (i_map left_alone)) (i_version left_alone) = [Copy [] 0 1 ClusterModel.Slave].
Proof.
  assert (H1 : history f_master) by (apply (ClusterProofs9.replay_history (two_partitions ++ [A "f"; R "f" ClusterModel.Master 1 2]) (fresh_index None) (repeat 0 15)%Z); [apply history_start|vm_compute; reflexivity..]).
  assert (C : forall s P, history s -> Z.of_nat (List.length (i_parts s)) = P -> contiguous (i_map s) P).
  { intros s P H E. destruct (history_inv s H) as (Q & IQ). rewrite (parts_length Q s (v_good _ _ IQ) (v_sync _ _ IQ)) in E. subst P. apply good_contiguous, (v_good _ _ IQ). }
  split; [exact f_slave_history|]. split; [exact H1|].
  split; [apply (ClusterProofs9.replay_history [A "a"; R "a" ClusterModel.Master 1 0; A "f"; R "f" ClusterModel.Slave 1 0; St "a" Down] (fresh_index None) (repeat 0 5)%Z); [apply history_start|vm_compute; reflexivity..]|].
  split; [apply C; [exact f_slave_history|vm_compute; reflexivity..]|]. split; [apply C; [exact H1|vm_compute; reflexivity..]|].
  split; [vm_compute; reflexivity|]. split; vm_compute; reflexivity.
Qed.
