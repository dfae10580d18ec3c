(** C56: cluster replication; C57: the dump that starts it. *)
From Coq Require Import String.
From stdpp Require Import gmap.
From Coq Require Import ZifyBool ZifyNat ZifyN.
From Verif Require KeyResolverSpec.
From Verif Require Import Base BaseLemmas StorageModel StorageSpec StorageProofs StorageProofs2 TextModel TextSpec SessionModel ServerModel ServerProofs MemcachedSpec MemcachedProofs3
  KeyResolverModel ClusterModel ClusterSpec NodeModel NodeSpec RoutingModel RoutingSpec DumpModel DumpSpec Props_Dump ReplicaModel ReplicaSpec Props_Replica Props_Cluster Props_Node Props_Routing Props_Gateway
  ClientSpec MemcachedProofs2 GatewayModel GatewaySpec GatewayProofs GatewayProofs2 ReplicationModel ReplicationSpec ReplicationProofs ReplicationProofs2.
Local Open Scope N_scope.
Local Open Scope list_scope.

(** * C56 *)
(** Mode forward.  Clients put requests to nodes [x] of one cluster, whatever the state of that cluster; each sends to the
    node [dest x] of the other, which is empty and settled.  The clients are answered as one memory would
    answer; the nodes asked do not change; nothing is left on the way.
    Missing: incr and decr, flush_all, and requests without an answer unless the destination
    owns the key (see below); destinations that cannot be reached. *)
Theorem c56_forward_partial c s tab hash owner hops dest n ss l : settled c s tab hash owner -> (forall x, legal_node_name (dest x)) ->
  rising 2592000 (calls l) -> Forall (forwardable owner dest) l -> N.of_nat (length l) < 2 ^ 64 ->
  exists l1 l2 ss' w' m' out, l = l1 ++ l2
    /\ forwards c tab hash (S (S hops)) dest (map asking_of l1) ss (empty_world n) = Ok (ss', w', out)
    /\ dialogue (fun _ => None) l1 m' out
    /\ (forall x, ss' x = ss x) /\ w_queued w' = []
    /\ match l2 with [] => True | t :: _ => too_long (t_now t) m' (t_call t) end.
Proof.
  intros Hs Hd Hr Hl Hn. eapply (forwards_spec c s tab hash owner Hs hops dest l Hd 2592000%Z 0); auto.
  - apply inv_init.
  - unfold sane_clock. lia.
Qed.
Print Assumptions c56_forward_partial.

(** incr and decr are not forwarded with their value but with 0: the client is told a number it did not ask for. *)
Definition fw_talk : list turn := [tell "n" 0 (Store Set_ (s2b "x") 0 0 (s2b "7") false); tell "n" 1 (Count true (s2b "x") 5 false)].
Lemma count_said asked now m (up : bool) k v m' a : does asked now m (Count up k v false) m' a ->
  a = s2b "NOT_FOUND" ++ line_end \/ exists r n d, look m now k = Some r /\ starts_with_number (r_data r) n
    /\ is_numeral d (if up then N.min (n + v) (2 ^ 64 - 1) else n - v) /\ a = d ++ line_end.
Proof. intros H. inversion H; subst; [right; eauto 10|now left]. Qed.
Theorem c56_forward_incr_refuted :
  exists ss' w', forwards cfg16 se_tab se_hash 2 (fun _ => K "d") (map asking_of fw_talk) (fun _ => init_store 8) (empty_world 8) = Ok (ss', w', [lines ["STORED"]; lines ["7"]]%string)
    /\ forall m', ~ dialogue (fun _ => None) fw_talk m' [lines ["STORED"]; lines ["7"]]%string.
Proof.
  eexists _, _. split; [vm_compute; reflexivity|].
  intros m' H. unfold fw_talk in H. inversion H as [|? ? m1 ? ? ? ? D1 H2]; subst. clear H.
  inversion H2 as [|? ? m2 ? ? ? ? D2 H3]; subst. clear H2 H3. cbn [tell t_asked t_now t_call] in D1, D2.
  assert (exists r, m1 (s2b "x") = Some r /\ r_data r = s2b "7") as (r & E & Ed).
  { inversion D1; subst. unfold update. rewrite beq_refl. eexists. split; reflexivity. }
  apply count_said in D2. destruct D2 as [E1|(r' & n & d & L & Hs & Hn & E1)]; [vm_compute in E1; discriminate|].
  assert (r' = r) as ->. { unfold look in L. rewrite E in L. match type of L with context [if ?b then _ else _] => destruct b end; congruence. }
  assert (d = s2b "7") as ->. { assert (E2 : s2b "7" ++ line_end = d ++ line_end) by exact E1. symmetry. exact (app_inv_tail _ _ _ E2). }
  destruct Hn as (_ & _ & Hn & _). destruct Hs as (ds & rest & Eq & _ & Hr & ->). rewrite Ed in Eq.
  destruct ds as [|d0 [|d1 ds]]; [exact (Hr _ _ (eq_sym Eq) ltac:(vm_compute; split; discriminate))|injection Eq as <- <-; vm_compute in Hn; discriminate|discriminate].
Qed.
Print Assumptions c56_forward_incr_refuted.

(** Mode duplicate.  What the master of a partition has carried out is sent to the other cluster, with the trail the request
    came with, here to the node that owns the keys there: once everything was delivered, it shows what the master shows.
    Missing: as in C53, deliveries of one key out of order (see below) and late touches. *)
Theorem c56_duplicate_partial T0 st0 l T st : synchronized T0 st0 -> duplicated T0 st0 l T st -> pending st = [] ->
  (forall k, agree_from T k (master st) (replica st))
  /\ forall now t keys, (T <= now < 2 ^ 62)%Z -> snd (run_get now (replica st) t keys) = snd (run_get now (master st) t keys).
Proof. exact (duplicated_catches_up T0 st0 l T st). Qed.
Print Assumptions c56_duplicate_partial.
(** The requests the deliveries consist of are the ones the code sends. *)
Theorem c56_duplicate_sent r trail f : duplicate r trail f = Some (forward_request trail f) <-> r = Master.
Proof. destruct r; cbn; split; congruence. Qed.
Print Assumptions c56_duplicate_sent.

(** All writes of a key go through one queue as long as the number of threads does not change, whatever its hash. *)
Theorem c56_one_queue hash threads : (threads <> 0)%nat -> exists i, replication_thread hash threads = Some i /\ (i < threads)%nat.
Proof.
  destruct threads as [|n]; [congruence|]. intros _. eexists. split; [reflexivity|].
  pose proof (N.mod_lt (Z.to_N (hash mod 2 ^ 64)) (N.of_nat (S n)) ltac:(lia)). lia.
Qed.
Print Assumptions c56_one_queue.
(** When the number is changed, the writes of a key go to another queue and can overtake those in the old one. *)
Example c56_resized : replication_thread 5 3 = Some 2%nat /\ replication_thread 5 4 = Some 1%nat /\ replication_thread (-1) 10 = Some 5%nat.
Proof. vm_compute. auto. Qed.

(** If the destination is a slave there, this goes wrong: a write that a client put to the owner in the first cluster has no
    trail, and the slave passes it on to its master; one that came through another node has, so that
    the slave takes it for a write of its master's and keeps it to itself. *)
Definition dup_set : bytes * entry := (s2b "set", mkEntry (s2b "x") 7 0 2 1 0 (s2b "12")).
Definition dup_ask (stream : bytes) (time : Z) (node : string) : happening := Ask (fun _ => O) (1600000000 + time) (1600000000 + time) (K node) stream.
Theorem c56_duplicate_slave_refuted :
  (exists request w', duplicate Master [] dup_set = Some request /\
     happens cfg16 se_tab se_hash 2 [dup_ask request 0 "c"; dup_ask (s2b "get x" ++ crlf) 1 "d"] (empty_world 8)
     = Ok (w', [lines ["STORED"]; lines ["VALUE x 7 2"; "12"; "END"]]%string)) /\
  (exists request w', duplicate Master [s2b "gateway:1"] dup_set = Some request /\
     happens cfg16 se_tab se_hash 2 [dup_ask request 0 "c"; dup_ask (s2b "get x" ++ crlf) 1 "d"] (empty_world 8)
     = Ok (w', [lines ["STORED"]; lines ["END"]]%string)).
Proof. split; eexists _, _; (split; [reflexivity|vm_compute; reflexivity]). Qed.
Print Assumptions c56_duplicate_slave_refuted.

(** ** Examples *)
Definition fw_example : list turn :=
  [tell "n" 0 (Store Set_ (s2b "x") 7 0 (s2b "12") false);
   tell "o" 0 (Store Append (s2b "x") 0 0 (s2b "34") false);
   tell "n" 1 (Get true [s2b "x"; s2b "yy"]);
   tell "p" 1 (Store Set_ (s2b "x") 0 0 (s2b "5") true);
   tell "o" 2 (Delete (s2b "x") false); tell "o" 3 (Get false [s2b "x"])].
(** p sends to a, which owns x; the others to the slave and to the proxy. *)
Definition fw_dest (x : bytes) : bytes := if beq x (K "p") then K "a" else if beq x (K "o") then K "c" else K "d".
Example c56_forward_meets : settled cfg16 se_state se_tab se_hash se_owner /\ (forall x, legal_node_name (fw_dest x)) /\
  rising 2592000 (calls fw_example) /\ Forall (forwardable se_owner fw_dest) fw_example /\ N.of_nat (length fw_example) < 2 ^ 64.
Proof.
  split; [exact se_settled|]. split.
  { intros x. unfold fw_dest. destruct (beq x (K "p")); [|destruct (beq x (K "o"))]; vm_compute; repeat split; repeat constructor; try discriminate; try lia. }
  split; [cbn [calls map fw_example tell t_now t_call rising]; lia|]. split; [|vm_compute; congruence].
  assert (Ky : forall k, In k [s2b "x"; s2b "yy"] -> legal_key k).
  { intros k [<-|[<-|[]]]; (split; [vm_compute; discriminate|]; split; [vm_compute; repeat (apply List.Forall_cons; [unfold word_byte; lia|]); apply List.Forall_nil|vm_compute; congruence]). }
  assert (Kx : legal_key (s2b "x")) by (apply Ky; cbn [In]; auto). assert (Kyy : legal_key (s2b "yy")) by (apply Ky; cbn [In]; auto).
  unfold fw_example, tell.
  repeat (apply List.Forall_cons; [|]); try exact (List.Forall_nil _);
    (split; [unfold clock; cbn [t_asked]; lia|]; split; [|split; [cbn [t_call]; discriminate|split; [cbn [t_call]; discriminate|cbn [t_call replied subject t_node]; try (left; reflexivity); try (left; exact I); right; intros ? ->; reflexivity]]]);
    cbn [t_call legal_call]; repeat split; auto; try lia; try discriminate; repeat constructor; auto; try lia.
Qed.
Example c56_forward_answers :
  match forwards cfg16 se_tab se_hash 2 fw_dest (map asking_of fw_example) (fun _ => init_store 8) (empty_world 8) with
  | Ok (_, _, out) => out = [lines ["STORED"]; lines ["STORED"]; lines ["VALUE x 7 4 2"; "1234"; "END"]; []; lines ["DELETED"]; lines ["END"]]%string
  | _ => False
  end.
Proof. vm_compute. reflexivity. Qed.

(** * C57 *)
(** The dump sends exactly the records of the partition, in the order of the iterator, each as it is when the key is
    visited, or a beginning of them if it is stopped or an answer is not understood.
    Missing: keys that are deleted or expire after the iterator returned them (see below). *)
Theorem c57_dump_partial cfg ext alg part l sent : owed cfg ext alg part l sent ->
  Forall (fun v => wf_store (v_store v) /\ is_i64 (v_now v) /\ no_nul (v_key v) /\ resolvable cfg ext alg part (v_size v) (v_key v)) l ->
  exists n, dump_replication cfg ext alg part l = Ok (map set_block (firstn n sent)) /\ (Forall smooth l -> firstn n sent = sent).
Proof. intros H. exact (dump_prefix cfg ext alg part l sent (empty_entry []) H eq_refl). Qed.
Print Assumptions c57_dump_partial.

(** The dump runs while clients write and their writes are duplicated: whatever the interleaving, in whatever
    order the writes arrive and however often, once all have arrived and the key was visited (or is not as it was at the start) both clusters show the
    same under it.
    Missing: keys that are deleted or touched, or expire meanwhile (see below). *)
Theorem c57_converges_partial k T0 st0 l T st : legal_key k -> prepared k T0 st0 -> transferred k T0 st0 l T st ->
  on_way st = [] -> dump_request st = None ->
  (exists now, In (Visit now k) l) \/ (forall r, holds (source_store st0) k (Some r) -> ~ holds (source_store st) k (Some r)) ->
  agree_from T k (source_store st) (dest_store st).
Proof. intros Hk. exact (transfer_converges k Hk st0 T0 l T st). Qed.
Print Assumptions c57_converges_partial.

(** ** What goes wrong otherwise *)
(** A store after some requests. *)
Fixpoint served (s : store) (l : list (Z * bytes)) : store :=
  match l with
  | [] => s
  | (now, stream) :: l' => match run_line now s stream with Ok (p, _) => served (p_store p) l' | _ => s end
  end.
Definition no_ext (_ : hash_algorithm) (_ : bytes) : Z := 0%Z.
Definition dump_all (l : list visit) : res (list bytes) := dump_replication cfg16 no_ext ha_simple (-1) l.
Definition see (k : string) (now : Z) (s : store) : visit := mkVisit (s2b k) now s 1 false true.
Definition two : store := served (init_store 8) [(1600000000%Z, line "set a 5 0 3" ++ line "one"); (1600000000%Z, line "set b 6 0 4" ++ line "more")].
Definition only_a : store := served two [(1600000001%Z, line "delete b")].
(** A key that is deleted after the iterator returned it is sent all the same, with the data, the flags and the version of
    the record before it, or, if there was none, as an empty value. *)
Theorem c57_deleted_refuted :
  dump_all [see "a" 1600000001 only_a; see "b" 1600000001 only_a] =
    Ok [line "set a 5 0 3 1" ++ line "one"; line "set b 5 0 3 1" ++ line "one"] /\
  dump_all [see "b" 1600000001 only_a; see "a" 1600000001 only_a] =
    Ok [line "set b 0 0 0" ++ line ""; line "set a 5 0 3 1" ++ line "one"] /\
  forall r, ~ StorageSpec.live only_a 1600000001 (s2b "b") r.
Proof.
  split; [vm_compute; reflexivity|]. split; [vm_compute; reflexivity|]. intros r (H & _). unfold holds in H.
  assert (db only_a !! s2b "b" = None) as E by (vm_compute; reflexivity). rewrite E in H. discriminate.
Qed.
Print Assumptions c57_deleted_refuted.
(** If instead it has expired, the length in its header is used with the data of the record before it: this reads
    past the end of the data if the expired value was longer. *)
Definition short_lived : store := served (init_store 8) [(1600000000%Z, line "set a 5 0 3" ++ line "one"); (1600000000%Z, line "set b 6 10 4" ++ line "more")].
Theorem c57_expired_refuted :
  dump_all [see "a" 1600000001 short_lived; see "b" 1600000001 short_lived] = Ok [line "set a 5 0 3 1" ++ line "one"; line "set b 6 1600000010 4 1" ++ line "more"] /\
  dump_all [see "a" 1600000010 short_lived; see "b" 1600000010 short_lived] = Undef.
Proof. split; vm_compute; reflexivity. Qed.
Print Assumptions c57_expired_refuted.

(** With as many partitions as the key resolver has rows, the first key that is visited makes the dump read outside of
    its table (c13_table_overrun_refuted). *)
Theorem c57_table_refuted : exists cfg, KeyResolverSpec.valid cfg /\ startup_ok cfg = true /\
  forall ext alg part v l, (0 <= part)%Z -> v_size v = 4%nat -> v_stop v = false -> dump_replication cfg ext alg part (v :: l) = Undef.
Proof.
  exists (mkConfig 4 1 8). split; [split; cbn; lia|]. split; [reflexivity|]. intros ext alg part v l Hp Hs Hn. unfold dump_replication. cbn [dump_visits]. rewrite Hn, Hs.
  unfold selected. destruct (Z.ltb_spec part 0) as [L|_]; [lia|]. reflexivity.
Qed.
Print Assumptions c57_table_refuted.

Definition show (s : store) (k : string) : bytes := snd (run_get 1700000000 s response_get [s2b k]).
Definition at_start (s : store) : transfer := mkTransfer s (init_store 8) [] (empty_entry []) None.
(** A key that is deleted while its record is on the way: the delete arrives first and finds nothing, then the record arrives and
    stays for ever. *)
Theorem c57_delete_race_refuted : exists l st, Forall (fun h => incident_time h = 1600000001%Z) l /\ transfer_run (at_start two) l = Ok st
  /\ on_way st = [] /\ dump_request st = None
  /\ show (source_store st) "b" = line "END" /\ show (dest_store st) "b" = line "VALUE b 6 4" ++ line "more" ++ line "END".
Proof.
  exists [Visit 1600000001 (s2b "b"); Client 1600000001 (line "delete b"); Deliver 1600000001 0; Land 1600000001].
  eexists. split; [repeat constructor|]. split; [vm_compute; reflexivity|]. vm_compute. auto.
Qed.
Print Assumptions c57_delete_race_refuted.
(** Likewise a touch: the destination drops the record when the old expiry time is over. *)
Theorem c57_touch_race_refuted : exists l st, Forall (fun h => incident_time h = 1600000001%Z) l /\ transfer_run (at_start short_lived) l = Ok st
  /\ on_way st = [] /\ dump_request st = None
  /\ show (source_store st) "b" = line "VALUE b 6 4" ++ line "more" ++ line "END" /\ show (dest_store st) "b" = line "END".
Proof.
  exists [Visit 1600000001 (s2b "b"); Client 1600000001 (line "touch b 0"); Deliver 1600000001 0; Land 1600000001].
  eexists. split; [repeat constructor|]. split; [vm_compute; reflexivity|]. vm_compute. auto.
Qed.
Print Assumptions c57_touch_race_refuted.

(** ** Examples *)
Definition decode (raw : bytes) : rec :=
  mkRec (le_dec (firstn 4 raw)) (u64_to_i64 (le_dec (firstn 8 (skipn 4 raw)))) (le_dec (firstn 8 (skipn 20 raw))) (skipn 28 raw).
Definition wf_b (r : rec) : bool :=
  (r_flag r <? 2 ^ 32) && (- 2 ^ 63 <=? r_expire r)%Z && (r_expire r <? 2 ^ 63)%Z && (r_version r <? 2 ^ 64)
  && (blen (r_data r) <=? 2147483647 - 28) && forallb (fun b => b <? 256) (r_data r).
Lemma wf_b_ok r : wf_b r = true -> wf_rec r.
Proof.
  unfold wf_b. rewrite !andb_true_iff. intros [[[[[H1 H2] H3] H4] H5] H6]. split; [lia|]. split; [unfold is_i64; lia|]. split; [lia|]. split; [lia|].
  apply List.Forall_forall. intros b Hb. rewrite forallb_forall in H6. apply H6 in Hb. now apply N.ltb_lt in Hb.
Qed.
(** What is stored under [k], checked. *)
Definition stored_b (s : store) (k : key) (P : rec -> bool) : bool :=
  match db s !! k with None => true | Some raw => beq raw (encode_rec (decode raw)) && wf_b (decode raw) && P (decode raw) end.
Lemma stored_b_ok s k P : stored_b s k P = true -> forall r, holds s k (Some r) -> wf_rec r -> P r = true.
Proof.
  unfold stored_b, holds. intros H r Hr W. rewrite Hr in H. cbn [fmap option_fmap option_map] in H. rewrite !andb_true_iff in H. destruct H as [[H1 H2] H3].
  apply beq_eq in H1. apply wf_b_ok in H2. assert (r = decode (encode_rec r)) as E by (apply encode_inj; auto).
  rewrite E. exact H3.
Qed.
Definition lasts_b (now : Z) (r : rec) : bool := negb ((0 <? r_expire r)%Z && (r_expire r <=? now)%Z).
Definition spares_b (k : key) (r : request) : bool :=
  match r with RDelete e | RTouch _ e => negb (beq (e_key e) k) | RFlush _ => false | _ => true end.
Definition allowed_b (k : key) (st : transfer) (h : incident) : bool :=
  stored_b (source_store st) k (lasts_b (incident_time h)) &&
  match h with
  | Client now stream => forallb (fun b => b <? 256) stream &&
      match serve_next now stream with Ok (Accepted c r, _) => match c_trail c with [] => spares_b k r | _ => false end | _ => true end
  | Visit now k' => (beq k' (s2b "a") || beq k' (s2b "b")) && (if beq k' k then live_b (source_store st) now k else true)
  | _ => true
  end.
Lemma legal_ab k : beq k (s2b "a") || beq k (s2b "b") = true -> legal_key k.
Proof.
  rewrite orb_true_iff. intros [H|H]; apply beq_eq in H; subst k;
    (split; [vm_compute; discriminate|]; split; [vm_compute; repeat (apply List.Forall_cons; [unfold word_byte; lia|]); apply List.Forall_nil|vm_compute; congruence]).
Qed.
Lemma allowed_b_ok k st h : allowed_b k st h = true -> allowed k st h.
Proof.
  unfold allowed_b, allowed. intros H. apply andb_true_iff in H as [H1 H2]. split.
  { intros r Hr W. pose proof (stored_b_ok _ _ _ H1 r Hr W) as L. unfold lasts_b, expired in *. lia. }
  destruct h as [now stream|now k'| | |]; try exact I.
  - apply andb_true_iff in H2 as [H2 H3]. split.
    { apply List.Forall_forall. intros b Hb. rewrite forallb_forall in H2. apply H2 in Hb. now apply N.ltb_lt in Hb. }
    intros c r rest E. rewrite E in H3. destruct (c_trail c); [|discriminate]. split; [apply List.Forall_nil|].
    destruct r; cbn [spares spares_b] in *; auto; try discriminate; intros X; rewrite X, beq_refl in H3; discriminate.
  - apply andb_true_iff in H2 as [H2 H3]. split; [now apply legal_ab|]. intros ->. rewrite beq_refl in H3. now apply live_b_ok.
Qed.
Fixpoint transferred_b (k : key) (T : Z) (st : transfer) (l : list incident) (P : transfer -> bool) : bool :=
  match l with
  | [] => P st
  | h :: l' => (T <=? incident_time h)%Z && (incident_time h <? 2 ^ 62)%Z && allowed_b k st h
      && match transfer_step st h with
         | Ok (st', _) => stored_b (source_store st') k (fun r => negb (r_version r =? 0)) && transferred_b k (incident_time h) st' l' P
         | _ => false
         end
  end.
Lemma transferred_b_ok k T0 st0 l' P : forall l T st, transferred k T0 st0 l T st -> transferred_b k T st l' P = true ->
  exists T' st', transferred k T0 st0 (l ++ l') T' st' /\ P st' = true.
Proof.
  induction l' as [|h l' IH]; intros l T st H G; cbn [transferred_b] in G.
  - exists T, st. now rewrite app_nil_r.
  - rewrite !andb_true_iff in G. destruct G as [[[G1 G2] G3] G4]. destruct (transfer_step st h) as [| |[st' out]] eqn:E; try discriminate.
    apply andb_true_iff in G4 as [G4 G5]. destruct (IH (l ++ [h]) (incident_time h) st') as (T' & st'' & A & B); [|exact G5|].
    { econstructor; eauto; [lia|now apply allowed_b_ok|]. intros r Hr W. pose proof (stored_b_ok _ _ _ G4 r Hr W) as V. cbv beta in V. lia. }
    exists T', st''. rewrite <- app_assoc in A. auto.
Qed.


(** Two nodes: the destination is empty. *)
Definition record_a := mkRec 7 0 3 (s2b "one").
Definition record_b := mkRec 0 0 2 (s2b "10").
Definition here : store := mkStore (<[s2b "a" := encode_rec record_a]> (<[s2b "b" := encode_rec record_b]> ∅)) [] 16.
Lemma here_wf : wf_store here. Proof. wf_example. Qed.
Lemma here_holds k r : holds here k (Some r) -> wf_rec r -> (k = s2b "a" /\ r = record_a) \/ (k = s2b "b" /\ r = record_b).
Proof.
  unfold holds. cbn [here db fmap option_fmap option_map]. rewrite !lookup_insert_Some, lookup_empty. intros [[-> H]|[_ [[-> H]|[_ H]]]] W; [left|right|discriminate];
    (split; [reflexivity|]; eapply encode_inj; [exact W|now apply wf_small|now symmetry]).
Qed.
Example c57_prepared : prepared (s2b "b") 1600000000 (at_start here).
Proof.
  split; cbn [at_start source_store dest_store on_way dump_entry dump_request]; try reflexivity; try apply here_wf; try apply init_wf.
  - lia.
  - intros k r H W. destruct (here_holds _ _ H W) as [[_ ->]|[_ ->]]; vm_compute; left; reflexivity.
  - intros r H W. destruct (here_holds _ _ H W) as [[_ ->]|[_ ->]]; vm_compute; discriminate.
  - intros r H. unfold holds in H. cbn in H. rewrite lookup_empty in H. discriminate.
Qed.
(** b is on its way as it was while a client writes it twice; the writes overtake the record and one of them is sent twice; a is deleted. *)
Definition moving : list incident :=
  [ Visit 1600000000 (s2b "b");
    Client 1600000001 (line "incr b 32");
    Client 1600000001 (line "set a 0 0 3" ++ line "two");
    Deliver 1600000001 1;
    Client 1600000002 (line "append b 0 0 1" ++ line "0");
    Attempt 1600000002 0; Deliver 1600000002 1; Deliver 1600000003 0;
    Land 1600000003;
    Client 1600000004 (line "delete a");
    Deliver 1600000005 0 ].
Definition settled_b (out : bytes) (st : transfer) : bool :=
  match on_way st, dump_request st with [], None => beq (snd (run_get 1600000005 (dest_store st) response_gets [s2b "a"; s2b "b"])) out | _, _ => false end.
Example c57_moving_runs : exists T st, transferred (s2b "b") 1600000000 (at_start here) moving T st /\ on_way st = [] /\ dump_request st = None
  /\ snd (run_get 1600000005 (dest_store st) response_gets [s2b "a"; s2b "b"]) = line "VALUE b 0 3 4" ++ line "420" ++ line "END".
Proof.
  destruct (transferred_b_ok (s2b "b") 1600000000 (at_start here) moving (settled_b (line "VALUE b 0 3 4" ++ line "420" ++ line "END"))
    [] 1600000000%Z (at_start here)) as (T & st & H & P); [apply tr_nil|vm_compute; reflexivity|].
  exists T, st. split; [exact H|]. unfold settled_b in P. destruct (on_way st); [|discriminate]. destruct (dump_request st); [discriminate|].
  split; [reflexivity|]. split; [reflexivity|]. now apply beq_eq in P.
Qed.
Example c57_moving_legal : legal_key (s2b "b"). Proof. now apply legal_ab. Qed.

(** The dump of the partition of b. *)
Example c57_owed : owed cfg16 no_ext ha_simple 1 [mkVisit (s2b "a") 100 here 2 false true; mkVisit (s2b "b") 100 here 2 false true] [(s2b "b", record_b)]
  /\ dump_replication cfg16 no_ext ha_simple 1 [mkVisit (s2b "a") 100 here 2 false true; mkVisit (s2b "b") 100 here 2 false true] = Ok [line "set b 0 0 2 2" ++ line "10"].
Proof.
  split; [|vm_compute; reflexivity].
  apply owed_skip; [lia|intros [H|[_ H]]; vm_compute in H; discriminate|].
  apply owed_send; [right; split; [lia|vm_compute; reflexivity]| |apply owed_nil].
  split; [reflexivity|]. split; [now apply wf_small|]. vm_compute. intuition discriminate.
Qed.

(** A history (that of C53) in which some writes came to the node by way of another one. *)
Definition trailed (l : list event) : list (list bytes * event) :=
  map (fun ev => (match ev with ReplicaModel.Attempt _ _ => [s2b "n2:1"] | ReplicaModel.Deliver _ (S _) => [s2b "n2:1"; s2b "n3:1"] | _ => [] end, ev)) l.
Fixpoint dup_run (T : Z) (st : pair) (l : list (list bytes * event)) (P : pair -> bool) : bool :=
  match l with
  | [] => P st
  | (trail, ev) :: l' => (T <=? event_time ev)%Z && (event_time ev <? 2 ^ 62)%Z && admissible_b st ev
      && match step trail st ev with Ok (st', _) => dup_run (event_time ev) st' l' P | _ => false end
  end.
Lemma dup_run_ok T0 st0 l' P : forall l T st, duplicated T0 st0 l T st -> Forall (fun x => Forall legal_node_name (fst x)) l' -> dup_run T st l' P = true ->
  exists T' st', duplicated T0 st0 (l ++ l') T' st' /\ P st' = true.
Proof.
  induction l' as [|[trail ev] l' IH]; intros l T st H F G; cbn [dup_run] in G.
  - exists T, st. now rewrite app_nil_r.
  - rewrite !andb_true_iff in G. destruct G as [[[G1 G2] G3] G4]. destruct (step trail st ev) as [| |[st' out]] eqn:E; try discriminate.
    inversion F as [|x y F1 F2]; subst. destruct (IH (l ++ [(trail, ev)]) (event_time ev) st') as (T' & st'' & A & B); [|exact F2|exact G4|].
    { econstructor; eauto; [lia|lia|now apply admissible_b_ok]. }
    exists T', st''. rewrite <- app_assoc in A. auto.
Qed.
Example c56_history_runs : exists T st, duplicated 1600000000 empty_pair (trailed history) T st
  /\ pending st = [] /\ snd (run_get 1600000500 (replica st) response_gets [s2b "a"; s2b "b"]) = line "VALUE b 0 2 2" ++ line "42" ++ line "END".
Proof.
  destruct (dup_run_ok 1600000000 empty_pair (trailed history) (fun st => answers st 1600000500 (line "VALUE b 0 2 2" ++ line "42" ++ line "END"))
    [] 1600000000%Z empty_pair) as (T & st & H & P); [apply dup_nil| |vm_compute; reflexivity|].
  { repeat constructor; vm_compute; try reflexivity; try discriminate. }
  exists T, st. split; [exact H|]. unfold answers in P. destruct (pending st); [|discriminate]. split; [reflexivity|]. now apply beq_eq in P.
Qed.
