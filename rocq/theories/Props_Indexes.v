(** C61: the index servers that share ZooKeeper act as one. *)
From Coq Require Import NArith ZArith List Bool String Lia Permutation ZifyBool ZifyNat ZifyN.
From Verif Require Import Base BaseLemmas TextModel ClusterModel ClusterSpec ClusterProofs3 ClusterProofs9 Props_Cluster.
From Verif Require Import LockModel LockSpec IndexesModel IndexesSpec IndexesProofs IndexesProofs3 IndexesProofs4.
From Verif Require Import Props_Lock.
Import ListNotations.
Local Open Scope N_scope.
Local Open Scope list_scope.

(** However the requests to the index servers, their ZooKeeper calls and the
    notifications of changes interleave: the answers and the maps stored are those of
    one server that gets the same requests in some order.  Missing from the whole
    property are the cases of [fine]: below, and in C25, C26 and C60, are such cases that
    end differently. *)
Theorem c61_one_server_partial : forall uuid home es s, good_uuid uuid ->
  orderly uuid home ist0 es -> irun uuid home ist0 es = Ok s -> z_next (lk s) <= 2 ^ 31 ->
  exists s1, one_server (map request (ops s)) (log s) s1 /\ history s1 /\ i_map s1 = current s.
Proof.
  intros uuid home es s U O H Hn. destruct (one_of_run uuid U home es s O H Hn) as (s1 & A & B). exists s1. split; auto. split; auto. now apply one_history in A.
Qed.
Print Assumptions c61_one_server_partial.

(** So no two live nodes are masters of one partition, the stored maps are numbered
    one after the other, *)
Theorem c61_one_master_partial : forall uuid home es s, good_uuid uuid ->
  orderly uuid home ist0 es -> irun uuid home ist0 es = Ok s -> z_next (lk s) <= 2 ^ 31 -> one_master (current s).
Proof.
  intros uuid home es s U O H Hn. destruct (c61_one_server_partial uuid home es s U O H Hn) as (s1 & _ & Hi & <-). now apply c25_one_master_partial.
Qed.
Print Assumptions c61_one_master_partial.
Theorem c61_versions_partial : forall uuid home es s k d, good_uuid uuid ->
  orderly uuid home ist0 es -> irun uuid home ist0 es = Ok s -> z_next (lk s) <= 2 ^ 31 ->
  nth_error (log s) k = Some d -> v_version d = (N.of_nat k + 1) mod 2 ^ 64.
Proof.
  intros uuid home es s k d U O H Hn. destruct (one_of_run uuid U home es s O H Hn) as (s1 & A & _). now apply (one_versions _ _ _ A).
Qed.
Print Assumptions c61_versions_partial.
(** and no node that was added is lost. *)
Theorem c61_not_lost_partial : forall uuid home es s h p, good_uuid uuid ->
  orderly uuid home ist0 es -> irun uuid home ist0 es = Ok s -> z_next (lk s) <= 2 ^ 31 -> ~ lost s h p.
Proof. intros uuid home es s h p U. exact (not_lost uuid U home es s h p). Qed.
Print Assumptions c61_not_lost_partial.

(** Whatever goes wrong: an operation that ends without its map being stored is answered with an error. *)
Theorem c61_acknowledged : forall uuid home s i o s', istep uuid home s (Store i o) = Ok s' ->
  exists a, ops s' = ops s ++ [a] /\ a_op a = i /\
    ((exists e r d, op s i = OStore e r d /\ log s' = log s ++ [d] /\ a_event a = e /\ a_ret a = r) \/ (log s' = log s /\ a_ret a = (-1)%Z)).
Proof.
  intros uuid home s i o s' H. cbn [istep] in H. destruct (op s i) as [| | | |e r d|] eqn:E; try discriminate H.
  destruct o; injection H as <-; eexists; (split; [reflexivity|]); (split; [reflexivity|]); [left; exists e, r, d; auto|right; auto|right; auto].
Qed.
Print Assumptions c61_acknowledged.

(** ** Two servers *)
(** The operations of the first have even numbers, those of the second odd ones. *)
Definition home2 (i : N) : N := i mod 2.
(** Operation [i], the only one, with node number [q]: it gets the lock, the flush is
    answered, it stores. *)
Definition starts (i q : N) : list ievent := map Lock (takes i q []) ++ [Sync i; Answer i true; Flushed (home2 i)].
Definition stores (i : N) (e : ClusterModel.event) : list ievent := [Load i e true; Store i Stored].
Definition ends (i : N) : list ievent := map Lock (frees i).
Definition told (j : N) : list ievent := [Notice j true; Rearm j true].
Definition does (i q : N) (e : ClusterModel.event) : list ievent := starts i q ++ stores i e ++ told (home2 i) ++ ends i.
(** It is carried out and the other server hears of it. *)
Definition both (i q : N) (e : ClusterModel.event) : list ievent := does i q e ++ [See (1 - home2 i)] ++ told (1 - home2 i).

Fixpoint orderly_b (s : ist) (es : list ievent) : bool :=
  match es with
  | [] => true
  | e :: t =>
      match e with
      | Lock (Expire _) | Lock (Call _ _ NoWatch) | Answer _ false | Notice _ false | Store _ Unstored | Store _ Late => false
      | Rearm j ok => ok && match handler (srv s j) with Some n => (n =? view (srv s j))%nat | None => false end
      | Load _ e _ => negb (abandons_b (with_map (fresh_index None) (current s)) e)
      | _ => true
      end && match istep uuid1 home2 s e with Ok s' => orderly_b s' t | _ => true end
  end.
Lemma orderly_by s es : orderly_b s es = true -> orderly uuid1 home2 s es.
Proof.
  revert s. induction es as [|e es IH]; intros s H; [exact Logic.I|]. cbn [orderly_b orderly] in *. apply andb_prop in H as (H1 & H2).
  split; [|intros s' E; rewrite E in H2; auto].
  destruct e as [e|i|i ok|j|j ok|j ok|j|i e ok|i o|n]; cbn [fine] in *; auto.
  - destruct e as [ |i w []| | | | | | | | ]; try discriminate; exact Logic.I.
  - destruct ok; [auto|discriminate].
  - destruct ok; [auto|discriminate].
  - apply andb_prop in H1 as (H1 & H3). split; auto. destruct (handler (srv s j)); [|discriminate]. now apply Nat.eqb_eq in H3 as ->.
  - apply abandons_compute. now apply negb_true_iff in H1.
  - destruct o; [auto|discriminate|discriminate].
Qed.

Definition nodes (s : ist) : list (bytes * role * nstate * Z) :=
  map (fun kn => (fst kn, n_role (snd kn), n_state (snd kn), n_partition (snd kn))) (current s).
(** The servers set up a partition between them.  While one brings up the slave, the
    other waits for the lock to take the master down; it does not hear of the first
    one's change before its own flush is answered.  Its request makes the slave master. *)
Definition setup : list ievent :=
  both 0 0 (A "m") ++ both 1 1 (A "s") ++ both 3 2 (R "m" Master 1 0) ++ both 2 3 (R "s" Slave 0 0) ++ both 5 4 (St "s" Ready).
Definition failing_over : list ievent :=
  setup ++ starts 4 5 ++ map Lock (queues 7 6 [node 4 5]) ++ stores 4 (St "s" Active) ++ ends 4 ++
  map Lock [Wake 7 (node 4 5); Call 7 Watcher (Listed [node 7 6]); Call 7 Watcher (Listed [node 7 6]); Call 7 Watcher Done; Return 7 Watcher; Acquire 7] ++
  [Sync 7; See 1; Answer 7 true] ++ told 1 ++ [Flushed 1] ++ stores 7 (St "m" Down) ++ told 0.
Example c61_partial_case : orderly uuid1 home2 ist0 failing_over /\
  exists s, irun uuid1 home2 ist0 failing_over = Ok s /\ z_next (lk s) <= 2 ^ 31 /\
    map a_ret (ops s) = [0; 0; 0; 0; 0; 0; 0]%Z /\ map v_version (log s) = [1; 2; 3; 4; 5; 6; 7] /\
    nodes s = [(K "m", Proxy, Down, -1); (K "s", Master, Active, 0)]%Z.
Proof.
  split; [apply orderly_by; vm_compute; reflexivity|]. eexists. split; [vm_compute; reflexivity|]. split; [vm_compute; discriminate|].
  split; [vm_compute; reflexivity|]. split; vm_compute; reflexivity.
Qed.

(** The whole property *)
Definition c61_one_server (uuid : N -> N -> bytes) (home : N -> N) : Prop :=
  forall es s, irun uuid home ist0 es = Ok s -> exists s1, one_server (map request (ops s)) (log s) s1.

(** ** A change is missed *)
(** ZooKeeper's thread reads the map and only then watches it again: what is stored in
    between is not noticed.  The server goes on with the tables of the old map, and
    takes a master down without promoting the slave.  No call fails. *)
Definition succeeds (e : ievent) : Prop :=
  match e with
  | Lock (Expire _) => False
  | Lock e => watches e
  | Answer _ ok | Notice _ ok | Rearm _ ok | Load _ _ ok => ok = true
  | Store _ o => o = Stored
  | Land _ => False
  | _ => True
  end.
Definition missed : list ievent :=
  does 0 0 (A "m") ++ [See 1; Notice 1 true] ++ does 2 1 (A "s") ++ does 4 2 (R "m" Master 1 0) ++ does 6 3 (R "s" Slave 0 0) ++
  does 8 4 (St "s" Ready) ++ does 10 5 (St "s" Active) ++ [See 1; See 1; See 1; See 1; See 1; Rearm 1 true] ++ does 1 6 (St "m" Down).
Theorem c61_missed_change_refuted : exists es s,
  irun uuid1 home2 ist0 es = Ok s /\ Forall succeeds es /\ Forall (fun a => a_ret a = 0%Z) (ops s) /\
  nodes s = [(K "m", Master, Down, 0); (K "s", Slave, Active, 0)]%Z /\
  forall s1, ~ one_server (map request (ops s)) (log s) s1.
Proof.
  exists missed. eexists. split; [vm_compute; reflexivity|]. split; [unfold missed, does, starts, stores, told, ends, takes, frees; repeat (apply Forall_app; split); repeat constructor|].
  split; [vm_compute; repeat constructor|]. split; [vm_compute; reflexivity|]. intros s1 O. apply one_replays in O. vm_compute in O. discriminate.
Qed.
Print Assumptions c61_missed_change_refuted.
Corollary c61_one_server_refuted : ~ c61_one_server uuid1 home2.
Proof. intros H. destruct c61_missed_change_refuted as (es & s & R & _ & _ & _ & N). destruct (H es s R) as (s1 & O). exact (N s1 O). Qed.
Print Assumptions c61_one_server_refuted.

(** ** No map is stored twice or made up, whatever happens
    A map is stored because an operation handed it over, once, at once or late; nothing that has been stored or is on its way gets lost. *)
Theorem c61_stored_once uuid home s e s' : istep uuid home s e = Ok s' ->
  Permutation (log s' ++ late s') (log s ++ late s)
  \/ exists i o ev r w, e = Store i o /\ o <> Unstored /\ op s i = OStore ev r w /\ Permutation (log s' ++ late s') (w :: log s ++ late s).
Proof.
  destruct e as [e|i|i ok|j|j ok|j ok|j|i e ok|i o|n]; cbn [istep]; intros H.
  - left. destruct e; try (destruct (step uuid (lk s) _) as [| |l] eqn:L; try discriminate; cbn [bind] in H; injection H as <-; cbn; apply Permutation_refl; fail).
    destruct (op s i); try discriminate; (destruct (step uuid (lk s) _) as [| |l] eqn:L; try discriminate; cbn [bind] in H; injection H as <-; cbn; apply Permutation_refl).
  - left. destruct (op s i); try discriminate. destruct (is_held s i); try discriminate. injection H as <-. apply Permutation_refl.
  - left. destruct (op s i); try discriminate. destruct (_ || _); try discriminate. injection H as <-. apply Permutation_refl.
  - left. destruct (_ <? _)%nat; try discriminate. injection H as <-. apply Permutation_refl.
  - left. destruct (queue (srv s j)) as [|[|] q]; try discriminate. destruct (handler (srv s j)); try discriminate. destruct (busy (srv s j)); try discriminate. injection H as <-. apply Permutation_refl.
  - left. destruct (handler (srv s j)); try discriminate. injection H as <-. apply Permutation_refl.
  - left. destruct (queue (srv s j)) as [|[|] q]; try discriminate. destruct (handler (srv s j)); try discriminate. injection H as <-. apply Permutation_refl.
  - left. destruct (op s i); try discriminate. destruct (_ || _); try discriminate. destruct (body _ _ _ _) as [| |[[r m] [w|]]]; try discriminate; cbn [bind] in H; injection H as <-; apply Permutation_refl.
  - destruct (op s i) as [| | | |ev r w|] eqn:E; try discriminate. destruct o; injection H as <-; cbn [log late answer_op set_op set_srv set_log set_late].
    + right. exists i, Stored, ev, r, w. split; [reflexivity|]. split; [discriminate|]. split; [first [reflexivity|assumption]|]. rewrite <- app_assoc. apply Permutation_sym, Permutation_middle.
    + left. apply Permutation_refl.
    + right. exists i, Late, ev, r, w. split; [reflexivity|]. split; [discriminate|]. split; [first [reflexivity|assumption]|]. rewrite app_assoc. apply Permutation_sym, Permutation_cons_append.
  - left. destruct (nth_error (late s) n) as [w|] eqn:E; try discriminate. injection H as <-. cbn [log late set_log set_late].
    rewrite <- app_assoc. apply Permutation_app_head. cbn [app]. apply nth_error_split in E as (l1 & l2 & -> & <-).
    rewrite firstn_app, firstn_all, Nat.sub_diag. cbn [firstn]. rewrite app_nil_r. rewrite skipn_app. rewrite (skipn_all2 l1) by lia.
    replace (S (List.length l1) - List.length l1)%nat with 1%nat by lia. cbn [skipn app]. apply Permutation_middle.
Qed.
Print Assumptions c61_stored_once.
Definition handed (e : ievent) : bool := match e with Store _ (Stored | Late) => true | _ => false end.
Theorem c61_stored_count uuid home es s : irun uuid home ist0 es = Ok s -> (List.length (log s) + List.length (late s) = List.length (filter handed es))%nat.
Proof.
  assert (K : forall es s0 s, irun uuid home s0 es = Ok s -> (List.length (log s) + List.length (late s) = List.length (log s0) + List.length (late s0) + List.length (filter handed es))%nat).
  2:{ intros H. rewrite (K es ist0 s H). reflexivity. }
  clear es s. induction es as [|e es IH]; intros s0 s H; [injection H as <-; cbn; lia|]. cbn [irun] in H.
  destruct (istep uuid home s0 e) as [| |s1] eqn:E; try discriminate H. cbn [bind] in H. rewrite (IH s1 s H). cbn [filter].
  assert (D : (List.length (log s1) + List.length (late s1) = List.length (log s0) + List.length (late s0) + (if handed e then 1 else 0))%nat).
  { destruct (handed e) eqn:Hh.
    - destruct e as [| | | | | | | |i o|]; try discriminate Hh. cbn [istep] in E. destruct (op s0 i); try discriminate E.
      destruct o; try discriminate Hh; injection E as <-; cbn; rewrite app_length; cbn; lia.
    - destruct (c61_stored_once _ _ _ _ _ E) as [P|(i & o & ev & r & w & -> & Ho & _)]; [|destruct o; cbn in Hh; congruence].
      apply Permutation_length in P. rewrite !app_length in P. lia. }
  rewrite D. destruct (handed e); cbn [List.length]; lia.
Qed.
Print Assumptions c61_stored_count.

(** ** An acknowledged change is lost *)
(** The result of the flush is not looked at: an operation goes on with an old map. *)
Theorem c61_failed_flush_refuted : exists es s, irun uuid1 home2 ist0 es = Ok s /\ lost s (s2b "a") 1.
Proof.
  exists (does 0 0 (A "a") ++ map Lock (takes 1 1 []) ++ [Sync 1; Answer 1 false; Flushed 1] ++ stores 1 (A "b")). eexists. split; [vm_compute; reflexivity|].
  split; [eexists; split; [left; reflexivity|split; reflexivity]|]. split; [|vm_compute; reflexivity]. intros a [<-|[<-|[]]]; discriminate.
Qed.
Print Assumptions c61_failed_flush_refuted.
(** A store whose answer is lost, and which takes effect after other operations. *)
Theorem c61_late_store_refuted : exists es s, irun uuid1 home2 ist0 es = Ok s /\ lost s (s2b "b") 1.
Proof.
  exists (starts 0 0 ++ [Load 0 (A "a") true; Store 0 Late] ++ ends 0 ++ does 1 1 (A "b") ++ [Land 0]). eexists. split; [vm_compute; reflexivity|].
  split; [eexists; split; [right; left; reflexivity|split; reflexivity]|]. split; [|vm_compute; reflexivity]. intros a [<-|[<-|[]]]; discriminate.
Qed.
Print Assumptions c61_late_store_refuted.
(** The session of the lock ends while its operation is under way. *)
Theorem c61_expired_lock_refuted : exists es s, irun uuid1 home2 ist0 es = Ok s /\ lost s (s2b "b") 1.
Proof.
  exists (starts 0 0 ++ [Load 0 (A "a") true; Lock (Expire 0)] ++ does 1 1 (A "b") ++ [Store 0 Stored]). eexists. split; [vm_compute; reflexivity|].
  split; [eexists; split; [left; reflexivity|split; reflexivity]|]. split; [|vm_compute; reflexivity]. intros a [<-|[<-|[]]]; discriminate.
Qed.
Print Assumptions c61_expired_lock_refuted.
