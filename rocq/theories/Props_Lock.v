(** C60: of the index servers that share ZooKeeper, one at a time changes the map. *)
From Coq Require Import NArith ZArith List Bool Lia ZifyBool ZifyNat ZifyN.
From Verif Require Import Base TextModel LockModel LockSpec LockProofs2 LockProofs3 LockProofs4.
Import ListNotations.
Local Open Scope N_scope.
Local Open Scope list_scope.

(** Elements of a name are not limited to a byte, so there are as many uuids as needed. *)
Definition uuid1 (i g : N) : bytes := [i; g] ++ repeat 97 34.
Example uuid1_good : good_uuid uuid1.
Proof. split; [intros i g j h E; injection E; auto|reflexivity]. Qed.
Definition node (i q : N) : bytes := node_name (lock_prefix (uuid1 i 0)) q.
(** [i] asks for the lock, creates node number [q] and finds itself first. *)
Definition takes (i q : N) (others : list bytes) : list event :=
  [Begin i; Call i First (Listed others); Call i First Done; Call i First (Listed (others ++ [node i q]));
   Call i First Done; Return i First; Acquire i].
(** [i] asks for the lock, creates node number [q] and watches the one before. *)
Definition queues (i q : N) (others : list bytes) : list event :=
  [Begin i; Call i First (Listed others); Call i First Done; Call i First (Listed (others ++ [node i q]));
   Call i First Done; Call i First Done; Return i First].
Definition frees (i : N) : list event := [Release i; Delete i Done].

(** While fewer than 2^31 requests have been made and no wait has been given up, two
    lock objects with a session never hold the lock at once, and the one that
    holds it has the oldest request.  Calls may fail, lose their answers and be
    answered in any order; sessions may end. *)
Theorem c60_exclusive_partial : forall uuid es s i j, good_uuid uuid ->
  reached uuid es s -> Forall watches es -> z_next s <= 2 ^ 31 ->
  live s i -> live s j -> holds s i -> holds s j -> i = j /\ first s i.
Proof.
  intros uuid es s i j U R W L Li Lj Hi Hj. pose proof (reached_inv uuid U es s R W L) as V.
  split; [exact (exclusive uuid s i j V Li Lj Hi Hj)|]. destruct (holder_head uuid s i V Li Hi) as (t & E). now exists (l_id (locks s i)), t.
Qed.
Print Assumptions c60_exclusive_partial.

(** Three ask; the first one's session ends while it holds the lock; the second one
    then gets the lock by its watch, and frees it for the third. *)
Definition three : list event :=
  takes 1 0 [] ++ queues 2 1 [node 1 0] ++ queues 3 2 [node 1 0; node 2 1] ++
  [Expire 1; Wake 2 (node 1 0); Call 2 Watcher (Listed [node 3 2; node 2 1]); Call 2 Watcher (Listed [node 2 1; node 3 2]); Call 2 Watcher Done; Return 2 Watcher; Acquire 2].
Example c60_exclusive_partial_case :
  Forall watches three /\ exists s, reached uuid1 three s /\ z_next s <= 2 ^ 31 /\ live s 2 /\ holds s 2 /\ live s 3 /\ waits s 3 /\
    exists s', run uuid1 s (frees 2 ++ [Wake 3 (node 2 1); Call 3 Watcher (Listed [node 3 2]); Call 3 Watcher (Listed [node 3 2]); Call 3 Watcher Done; Return 3 Watcher; Acquire 3]) = Ok s' /\ holds s' 3 /\ ~ holds s' 2.
Proof.
  split; [unfold three, takes, queues; repeat constructor|]. eexists. split; [vm_compute; reflexivity|]. split; [vm_compute; discriminate|].
  split; [reflexivity|]. split; [reflexivity|]. split; [reflexivity|]. split; [reflexivity|]. eexists. split; [vm_compute; reflexivity|]. split; [reflexivity|]. unfold holds. vm_compute. discriminate.
Qed.

(** Who waits and has become first gets the lock by steps of its own: it cannot be
    passed over, even when no event tells it that its turn has come. *)
Theorem c60_first_gets_it : forall uuid es s i, good_uuid uuid ->
  reached uuid es s -> Forall watches es -> z_next s <= 2 ^ 31 ->
  live s i -> waits s i -> first s i ->
  exists es' s', Forall (of_object i) es' /\ run uuid s es' = Ok s' /\ holds s' i.
Proof. intros uuid es s i U R W L Li Wi F. exact (progress uuid U s i (reached_inv uuid U es s R W L) L Li Wi F). Qed.
Print Assumptions c60_first_gets_it.

(** The node it was about to watch goes first: nothing is watched, only the timeout helps. *)
Definition unwatched : list event :=
  takes 1 0 [] ++ [Begin 2; Call 2 First (Listed [node 1 0]); Call 2 First Done; Call 2 First (Listed [node 1 0; node 2 1])] ++ frees 1 ++ [Call 2 First Done; Return 2 First].
Example c60_first_gets_it_case :
  Forall watches unwatched /\ exists s, reached uuid1 unwatched s /\ z_next s <= 2 ^ 31 /\ live s 2 /\ waits s 2 /\ first s 2 /\
    l_watch (locks s 2) = [] /\ l_owner (locks s 2) = false.
Proof.
  split; [unfold unwatched, takes, frees; repeat constructor|]. eexists. split; [vm_compute; reflexivity|]. split; [vm_compute; discriminate|].
  split; [reflexivity|]. split; [reflexivity|]. split; [|split; reflexivity]. eexists; eexists; reflexivity.
Qed.

(** No step reads from an empty list of requests. *)
Theorem c60_defined_partial : forall uuid es s e, good_uuid uuid ->
  reached uuid es s -> Forall watches es -> z_next s <= 2 ^ 31 -> step uuid s e <> Undef.
Proof. intros uuid es s e U R W L. exact (step_defined uuid s e (reached_inv uuid U es s R W L)). Qed.
Print Assumptions c60_defined_partial.
Example c60_defined_partial_case : exists s, reached uuid1 (firstn 3 (takes 1 0 [])) s /\
  exists s', step uuid1 s (Call 1 First (Listed [node 1 0])) = Ok s'.
Proof. eexists. split; [vm_compute; reflexivity|]. eexists. vm_compute. reflexivity. Qed.

(** The whole property: no two at once. *)
Definition c60_exclusive (uuid : N -> N -> bytes) : Prop :=
  forall es s i j, reached uuid es s -> holds s i -> holds s j -> i = j.

(** A session that ends during an operation does not stop the operation. *)
Theorem c60_expired_holder_refuted : exists es s,
  reached uuid1 es s /\ Forall watches es /\ holds s 1 /\ holds s 2 /\ live s 2 /\ ~ live s 1.
Proof.
  exists (takes 1 0 [] ++ [Expire 1] ++ takes 2 1 []). eexists. split; [vm_compute; reflexivity|]. split; [unfold takes; repeat constructor|].
  split; [reflexivity|]. split; [reflexivity|]. split; [reflexivity|]. unfold live. vm_compute. discriminate.
Qed.
Print Assumptions c60_expired_holder_refuted.

(** Nor is it true of objects with a session: one fails to watch the node before its
    own, and gives up, while its other thread finds itself first. *)
Definition given_up : list event :=
  takes 1 0 [] ++ queues 2 1 [node 1 0] ++
  [Timeout 2; Call 2 Poll (Listed [node 1 0; node 2 1]); Call 2 Poll (Listed [node 1 0; node 2 1])] ++ frees 1 ++
  [Wake 2 (node 1 0); Call 2 Watcher (Listed [node 2 1]); Call 2 Watcher (Listed [node 2 1]);
   Call 2 Poll NoWatch; Call 2 Poll Done; Call 2 Watcher Done; Return 2 Watcher; Return 2 Poll; Acquire 2] ++
  takes 3 2 [].
Theorem c60_given_up_refuted : exists es s,
  reached uuid1 es s /\ z_next s = 3 /\ live s 2 /\ live s 3 /\ holds s 2 /\ holds s 3.
Proof.
  exists given_up. eexists. split; [vm_compute; reflexivity|]. repeat (split; [reflexivity|]). reflexivity.
Qed.
Print Assumptions c60_given_up_refuted.
Corollary c60_exclusive_refuted : ~ c60_exclusive uuid1.
Proof. intros H. destruct c60_given_up_refuted as (es & s & R & _ & _ & _ & A & B). now specialize (H es s 2 3 R A B). Qed.
Print Assumptions c60_exclusive_refuted.

(** Nor when nothing fails: ZooKeeper's counter is an int, and a request with a
    negative number sorts before the ones made earlier. *)
Definition wrapped : N := 2 ^ 31 + 1.
Theorem c60_counter_refuted : exists es s,
  reached uuid1 es s /\ Forall watches es /\ live s 1 /\ live s 2 /\ holds s 1 /\ holds s 2.
Proof.
  destruct (many_operations uuid1 wrapped) as (es & s & W & R & Sm).
  set (es' := takes 1 wrapped [] ++ takes 2 (wrapped + 1) [node 1 wrapped]).
  assert (T : exists t, run uuid1 (after wrapped) es' = Ok t /\ live t 1 /\ live t 2 /\ holds t 1 /\ holds t 2).
  { eexists. split; [vm_compute; reflexivity|]. repeat (split; [reflexivity|]). reflexivity. }
  destruct T as (t & T & L1 & L2 & H1 & H2). pose proof (same_run uuid1 es' _ _ Sm) as G. rewrite T in G.
  destruct (run uuid1 s es') as [| |s'] eqn:E; try contradiction. destruct G as (_ & _ & G). unfold live, holds in *. rewrite <- G in *.
  exists (es ++ es'), s'. split; [unfold reached in *; now rewrite (run_app uuid1 _ _ _ _ R)|]. split; [|auto].
  apply Forall_app. split; auto. unfold es', takes. repeat constructor.
Qed.
Print Assumptions c60_counter_refuted.

(** Who waits for its turn need not get it: after its session has ended
    begin_operation never returns, whatever happens. *)
Definition abandoned : list event := takes 1 0 [] ++ queues 2 1 [node 1 0] ++ [Expire 2].
Theorem c60_expired_waiter_refuted : exists es s,
  reached uuid1 es s /\ Forall watches es /\ waits s 2 /\ ~ live s 2 /\
  forall es' s', run uuid1 s es' = Ok s' -> in_begin s' 2.
Proof.
  exists abandoned. eexists. split; [vm_compute; reflexivity|]. split; [unfold abandoned, takes, queues; repeat constructor|].
  split; [reflexivity|]. split; [unfold live; vm_compute; discriminate|]. intros es' s' R. apply stuck_in_begin. refine (stuck_run uuid1 es' _ s' 2 _ R).
  repeat (split; [reflexivity|]). exact Logic.I.
Qed.
Print Assumptions c60_expired_waiter_refuted.
