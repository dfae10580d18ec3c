(** C36: work queues. *)
From Coq Require Import List Bool NArith ZArith Lia.
From Coq Require Import ZifyBool ZifyNat ZifyN.
From Verif Require Import QueueModel QueueSpec QueueProofs QueueProofs2.
Import ListNotations.

(** ** Order.  Under every schedule, what the worker takes from the queue is, in the same order
    and each entry once, the beginning of what was put in; the rest is still in the queue. *)
Theorem c36_fifo : forall k s, reachable any_event k s ->
  NoDup (pushed s) /\ pushed s = taken s ++ queue s.
Proof. intros k s R. pose proof (reachable_inv _ _ _ R) as V. split; apply V. Qed.
Print Assumptions c36_fifo.

(** What it processes is, until it is told to stop, all that it took: nothing is skipped, and only
    the entry in its hands may be missing. *)
Theorem c36_all_taken_are_processed : forall k s, reachable any_event k s ->
  match at_ s with
  | Top | Enter | Asleep | Awake | Works _ | Signals _ => taken s = handled s
  | Holds i => taken s = handled s ++ [i]
  | _ => True
  end.
Proof. intros k s R. pose proof (v_place s (reachable_inv _ _ _ R)) as P. destruct (at_ s); auto. Qed.
Print Assumptions c36_all_taken_are_processed.

(** Even while it stops, what it processes is a beginning of what was put in. *)
Theorem c36_processed_in_order : forall k s, reachable any_event k s -> prefix (handled s) (pushed s).
Proof. intros k s R. exact (handled_prefix s (reachable_inv _ _ _ R)). Qed.
Print Assumptions c36_processed_in_order.

(** ** Release.  If its condition variable has no spurious wakeups, a requester goes on only
    after its entry was processed or discarded. *)
Theorem c36_not_released_early : forall k s i, reachable no_spurious k s -> stage_of s i = Released -> In i (settled s).
Proof.
  intros k s i (es & A & E). apply (rel_steps k es st0 s); auto; [apply inv0|]. intros j J. discriminate J.
Qed.
Print Assumptions c36_not_released_early.
(** An entry is released only when it was processed, found in the queue of a worker that
    stopped, refused, or dropped by a worker that stopped: while the worker runs, everything
    released and not refused has been processed. *)
Theorem c36_settled_was_handled : forall k s i, reachable any_event k s ->
  match at_ s with Top | Enter | Asleep | Awake | Holds _ | Works _ | Signals _ => True | _ => False end ->
  In i (settled s) -> In i (handled s) \/ stage_of s i = Failed.
Proof. intros k s i R. exact (settled_handled s i (reachable_inv _ _ _ R)). Qed.
Print Assumptions c36_settled_was_handled.

(** A requester that waits for an entry that was processed or discarded has its wakeup coming:
    the worker's next step is to signal it. *)
Theorem c36_wakeup_is_coming : forall k s i, reachable any_event k s -> stage_of s i = Waits -> In i (settled s) ->
  exists s', step k s Worker = Some s' /\ stage_of s' i = Released.
Proof. intros k s i R. exact (wakeup_coming k s i (reachable_inv _ _ _ R)). Qed.
Print Assumptions c36_wakeup_is_coming.

(** ** Nothing is forgotten.  As long as the worker is not told to stop, it can always empty its
    queue with no further requests: its own steps and the signals already on their way lead to a
    state where everything put in was processed and nobody waits. *)
Theorem c36_everything_gets_done : forall k s, uses_null k = false -> reachable quiet k s ->
  exists es s', forallb internal es = true /\ steps k s es = Some s' /\
    pushed s' = pushed s /\ handled s' = pushed s' /\ queue s' = [] /\ forall i, stage_of s' i <> Waits.
Proof.
  intros k s U (es & Q & E). assert (V : inv s) by (eapply inv_steps; [apply inv0|exact E]).
  assert (L : live s) by (eapply live_steps; eauto; split; auto).
  destruct (drain k s U V L) as (s' & (es' & I & S) & A & QE & P). exists es', s'.
  assert (V' : inv s') by (eapply inv_steps; [exact V|exact S]). destruct (rest s' V' A QE). auto 10.
Qed.
Print Assumptions c36_everything_gets_done.
(** In particular no wakeup of the worker is lost: if it sleeps while the queue is not empty,
    the signal for every entry in the queue is still to come. *)
Theorem c36_no_lost_wakeup : forall k s i, reachable any_event k s -> at_ s = Asleep -> In i (queue s) -> stage_of s i = Pushed.
Proof. intros k s i R A. exact (v_asleep s (reachable_inv _ _ _ R) A i). Qed.
Print Assumptions c36_no_lost_wakeup.

(** ** Stopping.  A worker that releases the entry in its hands leaves nobody waiting, provided
    nothing is put in after it looked at the queue for the last time. *)
Theorem c36_stop_partial : forall k s i, releases k = true -> reachable any_event k s ->
  at_ s = Swept -> queue s = [] -> stage_of s i <> Waits.
Proof.
  intros k s i RL (es & _ & E) A Q W. assert (V : inv s) by (eapply inv_steps; [apply inv0|exact E]).
  assert (O : sound s) by (eapply sound_steps; eauto; intros j []).
  assert (T : In i (taken s)). { pose proof (v_split s V) as SP. rewrite Q, app_nil_r in SP. rewrite <- SP. apply (v_in s V). now rewrite W. }
  destruct (O i T) as [H|[H|H]]; try congruence. destruct (v_waits s V i W H) as [X|[X|X]]; congruence.
Qed.
Print Assumptions c36_stop_partial.

(** ** The limit.  With [n] workers, the entries in all queues together exceed the limit by less
    than [n]; with one worker they never exceed it. *)
Theorem c36_limit_partial : forall max n es l, (0 < max)%N -> (0 < n)%nat -> Forall (of_workers n) es ->
  lsteps max load0 es = Some l -> (total l <= max + N.of_nat n - 1)%N.
Proof.
  intros max n es l M N0 F E. assert (P : pending max n load0 = 0%nat).
  { unfold pending. induction (seq 0 n); cbn; auto. }
  pose proof (load_bound max n M N0 es load0 l F) as B. rewrite P in B. cbn [total load0] in B. specialize (B ltac:(lia) E). lia.
Qed.
Print Assumptions c36_limit_partial.

(** ** What the code does not guarantee *)
Definition run_of (k : kind) (es : list event) : st := match steps k st0 es with Some s => s | None => st0 end.
Lemma run_of_reachable allowed k es : forallb allowed es = true -> (if steps k st0 es then true else false) = true -> reachable allowed k (run_of k es).
Proof. intros A E. exists es. split; [exact A|]. unfold run_of. destruct (steps k st0 es); [reflexivity|discriminate E]. Qed.

(** A proxy worker, or a monitor, told to stop after it took an entry and before it processes it never
    releases the requester, whatever happens later. *)
Definition stopped_in_hand : list event := [Ref 1; Check 1; Push 1 true; Send 1; Worker; Worker; Shutdown; Worker; Worker; Worker; Sync 1]%N.
Theorem c36_release_refuted : forall k, k = proxy_kind \/ k = monitor_kind -> exists s, reachable no_spurious k s /\ stage_of s 1%N = Waits /\ queue s = [] /\
  forall es s', forallb no_spurious es = true -> steps k s es = Some s' -> stage_of s' 1%N = Waits.
Proof.
  intros k K. exists (run_of k stopped_in_hand).
  destruct K as [-> | ->]; (split; [|split; [vm_compute; reflexivity|split; [vm_compute; reflexivity|]]]).
  - apply run_of_reachable; vm_compute; reflexivity.
  - intros es s'. apply stuck_steps; vm_compute; reflexivity.
  - apply run_of_reachable; vm_compute; reflexivity.
  - intros es s'. apply stuck_steps; vm_compute; reflexivity.
Qed.
Print Assumptions c36_release_refuted.
(** Nor is one released that saw the worker run, but put its entry in after the worker
    had stopped, even with the kind of worker that releases what it holds. *)
Definition pushed_late : list event := [Ref 1; Check 1; Shutdown; Worker; Worker; Worker; Push 1 true; Send 1; Sync 1]%N.
Theorem c36_late_push_refuted : exists s, reachable no_spurious replication_kind s /\ stage_of s 1%N = Waits /\
  forall es s', forallb no_spurious es = true -> steps replication_kind s es = Some s' -> stage_of s' 1%N = Waits.
Proof.
  exists (run_of replication_kind pushed_late). split; [|split; [vm_compute; reflexivity|]].
  - apply run_of_reachable; vm_compute; reflexivity.
  - intros es s'. apply stuck_steps; vm_compute; reflexivity.
Qed.
Print Assumptions c36_late_push_refuted.
(** The wait for an entry is not repeated when it ends without a signal: the requester then goes on
    although nothing was processed. *)
Theorem c36_spurious_release_refuted : exists s, reachable any_event proxy_kind s /\ stage_of s 1%N = Released /\ handled s = [] /\ settled s = [] /\ shut s = false.
Proof.
  exists (run_of proxy_kind [Ref 1; Check 1; Push 1 true; Send 1; Sync 1; SpuriousWaiter 1]%N).
  split; [apply run_of_reachable; vm_compute; reflexivity|]. vm_compute. repeat split.
Qed.
Print Assumptions c36_spurious_release_refuted.
(** A monitor's worker can use a null pointer with no shutdown and no spurious wakeup: it finds
    the entry before the signal for it arrives, and the signal then wakes it for nothing. *)
Definition late_signal : list event := [Ref 1; Check 1; Push 1 true; Worker; Worker; Worker; Worker; Worker; Worker; Worker; Send 1; Worker]%N.
Theorem c36_monitor_null_refuted : exists s, reachable quiet monitor_kind s /\ at_ s = Crashed.
Proof. exists (run_of monitor_kind late_signal). split; [apply run_of_reachable; vm_compute; reflexivity|vm_compute; reflexivity]. Qed.
Print Assumptions c36_monitor_null_refuted.
(** The others never do, under any schedule. *)
Theorem c36_no_null : forall k s, k = proxy_kind \/ k = replication_kind -> reachable any_event k s -> at_ s <> Crashed.
Proof.
  intros k s K (es & _ & E). assert (U : uses_null k = false) by (destruct K as [-> | ->]; reflexivity). clear K.
  assert (G : forall es s0, at_ s0 <> Crashed -> steps k s0 es = Some s -> at_ s <> Crashed).
  { clear E es. induction es as [|e es IH]; intros s0 N E; cbn [steps] in E; [congruence|].
    destruct (step k s0 e) as [s1|] eqn:St; [|discriminate E]. apply (IH s1); [|exact E]. exact (no_null_step k s0 e s1 U N St). }
  apply (G es st0); [discriminate|exact E].
Qed.
Print Assumptions c36_no_null.
(** They sleep until they are woken; the monitor's also wakes by itself, which changes nothing else. *)
Definition wakes (e : event) : bool := match e with Send _ | Shutdown | SpuriousWorker => true | _ => false end.
Theorem c36_sleep : forall k es s s', k = proxy_kind \/ k = replication_kind -> at_ s = Asleep -> forallb (fun e => negb (wakes e)) es = true ->
  steps k s es = Some s' -> at_ s' = Asleep.
Proof.
  intros k es. induction es as [|e es IH]; intros s s' K A W E; [cbn in E; congruence|]. cbn [forallb] in W. apply andb_true_iff in W. destruct W as [W W'].
  cbn [steps] in E. destruct (step k s e) as [s1|] eqn:St; [|discriminate E]. apply (IH s1 s' K); [|exact W'|exact E]. clear IH E W'.
  assert (T : timed k = false) by (destruct K as [-> | ->]; reflexivity). clear K.
  destruct e as [i|i|i room|i|i|i| | | | |i]; try discriminate W; cbn [step] in St.
  - destruct (stage_of s i); try discriminate St. injection St as <-. exact A.
  - destruct (stage_of s i); try discriminate St. injection St as <-. exact A.
  - destruct (stage_of s i); try discriminate St. destruct room; injection St as <-; exact A.
  - destruct (stage_of s i); try discriminate St. injection St as <-. exact A.
  - destruct (stage_of s i); try discriminate St. injection St as <-. exact A.
  - rewrite A in St. discriminate St.
  - rewrite A, T in St. discriminate St.
  - destruct (stage_of s i); try discriminate St. injection St as <-. exact A.
Qed.
Print Assumptions c36_sleep.
Theorem c36_monitor_wakes : forall s, at_ s = Asleep -> exists s', step monitor_kind s Timeout = Some s' /\ at_ s' = Top /\ queue s' = queue s
  /\ taken s' = taken s /\ handled s' = handled s /\ settled s' = settled s /\ stage_of s' = stage_of s /\ refs s' = refs s /\ shut s' = shut s.
Proof. intros s A. exists (set_place s Top). cbn [step]. rewrite A. repeat split. Qed.
Print Assumptions c36_monitor_wakes.
Example c36_sleep_met : let s := run_of replication_kind [Worker; Worker]%N in at_ s = Asleep
  /\ exists s', steps replication_kind s [Ref 1; Check 1; Push 1 true]%N = Some s' /\ queue s' = [1%N].
Proof. cbv zeta. split; [vm_compute; reflexivity|]. eexists. split; [vm_compute; reflexivity|]. reflexivity. Qed.
(** Two workers exceed the limit. *)
Theorem c36_limit_refuted : exists l, lsteps 1 load0 [ReadSize 0; ReadSize 1; PushOrNot 0; PushOrNot 1] = Some l /\ total l = 2%N.
Proof. eexists. split; reflexivity. Qed.
Print Assumptions c36_limit_refuted.

(** ** Cases *)
Definition two_requests : list event :=
  [Ref 1; Check 1; Ref 2; Check 2; Push 2 true; Push 1 true; Send 2; Worker; Worker; Worker; Sync 2; Send 1; Sync 1; Worker]%N.
Example c36_two_requests : let s := run_of proxy_kind two_requests in
  reachable quiet proxy_kind s /\ pushed s = [2; 1]%N /\ handled s = [2]%N /\ queue s = [1]%N /\ stage_of s 2%N = Waits /\ settled s = [2]%N /\ stage_of s 1%N = Waits.
Proof. cbv zeta. split; [apply run_of_reachable; vm_compute; reflexivity|]. vm_compute. repeat split. Qed.
Example c36_asleep_with_entry : let s := run_of proxy_kind [Worker; Worker; Ref 1; Check 1; Push 1 true]%N in at_ s = Asleep /\ queue s = [1]%N.
Proof. vm_compute. split; reflexivity. Qed.
Example c36_stopped : let s := run_of replication_kind stopped_in_hand in at_ s <> Top /\ queue s = [] /\ In 1%N (settled s).
Proof. vm_compute. repeat split; [discriminate|auto]. Qed.
Example c36_swept : let s := run_of replication_kind [Ref 1; Check 1; Push 1 true; Send 1; Sync 1; Shutdown; Worker; Worker; Worker; Worker; Worker]%N in
  at_ s = Swept /\ queue s = [] /\ stage_of s 1%N = Released /\ handled s = [].
Proof. vm_compute. repeat split. Qed.
Example c36_full_queue_refuses : let s := run_of proxy_kind [Ref 1; Check 1; Push 1 false; Undo 1]%N in stage_of s 1%N = Failed /\ queue s = [] /\ refs s 1%N = 0%Z.
Proof. vm_compute. repeat split. Qed.
Example c36_one_worker : lsteps 1 load0 [ReadSize 0; PushOrNot 0; ReadSize 0; PushOrNot 0] <> None /\ Forall (of_workers 1) [ReadSize 0; PushOrNot 0].
Proof. split; [discriminate|repeat constructor]. Qed.
