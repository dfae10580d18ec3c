(** C75: a request that is passed on to another node goes to that node and no other, once, and
    after earlier requests for the same key. *)
From Coq Require Import List Bool NArith Arith Lia.
From Verif Require Import RelayModel RelaySpec RelayProofs RelayProofs2.
Import ListNotations.
Local Open Scope N_scope.

(** Examples: requests 0, 1, 3 and 4 are for node 1, request 2 is for node 2; requests 0, 3 and 4 are for the same key. *)
Definition ex_setup (n : nat) : setup := mkSetup n (fun r => if r =? 2 then 2 else 1) (fun r => if r =? 1 then 0 else 1).
Definition ex_run (n : nat) (es : list event) : st := match steps (ex_setup n) st0 es with Some s => s | None => st0 end.
Lemma ex_run_ok n es : (match steps (ex_setup n) st0 es with Some _ => true | None => false end) = true -> steps (ex_setup n) st0 es = Some (ex_run n es).
Proof. unfold ex_run. destruct (steps _ _ _); [reflexivity|discriminate]. Qed.
Definition asks (r : N) : list event := [Look r; Take r; Go r; Look r; Check r; Push r true].
Definition again (r : N) : list event := [Look r; Check r; Push r true].
Definition works (t : N) : list event := [Dequeue t; Process t false].
Definition ends (t : N) : list event := [Stop t; Leave t; Sweep t; Erase t; Pool t true].

(** Requests go to their nodes as long as no thread goes away between the moment a request sees it
    running and the moment the request is in its queue, nor between the moment a request finds it and
    looks whether it is running.  Missing: everything else, see below. *)
Theorem c75_right_node_partial : forall c es s, steps c st0 es = Some s -> all_in_time c st0 es -> right_node c s.
Proof. intros c es s E T. exact (g_sent c s (right_steps c es st0 s inv0 (right0 c) T E)). Qed.
Print Assumptions c75_right_node_partial.
(** In particular if no thread is told to stop. *)
Theorem c75_right_node_undisturbed : forall c es s, steps c st0 es = Some s -> undisturbed es -> right_node c s.
Proof. intros c es s E U. exact (g_sent c s (proj1 (undisturbed_right c es st0 s inv0 (right0 c) going0 U E))). Qed.
Print Assumptions c75_right_node_undisturbed.
(** A thread that served node 1 ends in good time and serves node 2. *)
Example c75_right_node_ex : exists es s, steps (ex_setup 1) st0 es = Some s /\ all_in_time (ex_setup 1) st0 es /\ log s = [Sent 0 1; Sent 2 2] /\ In (Stop 0) es.
Proof.
  exists ((asks 0 ++ works 0 ++ [Stop 0; Leave 0]) ++ [Sweep 0] ++ [Erase 0] ++ Pool 0 true :: asks 2 ++ works 0), (ex_run 1 (asks 0 ++ works 0 ++ ends 0 ++ asks 2 ++ works 0)).
  split; [vm_compute; reflexivity|]. split; [|split; [vm_compute; reflexivity|cbn; tauto]].
  set (p := asks 0 ++ works 0 ++ [Stop 0; Leave 0]).
  assert (E : forall l, (match steps (ex_setup 1) st0 (p ++ l) with Some _ => true | None => false end) = true -> existsb (fun e => negb (about e 0) && match e with Look _ | Take _ | Go _ | Check _ | Push _ _ => true | _ => false end) l = false ->
    stage_of (ex_run 1 (p ++ l)) 0 = Pushed -> forall r t, stage_of (ex_run 1 (p ++ l)) r <> Checked t /\ stage_of (ex_run 1 (p ++ l)) r <> Found t).
  { intros l E Q H r t. destruct (N.eq_dec r 0) as [->|NE]; [rewrite H; split; discriminate|].
    rewrite (unmentioned _ r (p ++ l) st0 _ (ex_run_ok 1 _ E)); [split; discriminate|]. rewrite existsb_app. apply orb_false_iff. split.
    - unfold p, asks, works; cbn. apply N.eqb_neq in NE. now rewrite NE.
    - clear - Q NE. induction l as [|e l IH]; [reflexivity|]. cbn [existsb] in *. apply orb_false_iff in Q. destruct Q as (Q & QS). rewrite (IH QS), orb_false_r.
      destruct e; unfold about in *; auto; destruct (N.eqb_spec 0 r0), (N.eqb_spec r r0); try discriminate; congruence. }
  eapply all_in_time_app; [apply ex_run_ok; vm_compute; reflexivity|apply all_in_time_quiet; reflexivity|].
  eapply all_in_time_app; [instantiate (1 := ex_run 1 (p ++ [Sweep 0])); vm_compute; reflexivity| |].
  { split; [|intros; exact Logic.I]. intros r. pose proof (E [] ltac:(vm_compute; reflexivity) eq_refl ltac:(vm_compute; reflexivity) r 0) as (X & _). rewrite app_nil_r in X. exact X. }
  eapply all_in_time_app; [instantiate (1 := ex_run 1 (p ++ [Sweep 0; Erase 0])); vm_compute; reflexivity| |apply all_in_time_quiet; reflexivity].
  split; [|intros; exact Logic.I]. intros r. exact (proj2 (E [Sweep 0] ltac:(vm_compute; reflexivity) eq_refl ltac:(vm_compute; reflexivity) r 0)).
Qed.
(** Refuted: a request for node 1 that has seen the thread running is put into its queue when the thread
    has ended and serves node 2. *)
Theorem c75_wrong_node_refuted : exists c s, reachable c s /\ ~ right_node c s.
Proof.
  set (es := asks 0 ++ works 0 ++ [Look 1; Check 1] ++ ends 0 ++ [Look 2; Take 2; Go 2; Push 1 true] ++ works 0).
  exists (ex_setup 1), (ex_run 1 es). split; [exists es; apply ex_run_ok; vm_compute; reflexivity|]. intros H.
  specialize (H 1 2 ltac:(vm_compute; tauto)). discriminate H.
Qed.
Print Assumptions c75_wrong_node_refuted.
(** Also when nobody had looked at the thread before it ended: the request finds it just before it is taken off the list. *)
Example c75_wrong_node_ex : exists s, steps (ex_setup 1) st0 (asks 0 ++ works 0 ++ [Stop 0; Leave 0; Sweep 0; Look 1; Erase 0; Pool 0 true; Look 2; Take 2; Go 2; Check 1; Push 1 true] ++ works 0) = Some s
  /\ log s = [Sent 0 1; Sent 1 2].
Proof.
  set (es := asks 0 ++ works 0 ++ _). exists (ex_run 1 es). split; [apply ex_run_ok|]; vm_compute; reflexivity.
Qed.

(** Whatever is stopped when: a request that was accepted is in exactly one place: with one thread, once,
    or done, once. *)
Theorem c75_once : forall c s, reachable c s ->
  NoDup (map who (log s)) /\
  (forall t, NoDup (queue_of s t)) /\
  (forall r, stage_of s r = Pushed <-> done s r \/ exists t, with_ s t r) /\
  (forall r t, with_ s t r -> ~ done s r) /\
  (forall r t u, with_ s t r -> with_ s u r -> t = u).
Proof.
  intros c s (es & E). pose proof (once_steps c es st0 s inv0 once0 E) as [A B C D F].
  split; [exact A|]. split; [intros t; exact (proj1 (proj2 (proj1 (in_nodup_app _ _) (B t))))|]. split; [|split].
  - intros r. rewrite F. split; (intros [X|(t & X)]; [now left|right; exists t]); [now apply with_hq|now apply with_hq in X].
  - intros r t H. apply with_hq in H. eauto.
  - intros r t u H K. apply with_hq in H, K. eauto.
Qed.
Print Assumptions c75_once.

(** While the threads of a node are as many as configured and running, and no thread is told to stop:
    a request is never done before one for the same key that was accepted before it came.
    Missing: threads being made or stopped. *)
Theorem c75_order_partial : forall c r q es0 s0 es1 s1 es2 s2,
  steps c st0 es0 = Some s0 -> settled c s0 (to c r) -> to c q = to c r -> hash c q = hash c r ->
  stage_of s0 r = NotYet ->
  undisturbed es1 -> steps c s0 es1 = Some s1 -> stage_of s1 r = Pushed -> stage_of s1 q = NotYet ->
  undisturbed es2 -> steps c s1 es2 = Some s2 -> after s2 r q.
Proof. exact in_order. Qed.
Print Assumptions c75_order_partial.
Lemma ex_settled : settled (ex_setup 1) (ex_run 1 (asks 1 ++ works 0)) 1.
Proof.
  assert (T : threads_of (ex_run 1 (asks 1 ++ works 0)) 1 = [0]) by (vm_compute; reflexivity). unfold settled. rewrite T.
  split; [discriminate|]. split; [cbn; lia|]. split.
  - intros t [<-|[]]. split; [vm_compute; reflexivity|]. exists None. vm_compute. reflexivity.
  - intros r _ n t. destruct (N.eq_dec r 1) as [->|NE].
    + assert (X : stage_of (ex_run 1 (asks 1 ++ works 0)) 1 = Pushed) by (vm_compute; reflexivity). rewrite X. split; discriminate.
    + rewrite (unmentioned (ex_setup 1) r (asks 1 ++ works 0) st0); [split; discriminate|apply ex_run_ok; vm_compute; reflexivity|].
      unfold asks, works, about; cbn [app existsb]. apply N.eqb_neq in NE. rewrite NE. reflexivity.
Qed.
Example c75_order_ex : exists s1 s2, steps (ex_setup 1) (ex_run 1 (asks 1 ++ works 0)) (again 0) = Some s1 /\ stage_of s1 0 = Pushed /\ stage_of s1 3 = NotYet
  /\ steps (ex_setup 1) s1 (again 3 ++ works 0 ++ works 0) = Some s2 /\ log s2 = [Sent 1 1; Sent 0 1; Sent 3 1].
Proof.
  exists (ex_run 1 (asks 1 ++ works 0 ++ again 0)), (ex_run 1 (asks 1 ++ works 0 ++ again 0 ++ again 3 ++ works 0 ++ works 0)).
  split; [vm_compute; reflexivity|]. split; [vm_compute; reflexivity|]. split; [vm_compute; reflexivity|]. split; vm_compute; reflexivity.
Qed.
(** Refuted: two first requests for a node make a thread each, and a later request for the same key goes
    to another thread, which is faster.  Nothing is stopped. *)
Theorem c75_order_refuted : exists c r q es1 s1 es2 s2,
  to c q = to c r /\ hash c q = hash c r /\ undisturbed (es1 ++ es2) /\
  steps c st0 es1 = Some s1 /\ stage_of s1 r = Pushed /\ stage_of s1 q = NotYet /\
  steps c s1 es2 = Some s2 /\ ~ after s2 r q.
Proof.
  set (es1 := [Look 0; Look 3; Take 0; Go 0; Look 0; Check 0; Push 0 true; Take 3; Go 3]). set (es2 := again 4 ++ works 1).
  exists (ex_setup 1), 0, 4, es1, (ex_run 1 es1), es2, (ex_run 1 (es1 ++ es2)).
  split; [reflexivity|]. split; [reflexivity|]. split; [intros t H; cbn in H; intuition discriminate|].
  split; [apply ex_run_ok; vm_compute; reflexivity|]. split; [vm_compute; reflexivity|]. split; [vm_compute; reflexivity|]. split; [vm_compute; reflexivity|].
  intros A. destruct (A [] (Sent 4 1) [] ltac:(vm_compute; reflexivity) eq_refl).
Qed.
Print Assumptions c75_order_refuted.
(** As many threads as were configured are not the most there can be. *)
Theorem c75_concurrency_refuted : exists c es s node, steps c st0 es = Some s /\ undisturbed es /\ (concurrency c < length (threads_of s node))%nat.
Proof.
  set (es := [Look 0; Look 3; Take 0; Go 0; Look 0; Take 3; Go 3]). exists (ex_setup 1), es, (ex_run 1 es), 1.
  split; [apply ex_run_ok; vm_compute; reflexivity|]. split; [intros t H; cbn in H; intuition discriminate|]. vm_compute. lia.
Qed.
Print Assumptions c75_concurrency_refuted.

(** In the same circumstances a request is accepted if there is room in the queue, and once it is
    accepted its thread need only go on to send it to its node. *)
Theorem c75_accepted_partial : forall c r es0 s0 es s, steps c st0 es0 = Some s0 -> settled c s0 (to c r) -> stage_of s0 r = NotYet ->
  undisturbed es -> ~ In (Push r false) es -> steps c s0 es = Some s ->
  stage_of s r <> Refused /\
  (dead s = false -> stage_of s r = Pushed -> ~ done s r ->
   exists t work s', (forall e, In e work -> e = Dequeue t \/ e = Process t false) /\ steps c s work = Some s' /\ In (Sent r (to c r)) (log s')).
Proof.
  intros c r es0 s0 es s E0 V0 N U NP E.
  assert (I0 : inv s0) by (eapply inv_steps; [apply inv0|exact E0]). assert (O0 : once s0) by (eapply once_steps; [apply inv0|apply once0|exact E0]).
  pose proof (settled_stable c s0 _ V0) as V. pose proof (fresh_track c s0 r (threads_of s0 (to c r)) O0 N) as T. split.
  - eapply (accepted_steps c (to c r) _ r eq_refl es s0 s I0 V T); eauto. congruence.
  - intros D P ND. destruct (tracks c (to c r) _ r r eq_refl eq_refl es s0 s I0 V T T U E) as (V1 & T1 & _).
    pose proof (once_steps c es s0 s I0 O0 E) as O1. apply (o_pushed s O1) in P. destruct P as [P|(t & H)]; [contradiction|].
    pose proof (proj2 T1 t H) as ->. destruct (d_run c _ _ s V1 _ (nth_hash c r _ (d_some c _ _ s V1))) as (ST & PL).
    exists (thread_for c (threads_of s0 (to c r)) r). eapply drains_held; eauto.
Qed.
Print Assumptions c75_accepted_partial.
(** Refuted: a thread that is just being made is found by another request, and not running. *)
Theorem c75_accepted_refuted : exists c es s r, steps c st0 es = Some s /\ undisturbed es /\ (forall q, ~ In (Push q false) es) /\ stage_of s r = Refused.
Proof.
  set (es := [Look 0; Take 0; Look 1; Check 1; Go 0]). exists (ex_setup 1), es, (ex_run 1 es), 1.
  split; [apply ex_run_ok; vm_compute; reflexivity|]. split; [intros t H; cbn in H; intuition discriminate|]. split; [intros t H; cbn in H; intuition discriminate|vm_compute; reflexivity].
Qed.
Print Assumptions c75_accepted_refuted.

(** A request put into the queue of a thread that has ended stays there, and its sender waits, until the
    thread is used again; then it may go to any node. *)
Theorem c75_stranded_refuted : exists c s r t, reachable c s /\ stage_of s r = Pushed /\ In t (pool s) /\ In r (queue_of s t) /\
  forall es s', steps c s es = Some s' -> (forall e, In e es -> wants e = false) -> ~ done s' r.
Proof.
  set (es := asks 0 ++ works 0 ++ [Look 1; Check 1] ++ ends 0 ++ [Push 1 true]).
  assert (E : steps (ex_setup 1) st0 es = Some (ex_run 1 es)) by (apply ex_run_ok; vm_compute; reflexivity).
  assert (I : inv (ex_run 1 es)) by (eapply inv_steps; [apply inv0|exact E]).
  exists (ex_setup 1), (ex_run 1 es), 1, 0. split; [exists es; exact E|]. split; [vm_compute; reflexivity|]. split; [vm_compute; now left|]. split; [vm_compute; now left|].
  intros es' s' E' W D. assert (W' : existsb wants es' = false).
  { destruct (existsb wants es') eqn:X; [|reflexivity]. apply existsb_exists in X. destruct X as (e & X & Y). rewrite (W e X) in Y. discriminate. }
  destruct (stays _ 0 1 es' _ s' E' W') as (_ & H); [vm_compute; reflexivity|vm_compute; now left|].
  assert (O1 : once s') by (apply (once_steps (ex_setup 1) (es ++ es') st0 s' inv0 once0); apply steps_app; eauto).
  apply (o_not s' O1 0 1); [|exact D]. apply in_app_iff. now right.
Qed.
Print Assumptions c75_stranded_refuted.

(** With at least one thread per node, and if none is told to stop, there is no division by zero. *)
Theorem c75_no_fault_partial : forall c es s, steps c st0 es = Some s -> undisturbed es -> (0 < concurrency c)%nat -> dead s = false.
Proof.
  intros c es s E U CP. refine (proj1 (supplied_steps c es st0 s inv0 going0 CP _ U E)). split; [reflexivity|].
  intros k [X|(t & n & X)]; discriminate.
Qed.
Print Assumptions c75_no_fault_partial.
(** Refuted: proxy-concurrency = 0 is accepted, and the first request to be passed on ends the process;
    with other values a thread told to stop before the request that made it has looked again does. *)
Theorem c75_fault_refuted :
  (forall c r, concurrency c = 0%nat -> exists s, step c st0 (Look r) = Some s /\ dead s = true) /\
  exists c s, (0 < concurrency c)%nat /\ reachable c s /\ dead s = true.
Proof.
  split.
  - intros c r H. exists (die (ask st0 r)). split; [|reflexivity]. unfold step; cbn. rewrite H. reflexivity.
  - set (es := [Look 0; Take 0; Go 0] ++ ends 0 ++ [Look 0]). exists (ex_setup 1), (ex_run 1 es). split; [cbn; lia|]. split; [exists es; apply ex_run_ok; vm_compute; reflexivity|vm_compute; reflexivity].
Qed.
Print Assumptions c75_fault_refuted.
