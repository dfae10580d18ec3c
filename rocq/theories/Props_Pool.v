(** C37: thread ids and the thread pools. *)
From Coq Require Import List Bool NArith ZArith Lia.
From Coq Require Import ZifyBool ZifyNat ZifyN.
From Verif Require Import PoolModel PoolSpec PoolProofs.
Import ListNotations.
Local Open Scope N_scope.

(** Under every schedule, however often the counter has wrapped, the ids of the running threads
    of a pool are 32 bit numbers other than 0, and no two of them are the same. *)
Theorem c37_ids_unique_in_pool : forall limits s w, reachable limits s ->
  (forall t id, runs s w t id -> 0 < id < 2 ^ 32) /\
  (forall t u id, runs s w t id -> runs s w u id -> t = u).
Proof.
  intros limits s w R. pose proof (reachable_inv _ _ R) as V. destruct (v_good s V w) as (ND & B). split.
  - intros t id (ty & I). rewrite Forall_forall in B. apply B. exact (in_map id_of _ _ I).
  - intros t u id A C. apply (get_active_spec s w id t V) in A. apply (get_active_spec s w id u V) in C. congruence.
Qed.
Print Assumptions c37_ids_unique_in_pool.

(** As long as the process has made fewer than 2^32 threads or attempts, the ids are unique in the
    whole process. *)
Theorem c37_ids_unique_partial : forall limits es s, steps (st0 limits) es = Some s -> draws es < 2 ^ 32 ->
  forall w v t u id, runs s w t id -> runs s v u id -> w = v /\ t = u.
Proof.
  intros limits es s E D w v t u id A C. pose proof (inv_steps es _ _ (inv0 limits) E) as V.
  assert (EA : early (0 + draws es) s). { apply (early_steps es 0 (st0 limits) s); [|lia|exact E]. constructor; cbn; [lia|constructor|auto]. }
  assert (X : forall t u, runs s Req t id -> runs s Other u id -> False).
  { intros t' u' (ty & I) (ty' & J). eapply (e_apart _ _ EA id); [exact (in_map id_of _ _ I)|exact (in_map id_of _ _ J)]. }
  assert (Y : w = v). { destruct w, v; auto; exfalso; eauto. }
  split; [exact Y|]. subst v. apply (get_active_spec s w id t V) in A. apply (get_active_spec s w id u V) in C. congruence.
Qed.
Print Assumptions c37_ids_unique_partial.
(** Afterwards a thread of one pool can get the id of a running thread of the other; kill then
    reaches only one of them. *)
Theorem c37_ids_unique_refuted : exists limits s t u, reachable limits s /\ t <> u /\ runs s Req t 1 /\ runs s Other u 1 /\ lookup s 1 = Some t.
Proof.
  destruct (many_cycles (2 ^ 32 - 3)) as (es & s & E & L); [lia|]. replace (3 + (2 ^ 32 - 3)) with (2 ^ 32) in L by lia.
  destruct (wrap_last s L) as (s' & E' & A & B). exists (fun _ => 1), s', 1, 0.
  assert (R : reachable (fun _ => 1) s') by (exists (es ++ [Take Req 1; Lock Req 1 1; Draw Req; Draw Req]); rewrite (steps_app es _ _ s E); exact E').
  assert (RQ : runs s' Req 1 1) by (exists 1%Z; rewrite A; now left).
  repeat split; auto; [lia|exists 2%Z; rewrite B; now left|]. apply (lookup_spec s' 1 1 (reachable_inv _ _ R)). auto.
Qed.
Print Assumptions c37_ids_unique_refuted.

(** A thread object has one use at a time: it is running in one pool under one id, or idle in
    one pool, or on its way between the two. *)
Theorem c37_threads_not_shared : forall limits s, reachable limits s -> NoDup (everywhere s) /\
  forall w v t id id', runs s w t id -> runs s v t id' -> w = v /\ id = id'.
Proof.
  intros limits s R. pose proof (reachable_inv _ _ R) as V. split; [apply V|]. intros w v t id id' A B. split; [|eapply runs_one; eauto].
  destruct w, v; auto; exfalso; eapply runs_pool; eauto.
Qed.
Print Assumptions c37_threads_not_shared.

(** The number of idle threads never exceeds the largest size configured so far; without changes of
    the configuration, the configured size. *)
Theorem c37_pool_bounded : forall limits es s w, steps (st0 limits) es = Some s ->
  N.of_nat (length (stack (pools s w))) <= highest w (limits w) es.
Proof. intros limits es s w E. eapply (stack_bound w es (st0 limits) s); [exact E|cbn; lia|reflexivity]. Qed.
Print Assumptions c37_pool_bounded.
Theorem c37_pool_bounded_fixed : forall limits es s w, steps (st0 limits) es = Some s ->
  forallb (fun e => match e with Limit _ _ => false | _ => true end) es = true ->
  N.of_nat (length (stack (pools s w))) <= limits w.
Proof.
  intros limits es s w E F. pose proof (c37_pool_bounded limits es s w E) as H.
  assert (G : forall es n, forallb (fun e => match e with Limit _ _ => false | _ => true end) es = true -> highest w n es = n).
  { induction es0 as [|e es0 IH]; intros n X; [reflexivity|destruct e]; cbn in *; auto; discriminate X. }
  now rewrite (G es (limits w) F) in H.
Qed.
Print Assumptions c37_pool_bounded_fixed.

(** kill finds the running thread with that id, one of the requests first, and none if there is none. *)
Theorem c37_kill_finds : forall limits s id t, reachable limits s ->
  lookup s id = Some t <-> runs s Req t id \/ (runs s Other t id /\ forall u, ~ runs s Req u id).
Proof. intros limits s id t R. exact (lookup_spec s id t (reachable_inv _ _ R)). Qed.
Print Assumptions c37_kill_finds.
(** If nothing else happens between finding the thread and stopping it, the thread stopped has the id
    that was asked for. *)
Theorem c37_kill_partial : forall limits s id t s', reachable limits s -> lookup s id = Some t ->
  steps s [KillFind id; KillStop id t] = Some s' -> killed s' = (id, id) :: killed s.
Proof.
  intros limits s id t s' R L E. pose proof (reachable_inv _ _ R) as V.
  assert (C : current_id s t = id). { apply (lookup_spec s id t V) in L as [L|(L & _)]; eapply current_id_spec; eauto. }
  cbn [steps step] in E. rewrite L in E. cbn [found existsb] in E.
  assert (F : found_eqb (id, t) (id, t) = true) by (unfold found_eqb; cbn [fst snd]; now rewrite !N.eqb_refl). rewrite F in E. cbn [orb] in E.
  injection E as <-. cbn [killed]. f_equal. f_equal. exact C.
Qed.
Print Assumptions c37_kill_partial.
(** Whatever else happens, a kill stops the thread that it found: one that had the id at an earlier moment. *)
Theorem c37_kill_earlier : forall limits es id t s', steps (st0 limits) (es ++ [KillStop id t]) = Some s' ->
  exists es1 es2 s1, es = es1 ++ KillFind id :: es2 /\ steps (st0 limits) es1 = Some s1 /\ lookup s1 id = Some t.
Proof.
  assert (A : forall es es' s, steps s (es ++ es') = match steps s es with Some s1 => steps s1 es' | None => None end).
  { induction es as [|e es IH]; intros es' s; cbn [app steps]; [reflexivity|]. destruct (step s e); [apply IH|reflexivity]. }
  assert (R : forall (x y : N * N) l, In y (remove1 found_eqb x l) -> In y l).
  { intros x y. induction l as [|z l IH]; cbn [remove1]; [intros []|]. destruct (found_eqb x z); [now right|]. intros [->|I]; [now left|right; auto]. }
  assert (F : forall limits es s id t, steps (st0 limits) es = Some s -> In (id, t) (found s) ->
    exists es1 es2 s1, es = es1 ++ KillFind id :: es2 /\ steps (st0 limits) es1 = Some s1 /\ lookup s1 id = Some t).
  { intros limits es. induction es as [|e es IH] using rev_ind; intros s id t E I; [injection E as <-; destruct I|].
    rewrite A in E. destruct (steps (st0 limits) es) as [s0|] eqn:E0; [|discriminate E]. cbn [steps] in E.
    destruct (step s0 e) as [s1|] eqn:S1; [|discriminate E]. injection E as <-.
    assert (G : In (id, t) (found s0) \/ (e = KillFind id /\ lookup s0 id = Some t)).
    { destruct e; cbn [step] in S1;
        repeat match type of S1 with context [match ?x with _ => _ end] => destruct x eqn:? end; try discriminate S1; injection S1 as <-;
        cbn [found] in I; auto.
      - destruct I as [[= -> ->]|I]; auto.
      - left. apply R in I. exact I. }
    destruct G as [G|(-> & L)].
    - destruct (IH s0 id t eq_refl G) as (es1 & es2 & sa & -> & Ea & La). exists es1, (es2 ++ [e]), sa. split; [now rewrite <- app_assoc|]. split; assumption.
    - exists es, [], s0. split; [reflexivity|]. split; assumption. }
  intros limits es id t s' E. rewrite A in E. destruct (steps (st0 limits) es) as [s|] eqn:E0; [|discriminate E]. cbn [steps step] in E.
  destruct (existsb (found_eqb (id, t)) (found s)) eqn:X; [|discriminate E]. apply existsb_exists in X as ([id' t'] & I & X).
  unfold found_eqb in X. cbn [fst snd] in X. apply andb_true_iff in X as [X1 X2]. apply N.eqb_eq in X1 as <-. apply N.eqb_eq in X2 as <-.
  exact (F _ _ _ _ _ E0 I).
Qed.
Print Assumptions c37_kill_earlier.
(** Otherwise the thread may have gone on to serve somebody else: kill 1 stops the connection
    with the id 2. *)
Theorem c37_kill_refuted : exists limits s, reachable limits s /\ killed s = [(1, 2)] /\ exists t, runs s Req t 2.
Proof.
  assert (H : exists s, steps (st0 (fun _ => 1))
    [Take Req 1; Lock Req 1 0; Draw Req; KillFind 1; Erase Req 0; Push Req 0; Take Req 1; Lock Req 1 0; Draw Req; KillStop 1 0] = Some s /\
    killed s = [(1, 2)] /\ In (1%Z, 2, 0) (actives (pools s Req))).
  { eexists. split; [vm_compute; reflexivity|]. split; [reflexivity|now left]. }
  destruct H as (s & E & K & I). exists (fun _ => 1), s. split; [eexists; exact E|]. split; [exact K|]. exists 0, 1%Z. exact I.
Qed.
Print Assumptions c37_kill_refuted.

(** ** Cases: two requests and another thread; the pool of one request thread is full, and a second one is not kept. *)
Definition sample : list event :=
  [Take Other 2; Take Req 1; Take Req 1; Lock Req 1 2; Lock Other 2 0; Draw Other; Draw Req; Lock Req 1 1; Draw Req].
Example c37_sample : match steps (st0 (fun _ => 1)) sample with
  | Some s => actives (pools s Req) = [(1%Z, 3, 1); (1%Z, 2, 2)] /\ actives (pools s Other) = [(2%Z, 1, 0)] /\ lookup s 3 = Some 1 /\ lookup s 1 = Some 0 /\ lookup s 4 = None
  | None => False end.
Proof. vm_compute. repeat split. Qed.
Example c37_full : match steps (st0 (fun _ => 1)) (sample ++ [Erase Req 1; Erase Req 2; Push Req 2; Push Req 1]) with
  | Some s => stack (pools s Req) = [2] /\ actives (pools s Req) = [] | None => False end.
Proof. vm_compute. auto. Qed.
(** An id in use is skipped. *)
Example c37_skip : match steps (mkSt 1 (fun _ => mkPool [(1%Z, 1, 9)] [7] 3 (Some (1%Z, 8))) 10 [] [] [] []) [Draw Req; Draw Req] with
  | Some s => actives (pools s Req) = [(1%Z, 2, 8); (1%Z, 1, 9)] | None => False end.
Proof. vm_compute. reflexivity. Qed.
