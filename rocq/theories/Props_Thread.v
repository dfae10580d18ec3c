(** C68: every accepted connection is served exactly once, by a thread of its
    own; a kill ends the session it names and no other; the limits on
    connections and on pooled threads are kept. *)
From Coq Require Import List Arith Lia Bool.
From Verif Require Import ThreadModel ThreadSpec ThreadProofs ThreadProofs2 ThreadProofs3 ThreadProofs4.
Import ListNotations.

(** Pieces of schedules: connection [j] is taken and handed over; thread [t]
    goes on until it waits for its client's first request; its client leaves
    and the thread goes back to sleep in the pool. *)
Definition give (j : nat) : list event := [Accept j; Hand; Hand; Hand].
Definition goes (t n : nat) : list event := repeat (Go t) n.
Definition finish (t : nat) : list event := Gone t :: goes t 8.

Definition after68 (p c : nat) (es : list event) (f : st -> bool) : bool :=
  match steps (start p c) es with Some s => f s | None => false end.

Lemma after68_ok : forall p c es f, after68 p c es f = true ->
  exists s, steps (start p c) es = Some s /\ f s = true.
Proof.
  intros p c es f H. unfold after68 in H. destruct (steps (start p c) es) as [s|]; [|discriminate].
  exists s. auto.
Qed.

(** A connection begins to be served at most once, is then served by one
    thread only, and only if it was accepted; one that was turned away is never
    served. In every schedule, with any kills and any spurious wake-ups. *)
Theorem c68_once : forall p c s, reached p c s ->
  (forall j t t', In (j, t) (ran s) -> In (j, t') (ran s) -> t = t') /\
  NoDup (map fst (ran s)) /\
  (forall j, serving_began s j -> In j (accepted s) /\ ~ In j (refused s)) /\
  (forall t t' j, in_session s t j -> in_session s t' j -> t = t') /\
  (forall j, In j (ended s) -> serving_began s j).
Proof.
  intros p c s H. pose proof (reached_inv _ _ _ H) as V.
  split. { intros j t t'. apply fst_unique. apply (i_once _ V). }
  split; [apply (i_once _ V)|].
  split. { intros j [t X]. split; [|apply (i_ref _ V)]; eapply (i_ran _ V); exact X. }
  split.
  - intros t t' j X Y. eapply fst_unique; [apply (i_once _ V) | |]; apply (i_in _ V); [right; exact X | right; exact Y].
  - intros j X. eapply ended_ran; eassumption.
Qed.
Print Assumptions c68_once.

(** Every accepted connection is served, and needs nobody's help for that: at
    most seven steps of the accept loop and of its own thread lead there. For
    schedules without spurious wake-ups in which kills reach threads that are
    inside a session; c68_late_kill_refuted and c68_wakeup_refuted show that
    it does not hold for the others. *)
Theorem c68_served_partial : forall p c s j, reached_timely p c s -> In j (accepted s) ->
  serving_began s j \/
  exists t es s', Forall (unaided t) es /\ length es <= 7 /\ steps s es = Some s' /\ serving_began s' j.
Proof.
  intros p c s j H A. destruct (reached_tinv _ _ _ H) as [V0 V]. apply served_soon; assumption.
Qed.
Print Assumptions c68_served_partial.

(** Under the same conditions the pool is sound: no thread is in it twice, none
    in it has ended, is in a session, or has work pending; and no thread that
    has ended is still counted as a connection. *)
Theorem c68_pool_partial : forall p c s, reached_timely p c s ->
  NoDup (stack s) /\
  (forall t, In t (stack s) ->
     at_ (wk_of s t) <> Exited /\ handler (wk_of s t) = None /\ id (wk_of s t) = 0 /\
     trig (wk_of s t) = false /\ req (wk_of s t) = false /\ (forall j, ~ in_session s t j)) /\
  (forall t, t < fresh s -> at_ (wk_of s t) = Exited -> id (wk_of s t) = 0).
Proof.
  intros p c s H. destruct (reached_tinv _ _ _ H) as [_ V].
  split; [apply (t_nd _ V)|]. split.
  - intros t I1. destruct (t_pool _ V _ I1) as (_ & (W1 & W2 & W3) & Hh & Hi).
    split; [intro C; rewrite C in W3; contradiction|]. repeat (split; [assumption|]).
    intros j [h C]. rewrite C in W3. contradiction.
  - intros t L X. destruct (owner_dec s t V) as [O|[Ns Ng]].
    + destruct (waiting_of s t V O) as [(_ & _ & W) _]. rewrite X in W. contradiction.
    + pose proof (t_work _ V _ L Ns Ng) as W. unfold working in W. rewrite X in W. apply W.
Qed.
Print Assumptions c68_pool_partial.

(** The limits: never more pooled threads than configured, never more threads
    with an id (what "show threads" and the connection limit count) than
    connections are allowed, in any schedule; and therefore, in timely ones,
    never more sessions at a time. *)
Theorem c68_limits : forall p c s, reached p c s -> length (stack s) <= p /\ active_count s <= c.
Proof.
  intros p c s H. destruct (reached_limits _ _ _ H) as ((A & B & _) & <- & <-). auto.
Qed.
Print Assumptions c68_limits.

Theorem c68_sessions_partial : forall p c s ts, reached_timely p c s -> NoDup ts ->
  (forall t, In t ts -> exists j, in_session s t j) -> length ts <= c.
Proof. exact sessions_limit. Qed.
Print Assumptions c68_sessions_partial.

(** The end of a session gives its place among the connections back within
    five steps of its thread, which touch no other thread. *)
Theorem c68_freed : forall s t j, t < fresh s -> at_ (wk_of s t) = Leave j ->
  exists s', steps s (repeat (Go t) 5) = Some s' /\ id (wk_of s' t) = 0 /\ In j (ended s') /\
    forall t', t' <> t -> wk_of s' t' = wk_of s t'.
Proof. exact freed. Qed.
Print Assumptions c68_freed.

(** Once a kill has marked the thread of a running session, that session takes
    in at most one more request, whatever happens, and none if one was being
    executed. (c68_kill_slow_refuted: it may take in that one.) *)
Theorem c68_kill : forall p c s t j h, reached p c s -> at_ (wk_of s t) = Inside j h -> req (wk_of s t) = true ->
  forall es s', steps s es = Some s' ->
    requests s' j <= requests s j + match h with Busy => 0 | _ => 1 end.
Proof. exact kill_bound. Qed.
Print Assumptions c68_kill.

(** A session that waits for its client is over at the last step of a kill of
    its thread. *)
Theorem c68_kill_signal : forall s t j, at_ (wk_of s t) = Inside j Reading ->
  kill_of t (kills s) = Some Triggered ->
  exists s', step s (KillStep t) = Some s' /\ at_ (wk_of s' t) = Leave j /\
    forall t', t' <> t -> wk_of s' t' = wk_of s t'.
Proof.
  intros s t j Ea K. cbn [step]. rewrite K. eexists. split; [reflexivity|]. cbn. rewrite upd_same.
  unfold interrupt. rewrite Ea. split; [reflexivity|]. intros t' D. apply upd_other. exact D.
Qed.
Print Assumptions c68_kill_signal.

(** A session goes on as long as its client stays and nobody kills its id: no
    kill of another id, no other client and no other thread ends it. The
    session must be sound to begin with: no kill under way on its thread from
    before, and the thread not in the pool, nor in the accept loop's hands. *)
Theorem c68_unharmed : forall s t j es s', t < fresh s -> in_session s t j ->
  req (wk_of s t) = false -> kill_of t (kills s) = None -> ~ In t (stack s) ->
  (forall i g, giving s <> Some (i, t, g)) ->
  ~ In (Gone t) es -> ~ In (KillFind (id (wk_of s t))) es -> steps s es = Some s' ->
  in_session s' t j /\ id (wk_of s' t) = id (wk_of s t).
Proof.
  intros s t j es s' L S Q K Ns Ng N1 N2 E.
  destruct (unkilled_steps t j (id (wk_of s t)) es s s') as (_ & X & _ & Y & _); auto.
  split; [exact L|]. auto 8.
Qed.
Print Assumptions c68_unharmed.

(** ** Cases that meet the hypotheses *)

(** Two connections; the first is killed while it waits and its thread serves a
    third connection afterwards; the second goes on. *)
Definition story : list event :=
  give 10 ++ goes 0 4 ++ [Ask 0] ++ goes 0 2 ++ give 11 ++ goes 1 4 ++
  [KillFind 1; KillStep 0; KillStep 0; KillStep 0] ++ goes 0 8 ++ give 12 ++ goes 0 4 ++ [Ask 0; Ask 1].

Fixpoint timelyb (s : st) (es : list event) : bool :=
  match es with
  | [] => true
  | e :: r =>
      match e with
      | Spurious _ => false
      | KillStep t => match kill_of t (kills s) with
                      | Some Triggered => true
                      | _ => match at_ (wk_of s t) with Inside _ _ => true | _ => false end
                      end
      | _ => true
      end && match step s e with Some s' => timelyb s' r | None => false end
  end.

Lemma timelyb_ok : forall es s, timelyb s es = true -> timely_run s es.
Proof.
  induction es as [|e r IH]; intros s H; cbn [timelyb timely_run] in *; [exact Logic.I|].
  apply andb_true_iff in H. destruct H as [H1 H2]. split.
  - destruct e; try exact Logic.I; [discriminate|]. cbn [timely].
    destruct (kill_of t (kills s)) as [[| |]|]; try exact Logic.I;
      destruct (at_ (wk_of s t)) as [| | | | |j h|j| |b|b|b|b|b p|] eqn:Ea; try discriminate;
      exists j; exists h; exact Ea.
  - destruct (step s e); [apply IH; exact H2 | discriminate].
Qed.

Example c68_served_example : exists s, reached_timely 5 8 s /\
  In 10 (ended s) /\ in_session s 0 12 /\ in_session s 1 11 /\ requests s 10 = 1 /\ active_count s = 2.
Proof.
  destruct (after68_ok 5 8 story (fun s =>
    existsb (Nat.eqb 10) (ended s) &&
    match at_ (wk_of s 0) with Inside 12 Busy => true | _ => false end &&
    match at_ (wk_of s 1) with Inside 11 Busy => true | _ => false end &&
    Nat.eqb (requests s 10) 1 && Nat.eqb (active_count s) 2)) as (s & E & F); [vm_compute; reflexivity|].
  exists s. split; [exists story; split; [apply timelyb_ok; vm_compute; reflexivity | exact E]|].
  vm_compute in E. injection E as <-. vm_compute in F |- *. clear F.
  split; [left; reflexivity|]. split; [eexists; reflexivity|]. split; [eexists; reflexivity|]. auto.
Qed.

Example c68_kill_example : exists s, reached_timely 5 8 s /\
  at_ (wk_of s 0) = Inside 10 Busy /\ req (wk_of s 0) = true /\ requests s 10 = 1.
Proof.
  destruct (after68_ok 5 8 (give 10 ++ goes 0 4 ++ [Ask 0; KillFind 1; KillStep 0]) (fun s => true))
    as (s & E & F); [vm_compute; reflexivity|].
  exists s. split; [eexists; split; [|exact E]; apply timelyb_ok; vm_compute; reflexivity|].
  vm_compute in E. injection E as <-. vm_compute. auto.
Qed.

(** ** Where it does not hold *)

(** A kill that finds its thread inside the session but acts after the session
    has ended ends the thread, which stays in the pool. The next connection is
    given to that dead thread: it is accepted, never served, however the
    server goes on, and is counted as a connection for ever. *)
Definition late_kill : list event :=
  give 7 ++ goes 0 4 ++ [KillFind 1] ++ finish 0 ++ [KillStep 0; KillStep 0; KillStep 0] ++ goes 0 6 ++ give 8.

Definition lost_on_dead (s : st) (j t : nat) : bool :=
  existsb (Nat.eqb j) (accepted s) && negb (existsb (Nat.eqb j) (map fst (ran s))) &&
  match giving s with None => true | Some _ => false end &&
  match at_ (wk_of s t) with Exited => true | _ => false end &&
  match handler (wk_of s t) with Some i => Nat.eqb i j | None => false end &&
  negb (Nat.eqb (id (wk_of s t)) 0) && (t <? fresh s).

Lemma existsb_in : forall j l, existsb (Nat.eqb j) l = true <-> In j l.
Proof.
  intros j l. rewrite existsb_exists. split.
  - intros (x & I1 & X). apply Nat.eqb_eq in X. subst. exact I1.
  - intro I1. exists j. split; [exact I1 | apply Nat.eqb_refl].
Qed.

Lemma lost_on_dead_ok : forall p c s j t, reached p c s -> lost_on_dead s j t = true ->
  lost s j /\ dead_slot s t /\ In j (accepted s).
Proof.
  intros p c s j t H F. unfold lost_on_dead in F. rewrite !andb_true_iff in F.
  destruct F as ((((((F1 & F2) & F3) & F4) & F5) & F6) & F7).
  apply existsb_in in F1. apply Nat.ltb_lt in F7.
  destruct (at_ (wk_of s t)) eqn:Ea; try discriminate.
  destruct (handler (wk_of s t)) as [i|] eqn:Eh; [|discriminate]. apply Nat.eqb_eq in F5. subst i.
  assert (id (wk_of s t) <> 0) as Hi by (destruct (Nat.eqb_spec (id (wk_of s t)) 0); [discriminate | assumption]).
  split; [|split; [split; auto | exact F1]].
  split; [exact F1|]. split.
  - intro C. apply existsb_in in C. rewrite C in F2. discriminate.
  - split; [destruct (giving s); [discriminate | intros; discriminate]|].
    intros u Hu. assert (u = t) as -> by (eapply (i_one _ (reached_inv _ _ _ H)); eassumption). auto.
Qed.

Theorem c68_late_kill_refuted : exists s, reached 5 8 s /\ ~ In (KillFind 2) late_kill /\ In 8 (accepted s) /\
  (forall es s', steps s es = Some s' -> ~ serving_began s' 8 /\ id (wk_of s' 0) <> 0).
Proof.
  destruct (after68_ok 5 8 late_kill (fun s => lost_on_dead s 8 0)) as (s & E & F); [vm_compute; reflexivity|].
  assert (reached 5 8 s) as R by (exists late_kill; exact E).
  destruct (lost_on_dead_ok _ _ _ _ _ R F) as (L & D & A).
  exists s. split; [exact R|]. split.
  { intro C. vm_compute in C. repeat (destruct C as [C|C]; [discriminate C|]). exact C. }
  split; [exact A|]. intros es s' E'.
  split; [eapply lost_forever; eassumption|].
  assert (dead_slot s' 0) as (_ & _ & X); [|exact X].
  eapply (steps_inv (fun s => dead_slot s 0)); [intros; eapply dead_slot_step; eassumption | exact D | exact E'].
Qed.
Print Assumptions c68_late_kill_refuted.

(** A wake-up without a signal, which pthread_cond_wait is allowed, does the
    same, without any kill. *)
Definition wakeup : list event :=
  give 7 ++ goes 0 4 ++ finish 0 ++ [Spurious 0] ++ goes 0 8 ++ give 8.

Theorem c68_wakeup_refuted : exists s, reached 5 8 s /\ (forall t, ~ In (KillStep t) wakeup) /\ In 8 (accepted s) /\
  (forall es s', steps s es = Some s' -> ~ serving_began s' 8 /\ id (wk_of s' 0) <> 0).
Proof.
  destruct (after68_ok 5 8 wakeup (fun s => lost_on_dead s 8 0)) as (s & E & F); [vm_compute; reflexivity|].
  assert (reached 5 8 s) as R by (exists wakeup; exact E).
  destruct (lost_on_dead_ok _ _ _ _ _ R F) as (L & D & A).
  exists s. split; [exact R|]. split.
  { intros t C. vm_compute in C. repeat (destruct C as [C|C]; [discriminate C|]). exact C. }
  split; [exact A|]. intros es s' E'.
  split; [eapply lost_forever; eassumption|].
  assert (dead_slot s' 0) as (_ & _ & X); [|exact X].
  eapply (steps_inv (fun s => dead_slot s 0)); [intros; eapply dead_slot_step; eassumption | exact D | exact E'].
Qed.
Print Assumptions c68_wakeup_refuted.

(** Dead threads that are counted fill the connection limit: once there are as
    many as connections are allowed, nobody is accepted any more. *)
Theorem c68_starved : forall s ts, NoDup ts ->
  (forall t, In t ts -> t < fresh s /\ at_ (wk_of s t) = Exited /\ id (wk_of s t) <> 0) ->
  conn_max s <= length ts -> forall es s', steps s es = Some s' -> accepted s' = accepted s.
Proof. exact starved. Qed.
Print Assumptions c68_starved.

Theorem c68_starved_refuted : exists s, reached 5 1 s /\ (forall t j, ~ in_session s t j) /\
  forall es s' j, steps s es = Some s' -> ~ In j (accepted s) -> ~ serving_began s' j.
Proof.
  destruct (after68_ok 5 1 late_kill (fun s => lost_on_dead s 8 0 &&
      (fresh s =? 1) && (conn_max s =? 1))) as (s & E & F);
    [vm_compute; reflexivity|].
  assert (reached 5 1 s) as R by (exists late_kill; exact E).
  rewrite !andb_true_iff in F. destruct F as ((F & F1) & F2).
  destruct (lost_on_dead_ok _ _ _ _ _ R F) as (L & D & A).
  apply Nat.eqb_eq in F1. apply Nat.eqb_eq in F2.
  exists s. split; [exact R|]. split.
  { intros t j [h C]. assert (t < fresh s) as Lt by (eapply inside_fresh; [exact R | congruence]).
    assert (t = 0) as -> by lia. destruct D as (_ & D & _). congruence. }
  intros es s' j E' Na C.
  assert (accepted s' = accepted s) as X.
  { apply (starved s [0]) with (es := es); [constructor; [intros []|constructor] | | cbn; lia | exact E'].
    intros t [<-|[]]. exact D. }
  destruct (c68_once 5 1 s') as (_ & _ & O & _); [eapply reached_steps; eassumption|].
  apply Na. rewrite <- X. apply O. exact C.
Qed.
Print Assumptions c68_starved_refuted.

(** A kill that found a session's thread cuts the next session on that thread,
    whose id nobody named and whose client was there, if the first ended in
    between. *)
Definition wrong_first : list event := give 7 ++ goes 0 4 ++ [KillFind 1] ++ finish 0 ++ give 8 ++ goes 0 4.
Definition wrong_then : list event := [KillStep 0; KillStep 0; KillStep 0; Go 0].

Theorem c68_kill_other_refuted : exists s s', steps (start 5 8) wrong_first = Some s /\
  in_session s 0 8 /\ id (wk_of s 0) = 2 /\ ~ In (KillFind 2) (wrong_first ++ wrong_then) /\
  ~ In (Gone 0) wrong_then /\ timely_run (start 5 8) (wrong_first ++ wrong_then) /\
  steps s wrong_then = Some s' /\ In 8 (ended s').
Proof.
  destruct (after68_ok 5 8 wrong_first (fun s => match at_ (wk_of s 0) with Inside 8 _ => true | _ => false end))
    as (s & E & F); [vm_compute; reflexivity|].
  exists s. destruct (steps s wrong_then) as [s'|] eqn:E'.
  - exists s'. split; [exact E|].
    assert (timely_run (start 5 8) (wrong_first ++ wrong_then)) as T by (apply timelyb_ok; vm_compute; reflexivity).
    vm_compute in E. injection E as <-. vm_compute in E'. injection E' as <-.
    split; [eexists; vm_compute; reflexivity|]. split; [vm_compute; reflexivity|].
    split; [intro C; vm_compute in C; repeat (destruct C as [C|C]; [discriminate C|]); exact C|].
    split; [intro C; vm_compute in C; repeat (destruct C as [C|C]; [discriminate C|]); exact C|].
    split; [exact T|]. split; [reflexivity|]. vm_compute. left. reflexivity.
  - exfalso. vm_compute in E. injection E as <-. vm_compute in E'. discriminate E'.
Qed.
Print Assumptions c68_kill_other_refuted.

(** If the late kill marks the thread between the moment the next connection
    has its id and the moment it is served, that connection is dropped without
    being served or closed: its thread goes back to the pool, and takes the
    connection after it. *)
Definition dropped : list event :=
  give 7 ++ goes 0 4 ++ [KillFind 1] ++ finish 0 ++ [Accept 8; Hand; KillStep 0; Hand; Hand; KillStep 0; KillStep 0]
  ++ goes 0 8 ++ give 9 ++ goes 0 4.

Theorem c68_dropped_refuted : exists s, reached 5 8 s /\ ~ In (KillFind 2) dropped /\ In 8 (accepted s) /\
  in_session s 0 9 /\
  (forall es s', steps s es = Some s' -> ~ serving_began s' 8 /\ ~ In 8 (ended s')).
Proof.
  destruct (after68_ok 5 8 dropped (fun s =>
     existsb (Nat.eqb 8) (accepted s) && negb (existsb (Nat.eqb 8) (map fst (ran s))) &&
     match giving s with None => true | Some _ => false end && (fresh s =? 1) &&
     match at_ (wk_of s 0), handler (wk_of s 0) with Inside 9 Reading, Some 9 => true | _, _ => false end))
    as (s & E & F); [vm_compute; reflexivity|].
  assert (reached 5 8 s) as R by (exists dropped; exact E).
  assert (forall t, handler (wk_of s t) <> Some 8) as Nh.
  { intros t C. vm_compute in E. injection E as <-. destruct t as [|t]; vm_compute in C; discriminate C. }
  rewrite !andb_true_iff in F. destruct F as ((((F1 & F2) & F3) & F4) & F5).
  apply existsb_in in F1. 
  assert (lost s 8) as L.
  { split; [exact F1|]. split.
    - intro C. apply existsb_in in C. rewrite C in F2. discriminate.
    - split; [destruct (giving s); [discriminate | intros; discriminate]|].
      intros t C. exfalso. exact (Nh t C). }
  exists s. split; [exact R|]. split.
  { intro C. vm_compute in C. repeat (destruct C as [C|C]; [discriminate C|]). exact C. }
  split; [exact F1|]. split.
  { exists Reading. vm_compute in E. injection E as <-. vm_compute. reflexivity. }
  intros es s' E'. pose proof (lost_forever _ _ L _ _ E') as X. split; [exact X|].
  intro C. apply X. eapply ended_ran; [|exact C]. eapply reached_steps; eassumption.
Qed.
Print Assumptions c68_dropped_refuted.

(** A kill that arrives between two requests, when the thread has looked for it
    but does not yet wait for its client, has been answered with success while
    the session stays, and the session answers one more request. *)
Theorem c68_kill_slow_refuted : exists s s', reached_timely 5 8 s /\ kills s = [] /\ req (wk_of s 0) = true /\
  at_ (wk_of s 0) = Inside 7 Reading /\ go s 0 = None /\
  step s (Ask 0) = Some s' /\ requests s' 7 = S (requests s 7).
Proof.
  destruct (after68_ok 5 8 (give 7 ++ goes 0 3 ++ [KillFind 1; KillStep 0; KillStep 0; KillStep 0; Go 0]) (fun s => true))
    as (s & E & F); [vm_compute; reflexivity|].
  exists s. destruct (step s (Ask 0)) as [s'|] eqn:E'.
  - exists s'. split; [eexists; split; [|exact E]; apply timelyb_ok; vm_compute; reflexivity|].
    vm_compute in E. injection E as <-. vm_compute in E'. injection E' as <-. vm_compute. auto 8.
  - exfalso. vm_compute in E. injection E as <-. vm_compute in E'. discriminate E'.
Qed.
Print Assumptions c68_kill_slow_refuted.
