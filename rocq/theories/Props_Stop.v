(** C69: an orderly stop waits for the requests under way, does not take longer
    than its limit, and loses no write that was accepted. *)
From Coq Require Import List Arith Lia Bool.
From Verif Require Import ThreadModel ThreadSpec ThreadProofs ThreadProofs2 StopModel StopSpec StopProofs StopProofs2 StopProofs3 StopProofs4.
Import ListNotations.

(** Pieces of schedules: connection [j] is taken and handed over; thread [t]
    goes on by itself; the stop goes on. *)
Definition give (j : nat) : list sevent := map Ev [Accept j; Hand; Hand; Hand].
Definition goes (t n : nat) : list sevent := repeat (Ev (Go t)) n.
Definition stops (n : nat) : list sevent := repeat Main n.

Definition after69 (p c : nat) (es : list sevent) (f : sst -> bool) : bool :=
  match ssteps (begin_ p c) es with Some x => f x | None => false end.
Lemma after69_ok : forall p c es f, after69 p c es f = true ->
  exists x, ssteps (begin_ p c) es = Some x /\ f x = true.
Proof.
  intros p c es f H. unfold after69 in H. destruct (ssteps (begin_ p c) es) as [x|]; [|discriminate].
  exists x. auto.
Qed.
Definition peacefulb (e : sevent) : bool :=
  match e with Ev (KillStep _) | Ev (Spurious _) | Timeout => false | _ => true end.
Lemma peaceful_ok : forall es, forallb peacefulb es = true -> peaceful es.
Proof.
  intros es H. apply Forall_forall. intros e I1. apply (proj1 (forallb_forall _ _) H) in I1.
  destruct e as [[]| |]; cbn in *; auto; discriminate.
Qed.
Definition closedb (x : sst) : bool := match ph x with Closed => true | _ => false end.
Lemma closedb_ok : forall x, closedb x = true -> ph x = Closed.
Proof. intros x. unfold closedb. destruct (ph x); try discriminate. reflexivity. Qed.

(** When the storage is closed nobody is in a session, and nobody ever will be:
    no request runs against the closed storage, whatever the clients and the
    threads do. For histories in which no session was killed, no thread woke up
    by itself, and no wait was given up: c69_killed_refuted and
    c69_window_refuted show what the others may end in. *)
Theorem c69_quiet_partial : forall p c es x, peaceful es -> ssteps (begin_ p c) es = Some x -> ph x = Closed ->
  forall es' x', peaceful es' -> ssteps x es' = Some x' -> ph x' = Closed /\ quiet x'.
Proof. exact quiet_forever. Qed.
Print Assumptions c69_quiet_partial.

(** Three connections: the first has a request under way, the second waits for
    its client, the third is over and its thread pooled; then the stop. *)
Definition busy_node : list sevent :=
  give 1 ++ goes 0 4 ++ give 2 ++ goes 1 4 ++ give 3 ++ goes 2 4 ++ [Ev (Gone 2)] ++ goes 2 8 ++ [Ev (Ask 0)].
Definition full_stop : list sevent :=
  stops 4 ++ goes 0 3 ++ stops 4 ++ goes 1 2 ++ stops 3 ++ stops 3 ++ goes 2 2 ++ stops 3.
Example c69_quiet_ex :
  after69 4 4 (busy_node ++ full_stop) closedb = true /\ peaceful (busy_node ++ full_stop) /\
  after69 4 4 busy_node (fun x => match at_ (wk_of (base x) 0), at_ (wk_of (base x) 1), stack (base x) with
                                  | Inside 1 Busy, Inside 2 Reading, [2] => true | _, _, _ => false end) = true.
Proof. split; [vm_compute; reflexivity|]. split; [apply peaceful_ok; vm_compute; reflexivity | vm_compute; reflexivity]. Qed.

(** A session that is waiting for its client or has a request under way when
    the signal reaches it is over after at most three steps of its own thread:
    the request is completed, the connection closed, the stop goes on to the
    next thread. No other thread is touched. *)
Theorem c69_prompt : forall p c es x t l j h x1, ssteps (begin_ p c) es = Some x -> ph x = ActiveP (t :: l) DoSignal ->
  at_ (wk_of (base x) t) = Inside j h -> h <> Checked -> sstep x Main = Some x1 ->
  exists n x2, n <= 3 /\ ssteps x1 (repeat (Ev (Go t)) n) = Some x2 /\
    at_ (wk_of (base x2) t) = Exited /\ In j (ended (base x2)) /\
    (exists x3, sstep x2 Main = Some x3 /\ ph x3 = ActiveP l DoMark) /\
    forall u, u <> t -> wk_of (base x2) u = wk_of (base x) u.
Proof. exact prompt_reached. Qed.
Print Assumptions c69_prompt.
Example c69_prompt_ex :
  after69 4 4 (busy_node ++ stops 3) (fun x =>
    match ph x, at_ (wk_of (base x) 0) with
    | ActiveP [0; 1] DoSignal, Inside 1 Busy => true
    | _, _ => false end) = true.
Proof. vm_compute. reflexivity. Qed.

(** The stop always ends: while it is not at its end there is a step it can
    take, be it to give up a wait; and it gives up at most one wait (of sixty
    seconds) for each thread in a session, in the pool, or on its way there,
    and takes at most a fixed number of steps for each. In every schedule, with
    spurious wake-ups, whatever happened before. *)
Theorem c69_ends : forall x x0, ph x = Serving -> sstep x Main = Some x0 ->
  (forall es x', ssteps x0 es = Some x' ->
     given_up es <= active_count (base x) + to_pool (base x) /\
     stop_steps es <= 4 * active_count (base x) + 5 * to_pool (base x) + 3 /\
     (ph x' <> Closed -> sstep x' Main <> None \/ sstep x' Timeout <> None)).
Proof.
  intros x x0 P E es x' Es. cbn [sstep] in E. unfold main in E. rewrite P in E.
  destruct (giving (base x)); [discriminate|]. injection E as <-.
  assert (ph (set_ph x (ActiveP (List.filter (fun t => negb (Nat.eqb (id (wk_of (base x) t)) 0)) (seq 0 (fresh (base x)))) DoMark)) <> Serving) as N
    by (cbn; discriminate).
  destruct (work_steps es _ x' N Es) as (N' & A & B).
  assert (length (List.filter (fun t => negb (Nat.eqb (id (wk_of (base x) t)) 0)) (seq 0 (fresh (base x)))) = active_count (base x)) as L
    by reflexivity.
  cbn [waits ph set_ph base] in B. rewrite L in B. split; [lia|].
  split; [|intros Q; apply never_stuck; assumption].
  unfold work at 2 in A. cbn [ph set_ph base] in A. revert A L.
  destruct (List.filter _ _) as [|t l]; cbn [kdone length]; intros A L; lia.
Qed.
Print Assumptions c69_ends.
Example c69_ends_ex :
  after69 4 4 busy_node (fun x => match ph x, sstep x Main with
    | Serving, Some _ => (active_count (base x) =? 2) && (to_pool (base x) =? 1) | _, _ => false end) = true.
Proof. vm_compute. reflexivity. Qed.

(** Nobody is forgotten: when the storage is closed, every thread that was in a
    session or in the pool when the stop began has been told to stop, whatever
    happened in between, waits given up included. *)
Theorem c69_told : forall x x0 es x', ph x = Serving -> sstep x Main = Some x0 -> ssteps x0 es = Some x' -> ph x' = Closed ->
  forall t, t < fresh (base x) -> id (wk_of (base x) t) <> 0 \/ In t (stack (base x)) -> force x' t = true.
Proof. exact told. Qed.
Print Assumptions c69_told.
Example c69_told_ex :
  after69 4 4 (busy_node ++ full_stop) (fun x => closedb x && force x 0 && force x 1 && force x 2 && negb (force x 3)) = true.
Proof. vm_compute. reflexivity. Qed.

(** But a session that is between two requests -- it has looked for the stop and
    not yet begun to read -- misses the signal. The stop then waits for its
    whole limit unless that client happens to send something, and after it the
    storage is closed under the open session, which goes on to read requests. *)
Theorem c69_window_refuted : exists p c es x t j,
  peaceful es /\ ssteps (begin_ p c) es = Some x /\ in_session (base x) t j /\
  stuck_until_timeout x (fun e => e <> Ev (Ask t) /\ e <> Ev (Gone t)) /\
  exists es' x', ssteps x es' = Some x' /\ ph x' = Closed /\ in_session (base x') t j /\
    exists x2 j2, sstep x' (Ev (Ask t)) = Some x2 /\ at_ (wk_of (base x2) t) = Inside j2 Busy.
Proof.
  pose (es := give 1 ++ goes 0 3 ++ stops 4).
  pose (es' := goes 0 1 ++ [Timeout] ++ stops 3).
  destruct (after69_ok 1 1 es (fun x => match ph x, at_ (wk_of (base x) 0), ssteps x es' with
     | ActiveP [0] DoWait, Inside 1 Checked, Some x' =>
         negb (shut x 0) && closedb x' && (match at_ (wk_of (base x') 0) with Inside 1 Reading => true | _ => false end)
     | _, _, _ => false end) ltac:(vm_compute; reflexivity)) as (x & E & H).
  destruct (ph x) as [|[|t0 [|]] k|cur| |] eqn:P; try discriminate H; destruct t0; try discriminate H; destruct k; try discriminate H.
  destruct (at_ (wk_of (base x) 0)) as [| | | | |[|[|]] [| |]|j| |b|b|b|b|b p|] eqn:Ea; try discriminate H.
  destruct (ssteps x es') as [x'|] eqn:E'; [|discriminate H].
  apply andb_prop in H. destruct H as [H H3]. apply andb_prop in H. destruct H as [H1 H2].
  exists 1, 1, es, x, 0, 1. split; [apply peaceful_ok; vm_compute; reflexivity|]. split; [exact E|].
  split; [exists Checked; exact Ea|].
  split. { apply (window x 0 [] 1 Checked P); [destruct (shut x 0); [discriminate H1 | reflexivity] | exact Ea | discriminate]. }
  exists es', x'. split; [exact E'|]. split; [apply closedb_ok; exact H2|].
  destruct (at_ (wk_of (base x') 0)) as [| | | | |[|[|]] [| |]|j| |b|b|b|b|b p|] eqn:Ea'; try discriminate H3.
  split; [exists Reading; exact Ea'|]. cbn [sstep step]. rewrite Ea'. eexists _, 1. split; [reflexivity|].
  reflexivity.
Qed.
Print Assumptions c69_window_refuted.

(** And a thread whose session has just ended by itself cannot take itself off
    the list the stop holds the lock of, while the stop waits for it: nothing
    but the limit ends that wait. *)
Theorem c69_clean_refuted : exists p c es x,
  peaceful es /\ ssteps (begin_ p c) es = Some x /\ ph x <> Closed /\ quiet x /\
  stuck_until_timeout x (fun _ => True).
Proof.
  pose (es := give 1 ++ goes 0 4 ++ [Ev (Gone 0)] ++ goes 0 4 ++ stops 4).
  destruct (after69_ok 1 1 es (fun x => match ph x, at_ (wk_of (base x) 0) with
     | ActiveP [0] DoWait, CleanMap _ => negb (shut x 0) && (fresh (base x) =? 1)
     | _, _ => false end) ltac:(vm_compute; reflexivity)) as (x & E & H).
  destruct (ph x) as [|[|t0 [|]] k|cur| |] eqn:P; try discriminate H; destruct t0; try discriminate H; destruct k; try discriminate H.
  destruct (at_ (wk_of (base x) 0)) as [| | | | |j [| |]|j| |b|b|b|b|b p|] eqn:Ea; try discriminate H.
  apply andb_prop in H. destruct H as [H1 H2]. apply Nat.eqb_eq in H2.
  assert (peaceful es) as N by (apply peaceful_ok; vm_compute; reflexivity).
  exists 1, 1, es, x. split; [exact N|]. split; [exact E|]. split; [congruence|]. split.
  - intros t j [h C]. pose proof (stop_inv_steps _ _ _ (begin_inv 1 1) N E) as V. unfold stop_inv in V. rewrite P in V.
    destruct V as (_ & _ & V & _). destruct t; [congruence|]. rewrite V in C by lia. discriminate.
  - apply (clean x 0 [] b P); [destruct (shut x 0); [discriminate H1 | reflexivity] | exact Ea].
Qed.
Print Assumptions c69_clean_refuted.

(** A thread that once served a killed session is taken for ended ever after:
    the stop does not wait for its later sessions, and closes the storage while
    one of their requests is under way, without having given up any wait. *)
Theorem c69_killed_refuted : exists p c es x t j,
  ssteps (begin_ p c) es = Some x /\ ~ In Timeout es /\ (forall u, ~ In (Ev (Spurious u)) es) /\
  ph x = Closed /\ at_ (wk_of (base x) t) = Inside j Busy.
Proof.
  pose (es := give 1 ++ goes 0 4 ++ map Ev [KillFind 1; KillStep 0; KillStep 0; KillStep 0] ++ goes 0 8 ++
              give 2 ++ goes 0 4 ++ [Ev (Ask 0)] ++ stops 8).
  destruct (after69_ok 1 1 es (fun x => closedb x && match at_ (wk_of (base x) 0) with Inside 2 Busy => true | _ => false end)
     ltac:(vm_compute; reflexivity)) as (x & E & H).
  apply andb_prop in H. destruct H as [H1 H2].
  exists 1, 1, es, x, 0, 2. split; [exact E|].
  split. { intros C. unfold es in C. cbn in C. repeat (destruct C as [C|C]; [discriminate C|]). contradiction C. }
  split. { intros u C. unfold es in C. cbn in C. repeat (destruct C as [C|C]; [discriminate C|]). contradiction C. }
  split; [apply closedb_ok; exact H1|].
  destruct (at_ (wk_of (base x) 0)) as [| | | | |[|[|[|]]] [| |]|j| |b|b|b|b|b p|]; try discriminate H2. reflexivity.
Qed.
Print Assumptions c69_killed_refuted.

(** The queue of a proxy thread: what is carried out is carried out in the order
    it was queued, each write once, none skipped; and until the thread is told
    to stop, what is not yet carried out is still there. *)
Theorem c69_queue_order : forall es x, psteps pstart es = Some x ->
  (exists rest, pushed es = rev (processed x) ++ rest) /\
  (~ In PStop es -> pushed es = rev (processed x) ++ held x ++ pqueue x).
Proof. exact queue_kept. Qed.
Print Assumptions c69_queue_order.
Example c69_queue_order_ex :
  match psteps pstart [PGo; PGo; PPush 7; PPush 8; PGo; PGo; PGo; PPush 9; PGo; PGo] with
  | Some x => rev (processed x) = [7] /\ held x = [8] /\ pqueue x = [9]
  | None => False
  end.
Proof. vm_compute. auto. Qed.

(** Once it is told to stop, it carries out at most the write it is at. *)
Theorem c69_queue_stop : forall es x x', pforce x = true -> psteps x es = Some x' ->
  pforce x' = true /\
  (processed x' = processed x \/ exists q, pat x = PProcess q /\ processed x' = q :: processed x).
Proof. exact after_stop. Qed.
Print Assumptions c69_queue_stop.
Example c69_queue_stop_ex :
  match psteps pstart [PPush 7; PPush 8; PGo; PGo; PGo; PStop] with
  | Some x => pforce x = true /\ pat x = PProcess 7
  | None => False
  end.
Proof. vm_compute. auto. Qed.

(** So the writes still queued are dropped: accepted, and never carried out,
    however long one waits. *)
Theorem c69_queue_refuted : exists es x q,
  psteps pstart es = Some x /\ In q (pushed es) /\
  forall es' x', psteps x es' = Some x' -> ~ In q (processed x').
Proof.
  pose (es := [PPush 7; PPush 8; PGo; PGo; PGo; PStop; PWake; PGo; PGo]).
  destruct (psteps pstart es) as [x|] eqn:E; [|vm_compute in E; discriminate E].
  exists es, x, 8. split; [exact E|]. split; [cbn; auto|].
  vm_compute in E. injection E as <-. intros es' x' E'.
  apply c69_queue_stop in E'; [|reflexivity]. destruct E' as (_ & [-> | (q & C & _)]); [|discriminate C].
  cbn. intros [C|C]; [discriminate C | exact C].
Qed.
Print Assumptions c69_queue_refuted.
