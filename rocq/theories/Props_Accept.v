(** C70: how connections come in. *)
From Coq Require Import List Bool Arith NArith Lia Permutation String.
From Verif Require Import Base BaseLemmas StorageModel TextModel AcceptModel AcceptSpec AcceptProofs.
Import ListNotations.
Local Open Scope list_scope.

(** Whatever system calls fail, and for both servers: each connection a client has made is in exactly one place: not yet accepted, about to be
    handed to a thread, in a session, at the end of one, closed without one, or stuck; and from each
    listening socket they are accepted in the order they were made. *)
Theorem c70_once : forall k max s, reachable k max s ->
  NoDup (map snd (arrived s)) /\ Permutation (map snd (arrived s)) (everywhere s) /\
  forall l, of_socket l (arrived s) = of_socket l (taken s) ++ of_socket l (pending s).
Proof. exact inv_reachable. Qed.
Print Assumptions c70_once.
(** There are never more sessions than the highest limit that was in force; without reloads, than the limit. *)
Theorem c70_limit : forall k max es s, steps k (listening max) es = Some s -> List.length (sessions s) <= highest max es.
Proof.
  intros k max es s E. pose proof (limit_steps k es (listening max) s max (Nat.le_0_l _) (le_n _) E) as H. cbn [limit listening] in H.
  assert (max <= highest max es); [|lia]. clear. revert max. induction es as [|e es IH]; intros max; [cbn; lia|]. destruct e; cbn [highest]; auto. lia.
Qed.
Print Assumptions c70_limit.
(** When all calls work and the limit is not reached, one round serves the oldest connection of every socket that is ready, and closes none. *)
Theorem c70_served : forall k s ready, hand s = [] -> Forall works ready -> NoDup (map (fun r => fst (fst r)) ready) ->
  (forall r, In r ready -> of_socket (fst (fst r)) (pending s) <> []) -> List.length (sessions s) + List.length ready <= limit s ->
  exists s', steps k s (Wait ready :: repeat (Handle true) (List.length ready)) = Some s' /\ hand s' = [] /\
    sessions s' = sessions s ++ flat_map (fun r => firstn 1 (of_socket (fst (fst r)) (pending s))) ready /\ turned s' = turned s /\ stuck s' = stuck s.
Proof.
  intros k s ready H W ND P L. cbn [steps step]. rewrite H.
  pose proof (wait_all ready s W ND P) as E. rewrite H in E. cbn [app] in E. destruct (wait_sessions ready s) as (S1 & S2 & _ & _ & S3).
  assert (Len : List.length (hand (wait ready s)) = List.length ready).
  { rewrite E. clear - P. induction ready as [|r ready IH]; [reflexivity|]. cbn [flat_map]. rewrite app_length, IH by (intros x I; apply P; now right). unfold first_of.
    specialize (P r (or_introl eq_refl)). destruct (of_socket (fst (fst r)) (pending s)); [now elim P|reflexivity]. }
  assert (T : turned (wait ready s) = turned s).
  { clear - W. revert s. induction ready as [|[[l ts] o] ready IH]; intros s; [reflexivity|]. apply List.Forall_cons_iff in W as ((n & t & _ & _ & Eo) & W). cbn [snd] in Eo. subst o.
    cbn [wait]. destruct (pop l (pending s)) as [[c p]|]; [|reflexivity]. destruct (accept_loop _ _); [|reflexivity]. now rewrite IH. }
  destruct (handle_all k (List.length ready) (wait ready s) Len ltac:(rewrite S1, S2; exact L)) as (s' & E1 & E2 & E3 & E4 & E5 & _).
  exists s'. split; [exact E1|]. split; [exact E2|]. split; [rewrite E3, S1, E; reflexivity|]. split; congruence.
Qed.
Print Assumptions c70_served.
(** A failing call does not lose a connection: it is accepted, or still waits, or was closed because its own options could not be set. *)
Theorem c70_kept : forall s ready l c, In (l, c) (pending s) -> let s' := wait ready s in
  In (l, c) (pending s') \/ In c (hand s') \/ (In c (turned s') /\ Exists (fun r => snd r = false) ready).
Proof. exact (fun s ready => wait_keeps ready s). Qed.
Print Assumptions c70_kept.
(** The statistics count the sessions, and the threads that could not be made. *)
Theorem c70_total : forall k max es s, steps k (listening max) es = Some s ->
  List.length (sessions s) + List.length (over s) <= total s <= List.length (sessions s) + List.length (over s) + failures es.
Proof. intros k max es s E. pose proof (total_steps k es _ _ E) as H. cbn in H. lia. Qed.
Print Assumptions c70_total.
(** The index server counts those too that it has no thread for. *)
Theorem c70_total_index : forall max es s, steps Index (listening max) es = Some s -> total s = List.length (sessions s) + List.length (over s) + List.length (stuck s).
Proof.
  intros max es s E. assert (G : forall s0, steps Index s0 es = Some s -> total s0 = List.length (sessions s0) + List.length (over s0) + List.length (stuck s0) ->
    total s = List.length (sessions s) + List.length (over s) + List.length (stuck s)); [|exact (G _ E eq_refl)].
  clear E. induction es as [|e es IH]; intros s0 E H; cbn [steps] in E; [injection E as <-; exact H|].
  destruct (step Index s0 e) as [s1|] eqn:S1; [|discriminate E]. apply (IH s1 E). clear IH E. destruct e as [l c|ready|made|c|n]; cbn [step] in S1.
  - destruct (existsb _ _); [discriminate S1|]. injection S1 as <-. exact H.
  - destruct (hand s0); [|discriminate S1]. injection S1 as <-. destruct (wait_sessions ready s0) as (-> & Hst & -> & -> & Hst2). congruence.
  - unfold handle in S1. destruct (hand s0) as [|c h]; [discriminate S1|]. destruct (Nat.leb _ _); [injection S1 as <-; exact H|].
    destruct made; injection S1 as <-; cbn [sessions over total stuck]; rewrite app_length; cbn; lia.
  - destruct (existsb _ _) eqn:X; [|discriminate S1]. injection S1 as <-. apply existsb_exists in X as (c' & I & X). apply Nat.eqb_eq in X as <-.
    pose proof (Permutation_length (drop_perm c _ I)) as L. cbn [List.length] in L. cbn [sessions over total stuck]. rewrite app_length. cbn [List.length]. lia.
  - injection S1 as <-. exact H.
Qed.
Print Assumptions c70_total_index.
(** A node counts them as well, and closes them. *)
Theorem c70_total_failed : forall s c h, hand s = c :: h -> List.length (sessions s) < limit s ->
  exists s', step Node s (Handle false) = Some s' /\ total s' = S (total s) /\ turned s' = turned s ++ [c] /\ sessions s' = sessions s /\ over s' = over s /\ hand s' = h.
Proof.
  intros s c h H L. cbn [step]. unfold handle. rewrite H. destruct (Nat.leb_spec (limit s) (List.length (sessions s))); [lia|]. eexists. split; [reflexivity|]. repeat split.
Qed.
Print Assumptions c70_total_failed.
Example c70_total_failed_nonvacuous : exists s, steps Node (listening 5) [Arrive 0 1; Wait [(0, [TOk], true)]] = Some s /\ hand s = [1] /\ List.length (sessions s) < limit s.
Proof. eexists. split; [vm_compute; reflexivity|]. cbn. split; [reflexivity|lia]. Qed.
Example c70_total_index_nonvacuous : exists s, steps Index (listening 5) [Arrive 0 1; Arrive 0 2; Wait [(0, [TOk], true)]; Handle false; Wait [(0, [TOk], true)]; Handle true] = Some s /\
  stuck s = [1] /\ sessions s = [2] /\ total s = 2.
Proof. eexists. split; [vm_compute; reflexivity|]. repeat split. Qed.

(** Three clients at two sockets and a limit of two: the first two get a session, the third is closed; after one has ended there is room for another. *)
Definition fine (l : nat) : nat * list try * bool := (l, [TIntr; TOk], true).
Definition three : list event := [Arrive 0 10; Arrive 1 20; Arrive 0 11; Wait [fine 1; fine 0]; Handle true; Handle true; Wait [fine 0]; Handle true; Over 20; Arrive 1 21; Wait [fine 1]; Handle true].
Example c70_three : exists s, steps Node (listening 2) three = Some s /\ sessions s = [10; 21] /\ over s = [20] /\ turned s = [11] /\ pending s = [] /\ total s = 3 /\
  taken s = [(1, 20); (0, 10); (0, 11); (1, 21)].
Proof. eexists. split; [vm_compute; reflexivity|]. repeat split. Qed.
Example c70_served_nonvacuous : exists s, steps Node (listening 2) [Arrive 0 10; Arrive 1 20] = Some s /\ Forall works [(1, [TAgain; TOk], true); (0, [TOk], true)] /\
  of_socket 1 (pending s) = [20] /\ of_socket 0 (pending s) = [10] /\ List.length (sessions s) + 2 <= limit s.
Proof.
  eexists. split; [vm_compute; reflexivity|]. split; [constructor; [exists 1, []; auto with arith|constructor; [exists 0, []; auto with arith|constructor]]|]. cbn. auto.
Qed.

(** But one socket can keep the others waiting: if accept goes on failing at the one the kernel names first, no
    connection of the others is ever accepted, for as many rounds as one likes. *)
Theorem c70_starve_refuted : forall k max n, exists s, steps k (listening max) (Arrive 0 1 :: Arrive 1 2 :: repeat (Wait [(0, [TErr], true); fine 1]) n) = Some s /\
  In (1, 2) (pending s) /\ of_socket 1 (taken s) = [].
Proof.
  intros k max n. cbn [steps step arrived existsb snd listening Nat.eqb app pending hand sessions over turned stuck limit total taken orb].
  set (s0 := mkSrv _ _ _ _ _ _ _ _ _ _). exists s0. split; [|split; [right; now left|reflexivity]].
  induction n as [|n IH]; [reflexivity|]. cbn [repeat steps step]. change (hand s0) with (@nil nat). cbn match. rewrite wait_fails by reflexivity. exact IH.
Qed.
Print Assumptions c70_starve_refuted.
(** Sixteen interrupted tries are given up, too; the connection is taken in a later round. *)
Theorem c70_retries : forall n ts, accept_loop accept_retry_limit (repeat TIntr n ++ TOk :: ts) = Nat.ltb n 16.
Proof.
  intros n ts. unfold accept_retry_limit. generalize 16 at 1 2. intros m. revert n. induction m as [|m IH]; intros n; [destruct n; reflexivity|].
  destruct n as [|n]; [reflexivity|]. cbn [repeat app accept_loop]. rewrite IH. reflexivity.
Qed.
Print Assumptions c70_retries.
(** When no thread can be made, the node closes the connection; the index server keeps it open and never serves it. *)
Theorem c70_stuck_refuted : forall max, 0 < max -> exists es s c, steps Index (listening max) es = Some s /\ In c (map snd (arrived s)) /\
  forall es' s', steps Index s es' = Some s' -> In c (stuck s') /\ ~ In c (sessions s') /\ ~ In c (turned s') /\ ~ In c (over s').
Proof.
  intros max Hm. exists [Arrive 0 1; Wait [fine 0]; Handle false]. destruct max as [|max]; [lia|]. eexists. exists 1. split; [vm_compute; reflexivity|]. split; [now left|].
  intros es' s' E.
  assert (I : In 1 (stuck s')) by (eapply stuck_steps; [|exact E]; now left).
  assert (R : reachable Index (S max) s').
  { exists ([Arrive 0 1; Wait [fine 0]; Handle false] ++ es'). cbn [app]. match goal with E : steps _ ?x _ = _ |- _ => set (s1 := x) in E end.
    assert (X : forall e, steps Index (listening (S max)) ([Arrive 0 1; Wait [fine 0]; Handle false] ++ e) = steps Index s1 e) by (intros e; reflexivity). cbn [app] in X. now rewrite X. }
  destruct (c70_once _ _ _ R) as (ND & P & _). assert (ND' : NoDup (everywhere s')) by (eapply Permutation_NoDup; eauto).
  unfold everywhere in ND'. rewrite !app_assoc in ND'.
  assert (D : forall x, In x ((((map snd (pending s') ++ hand s') ++ sessions s') ++ over s') ++ turned s') -> ~ In x (stuck s')).
  { clear - ND'. intros x A B. apply in_split in B as (u & v & Eq). rewrite Eq in ND'. rewrite app_assoc in ND'. apply NoDup_remove_2 in ND'. apply ND'. apply in_or_app. left. apply in_or_app. now left. }
  split; [exact I|]. split; [|split]; intros J; eapply D; try exact I; rewrite !in_app_iff; tauto.
Qed.
Print Assumptions c70_stuck_refuted.

(** ** Unix domain sockets *)
(** Every connection that comes in over one: the address is read from outside of the object it was stored in. *)
Theorem c70_unix_refuted : forall path, copy_address (stored_address sockaddr_size path) = Undef.
Proof. reflexivity. Qed.
Print Assumptions c70_unix_refuted.
(** When the server stops, the name of the socket is removed if it has at most 13 bytes; if it is longer, what is
    removed is undefined. *)
Theorem c70_unlink : forall uds, ~ In 0%N uds -> List.length uds <= 13 -> unlinked_path uds = Ok uds.
Proof. exact unlinked_short. Qed.
Print Assumptions c70_unlink.
Theorem c70_unlink_refuted : forall uds, ~ In 0%N uds -> 14 <= List.length uds -> unlinked_path uds = Undef.
Proof. exact unlinked_long. Qed.
Print Assumptions c70_unlink_refuted.
(** A path of up to 107 bytes is the one that is bound; a longer one is cut off without notice. *)
Theorem c70_bound : forall uds, bound_path uds = uds <-> List.length uds <= 107.
Proof.
  intros uds. unfold bound_path. change (N.to_nat (path_size - 1)) with 107. split; [|apply firstn_all2]. intros E. rewrite <- E, firstn_length. lia.
Qed.
Print Assumptions c70_bound.
Example c70_paths : unlinked_path (s2b "/tmp/f.sock") = Ok (s2b "/tmp/f.sock") /\ unlinked_path (s2b "/var/run/flare.sock") = Undef /\ bound_path (s2b "/var/run/flare.sock") = s2b "/var/run/flare.sock".
Proof. repeat split; vm_compute; reflexivity. Qed.
