(** Property C71: an entry that several workers process while its requester waits. *)
From Coq Require Import List Bool Arith ZArith Lia.
From Verif Require Import FanModel FanSpec FanProofs.
Import ListNotations.

(** ** Always *)
(** In every schedule each worker processes the entry at most once, and only if it was
    given to it. *)
Theorem c71_once p es s : fair_prog p -> steps (st0 p) es = Some s -> NoDup (got s) /\ incl (got s) (given s) /\ incl (given s) (targets p).
Proof.
  intros F R. pose proof (steps_inv es _ s (inv0 p F) R) as V. destruct (i_got s V) as (N & G). split; [exact N|]. split; [|exact (given_among p es s F R)].
  intros d J. apply (has_given s d V). destruct (G d J) as [B|[(z & B)|B]]; congruence.
Qed.
Print Assumptions c71_once.
(** No wake-up is lost: if no worker is stopped with the entry in its hands, the schedule
    can go on until the requester is through with its program and every worker with the entry,
    after at most six steps for each instruction. *)
Theorem c71_ends p es s : fair_prog p -> (forall d, ~ In (Drop d) es) -> steps (st0 p) es = Some s -> stuck s -> finished s /\ forall d, over s d.
Proof.
  intros F N R. apply stuck_finished; [exact (steps_inv es _ s (inv0 p F) R)|]. intros d L. pose proof (lost_steps es _ s N R d L). discriminate.
Qed.
Print Assumptions c71_ends.
Theorem c71_bounded p es s : fair_prog p -> steps (st0 p) es = Some s -> List.length es <= budget p.
Proof.
  intros F R. pose proof (steps_less es _ s (inv0 p F) R) as H. pose proof (todo_budget p). unfold remains at 2 in H. cbn in H. lia.
Qed.
Print Assumptions c71_bounded.

(** ** When the requester goes on *)
(** In schedules without wake-ups for no reason, in which the entry goes to no further worker
    while another one has counted down to zero and not yet signalled: whenever the requester
    goes on after a wait, all workers that had been given the entry have processed it, or have
    been stopped. *)
Theorem c71_answered_partial p es s : fair_prog p -> no_spurious es -> prompt (st0 p) es -> steps (st0 p) es = Some s ->
  forall d, In d (promised s) -> In d (got s) \/ In d (swept s).
Proof. exact (promises_kept p es s). Qed.
Print Assumptions c71_answered_partial.
(** So a write is answered when all slaves that it was given to have processed it. *)
Theorem c71_write_partial n b es s : no_spurious es -> no_stop es -> prompt (st0 (write_prog n b)) es -> steps (st0 (write_prog n b)) es = Some s ->
  ~ In Await (prog s) -> forall d, In d (given s) -> d < n -> In d (got s).
Proof.
  intros NS NT P R E d G D.
  assert (PR : In d (promised s)).
  { destruct (promised_at_end (map Give (seq 0 n)) (if b then [Give n] else []) es s) with (d := d) as [H|H]; auto; [exact (fair_write n b)|destruct b; cbn; intuition discriminate|].
    destruct b; cbn in H; [destruct H as [H|[]]; lia|easy]. }
  destruct (promises_kept _ es s (fair_write n b) NS P R d PR) as [H|H]; auto. destruct (no_stop_steps es _ s NT R) as (SW & _). rewrite SW in H. destruct H.
Qed.
Print Assumptions c71_write_partial.
Theorem c71_broadcast_partial m n es s : no_spurious es -> no_stop es -> prompt (st0 (broadcast_prog m n)) es -> steps (st0 (broadcast_prog m n)) es = Some s ->
  prog s = [] -> incl (given s) (got s).
Proof.
  intros NS NT P R E d G.
  assert (PR : In d (promised s)).
  { assert (EQ : broadcast_prog m n = ((if Nat.eqb m 0 then [] else map Give (seq 0 m) ++ [Await]) ++ map Give (seq m n)) ++ Await :: []).
    { unfold broadcast_prog. now rewrite <- app_assoc. }
    pose proof (fair_broadcast m n) as F. rewrite EQ in F, R.
    destruct (promised_at_end _ [] es s F (fun x => x) R) with (d := d) as [H|H]; auto; [rewrite E; easy|destruct H]. }
  destruct (promises_kept _ es s (fair_broadcast m n) NS P R d PR) as [H|H]; auto. destruct (no_stop_steps es _ s NT R) as (SW & _). rewrite SW in H. destruct H.
Qed.
Print Assumptions c71_broadcast_partial.
(** With one worker no condition on the signals is needed. *)
Theorem c71_single_partial es s : no_spurious es -> no_stop es -> steps (st0 forward_prog) es = Some s -> prog s = [] -> incl (given s) (got s).
Proof.
  intros NS NT R E d G. assert (F : fair_prog forward_prog) by (repeat constructor; easy).
  assert (P : prompt (st0 forward_prog) es) by (apply prompt_single; [now apply inv0|cbn; auto]).
  destruct (promised_at_end [Give 0] [] es s F (fun x => x) R) with (d := d) as [H|H]; auto; [rewrite E; easy| |destruct H].
  destruct (promises_kept _ es s F NS P R d H) as [K|K]; auto. destruct (no_stop_steps es _ s NT R) as (SW & _). rewrite SW in K. destruct K.
Qed.
Print Assumptions c71_single_partial.
(** Two slaves, one of which is done before the other gets the entry. *)
Definition ok_run : list event :=
  [Ref; Push true; Start 0; Handle 0; Unref 0; Signal 0; Ref; Push true; Start 1; Sync; Handle 1; Unref 1; Signal 1].
Ltac pstep := cbn [prompt]; let s' := fresh "s" in let E := fresh "E" in let Q := fresh "Q" in intros s' E; cbn in E; injection E as <-; split;
  [intros Q; first [discriminate Q | let x := fresh in intros x; cbn; unfold upd; repeat match goal with |- context [Nat.eqb ?a ?b] => destruct (Nat.eqb a b) end; discriminate]|].
Example c71_example : exists s, steps (st0 (write_prog 2 false)) ok_run = Some s /\ prompt (st0 (write_prog 2 false)) ok_run /\ no_spurious ok_run /\ no_stop ok_run /\
  finished s /\ given s = [0; 1] /\ got s = [0; 1] /\ stuck s.
Proof.
  eexists. split; [vm_compute; reflexivity|]. split.
  { unfold ok_run. repeat pstep. exact Logic.I. }
  split; [unfold no_spurious; cbn; intuition discriminate|]. split; [intros d; cbn; split; intuition discriminate|]. split; [split; reflexivity|]. split; [reflexivity|]. split; [reflexivity|].
  intros e NE. destruct e; try reflexivity; try (destruct (NE eq_refl)); destruct d as [|[|d]]; reflexivity.
Qed.

(** ** What fails *)
(** The first slave's worker has counted down to zero and not yet signalled when the entry
    goes to the second and the requester waits: the late signal ends the wait, the client
    is answered, and the second slave has not got the write. *)
Definition late : list event := [Ref; Push true; Start 0; Handle 0; Unref 0; Ref; Push true; Sync; Signal 0].
Theorem c71_early_refuted : exists s, steps (st0 (write_prog 2 false)) late = Some s /\ no_spurious late /\ no_stop late /\
  finished s /\ given s = [0; 1] /\ got s = [0] /\ at_ s 1 = Queued.
Proof. eexists. split; [vm_compute; reflexivity|]. split; [unfold no_spurious; cbn; intuition discriminate|]. split; [intros d; cbn; split; intuition discriminate|]. repeat split. Qed.
Print Assumptions c71_early_refuted.
(** The same across the two waits of a broadcast: the signal of the node that goes first
    ends the wait for the others. *)
Definition late2 : list event := [Ref; Push true; Start 0; Handle 0; Unref 0; Sync; Ref; Push true; Sync; Signal 0].
Theorem c71_broadcast_refuted : exists s, steps (st0 (broadcast_prog 1 1)) late2 = Some s /\ no_spurious late2 /\ no_stop late2 /\
  finished s /\ given s = [0; 1] /\ got s = [0] /\ at_ s 1 = Queued.
Proof. eexists. split; [vm_compute; reflexivity|]. split; [unfold no_spurious; cbn; intuition discriminate|]. split; [intros d; cbn; split; intuition discriminate|]. repeat split. Qed.
Print Assumptions c71_broadcast_refuted.
(** The wait is not repeated: a wake-up without reason ends it. *)
Theorem c71_spurious_refuted : exists s, steps (st0 forward_prog) [Ref; Push true; Sync; Spurious] = Some s /\ finished s /\ given s = [0] /\ got s = [].
Proof. eexists. split; [vm_compute; reflexivity|]. repeat split. Qed.
Print Assumptions c71_spurious_refuted.
(** A worker that is stopped with the entry in its hands leaves the requester waiting
    for ever. *)
Theorem c71_hang_refuted : exists s, steps (st0 forward_prog) [Ref; Push true; Drop 0; Sync] = Some s /\ stuck s /\ ~ finished s.
Proof.
  eexists. split; [vm_compute; reflexivity|]. split; [|intros (H & _); discriminate H].
  intros e NE. destruct e; try reflexivity; try (destruct (NE eq_refl)); destruct d as [|d]; reflexivity.
Qed.
Print Assumptions c71_hang_refuted.
(** One that is stopped before lets go of the entry unprocessed: the requester goes on. *)
Theorem c71_swept_refuted : exists s, steps (st0 forward_prog) [Ref; Push true; Sync; Sweep 0; Signal 0] = Some s /\ finished s /\ given s = [0] /\ got s = [].
Proof. eexists. split; [vm_compute; reflexivity|]. repeat split. Qed.
Print Assumptions c71_swept_refuted.
(** The node that is being prepared as master is not waited for. *)
Theorem c71_prepared_refuted : exists s, steps (st0 (write_prog 1 true)) [Ref; Push true; Start 0; Handle 0; Unref 0; Signal 0; Sync; Ref; Push true] = Some s /\
  finished s /\ given s = [0; 1] /\ got s = [0].
Proof. eexists. split; [vm_compute; reflexivity|]. repeat split. Qed.
Print Assumptions c71_prepared_refuted.
(** Slaves whose worker is not there or does not take the entry are left out. *)
Theorem c71_skipped_refuted : exists s, steps (st0 (write_prog 2 false)) [Skip; Ref; Push false; Sync] = Some s /\ finished s /\ got s = [].
Proof. eexists. split; [vm_compute; reflexivity|]. repeat split. Qed.
Print Assumptions c71_skipped_refuted.
