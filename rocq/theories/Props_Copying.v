(** C80: what the reports say the threads that copy a whole node are doing. *)
From Coq Require Import NArith ZArith List Bool String.
From Verif Require Import Base DoingModel CopyingModel CopyingSpec.
Import ListNotations.
Local Open Scope string_scope.

Definition states (l : list string) (k : bool) (s : shown) : Prop := In (sh_state s) (map s2b l) \/ (k = true /\ sh_state s = s2b "killed").
(** What holds at each place; [b]: there was a kill; [o]: the last start. *)
Definition right (b : bool) (o : option (kind * (bytes * Z))) (p : place) (s : shown) : Prop :=
  match p with
  | Idle => sh_peer s = ([], 0%Z) /\ sh_op s = [] /\ states [""] b s
  | Begin k c => sh_peer s = ([], 0%Z) /\ sh_op s = [] /\ states ["setup"] b s /\ o = Some (k, c)
  | Connect k c => sh_peer s = c /\ sh_op s = [] /\ states ["setup"] b s /\ o = Some (k, c)
  | Open k c | Have k c => sh_peer s = c /\ sh_op s = [] /\ states ["connect"] b s /\ o = Some (k, c)
  | Name k c => sh_peer s = c /\ sh_op s = [] /\ states ["execute"] b s /\ o = Some (k, c)
  | Copy k c => sh_peer s = c /\ sh_op s = s2b "dump" /\ states ["execute"] b s /\ o = Some (k, c)
  | Tell c | Leave Fetch c => sh_peer s = c /\ (sh_op s = [] \/ sh_op s = s2b "dump") /\ states ["connect"; "execute"] b s /\ o = Some (Fetch, c)
  | Leave Send c => sh_peer s = c /\ (sh_op s = [] \/ sh_op s = s2b "dump") /\ states ["connect"; "execute"; "shutdown"] b s /\ o = Some (Send, c)
  end.
Definition kills (es : list event) : bool := existsb (fun e => match e with Kill => true | _ => false end) es.
Lemma step_right b o p s e p' s' : right b o p s -> step (p, s) e = Some (p', s') ->
  right (b || match e with Kill => true | _ => false end) (match e with Setup k c => Some (k, c) | _ => o end) p' s'.
Proof.
  intros R E. destruct e as [k0 c0| | | | |], p as [|k c|k c|[|] c|k c|k c|[|] c|c|[|] c]; cbn [step] in E; try discriminate E; injection E as <- <-;
    cbn [right set_state set_peer set_op blank sh_peer sh_op sh_state] in *;
    rewrite ?orb_false_r, ?orb_true_r; unfold states in *; cbn [map In sh_state sh_op] in *; intuition (subst; auto).
Qed.
Lemma steps_right es : forall b o p s p' s', right b o p s -> steps (p, s) es = Some (p', s') ->
  right (b || kills es) (fold_left (fun o e => match e with Setup k c => Some (k, c) | _ => o end) es o) p' s'.
Proof.
  induction es as [|e es IH]; intros b o p s p' s' R E; cbn [steps] in E.
  - injection E as <- <-. cbn. now rewrite orb_false_r.
  - destruct (step (p, s) e) as [[p1 s1]|] eqn:E1; [|discriminate E]. pose proof (step_right _ _ _ _ _ _ _ R E1) as R1. cbn [kills existsb fold_left]. rewrite orb_assoc. exact (IH _ _ _ _ _ _ R1 E).
Qed.
Lemma steps_ok es p s : steps (Idle, blank) es = Some (p, s) -> right (kills es) (last_start es) p s.
Proof. intros E. apply (steps_right es false None Idle blank p s); [|exact E]. cbn. repeat split. left. now left. Qed.
Lemma no_kills es : no_kill es -> kills es = false.
Proof. intros H. destruct (kills es) eqn:K; [|reflexivity]. apply existsb_exists in K as (e & I & K). destruct e; try discriminate K. contradiction. Qed.
Lemma fetch_start es : forall o, only_fetch es -> (forall c, o <> Some (Send, c)) -> forall c, fold_left (fun o e => match e with Setup k c => Some (k, c) | _ => o end) es o <> Some (Send, c).
Proof.
  induction es as [|e es IH]; intros o F O c; cbn [fold_left]; [apply O|]. apply IH; [intros c' I; apply (F c'); now right|].
  intros c'. destruct e as [k1 c1| | | | |]; try apply O. intros X. injection X as -> ->. apply (F c'). now left.
Qed.

(** In every schedule: during a copy the reports show its name, the node, and that it is executed or that the thread was killed;
    while the connection is made they show no name. *)
Theorem c80_copying es p s : steps (Idle, blank) es = Some (p, s) ->
  (forall k c, p = Copy k c -> sh_op s = s2b "dump" /\ sh_peer s = c /\ In (sh_state s) (map s2b ["execute"; "killed"])) /\
  (forall k c, p = Open k c -> sh_op s = [] /\ sh_peer s = c /\ In (sh_state s) (map s2b ["connect"; "killed"])) /\
  (no_kill es -> sh_state s <> s2b "killed").
Proof.
  intros E. pose proof (steps_ok es p s E) as R. repeat apply conj.
  - intros k c ->. cbn [right] in R. destruct R as (R1 & R2 & R3 & _). split; [exact R2|]. split; [exact R1|]. unfold states in R3. cbn [map In] in *. intuition auto.
  - intros k c ->. cbn [right] in R. destruct R as (R1 & R2 & R3 & _). split; [exact R2|]. split; [exact R1|]. unfold states in R3. cbn [map In] in *. intuition auto.
  - intros N X. rewrite (no_kills _ N) in R.
    assert (S : exists l, In l [[""]; ["setup"]; ["connect"]; ["execute"]; ["connect"; "execute"]; ["connect"; "execute"; "shutdown"]] /\ states l false s)
      by (destruct p as [|k c|k c|k c|k c|k c|k c|c|[|] c]; cbn [right] in R; decompose [and] R; eexists; (split; [|eassumption]); cbn [In]; auto 12).
    destruct S as (l & I & [S|[S _]]); [|discriminate S]. rewrite X in S. cbn [In] in I. decompose [or] I; subst; cbn [map In] in S; repeat (destruct S as [S|S]; [discriminate S|]); contradiction.
Qed.
Print Assumptions c80_copying.
(** What can be read off a report: a peer is the node the thread was started for last; the only name is that of a copy, and it is shown with that node. *)
Theorem c80_copying_seen es p s : steps (Idle, blank) es = Some (p, s) ->
  (sh_peer s <> ([], 0%Z) -> exists k, last_start es = Some (k, sh_peer s)) /\
  (sh_op s <> [] -> sh_op s = s2b "dump" /\ exists k, last_start es = Some (k, sh_peer s)).
Proof.
  intros E. pose proof (steps_ok es p s E) as R. destruct p as [|k c|k c|k c|k c|k c|k c|c|[|] c]; cbn [right] in R; decompose [and] R; split; intros H'; try congruence;
    try (split; [match goal with H : _ \/ _ |- _ => destruct H; [contradiction|assumption] | _ => assumption end|]);
    eexists; match goal with H : sh_peer s = _ |- _ => rewrite H end; eassumption.
Qed.
Print Assumptions c80_copying_seen.
Definition master : bytes * Z := (s2b "10.0.0.3", 12121%Z).
Example c80_copying_met : exists s, steps (Idle, blank) [Setup Fetch master; Next; Next; Next; Next; Next] = Some (Copy Fetch master, s) /\
  s = mkShown master (s2b "dump") (s2b "execute").
Proof. eexists. split; reflexivity. Qed.
(** When the copy of a master is over, or was never begun, the thread still has to tell the index server; a report then shows it as
    copying, or as connecting to the master. *)
Theorem c80_copying_over_refuted c : 
  (exists es s, steps (Idle, blank) es = Some (Tell c, s) /\ sh_op s = s2b "dump" /\ sh_state s = s2b "execute" /\ In End es) /\
  (exists es s, steps (Idle, blank) es = Some (Tell c, s) /\ sh_op s = [] /\ sh_state s = s2b "connect" /\ In Fail es).
Proof.
  split.
  - exists [Setup Fetch c; Next; Next; Next; Next; Next; End]. eexists. split; [reflexivity|]. split; [reflexivity|]. split; [reflexivity|]. cbn. auto 10.
  - exists [Setup Fetch c; Next; Next; Fail]. eexists. split; [reflexivity|]. split; [reflexivity|]. split; [reflexivity|]. cbn. auto 10.
Qed.
Print Assumptions c80_copying_over_refuted.
(** A thread that sends shows that it was asked to stop; one that fetches never does, whatever happens. *)
Theorem c80_copying_stop_refuted : 
  (forall c, exists es s, steps (Idle, blank) es = Some (Leave Send c, s) /\ sh_state s = s2b "shutdown" /\ In Stop es) /\
  (forall es p s, only_fetch es -> steps (Idle, blank) es = Some (p, s) -> sh_state s <> s2b "shutdown") /\
  (forall c, exists es s, only_fetch es /\ steps (Idle, blank) es = Some (Leave Fetch c, s) /\ In Stop es).
Proof.
  repeat apply conj.
  - intros c. exists [Setup Send c; Next; Next; Next; Next; Next; Stop]. eexists. split; [reflexivity|]. split; [reflexivity|]. cbn. auto 10.
  - intros es p s F E X. pose proof (steps_ok es p s E) as R. pose proof (fetch_start es None F ltac:(discriminate)) as N. fold (last_start es) in N.
    destruct p as [|k c|k c|k c|k c|k c|k c|c|[|] c]; cbn [right] in R; decompose [and] R; try (now apply (N c));
      match goal with H : states _ _ s |- _ => destruct H as [H|[_ H]]; rewrite X in H; [cbn [map In] in H; repeat (destruct H as [H|H]; [discriminate H|]); contradiction|discriminate H] end.
  - intros c. exists [Setup Fetch c; Next; Next; Next; Next; Next; Stop; Next]. eexists. split.
    + intros c' I. cbn in I. repeat (destruct I as [I|I]; [discriminate I|]). contradiction.
    + split; [reflexivity|]. cbn. auto 10.
Qed.
Print Assumptions c80_copying_stop_refuted.
