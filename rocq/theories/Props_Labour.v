(** C80: what the reports say the threads of the other pool are doing. *)
From Coq Require Import NArith ZArith List Bool String.
From Verif Require Import Base DoingModel LabourModel LabourSpec.
Import ListNotations.
Local Open Scope string_scope.

Definition states (l : list string) (k : bool) (s : shown) : Prop := In (sh_state s) (map s2b l) \/ (k = true /\ sh_state s = s2b "killed").
Definition named (ow : option bytes) (s : shown) : Prop := sh_op s = [] \/ ow = Some (sh_op s).
(** What holds at each place; [k]: there was a kill; [oc], [ow]: the last node and the last entry. *)
Definition right (k : bool) (oc : option (bytes * Z)) (ow : option bytes) (p : place) (s : shown) : Prop :=
  match p with
  | Idle => sh_peer s = ([], 0%Z) /\ sh_op s = [] /\ states [""] k s
  | Begin o => sh_peer s = ([], 0%Z) /\ sh_op s = [] /\ states ["setup"] k s /\ oc = o
  | Connect c => sh_peer s = c /\ sh_op s = [] /\ states ["setup"] k s /\ oc = Some c
  | Open c => sh_peer s = c /\ sh_op s = [] /\ states ["connect"] k s /\ oc = Some c
  | Top o => sh_peer s = peer_of o /\ named ow s /\ states ["setup"; "connect"; "wait"; "execute"] k s /\ oc = o
  | Clear o => sh_peer s = peer_of o /\ named ow s /\ states ["wait"] k s /\ oc = o
  | Ask o => sh_peer s = peer_of o /\ sh_op s = [] /\ states ["wait"] k s /\ oc = o
  | Have o w => sh_peer s = peer_of o /\ sh_op s = [] /\ states ["wait"] k s /\ oc = o /\ ow = Some w
  | Name o w => sh_peer s = peer_of o /\ sh_op s = [] /\ states ["execute"] k s /\ oc = o /\ ow = Some w
  | Work o w => sh_peer s = peer_of o /\ sh_op s = w /\ states ["execute"] k s /\ oc = o /\ ow = Some w
  | Leave o => sh_peer s = peer_of o /\ sh_op s = [] /\ states ["shutdown"; "connect"] k s /\ oc = o
  end.
Definition kills (es : list event) : bool := existsb (fun e => match e with Kill => true | _ => false end) es.
Lemma step_right k oc ow p s e p' s' : right k oc ow p s -> step (p, s) e = Some (p', s') ->
  right (k || match e with Kill => true | _ => false end) (match e with Setup o => o | _ => oc end) (match e with Item w => Some w | _ => ow end) p' s'.
Proof.
  intros R E. destruct e as [o0| | |w0| | | |], p as [|[c|]|c|c|o|o|o|o w'|o w'|o w'|o]; cbn [step] in E; try discriminate E; injection E as <- <-; cbn [right set_state set_peer set_op blank sh_peer sh_op sh_state peer_of] in *;
    rewrite ?orb_false_r, ?orb_true_r; unfold states, named in *; cbn [map In sh_state sh_op] in *; intuition (subst; auto).
Qed.
Lemma steps_right es : forall k oc ow p s p' s', right k oc ow p s -> steps (p, s) es = Some (p', s') ->
  right (k || kills es) (fold_left (fun o e => match e with Setup o' => o' | _ => o end) es oc) (fold_left (fun o e => match e with Item w => Some w | _ => o end) es ow) p' s'.
Proof.
  induction es as [|e es IH]; intros k oc ow p s p' s' R E; cbn [steps] in E.
  - injection E as <- <-. cbn. now rewrite orb_false_r.
  - destruct (step (p, s) e) as [[p1 s1]|] eqn:E1; [|discriminate E]. pose proof (step_right _ _ _ _ _ _ _ _ R E1) as R1. cbn [kills existsb fold_left]. rewrite orb_assoc. exact (IH _ _ _ _ _ _ _ R1 E).
Qed.
Lemma steps_ok es p s : steps (Idle, blank) es = Some (p, s) -> right (kills es) (last_node es) (last_item es) p s.
Proof. intros E. apply (steps_right es false None None Idle blank p s); [|exact E]. cbn. repeat split. left. now left. Qed.
Lemma no_kills es : no_kill es -> kills es = false.
Proof. intros H. destruct (kills es) eqn:K; [|reflexivity]. apply existsb_exists in K as (e & I & K). destruct e; try discriminate K. contradiction. Qed.

(** In every schedule: while an entry is worked on, the reports show its name, the node it is for, and that it is executed or that the
    thread was killed; while the thread waits for one they show no name and that it waits. *)
Theorem c80_labour es p s : steps (Idle, blank) es = Some (p, s) ->
  (forall o w, p = Work o w -> sh_op s = w /\ sh_peer s = peer_of o /\ In (sh_state s) (map s2b ["execute"; "killed"])) /\
  (forall o, p = Ask o -> sh_op s = [] /\ sh_peer s = peer_of o /\ In (sh_state s) (map s2b ["wait"; "killed"])) /\
  (forall c, p = Open c -> sh_op s = [] /\ sh_peer s = c /\ In (sh_state s) (map s2b ["connect"; "killed"])) /\
  (no_kill es -> sh_state s <> s2b "killed").
Proof.
  intros E. pose proof (steps_ok es p s E) as R. repeat apply conj.
  - intros o w ->. cbn [right] in R. destruct R as (R1 & R2 & R3 & _). split; [exact R2|]. split; [exact R1|]. unfold states in R3. cbn [map In] in *. intuition auto.
  - intros o ->. cbn [right] in R. destruct R as (R1 & R2 & R3 & _). split; [exact R2|]. split; [exact R1|]. unfold states in R3. cbn [map In] in *. intuition auto.
  - intros c ->. cbn [right] in R. destruct R as (R1 & R2 & R3 & _). split; [exact R2|]. split; [exact R1|]. unfold states in R3. cbn [map In] in *. intuition auto.
  - intros N X. rewrite (no_kills _ N) in R.
    assert (S : exists l, In l [[""]; ["setup"]; ["connect"]; ["setup"; "connect"; "wait"; "execute"]; ["wait"]; ["execute"]; ["shutdown"; "connect"]] /\ states l false s)
      by (destruct p; cbn [right] in R; decompose [and] R; eexists; (split; [|eassumption]); cbn [In]; auto 12).
    destruct S as (l & I & [S|[S _]]); [|discriminate S]. rewrite X in S. cbn [In] in I. decompose [or] I; subst; cbn [map In] in S; repeat (destruct S as [S|S]; [discriminate S|]); contradiction.
Qed.
Print Assumptions c80_labour.
(** What can be read off a report: a name is that of the last entry taken, a peer the node the thread was started for. *)
Theorem c80_labour_seen es p s : steps (Idle, blank) es = Some (p, s) ->
  (sh_op s <> [] -> last_item es = Some (sh_op s)) /\ (sh_peer s <> ([], 0%Z) -> last_node es = Some (sh_peer s)).
Proof.
  intros E. pose proof (steps_ok es p s E) as R. destruct p as [|[c|]|c|c|[c|]|[c|]|[c|]|[c|] w|[c|] w|[c|] w|[c|]]; cbn [right peer_of] in R; unfold named in R; decompose [and] R; split; intros H'; try congruence;
    try (match goal with H : _ \/ last_item _ = _ |- _ => destruct H; [contradiction|assumption] end).
Qed.
Print Assumptions c80_labour_seen.
Definition other : bytes * Z := (s2b "10.0.0.2", 12121%Z).
Example c80_labour_met : exists s, steps (Idle, blank) [Setup (Some other); Next; Next; Next; Next; Next; Retry; Next; Next; Item (s2b "proxy_write"); Next; Next] = Some (Work (Some other) (s2b "proxy_write"), s) /\
  s = mkShown other (s2b "proxy_write") (s2b "execute").
Proof. eexists. split; reflexivity. Qed.
(** A report can show a thread that executes nothing: the state is set first and the name later. *)
Theorem c80_labour_stale_refuted o w : exists es s, steps (Idle, blank) es = Some (Name o w, s) /\ sh_state s = s2b "execute" /\ sh_op s = [].
Proof.
  destruct o as [c|].
  - exists [Setup (Some c); Next; Next; Next; Next; Next; Item w; Next]. eexists. split; [reflexivity|]. split; reflexivity.
  - exists [Setup None; Next; Next; Next; Item w; Next]. eexists. split; [reflexivity|]. split; reflexivity.
Qed.
Print Assumptions c80_labour_stale_refuted.
