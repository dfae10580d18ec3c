(** C80: what the reports say a thread is doing. *)
From Coq Require Import NArith ZArith List Bool String.
From Verif Require Import Base DoingModel DoingSpec.
Import ListNotations.
Local Open Scope string_scope.

Definition states (l : list string) (k : bool) (s : shown) : Prop := In (sh_state s) (map s2b l) \/ (k = true /\ sh_state s = s2b "killed").
(** What holds at each place; [k]: there was a kill; [oc], [ow]: the last client and the last request. *)
Definition right (k : bool) (oc : option (bytes * Z)) (ow : option bytes) (p : place) (s : shown) : Prop :=
  match p with
  | Idle => sh_peer s = ([], 0%Z) /\ sh_op s = [] /\ states [""] k s
  | Begin c => sh_peer s = ([], 0%Z) /\ sh_op s = [] /\ states ["setup"] k s /\ oc = Some c
  | Top c => sh_peer s = c /\ (sh_op s = [] \/ ow = Some (sh_op s)) /\ states ["setup"; "parse"; "execute"] k s /\ oc = Some c
  | Clear c => sh_peer s = c /\ (sh_op s = [] \/ ow = Some (sh_op s)) /\ states ["wait"] k s /\ oc = Some c
  | Read c => sh_peer s = c /\ sh_op s = [] /\ states ["wait"] k s /\ oc = Some c
  | Accept c w => sh_peer s = c /\ sh_op s = [] /\ states ["wait"] k s /\ oc = Some c /\ ow = Some w
  | Name c w => sh_peer s = c /\ sh_op s = [] /\ states ["accept"] k s /\ oc = Some c /\ ow = Some w
  | Enter c w => sh_peer s = c /\ sh_op s = w /\ states ["accept"] k s /\ oc = Some c /\ ow = Some w
  | Parse c w => sh_peer s = c /\ sh_op s = w /\ states ["parse"] k s /\ oc = Some c /\ ow = Some w
  | Work c w => sh_peer s = c /\ sh_op s = w /\ states ["execute"] k s /\ oc = Some c /\ ow = Some w
  | Back c w => sh_peer s = c /\ sh_op s = w /\ states ["parse"; "execute"] k s /\ oc = Some c /\ ow = Some w
  | Leave c => sh_peer s = c /\ (sh_op s = [] \/ ow = Some (sh_op s)) /\ states ["shutdown"] k s /\ oc = Some c
  end.
Definition kills (es : list event) : bool := existsb (fun e => match e with Kill => true | _ => false end) es.
Lemma step_right k oc ow p s e p' s' : right k oc ow p s -> step (p, s) e = Some (p', s') ->
  right (k || match e with Kill => true | _ => false end) (match e with Setup c => Some c | _ => oc end) (match e with Request w => Some w | _ => ow end) p' s'.
Proof.
  intros R E. destruct e, p; cbn [step] in E; try discriminate E; injection E as <- <-; cbn [right set_state set_peer set_op blank sh_peer sh_op sh_state] in *;
    rewrite ?orb_false_r, ?orb_true_r; unfold states in *; cbn [map In sh_state] in *; intuition (subst; auto).
Qed.
Lemma steps_right es : forall k oc ow p s p' s', right k oc ow p s -> steps (p, s) es = Some (p', s') ->
  right (k || kills es) (fold_left (fun o e => match e with Setup c => Some c | _ => o end) es oc) (fold_left (fun o e => match e with Request w => Some w | _ => o end) es ow) p' s'.
Proof.
  induction es as [|e es IH]; intros k oc ow p s p' s' R E; cbn [steps] in E.
  - injection E as <- <-. cbn. now rewrite orb_false_r.
  - destruct (step (p, s) e) as [[p1 s1]|] eqn:E1; [|discriminate E]. pose proof (step_right _ _ _ _ _ _ _ _ R E1) as R1. cbn [kills existsb fold_left]. rewrite orb_assoc. exact (IH _ _ _ _ _ _ _ R1 E).
Qed.
Lemma steps_ok es p s : steps (Idle, blank) es = Some (p, s) -> right (kills es) (last_client es) (last_request es) p s.
Proof. intros E. apply (steps_right es false None None Idle blank p s); [|exact E]. cbn. repeat split. left. now left. Qed.
Lemma no_kills es : no_kill es -> kills es = false.
Proof. intros H. destruct (kills es) eqn:K; [|reflexivity]. apply existsb_exists in K as (e & I & K). destruct e; try discriminate K. contradiction. Qed.

(** In every schedule: while a request is looked at or executed, the reports show its name and its client, and a state that says
    so or that the thread was killed; while the thread waits for a request they show the client and no name. *)
Theorem c80_doing es p s : steps (Idle, blank) es = Some (p, s) ->
  (forall c w, serves p c w -> sh_op s = w /\ sh_peer s = c /\ In (sh_state s) (map s2b ["accept"; "parse"; "execute"; "killed"])) /\
  (forall c w, p = Work c w -> In (sh_state s) (map s2b ["execute"; "killed"])) /\
  (forall c, p = Read c -> sh_op s = [] /\ sh_peer s = c /\ In (sh_state s) (map s2b ["wait"; "killed"])) /\
  (no_kill es -> sh_state s <> s2b "killed").
Proof.
  intros E. pose proof (steps_ok es p s E) as R. repeat apply conj.
  - intros c w [-> |[-> | ->]]; cbn [right] in R; destruct R as (R1 & R2 & R3 & R4 & R5); (split; [exact R2|]); (split; [exact R1|]); unfold states in R3; cbn [map In] in *; intuition auto.
  - intros c w ->. cbn [right] in R. destruct R as (_ & _ & R & _). unfold states in R. cbn [map In] in *. intuition auto.
  - intros c ->. cbn [right] in R. destruct R as (R1 & R2 & R3 & _). split; [exact R2|]. split; [exact R1|]. unfold states in R3. cbn [map In] in *. intuition auto.
  - intros N X. rewrite (no_kills _ N) in R.
    assert (S : exists l, In l [[""]; ["setup"]; ["setup"; "parse"; "execute"]; ["wait"]; ["accept"]; ["parse"]; ["execute"]; ["parse"; "execute"]; ["shutdown"]] /\ states l false s)
      by (destruct p; cbn [right] in R; decompose [and] R; eexists; (split; [|eassumption]); cbn [In]; auto 12).
    destruct S as (l & I & [S|[S _]]); [|discriminate S]. rewrite X in S. cbn [In] in I. decompose [or] I; subst; cbn [map In] in S; repeat (destruct S as [S|S]; [discriminate S|]); contradiction.
Qed.
Print Assumptions c80_doing.
(** What can be read off a report: a name is that of the last request that came, a peer the client the thread was given last. *)
Theorem c80_doing_seen es p s : steps (Idle, blank) es = Some (p, s) ->
  (sh_op s <> [] -> last_request es = Some (sh_op s)) /\ (sh_peer s <> ([], 0%Z) -> last_client es = Some (sh_peer s)).
Proof.
  intros E. pose proof (steps_ok es p s E) as R. destruct p; cbn [right] in R; decompose [and] R; split; intros H'; try congruence; try (match goal with H : _ \/ last_request _ = _ |- _ => destruct H; [contradiction|assumption] end).
Qed.
Print Assumptions c80_doing_seen.
Definition client : bytes * Z := (s2b "10.0.0.1", 4000%Z).
Example c80_doing_met : exists s, steps (Idle, blank) [Setup client; Next; Next; Next; Request (s2b "get"); Next; Next; Next; Good] = Some (Work client (s2b "get"), s) /\
  s = mkShown client (s2b "get") (s2b "execute").
Proof. eexists. split; reflexivity. Qed.
(** The two are not changed together: a report can show a thread that waits with the name of the request before, and one that has
    accepted a request with no name. *)
Theorem c80_stale_refuted c w : (exists es s, steps (Idle, blank) es = Some (Clear c, s) /\ sh_state s = s2b "wait" /\ sh_op s = w) /\
  (exists es s, steps (Idle, blank) es = Some (Name c w, s) /\ sh_state s = s2b "accept" /\ sh_op s = []).
Proof.
  split.
  - exists [Setup c; Next; Next; Next; Request w; Next; Next; Next; Good; Next; Next; Next]. eexists. split; [reflexivity|]. split; reflexivity.
  - exists [Setup c; Next; Next; Next; Request w; Next]. eexists. split; [reflexivity|]. split; reflexivity.
Qed.
Print Assumptions c80_stale_refuted.
(** A thread that was killed need not be shown as killed: it goes on with its request and says so. *)
Theorem c80_killed_refuted c w : exists es s, steps (Idle, blank) (es ++ [Kill; Good]) = Some (Work c w, s) /\ sh_state s = s2b "execute".
Proof. exists [Setup c; Next; Next; Next; Request w; Next; Next; Next]. eexists. split; reflexivity. Qed.
Print Assumptions c80_killed_refuted.
