(** C80: what the reports say the threads that keep the time and feed a MySQL slave are doing. *)
From Coq Require Import NArith ZArith List Bool String.
From Verif Require Import Base DoingModel StandingModel StandingSpec.
Import ListNotations.
Local Open Scope string_scope.

Definition states (l : list string) (k : bool) (s : shown) : Prop := In (sh_state s) (map s2b l) \/ (k = true /\ sh_state s = s2b "killed").
Definition named (ow : option bytes) (s : shown) : Prop := sh_op s = [] \/ ow = Some (sh_op s).
(** What holds at each place; [b]: there was a kill; [ow]: the last entry. *)
Definition right (b : bool) (ow : option bytes) (p : place) (s : shown) : Prop :=
  sh_peer s = ([], 0%Z) /\
  match p with
  | Idle => sh_op s = [] /\ states [""] b s
  | Begin k => sh_op s = [] /\ states ["setup"] b s
  | Clear k => sh_op s = [] /\ states ["wait"] b s
  | Listen | Loop Clock | Leave Clock => sh_op s = [] /\ states ["wait"] b s
  | Loop Feed | Ask | Leave Feed => named ow s /\ states ["wait"; "execute"; "shutdown"] b s
  | Have w => ow = Some w /\ states ["wait"; "execute"; "shutdown"] b s
  | Name w => ow = Some w /\ states ["execute"] b s
  | Work w => ow = Some w /\ sh_op s = w /\ states ["execute"] b s
  end.
Definition kills (es : list event) : bool := existsb (fun e => match e with Kill => true | _ => false end) es.
Lemma step_right b ow p s e p' s' : right b ow p s -> step (p, s) e = Some (p', s') ->
  right (b || match e with Kill => true | _ => false end) (match e with Item w => Some w | _ => ow end) p' s'.
Proof.
  intros R E. destruct e as [k0| | | | |w0| | |], p as [|k|[|]| |[|]| |w|w|w|[|]]; cbn [step] in E; try discriminate E; try (destruct (beq w _)); injection E as <- <-;
    unfold right in *; cbn [set_state set_peer set_op blank sh_peer sh_op sh_state] in *; try (destruct k0);
    rewrite ?orb_false_r, ?orb_true_r; unfold states, named in *; cbn [map In sh_state sh_op] in *; intuition (subst; auto).
Qed.
Lemma steps_right es : forall b ow p s p' s', right b ow p s -> steps (p, s) es = Some (p', s') ->
  right (b || kills es) (fold_left (fun o e => match e with Item w => Some w | _ => o end) es ow) p' s'.
Proof.
  induction es as [|e es IH]; intros b ow p s p' s' R E; cbn [steps] in E.
  - injection E as <- <-. cbn [kills existsb fold_left]. now rewrite orb_false_r.
  - destruct (step (p, s) e) as [[p1 s1]|] eqn:E1; [|discriminate E]. pose proof (step_right _ _ _ _ _ _ _ R E1) as R1. cbn [kills existsb fold_left]. rewrite orb_assoc. exact (IH _ _ _ _ _ _ R1 E).
Qed.
Lemma steps_ok es p s : steps (Idle, blank) es = Some (p, s) -> right (kills es) (last_item es) p s.
Proof. intros E. apply (steps_right es false None Idle blank p s); [|exact E]. cbn. repeat split. left. now left. Qed.

(** In every schedule: no peer is shown; while an entry is sent to the slave the reports show its name and that it is executed, or that
    the thread was killed; the thread that keeps the time is shown as waiting, or killed, with no name. *)
Theorem c80_standing es p s : steps (Idle, blank) es = Some (p, s) ->
  sh_peer s = ([], 0%Z) /\
  (forall w, p = Work w -> sh_op s = w /\ last_item es = Some w /\ In (sh_state s) (map s2b ["execute"; "killed"])) /\
  (p = Loop Clock -> sh_op s = [] /\ In (sh_state s) (map s2b ["wait"; "killed"])).
Proof.
  intros E. pose proof (steps_ok es p s E) as [R0 R]. split; [exact R0|]. split.
  - intros w ->. destruct R as (R1 & R2 & R3). split; [exact R2|]. split; [exact R1|]. unfold states in R3. cbn [map In] in *. intuition auto.
  - intros ->. destruct R as (R1 & R3). split; [exact R1|]. unfold states in R3. cbn [map In] in *. intuition auto.
Qed.
Print Assumptions c80_standing.
Example c80_standing_met : exists s, steps (Idle, blank) [Setup Feed; Next; Next; Next; Slave; Retry; Item (s2b "proxy_write"); Next; Next] = Some (Work (s2b "proxy_write"), s) /\
  s = mkShown ([], 0%Z) (s2b "proxy_write") (s2b "execute").
Proof. eexists. split; reflexivity. Qed.
Example c80_standing_clock_met : exists s, steps (Idle, blank) [Setup Clock; Next; Next; Next] = Some (Loop Clock, s).
Proof. eexists. reflexivity. Qed.

(** What holds while nothing was killed or stopped. *)
Definition stuck (ow : option bytes) (p : place) (s : shown) : Prop :=
  match p with
  | Loop Feed | Ask => match ow with Some w => sh_state s = s2b "execute" /\ sh_op s = w | None => True end
  | Work w => ow = Some w /\ sh_state s = s2b "execute" /\ sh_op s = w
  | Name w => ow = Some w /\ sh_state s = s2b "execute"
  | Have w => ow = Some w
  | _ => ow = None
  end.
Lemma steps_stuck es : forall ow p s p' s', ~ In Kill es -> ~ In Stop es -> stuck ow p s -> steps (p, s) es = Some (p', s') ->
  stuck (fold_left (fun o e => match e with Item w => Some w | _ => o end) es ow) p' s'.
Proof.
  induction es as [|e es IH]; intros ow p s p' s' K T R E; cbn [steps] in E.
  - injection E as <- <-. exact R.
  - destruct (step (p, s) e) as [[p1 s1]|] eqn:E1; [|discriminate E]. cbn [fold_left]. apply (IH _ p1 s1); [intros I; apply K; now right|intros I; apply T; now right| |exact E].
    destruct e as [k0| | | | |w0| | |]; try (exfalso; apply T; now left); try (exfalso; apply K; now left);
      destruct p as [|k|[|]| |[|]| |w|w|w|[|]]; cbn [step] in E1; try discriminate E1; try (destruct (beq w _)); injection E1 as <- <-;
      unfold stuck in *; cbn [set_state set_op sh_state sh_op] in *; try (destruct k0); intuition (subst; auto).
Qed.
(** False of the program: that the thread that feeds a slave is shown as waiting when it waits.  Once it has taken an entry it is
    shown as executing the last one for ever, in every schedule without a kill or a stop. *)
Theorem c80_standing_refuted es p s w : steps (Idle, blank) es = Some (p, s) -> no_kill es -> no_stop es -> p = Ask \/ p = Loop Feed ->
  last_item es = Some w -> sh_state s = s2b "execute" /\ sh_op s = w.
Proof.
  intros E K T P L. pose proof (steps_stuck es None Idle blank p s K T eq_refl E) as R. fold (last_item es) in R. rewrite L in R. destruct P as [-> | ->]; exact R.
Qed.
Print Assumptions c80_standing_refuted.
Example c80_standing_refuted_met : exists s, steps (Idle, blank) [Setup Feed; Next; Next; Next; Slave; Item (s2b "proxy_write"); Next; Next; Next; Retry; Gone] = Some (Loop Feed, s) /\
  s = mkShown ([], 0%Z) (s2b "proxy_write") (s2b "execute").
Proof. eexists. split; reflexivity. Qed.
