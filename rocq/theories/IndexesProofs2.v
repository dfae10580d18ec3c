(** Proofs for the model of several index servers: the lock. *)
From Coq Require Import NArith ZArith List Bool Lia ZifyBool ZifyNat ZifyN.
From Verif Require Import Base BaseLemmas TextModel LockModel LockSpec LockProofs LockProofs2 LockProofs3 LockProofs4.
Import ListNotations.
Local Open Scope N_scope.
Local Open Scope list_scope.

Section Proofs.
Context (uuid : N -> N -> bytes) (U : good_uuid uuid).
Notation inv := (inv uuid). Notation step := (step uuid). Notation lock_step := (lock_step uuid).

(** ** Objects without a session *)
Definition parked (k : lock) : Prop := l_main k = MUnlock /\ l_id k <> [] /\ l_wat k = WIdle.
Definition calm (k : lock) : Prop := l_main k <> MHeld /\ l_owner k = false /\ l_main k <> MLock RWin /\ l_main k <> MPoll RWin /\ l_wat k <> WRun RWin.
Definition dead (k : lock) : Prop := l_alive k = false -> parked k \/ calm k.
Lemma dead_alive k : l_alive k = true -> dead k. Proof. intros A B. congruence. Qed.

Lemma lock_step_alive s i r a s1 r1 : lock_step s i r a = Ok (s1, r1) -> l_alive (locks s1 i) = l_alive (locks s i).
Proof.
  intros L. destruct r, a; cbn [LockModel.lock_step create] in L; try discriminate;
      repeat match type of L with
        | context [if ?c then _ else _] => destruct c eqn:?
        | context [match lookup_node ?a ?b with _ => _ end] => destruct (lookup_node a b)
        | context [match l_id ?a with _ => _ end] => destruct (l_id a)
        | context [bind ?a _] => destruct a; cbn [bind] in L
        end; try discriminate; injection L as <- <-; rewrite ?locks_set; cbn; congruence.
Qed.
Lemma lock_step_dead s i r a s1 r1 : l_alive (locks s i) = false -> r <> RWin -> lock_step s i r a = Ok (s1, r1) ->
  r1 <> RWin /\ (locks s1 i = locks s i \/ locks s1 i = with_owner (locks s i) false).
Proof.
  intros A N L. destruct r, a; cbn [LockModel.lock_step] in L; try discriminate; try congruence; rewrite ?A in L; cbn [andb] in L; try discriminate;
    repeat match type of L with
        | context [match l_id ?a with _ => _ end] => destruct (l_id a)
        end; try discriminate; injection L as <- <-; (split; [discriminate|]); rewrite ?locks_set; auto.
Qed.
Ltac calmly := unfold calm in *; cbn [put_run with_main with_wat with_owner l_main l_owner l_wat]; repeat match goal with |- _ /\ _ => split end; try congruence; auto.
Lemma calm_step s e s' i : l_alive (locks s i) = false -> calm (locks s i) -> i = object e -> step s e = Ok s' -> dead (locks s' i).
Proof.
  intros A C E H. pose proof C as (M1 & O & M2 & M3 & W).
  destruct e as [j|j w a|j w|j|j|j p|j|j a|j|j]; cbn [object] in E; subst j; cbn [LockModel.step] in H; rewrite ?A in H; cbn [negb andb] in H.
  - destruct (l_main (locks s i)) eqn:M; try discriminate. injection H as <-. rewrite locks_set. intros _. right. calmly.
  - destruct (at_run (locks s i) w) as [r|] eqn:R; [|discriminate]. destruct (lock_step s i r a) as [| |[s1 r1]] eqn:L; try discriminate. cbn [bind] in H. injection H as <-. rewrite locks_set.
    apply at_run_main in R. assert (Nr : r <> RWin) by (destruct w; congruence). intros _. right.
    destruct (lock_step_dead _ _ _ _ _ _ A Nr L) as (Nr1 & [Ek|Ek]); rewrite Ek; destruct w; calmly.
  - destruct (at_run (locks s i) w) as [r|] eqn:R; [|discriminate]. destruct r; try discriminate. injection H as <-. rewrite locks_set.
    intros _. right. rewrite andb_false_r. destruct w; calmly.
  - destruct (l_main (locks s i)) eqn:M; try discriminate. rewrite O in H. injection H as <-. rewrite locks_set. intros _. right. calmly.
  - destruct (l_main (locks s i)) eqn:M; try discriminate. rewrite O in H. discriminate.
  - discriminate.
  - destruct (l_main (locks s i)) eqn:M; try discriminate. congruence.
  - destruct (l_main (locks s i)) eqn:M; try discriminate. destruct a; try discriminate.
    + destruct (l_id (locks s i)); [|discriminate]. injection H as <-. rewrite locks_set. intros _. right. calmly.
    + injection H as <-. intros _. now right.
  - destruct (l_main (locks s i)) eqn:M; try discriminate. destruct (quiet (locks s i)); try discriminate. injection H as <-. rewrite locks_set. now apply dead_alive.
  - discriminate.
Qed.
Lemma parked_step s e s' i : l_alive (locks s i) = false -> parked (locks s i) -> i = object e -> step s e = Ok s' -> dead (locks s' i).
Proof.
  intros A (M & Nn & W) E H.
  destruct e as [j|j w a|j w|j|j|j p|j|j a|j|j]; cbn [object] in E; subst j; cbn [LockModel.step] in H; rewrite ?A, ?M in H; cbn [negb andb] in H; try discriminate.
  - destruct (at_run (locks s i) w) as [r|] eqn:R; [|discriminate]. apply at_run_main in R. destruct w; congruence.
  - destruct (at_run (locks s i) w) as [r|] eqn:R; [|discriminate]. apply at_run_main in R. destruct w; congruence.
  - destruct a; try discriminate.
    + destruct (l_id (locks s i)); [congruence|discriminate].
    + injection H as <-. intros _. left. now split.
Qed.
Lemma owner_head l i k : linv uuid l i k -> l_owner k = true -> l_main k <> MUnlock -> head l i (l_id k).
Proof.
  intros Li O N. pose proof (l_mok _ _ _ _ Li) as Mo. unfold main_ok in Mo. destruct (l_main k) as [|r|ok|r| | |]; auto.
  - destruct Mo as (_ & _ & Mo). congruence.
  - destruct r; try (destruct Mo as (_ & _ & Mo); congruence); try (destruct Mo as (_ & Mo & _); congruence). now destruct Mo as (_ & Mo); apply Mo.
  - now destruct Mo as (_ & Mo); apply Mo.
  - congruence.
Qed.
Lemma alive_same s e s' i : step s e = Ok s' -> l_alive (locks s i) = true -> e <> Expire i -> l_alive (locks s' i) = true.
Proof.
  intros H A N. destruct (N.eq_dec i (object e)) as [E|E]. 2:{ now rewrite (step_other uuid _ _ _ i H E). }
  destruct e as [j|j w a|j w|j|j|j p|j|j a|j|j]; cbn [object] in E; subst j; cbn [LockModel.step] in H; try congruence; rewrite ?A in H; cbn [negb andb] in H.
  2:{ destruct (at_run (locks s i) w) as [r|] eqn:R; [|discriminate]. destruct (lock_step s i r a) as [| |[s1 r1]] eqn:L; try discriminate. cbn [bind] in H. injection H as <-. rewrite locks_set.
      pose proof (lock_step_alive _ _ _ _ _ _ L) as Al. rewrite A in Al. destruct w; exact Al. }
  all: repeat match type of H with
        | (if ?c then _ else _) = _ => destruct c
        | match ?c with _ => _ end = _ => destruct c
        end; try discriminate; injection H as <-; rewrite ?locks_set; auto.
  - destruct w; exact A.
  - destruct (l_id _); exact A.
Qed.
Lemma dead_step s e s' : inv s -> (forall i, dead (locks s i)) -> (match e with Expire i => ~ first s i | _ => True end) -> step s e = Ok s' -> forall i, dead (locks s' i).
Proof.
  intros V D F H i. destruct (N.eq_dec i (object e)) as [E|E]. 2:{ rewrite (step_other uuid _ _ _ i H E). apply D. }
  destruct (l_alive (locks s i)) eqn:A.
  2:{ destruct (D i A); [eapply parked_step|eapply calm_step]; eauto. }
  destruct e as [j|j w a|j w|j|j|j p|j|j a|j|j]; cbn [object] in E; subst j; try (apply dead_alive; eapply alive_same; eauto; discriminate).
  cbn [LockModel.step] in H. rewrite A in H. injection H as <-. rewrite locks_set. intros _.
  pose proof (i_locks _ _ V i A) as Li. assert (Nh : forall x, ~ head (z_nodes s) i x) by (intros x (t & E); apply F; now exists x, t).
  pose proof (l_mok _ _ _ _ Li) as Mo. pose proof (l_wok _ _ _ _ Li) as Wo. unfold main_ok, wat_ok, parked, calm in *. cbn [l_main l_owner l_wat l_id].
  assert (K : l_main (locks s i) = MUnlock \/ l_main (locks s i) <> MUnlock) by (destruct (l_main (locks s i)); auto; right; discriminate). destruct K as [M|M].
  - left. rewrite M in Mo. tauto.
  - right. split; [clear M; intros M; rewrite M in Mo; now apply Nh in Mo|].
    split; [destruct (l_owner (locks s i)) eqn:Ow; auto; destruct (Nh _ (owner_head _ _ _ Li Ow M))|].
    split; [clear M; intros M; rewrite M in Mo; cbn [run_ok] in Mo; destruct Mo as (Mo & _); now apply Nh in Mo|].
    split; [clear M; intros M; rewrite M in Mo; cbn [run_ok] in Mo; destruct Mo as (Mo & _); now apply Nh in Mo|].
    clear M; intros M; rewrite M in Wo; cbn [run_ok] in Wo. destruct Wo as (_ & Wo & _). now apply Nh in Wo.
Qed.
(** Whose turn it is keeps it until it gives it back. *)
Lemma held_stays s e s' i : step s e = Ok s' -> e <> Release i -> holds s i -> holds s' i.
Proof.
  intros H N M. destruct (N.eq_dec i (object e)) as [E|E]. 2:{ unfold holds. now rewrite (step_other uuid _ _ _ i H E). }
  unfold holds in *. destruct e as [j|j w a|j w|j|j|j p|j|j a|j|j]; cbn [object] in E; subst j; cbn [LockModel.step] in H; rewrite ?M in H; try discriminate.
  - destruct (at_run (locks s i) w) as [r|] eqn:R; [|discriminate]. apply at_run_main in R. destruct w; try congruence.
    destruct (lock_step s i r a) as [| |[s1 r1]] eqn:L; try discriminate. cbn [bind] in H. injection H as <-. rewrite locks_set. cbn [put_run with_wat l_main].
    destruct r, a; cbn [LockModel.lock_step create] in L; try discriminate;
      repeat match type of L with
        | context [if ?c then _ else _] => destruct c
        | context [match lookup_node ?a ?b with _ => _ end] => destruct (lookup_node a b)
        | context [match l_id ?a with _ => _ end] => destruct (l_id a)
        | context [bind ?a _] => destruct a; cbn [bind] in L
        end; try discriminate; injection L as <- <-; rewrite ?locks_set; exact M.
  - destruct (at_run (locks s i) w) as [r|] eqn:R; [|discriminate]. apply at_run_main in R. destruct w; try congruence. destruct r; try discriminate. injection H as <-. rewrite locks_set. exact M.
  - repeat match type of H with (if ?c then _ else _) = _ => destruct c end; try discriminate. injection H as <-. rewrite locks_set. destruct (l_id _); exact M.
  - congruence.
  - destruct (l_alive (locks s i)); [|discriminate]. injection H as <-. rewrite locks_set. reflexivity.
Qed.
Definition linv2 (l : st) : Prop := inv l /\ forall i, dead (locks l i).
Lemma linv2_step l e l' : linv2 l -> watches e -> (match e with Expire i => ~ first l i | _ => True end) -> step l e = Ok l' -> z_next l' <= 2 ^ 31 -> linv2 l'.
Proof.
  intros (V & D) W F H L. pose proof (next_mono uuid _ _ _ H) as Mo. split.
  - refine (step_inv uuid U l e l' V _ W H). lia.
  - eapply dead_step; eauto.
Qed.
Lemma linv2_st0 : linv2 st0.
Proof. split; [now apply inv_st0|]. intros i. now apply dead_alive. Qed.
Lemma held_one l i j : linv2 l -> holds l i -> holds l j -> i = j.
Proof.
  intros (V & D) Hi Hj. assert (A : forall x, holds l x -> live l x).
  { intros x Hx. unfold live. destruct (l_alive (locks l x)) eqn:E; auto. destruct (D x E) as [(M & _)|(M & _)]; unfold holds in Hx; congruence. }
  refine (exclusive uuid l i j V _ _ Hi Hj); auto.
Qed.
End Proofs.
