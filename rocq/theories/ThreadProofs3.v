From Coq Require Import List Arith Lia Bool.
From Verif Require Import ThreadModel ThreadSpec ThreadProofs ThreadProofs2.
Import ListNotations.

(** What a step can do to a thread that has exited, or is in a session. *)
Lemma step_exited : forall s e s' t, step s e = Some s' -> t < fresh s -> at_ (wk_of s t) = Exited ->
  at_ (wk_of s' t) = Exited.
Proof.
  intros s e s' t E L X. destruct e as [j| |t'|t'|t'|t'|i|t']; cbn [step] in E.
  - destruct (giving s); [discriminate|]. destruct (known s j); [discriminate|]. injection E as <-.
    unfold accept. destruct (conn_max s <=? active_count s); [exact X|].
    destruct (stack s); cbn; [rewrite upd_other by lia|]; exact X.
  - destruct (giving s) as [[[j t'] g]|]; [|discriminate].
    destruct g; injection E as <-; cbn; (destruct (Nat.eq_dec t t') as [->|D];
      [rewrite upd_same; cbn; rewrite ?X; auto | rewrite upd_other by exact D; exact X]).
  - destruct (t' <? fresh s); [|discriminate].
    destruct (Nat.eq_dec t t') as [->|D]; [unfold go in E; rewrite X in E; discriminate|].
    unfold go in E. destruct (at_ (wk_of s t')) as [| | | | |j [| |]|j| |b|b|b|b|b p|]; try discriminate;
      repeat match type of E with
             | context [match ?x with Some _ => _ | None => _ end] => destruct x
             | context [if ?x then Some _ else _] => destruct x
             end;
      injection E as <-; cbn; rewrite upd_other by exact D; exact X.
  - destruct (at_ (wk_of s t')) as [| | | | |j [| |]|j| |b|b|b|b|b p|] eqn:Ea; try discriminate.
    injection E as <-. cbn. destruct (Nat.eq_dec t t') as [->|D]; [congruence|].
    rewrite upd_other by exact D; exact X.
  - destruct (at_ (wk_of s t')) as [| | | | |j [| |]|j| |b|b|b|b|b p|] eqn:Ea; try discriminate.
    injection E as <-. cbn. destruct (Nat.eq_dec t t') as [->|D]; [congruence|].
    rewrite upd_other by exact D; exact X.
  - destruct (at_ (wk_of s t')) as [| | | | |j [| |]|j| |b|b|b|b|b p|] eqn:Ea; try discriminate.
    injection E as <-. cbn. destruct (Nat.eq_dec t t') as [->|D]; [congruence|].
    rewrite upd_other by exact D; exact X.
  - destruct (find_id s i); [|discriminate]. injection E as <-. exact X.
  - destruct (kill_of t' (kills s)) as [[| |]|]; try discriminate; injection E as <-; cbn;
      (destruct (Nat.eq_dec t t') as [->|D];
       [rewrite upd_same | rewrite upd_other by exact D; exact X]).
    + exact X.
    + cbn. rewrite X. reflexivity.
    + unfold interrupt. rewrite X. exact X.
Qed.

(** Threads are numbered in order and never renumbered; limits are constant. *)
Lemma step_frame : forall s e s', step s e = Some s' ->
  fresh s <= fresh s' /\ conn_max s' = conn_max s /\ pool_max s' = pool_max s /\
  (forall j, In j (map fst (ran s)) -> In j (map fst (ran s'))) /\
  (accepted s' = accepted s \/ exists j, e = Accept j /\ accepted s' = j :: accepted s /\ active_count s < conn_max s).
Proof.
  intros s e s' E. destruct e as [j| |t|t|t|t|i|t]; cbn [step] in E.
  - destruct (giving s); [discriminate|]. destruct (known s j); [discriminate|]. injection E as <-.
    unfold accept. destruct (Nat.leb_spec (conn_max s) (active_count s)); cbn; [auto 8|].
    destruct (stack s); cbn; repeat (split; [auto with arith|]); right; exists j; auto.
  - destruct (giving s) as [[[j t] g]|]; [|discriminate]. destruct g; injection E as <-; cbn; auto 8.
  - destruct (t <? fresh s); [|discriminate]. unfold go in E.
    destruct (at_ (wk_of s t)) as [| | | | |j [| |]|j| |b|b|b|b|b p|]; try discriminate;
      repeat match type of E with
             | context [match ?x with Some _ => _ | None => _ end] => destruct x
             | context [if ?x then Some _ else _] => destruct x
             end; injection E as <-; cbn; auto 8.
  - destruct (at_ (wk_of s t)) as [| | | | |j [| |]|j| |b|b|b|b|b p|]; try discriminate.
    injection E as <-; cbn; auto 8.
  - destruct (at_ (wk_of s t)) as [| | | | |j [| |]|j| |b|b|b|b|b p|]; try discriminate.
    injection E as <-; cbn; auto 8.
  - destruct (at_ (wk_of s t)) as [| | | | |j [| |]|j| |b|b|b|b|b p|]; try discriminate.
    injection E as <-; cbn; auto 8.
  - destruct (find_id s i); [|discriminate]. injection E as <-; cbn; auto 8.
  - destruct (kill_of t (kills s)) as [[| |]|]; try discriminate; injection E as <-; cbn; auto 8.
Qed.

(** A connection that is lost: no thread that still lives has it. *)
Definition lost (s : st) (j : nat) : Prop :=
  In j (accepted s) /\ ~ In j (map fst (ran s)) /\
  (forall t g, giving s = Some (j, t, g) -> g = Handed) /\
  (forall t, handler (wk_of s t) = Some j -> t < fresh s /\ at_ (wk_of s t) = Exited).

Lemma lost_step : forall s e s' j, lost s j -> step s e = Some s' -> lost s' j.
Proof.
  intros s e s' j (A & R & G & H) E.
  destruct (step_frame _ _ _ E) as (Ff & _ & _ & Fr & Fa).
  split. { destruct Fa as [->|(i & _ & -> & _)]; [exact A | right; exact A]. }
  destruct e as [i| |t|t|t|t|i|t]; cbn [step] in E.
  - destruct (giving s) eqn:Gs; [discriminate|]. destruct (known s i) eqn:K; [discriminate|].
    injection E as <-. destruct (known_spec _ _ K) as [N _].
    assert (i <> j) as D by congruence.
    unfold accept in *. destruct (conn_max s <=? active_count s).
    + split; [exact R|]. split; [|exact H]. cbn. intros t g C. congruence.
    + destruct (stack s); cbn.
      * split; [exact R|]. split; [intros t g [= C _ _]; contradiction|].
        intros t. destruct (Nat.eq_dec t (fresh s)) as [->|Dt]; [rewrite upd_same; discriminate|].
        rewrite upd_other by exact Dt. intro C. destruct (H _ C). split; [lia | assumption].
      * split; [exact R|]. split; [intros t g [= C _ _]; contradiction | exact H].
  - destruct (giving s) as [[[i t] g]|] eqn:Gs; [|discriminate].
    destruct g; injection E as <-; cbn in *.
    + assert (i <> j) as D by (intros ->; discriminate (G _ _ eq_refl)).
      split; [exact R|]. split; [intros t' g [= C _ _]; contradiction|].
      intros t'. destruct (Nat.eq_dec t' t) as [->|Dt]; [rewrite upd_same; apply H | rewrite upd_other by exact Dt; apply H].
    + assert (i <> j) as D by (intros ->; discriminate (G _ _ eq_refl)).
      split; [exact R|]. split; [intros t' g [= C _ _]; contradiction|].
      intros t'. destruct (Nat.eq_dec t' t) as [->|Dt]; [rewrite upd_same; cbn; congruence | rewrite upd_other by exact Dt; apply H].
    + split; [exact R|]. split; [intros; discriminate|].
      intros t'. destruct (Nat.eq_dec t' t) as [->|Dt]; [rewrite upd_same; cbn | rewrite upd_other by exact Dt; apply H].
      intro C. destruct (H _ C) as [L X]. rewrite X. auto.
  - destruct (t <? fresh s); [|discriminate].
    assert (handler (wk_of s t) <> Some j) as Nh.
    { intro C. destruct (H _ C) as [_ X]. unfold go in E. rewrite X in E. discriminate. }
    unfold go in E.
    destruct (at_ (wk_of s t)) as [| | | | |i [| |]|i| |b|b|b|b|b p|] eqn:Ea; try discriminate;
      try (injection E as <-; cbn; split; [exact R|]; split; [exact G|];
           intros t'; (destruct (Nat.eq_dec t' t) as [->|Dt];
            [rewrite upd_same; cbn; try destruct (trig (wk_of s t)); try destruct (Nat.eqb (id (wk_of s t)) 0); cbn; congruence
            | rewrite upd_other by exact Dt; apply H]); fail).
    + destruct (handler (wk_of s t)) as [i|] eqn:Eh; injection E as <-; cbn.
      * split; [intros [C|C]; congruence|]. split; [exact G|].
        intros t'; destruct (Nat.eq_dec t' t) as [->|Dt]; [rewrite upd_same; cbn; congruence | rewrite upd_other by exact Dt; apply H].
      * split; [exact R|]. split; [exact G|].
        intros t'; destruct (Nat.eq_dec t' t) as [->|Dt]; [rewrite upd_same; cbn; congruence | rewrite upd_other by exact Dt; apply H].
    + destruct (length (stack s) <? pool_max s); injection E as <-; cbn; (split; [exact R|]; split; [exact G|];
           intros t'; destruct (Nat.eq_dec t' t) as [->|Dt];
            [rewrite upd_same; cbn; congruence | rewrite upd_other by exact Dt; apply H]).
  - destruct (at_ (wk_of s t)) as [| | | | |i [| |]|i| |b|b|b|b|b p|] eqn:Ea; try discriminate.
    injection E as <-; cbn. split; [exact R|]; split; [exact G|].
    intros t'; destruct (Nat.eq_dec t' t) as [->|Dt]; [rewrite upd_same; cbn | rewrite upd_other by exact Dt; apply H].
    intro C. destruct (H _ C). congruence.
  - destruct (at_ (wk_of s t)) as [| | | | |i [| |]|i| |b|b|b|b|b p|] eqn:Ea; try discriminate.
    injection E as <-; cbn. split; [exact R|]; split; [exact G|].
    intros t'; destruct (Nat.eq_dec t' t) as [->|Dt]; [rewrite upd_same; cbn | rewrite upd_other by exact Dt; apply H].
    intro C. destruct (H _ C). congruence.
  - destruct (at_ (wk_of s t)) as [| | | | |i [| |]|i| |b|b|b|b|b p|] eqn:Ea; try discriminate.
    injection E as <-; cbn. split; [exact R|]; split; [exact G|].
    intros t'; destruct (Nat.eq_dec t' t) as [->|Dt]; [rewrite upd_same; cbn | rewrite upd_other by exact Dt; apply H].
    intro C. destruct (H _ C). congruence.
  - destruct (find_id s i); [|discriminate]. injection E as <-. auto.
  - destruct (kill_of t (kills s)) as [[| |]|]; try discriminate; injection E as <-; cbn;
      (split; [exact R|]; split; [exact G|]);
      intros t'; (destruct (Nat.eq_dec t' t) as [->|Dt]; [rewrite upd_same | rewrite upd_other by exact Dt; apply H]).
    + cbn. apply H.
    + cbn. intro C. destruct (H _ C) as [L X]. rewrite X. auto.
    + unfold interrupt. destruct (at_ (wk_of s t)) as [| | | | |i [| |]|i| |b|b|b|b|b p|] eqn:Ea;
        try (intro C; destruct (H _ C); split; [assumption | congruence]).
Qed.

Lemma lost_forever : forall s j, lost s j -> forall es s', steps s es = Some s' -> ~ serving_began s' j.
Proof.
  intros s j L es s' E [t C].
  assert (lost s' j) as (_ & R & _).
  { eapply (steps_inv (fun s => lost s j)); [|exact L | exact E]. intros. eapply lost_step; eassumption. }
  apply R. change j with (fst (j, t)). apply in_map. exact C.
Qed.

(** Sessions that ended were begun. *)
Lemma ended_ran : forall p c s j, reached p c s -> In j (ended s) -> serving_began s j.
Proof.
  intros p c s j [es E] H.
  assert (inv s /\ forall j, In j (ended s) -> In j (map fst (ran s))) as [_ X];
    [|apply began_iff; auto].
  clear H j. revert E.
  assert (forall es s s', inv s /\ (forall j, In j (ended s) -> In j (map fst (ran s))) ->
            steps s es = Some s' -> inv s' /\ forall j, In j (ended s') -> In j (map fst (ran s'))) as K;
    [|intro E; eapply K; [|exact E]; split; [apply inv_start | cbn; contradiction]].
  clear. intros es s s'.
  apply (steps_inv (fun s => inv s /\ forall j, In j (ended s) -> In j (map fst (ran s)))).
  clear. intros s e s' [V H] E. split; [eapply inv_step; eassumption|].
  destruct (step_frame _ _ _ E) as (_ & _ & _ & Fr & _).
  assert (ended s' = ended s \/ exists t j, at_ (wk_of s t) = Leave j /\ ended s' = j :: ended s) as D.
  { destruct e as [j| |t|t|t|t|i|t]; cbn [step] in E.
    - destruct (giving s); [discriminate|]. destruct (known s j); [discriminate|]. injection E as <-.
      unfold accept. destruct (conn_max s <=? active_count s); [auto|]. destruct (stack s); auto.
    - destruct (giving s) as [[[j t] g]|]; [|discriminate]. destruct g; injection E as <-; auto.
    - destruct (t <? fresh s); [|discriminate]. unfold go in E.
      destruct (at_ (wk_of s t)) as [| | | | |j [| |]|j| |b|b|b|b|b p|] eqn:Ea; try discriminate;
      repeat match type of E with
             | context [match ?x with Some _ => _ | None => _ end] => destruct x
             | context [if ?x then Some _ else _] => destruct x
             end; injection E as <-; cbn; auto.
      right. exists t, j. auto.
    - destruct (at_ (wk_of s t)) as [| | | | |j [| |]|j| |b|b|b|b|b p|]; try discriminate. injection E as <-; auto.
    - destruct (at_ (wk_of s t)) as [| | | | |j [| |]|j| |b|b|b|b|b p|]; try discriminate. injection E as <-; auto.
    - destruct (at_ (wk_of s t)) as [| | | | |j [| |]|j| |b|b|b|b|b p|]; try discriminate. injection E as <-; auto.
    - destruct (find_id s i); [|discriminate]. injection E as <-; auto.
    - destruct (kill_of t (kills s)) as [[| |]|]; try discriminate; injection E as <-; auto. }
  intros j Hj. destruct D as [D|(t & i & Ea & D)]; rewrite D in Hj; [auto|].
  destruct Hj as [<-|Hj]; [|auto].
  apply Fr. change i with (fst (i, t)). apply in_map. apply (i_in _ V). auto.
Qed.

(** A dead thread that is still counted as a connection. *)
Definition dead_slot (s : st) (t : nat) : Prop :=
  t < fresh s /\ at_ (wk_of s t) = Exited /\ id (wk_of s t) <> 0.

Lemma dead_slot_step : forall s e s' t, dead_slot s t -> step s e = Some s' -> dead_slot s' t.
Proof.
  intros s e s' t (L & X & N) E.
  destruct (step_frame _ _ _ E) as (Ff & _).
  split; [lia|]. split; [eapply step_exited; eassumption|].
  destruct e as [j| |t'|t'|t'|t'|i|t']; cbn [step] in E.
  - destruct (giving s); [discriminate|]. destruct (known s j); [discriminate|]. injection E as <-.
    unfold accept. destruct (conn_max s <=? active_count s); [exact N|].
    destruct (stack s); cbn; [rewrite upd_other by lia|]; exact N.
  - destruct (giving s) as [[[j t'] g]|]; [|discriminate].
    destruct g; injection E as <-; cbn; (destruct (Nat.eq_dec t t') as [->|D];
      [rewrite upd_same; cbn; auto | rewrite upd_other by exact D; exact N]).
  - destruct (t' <? fresh s); [|discriminate].
    destruct (Nat.eq_dec t t') as [->|D]; [unfold go in E; rewrite X in E; discriminate|].
    unfold go in E. destruct (at_ (wk_of s t')) as [| | | | |j [| |]|j| |b|b|b|b|b p|]; try discriminate;
      repeat match type of E with
             | context [match ?x with Some _ => _ | None => _ end] => destruct x
             | context [if ?x then Some _ else _] => destruct x
             end;
      injection E as <-; cbn; rewrite upd_other by exact D; exact N.
  - destruct (at_ (wk_of s t')) as [| | | | |j [| |]|j| |b|b|b|b|b p|] eqn:Ea; try discriminate.
    injection E as <-. cbn. destruct (Nat.eq_dec t t') as [->|D]; [congruence|].
    rewrite upd_other by exact D; exact N.
  - destruct (at_ (wk_of s t')) as [| | | | |j [| |]|j| |b|b|b|b|b p|] eqn:Ea; try discriminate.
    injection E as <-. cbn. destruct (Nat.eq_dec t t') as [->|D]; [congruence|].
    rewrite upd_other by exact D; exact N.
  - destruct (at_ (wk_of s t')) as [| | | | |j [| |]|j| |b|b|b|b|b p|] eqn:Ea; try discriminate.
    injection E as <-. cbn. destruct (Nat.eq_dec t t') as [->|D]; [congruence|].
    rewrite upd_other by exact D; exact N.
  - destruct (find_id s i); [|discriminate]. injection E as <-. exact N.
  - destruct (kill_of t' (kills s)) as [[| |]|]; try discriminate; injection E as <-; cbn;
      (destruct (Nat.eq_dec t t') as [->|D];
       [rewrite upd_same | rewrite upd_other by exact D; exact N]); cbn; auto.
    unfold interrupt. rewrite X. exact N.
Qed.

Lemma slots_count : forall s ts, NoDup ts -> (forall t, In t ts -> t < fresh s /\ id (wk_of s t) <> 0) ->
  length ts <= active_count s.
Proof.
  intros s ts N H. unfold active_count. apply NoDup_incl_length; [exact N|].
  intros t I1. destruct (H t I1) as [L D]. apply List.filter_In. split.
  - apply in_seq. lia.
  - destruct (Nat.eqb_spec (id (wk_of s t)) 0); [contradiction | reflexivity].
Qed.

(** As many dead slots as connections are allowed: nobody gets in any more. *)
Lemma starved : forall s ts, NoDup ts -> (forall t, In t ts -> dead_slot s t) -> conn_max s <= length ts ->
  forall es s', steps s es = Some s' -> accepted s' = accepted s.
Proof.
  intros s ts N D C es s' E.
  assert ((forall t, In t ts -> dead_slot s' t) /\ conn_max s' <= length ts /\ accepted s' = accepted s) as (_ & _ & X);
    [|exact X].
  revert E. apply (steps_inv (fun s' => (forall t, In t ts -> dead_slot s' t) /\ conn_max s' <= length ts /\
                                         accepted s' = accepted s)); [|auto].
  clear - N. intros s1 e s2 (D & C & A) E.
  destruct (step_frame _ _ _ E) as (_ & Fc & _ & _ & Fa).
  split; [intros t I1; eapply dead_slot_step; eauto|]. split; [rewrite Fc; exact C|].
  destruct Fa as [->|(j & _ & _ & L)]; [exact A|].
  exfalso. pose proof (slots_count s1 ts N) as K.
  assert (length ts <= active_count s1); [|lia].
  apply K. intros t I1. destruct (D t I1) as (L1 & _ & N1). auto.
Qed.
