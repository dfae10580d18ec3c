From Coq Require Import List Arith Lia Bool.
From Verif Require Import ThreadModel ThreadSpec ThreadProofs ThreadProofs2 ThreadProofs3.
Import ListNotations.

(** What one step does to the session of thread [t], if it is in one. *)
Lemma step_session : forall s e s' t j h, step s e = Some s' -> t < fresh s ->
  at_ (wk_of s t) = Inside j h ->
  (req (wk_of s t) = true -> req (wk_of s' t) = true) /\
  match e with
  | Go t' => if Nat.eqb t' t
             then match h with
                  | Checked => at_ (wk_of s' t) = Inside j Reading
                  | Reading => False
                  | Busy => at_ (wk_of s' t) = if req (wk_of s t) then Leave j else Inside j Checked
                  end
             else at_ (wk_of s' t) = Inside j h
  | Ask t' => if Nat.eqb t' t then h = Reading /\ at_ (wk_of s' t) = Inside j Busy
              else at_ (wk_of s' t) = Inside j h
  | Gone t' => if Nat.eqb t' t then h = Reading /\ at_ (wk_of s' t) = Leave j
               else at_ (wk_of s' t) = Inside j h
  | KillStep t' => at_ (wk_of s' t) = Inside j h \/
                   (t' = t /\ h = Reading /\ kill_of t (kills s) = Some Triggered /\ at_ (wk_of s' t) = Leave j)
  | _ => at_ (wk_of s' t) = Inside j h
  end.
Proof.
  intros s e s' t j h E L X. destruct e as [i| |t'|t'|t'|t'|i|t']; cbn [step] in E.
  - destruct (giving s); [discriminate|]. destruct (known s i); [discriminate|]. injection E as <-.
    unfold accept. destruct (conn_max s <=? active_count s); [auto|].
    destruct (stack s); cbn; [rewrite upd_other by lia|]; auto.
  - destruct (giving s) as [[[i t'] g]|]; [|discriminate].
    destruct g; injection E as <-; cbn; (destruct (Nat.eq_dec t t') as [->|D];
      [rewrite upd_same; cbn; rewrite ?X; auto | rewrite upd_other by exact D; auto]).
  - destruct (t' <? fresh s); [|discriminate].
    destruct (Nat.eqb_spec t' t) as [->|D].
    + unfold go in E; rewrite X in E. destruct h; try discriminate; injection E as <-; cbn; rewrite upd_same; cbn; auto.
    + assert (t <> t') as D' by congruence.
      unfold go in E. destruct (at_ (wk_of s t')) as [| | | | |i [| |]|i| |b|b|b|b|b p|]; try discriminate;
      repeat match type of E with
             | context [match ?x with Some _ => _ | None => _ end] => destruct x
             | context [if ?x then Some _ else _] => destruct x
             end;
      injection E as <-; cbn; rewrite upd_other by exact D'; auto.
  - destruct (at_ (wk_of s t')) as [| | | | |i [| |]|i| |b|b|b|b|b p|] eqn:Ea; try discriminate.
    injection E as <-. cbn. destruct (Nat.eqb_spec t' t) as [->|D].
    + rewrite upd_same. cbn. assert (i = j /\ h = Reading) as [-> ->] by (split; congruence). auto.
    + rewrite upd_other by congruence. auto.
  - destruct (at_ (wk_of s t')) as [| | | | |i [| |]|i| |b|b|b|b|b p|] eqn:Ea; try discriminate.
    injection E as <-. cbn. destruct (Nat.eqb_spec t' t) as [->|D].
    + rewrite upd_same. cbn. assert (i = j /\ h = Reading) as [-> ->] by (split; congruence). auto.
    + rewrite upd_other by congruence. auto.
  - destruct (at_ (wk_of s t')) as [| | | | |i [| |]|i| |b|b|b|b|b p|] eqn:Ea; try discriminate.
    injection E as <-. cbn. destruct (Nat.eq_dec t t') as [->|D]; [congruence|].
    rewrite upd_other by exact D; auto.
  - destruct (find_id s i); [|discriminate]. injection E as <-. auto.
  - destruct (kill_of t' (kills s)) as [[| |]|] eqn:K; try discriminate; injection E as <-; cbn;
      (destruct (Nat.eq_dec t t') as [->|D];
       [rewrite upd_same | rewrite upd_other by exact D; auto]).
    + auto.
    + cbn. rewrite X. auto.
    + unfold interrupt. rewrite X. destruct h; auto. cbn. split; [auto|]. right. rewrite K. auto.
Qed.

(** A thread in a session exists. *)
Lemma inside_fresh : forall p c s t, reached p c s -> at_ (wk_of s t) <> Top -> t < fresh s.
Proof.
  intros p c s t [es E].
  assert ((forall t, fresh s <= t -> at_ (wk_of s t) = Top) /\
          (forall t, In t (stack s) -> t < fresh s) /\
          (forall j t g, giving s = Some (j, t, g) -> t < fresh s)) as (X & _).
  { revert E. apply (steps_inv (fun s => (forall t, fresh s <= t -> at_ (wk_of s t) = Top) /\
      (forall t, In t (stack s) -> t < fresh s) /\ (forall j t g, giving s = Some (j, t, g) -> t < fresh s))).
    - clear. intros s e s' (X & Y & Z) E. destruct e as [i| |t'|t'|t'|t'|i|t']; cbn [step] in E.
      + destruct (giving s) eqn:G; [discriminate|]. destruct (known s i); [discriminate|]. injection E as <-.
        unfold accept. destruct (conn_max s <=? active_count s); [cbn; rewrite G; auto|].
        destruct (stack s) eqn:Es; cbn.
        * split; [intros t L; rewrite upd_other by lia; apply X; lia|]. split; [contradiction|].
          intros j t g [= <- <- <-]. lia.
        * split; [exact X|]. split; [intros t H; apply Y; right; exact H|].
          intros j t g [= <- <- <-]. apply Y. left. reflexivity.
      + destruct (giving s) as [[[i t'] g]|]; [|discriminate].
        assert (t' < fresh s) as L' by (eapply Z; reflexivity).
        destruct g; injection E as <-; cbn; (split; [intros t L; rewrite upd_other by lia; auto|]; split; [exact Y|]);
          try (intros j t g [= <- <- <-]; exact L').
      + destruct (Nat.ltb_spec t' (fresh s)) as [L'|]; [|discriminate]. unfold go in E.
        destruct (at_ (wk_of s t')) as [| | | | |i [| |]|i| |b|b|b|b|b p|]; try discriminate;
        repeat match type of E with
             | context [match ?x with Some _ => _ | None => _ end] => destruct x
             | context [if ?x then Some _ else _] => destruct x
             end;
        injection E as <-; cbn; (split; [intros t L; rewrite upd_other by lia; auto|]); (split; [|exact Z]); auto.
        intros t [<-|H]; auto.
      + destruct (at_ (wk_of s t')) as [| | | | |i [| |]|i| |b|b|b|b|b p|] eqn:Ea; try discriminate.
        injection E as <-; cbn. split; [|auto]. intros t L.
        destruct (Nat.eq_dec t t') as [->|D]; [rewrite (X _ L) in Ea; discriminate | rewrite upd_other by exact D; auto].
      + destruct (at_ (wk_of s t')) as [| | | | |i [| |]|i| |b|b|b|b|b p|] eqn:Ea; try discriminate.
        injection E as <-; cbn. split; [|auto]. intros t L.
        destruct (Nat.eq_dec t t') as [->|D]; [rewrite (X _ L) in Ea; discriminate | rewrite upd_other by exact D; auto].
      + destruct (at_ (wk_of s t')) as [| | | | |i [| |]|i| |b|b|b|b|b p|] eqn:Ea; try discriminate.
        injection E as <-; cbn. split; [|auto]. intros t L.
        destruct (Nat.eq_dec t t') as [->|D]; [rewrite (X _ L) in Ea; discriminate | rewrite upd_other by exact D; auto].
      + destruct (find_id s i); [|discriminate]. injection E as <-. auto.
      + destruct (kill_of t' (kills s)) as [[| |]|] eqn:K; try discriminate; injection E as <-; cbn;
          (split; [|auto]); intros t L;
          (destruct (Nat.eq_dec t t') as [->|D]; [rewrite upd_same | rewrite upd_other by exact D; auto]).
        * cbn. auto.
        * cbn. rewrite (X _ L). reflexivity.
        * unfold interrupt. rewrite (X _ L). auto.
    - cbn. repeat split; auto; try contradiction. discriminate. }
  intro N. destruct (le_lt_dec (fresh s) t) as [C|C]; [|exact C]. exfalso. auto.
Qed.

Lemma reached_step : forall p c s e s', reached p c s -> step s e = Some s' -> reached p c s'.
Proof.
  intros p c s e s' [es E] K. exists (es ++ [e]). rewrite steps_app, E. cbn. rewrite K. reflexivity.
Qed.

Lemma reached_steps : forall p c es s s', reached p c s -> steps s es = Some s' -> reached p c s'.
Proof.
  intros p c es s s' [es0 E] K. exists (es0 ++ es). rewrite steps_app, E. exact K.
Qed.

(** Requests come in only from the thread whose session it is. *)
Lemma step_asked : forall s e s', step s e = Some s' ->
  asked s' = asked s \/ exists t j, e = Ask t /\ at_ (wk_of s t) = Inside j Reading /\ asked s' = j :: asked s.
Proof.
  intros s e s' E. destruct e as [j| |t|t|t|t|i|t]; cbn [step] in E.
  - destruct (giving s); [discriminate|]. destruct (known s j); [discriminate|]. injection E as <-.
    unfold accept. destruct (conn_max s <=? active_count s); [auto|]. destruct (stack s); auto.
  - destruct (giving s) as [[[j t] g]|]; [|discriminate]. destruct g; injection E as <-; auto.
  - destruct (t <? fresh s); [|discriminate]. unfold go in E.
    destruct (at_ (wk_of s t)) as [| | | | |j [| |]|j| |b|b|b|b|b p|]; try discriminate;
      repeat match type of E with
             | context [match ?x with Some _ => _ | None => _ end] => destruct x
             | context [if ?x then Some _ else _] => destruct x
             end; injection E as <-; cbn; auto.
  - destruct (at_ (wk_of s t)) as [| | | | |j [| |]|j| |b|b|b|b|b p|] eqn:Ea; try discriminate.
    injection E as <-. right. exists t, j. auto.
  - destruct (at_ (wk_of s t)) as [| | | | |j [| |]|j| |b|b|b|b|b p|]; try discriminate. injection E as <-; auto.
  - destruct (at_ (wk_of s t)) as [| | | | |j [| |]|j| |b|b|b|b|b p|]; try discriminate. injection E as <-; auto.
  - destruct (find_id s i); [|discriminate]. injection E as <-; auto.
  - destruct (kill_of t (kills s)) as [[| |]|]; try discriminate; injection E as <-; auto.
Qed.

Lemma fst_unique : forall (l : list (nat * nat)) j t t', NoDup (map fst l) -> In (j, t) l -> In (j, t') l -> t = t'.
Proof.
  induction l as [|[i u] l IH]; cbn; intros j t t' N H H'; [contradiction|].
  inversion N as [|? ? N1 N2]; subst.
  assert (forall v, In (i, v) l -> False) as K.
  { intros v Hv. apply N1. change i with (fst (i, v)). apply in_map. exact Hv. }
  destruct H as [H|H], H' as [H'|H'].
  - congruence.
  - injection H as -> ->. exfalso. eapply K; exact H'.
  - injection H' as -> ->. exfalso. eapply K; exact H.
  - eapply IH; eassumption.
Qed.

(** A thread does not begin a session it (or another) has begun before. *)
Lemma no_reentry : forall s e s' t j, inv s -> step s e = Some s' -> In (j, t) (ran s) ->
  (forall h, at_ (wk_of s t) <> Inside j h) -> forall t' h, at_ (wk_of s' t') <> Inside j h.
Proof.
  intros s e s' t j V E R N t' h C.
  assert (inv s') as V' by (eapply inv_step; eassumption).
  assert (In (j, t') (ran s')) as R' by (apply (i_in _ V'); eauto).
  assert (ran s' = ran s \/ exists u i, e = Go u /\ at_ (wk_of s u) = Enter /\ handler (wk_of s u) = Some i /\ ran s' = (i, u) :: ran s) as D.
  { destruct e as [i| |u|u|u|u|i|u]; cbn [step] in E.
    - destruct (giving s); [discriminate|]. destruct (known s i); [discriminate|]. injection E as <-.
      unfold accept. destruct (conn_max s <=? active_count s); [auto|]. destruct (stack s); auto.
    - destruct (giving s) as [[[i u] g]|]; [|discriminate]. destruct g; injection E as <-; auto.
    - destruct (u <? fresh s); [|discriminate]. unfold go in E.
      destruct (at_ (wk_of s u)) as [| | | | |i [| |]|i| |b|b|b|b|b p|] eqn:Ea; try discriminate;
      try (injection E as <-; cbn; auto; fail).
      + destruct (handler (wk_of s u)) as [i|] eqn:Eh; injection E as <-; cbn; [|auto].
        right. exists u, i. auto.
      + destruct (length (stack s) <? pool_max s); injection E as <-; auto.
    - destruct (at_ (wk_of s u)) as [| | | | |i [| |]|i| |b|b|b|b|b p|]; try discriminate. injection E as <-; auto.
    - destruct (at_ (wk_of s u)) as [| | | | |i [| |]|i| |b|b|b|b|b p|]; try discriminate. injection E as <-; auto.
    - destruct (at_ (wk_of s u)) as [| | | | |i [| |]|i| |b|b|b|b|b p|]; try discriminate. injection E as <-; auto.
    - destruct (find_id s i); [|discriminate]. injection E as <-; auto.
    - destruct (kill_of u (kills s)) as [[| |]|]; try discriminate; injection E as <-; auto. }
  assert (In (j, t') (ran s)) as R0.
  { destruct D as [D|(u & i & -> & Ea & Eh & D)]; rewrite D in R'; [exact R'|].
    destruct R' as [X|X]; [|exact X]. exfalso. injection X as -> ->.
    pose proof (i_once _ V') as Nd. rewrite D in Nd. cbn in Nd. inversion Nd as [|? ? N1 _]; subst.
    apply N1. change j with (fst (j, t)). apply in_map. exact R. }
  assert (t' = t) as -> by (eapply fst_unique; [apply (i_once _ V) | exact R0 | exact R]).
  (* t was not in session j before the step: only Enter leads in *)
  destruct e as [i| |u|u|u|u|i|u]; cbn [step] in E.
  - destruct (giving s); [discriminate|]. destruct (known s i); [discriminate|]. injection E as <-.
    unfold accept in C. destruct (conn_max s <=? active_count s); [exact (N _ C)|].
    destruct (stack s); cbn in C; [|exact (N _ C)].
    destruct (Nat.eq_dec t (fresh s)) as [->|Dt]; [rewrite upd_same in C; discriminate | rewrite upd_other in C by exact Dt; exact (N _ C)].
  - destruct (giving s) as [[[i u] g]|]; [|discriminate]. destruct g; injection E as <-; cbn in C;
      (destruct (Nat.eq_dec t u) as [->|Dt]; [rewrite upd_same in C; cbn in C | rewrite upd_other in C by exact Dt; exact (N _ C)]);
      try exact (N _ C).
    destruct (at_ (wk_of s u)) eqn:Ea; try discriminate. apply (N h). congruence.
  - destruct (u <? fresh s); [|discriminate]. unfold go in E.
    destruct (Nat.eq_dec t u) as [->|Dt].
    + destruct (at_ (wk_of s u)) as [| | | | |i [| |]|i| |b|b|b|b|b p|] eqn:Ea; try discriminate;
      try (injection E as <-; cbn in C; rewrite upd_same in C; cbn in C;
           try destruct (trig (wk_of s u)); try destruct (req (wk_of s u)); try destruct (Nat.eqb (id (wk_of s u)) 0);
           try destruct b; try destruct p; discriminate).
      * destruct (handler (wk_of s u)) as [i|] eqn:Eh; injection E as <-; cbn in C; rewrite upd_same in C; cbn in C; [|discriminate].
        injection C as -> _. destruct D as [D|(u' & i' & Eu & _ & Eh' & D)].
        -- cbn in D. apply (f_equal (@length _)) in D. cbn in D. lia.
        -- destruct (i_run _ V u j Eh) as [X|[x X]]; [|congruence|congruence].
           change j with (fst (j, u)). apply in_map. exact R.
      * injection E as <-. cbn in C. rewrite upd_same in C. cbn in C. injection C as -> _. exact (N _ eq_refl).
      * injection E as <-. cbn in C. rewrite upd_same in C. cbn in C. destruct (req (wk_of s u)); [discriminate|].
        injection C as -> _. exact (N _ eq_refl).
      * destruct (length (stack s) <? pool_max s); injection E as <-; cbn in C; rewrite upd_same in C; discriminate.
    + assert (wk_of s' t = wk_of s t) as U.
      { destruct (at_ (wk_of s u)) as [| | | | |i [| |]|i| |b|b|b|b|b p|] eqn:Ea; try discriminate;
        repeat match type of E with
             | context [match ?x with Some _ => _ | None => _ end] => destruct x
             | context [if ?x then Some _ else _] => destruct x
             end; injection E as <-; cbn; apply upd_other; exact Dt. }
      rewrite U in C. exact (N _ C).
  - destruct (at_ (wk_of s u)) as [| | | | |i [| |]|i| |b|b|b|b|b p|] eqn:Ea; try discriminate.
    injection E as <-. cbn in C. destruct (Nat.eq_dec t u) as [->|Dt];
      [rewrite upd_same in C; cbn in C; injection C as -> _; exact (N _ Ea) | rewrite upd_other in C by exact Dt; exact (N _ C)].
  - destruct (at_ (wk_of s u)) as [| | | | |i [| |]|i| |b|b|b|b|b p|] eqn:Ea; try discriminate.
    injection E as <-. cbn in C. destruct (Nat.eq_dec t u) as [->|Dt];
      [rewrite upd_same in C; discriminate C | rewrite upd_other in C by exact Dt; exact (N _ C)].
  - destruct (at_ (wk_of s u)) as [| | | | |i [| |]|i| |b|b|b|b|b p|] eqn:Ea; try discriminate.
    injection E as <-. cbn in C. destruct (Nat.eq_dec t u) as [->|Dt];
      [rewrite upd_same in C; discriminate C | rewrite upd_other in C by exact Dt; exact (N _ C)].
  - destruct (find_id s i); [|discriminate]. injection E as <-. exact (N _ C).
  - destruct (kill_of u (kills s)) as [[| |]|]; try discriminate; injection E as <-; cbn in C;
      (destruct (Nat.eq_dec t u) as [->|Dt]; [rewrite upd_same in C | rewrite upd_other in C by exact Dt; exact (N _ C)]).
    + exact (N _ C).
    + cbn in C. destruct (at_ (wk_of s u)) eqn:Ea; try discriminate. apply (N h). congruence.
    + unfold interrupt in C. destruct (at_ (wk_of s u)) as [| | | | |i [| |]|i| |b|b|b|b|b p|] eqn:Ea; try (exact (N _ C)); try (rewrite Ea in C; exact (N _ C)).
      discriminate C.
Qed.

(** The rest of a killed session. *)
Definition doomed (t j c : nat) (s : st) : Prop :=
  inv s /\ t < fresh s /\ In (j, t) (ran s) /\
  ((exists h, h <> Busy /\ at_ (wk_of s t) = Inside j h /\ req (wk_of s t) = true /\ S (requests s j) <= c) \/
   (at_ (wk_of s t) = Inside j Busy /\ req (wk_of s t) = true /\ requests s j <= c) \/
   ((forall h, at_ (wk_of s t) <> Inside j h) /\ requests s j <= c)).

Lemma doomed_step : forall t j c s e s', doomed t j c s -> step s e = Some s' -> doomed t j c s'.
Proof.
  intros t j c s e s' (V & L & R & D) E.
  assert (inv s') as V' by (eapply inv_step; eassumption).
  destruct (step_frame _ _ _ E) as (Ff & _).
  assert (In (j, t) (ran s')) as R'.
  { destruct (step_frame _ _ _ E) as (_ & _ & _ & Fr & _).
    destruct (in_dec (fun a b : nat * nat => ltac:(decide equality; apply Nat.eq_dec)) (j, t) (ran s')) as [X|X]; [exact X|].
    exfalso. apply X. clear - E R. 
    assert (ran s' = ran s \/ exists x, ran s' = x :: ran s) as K.
    { destruct e as [i| |u|u|u|u|i|u]; cbn [step] in E.
      - destruct (giving s); [discriminate|]. destruct (known s i); [discriminate|]. injection E as <-.
        unfold accept. destruct (conn_max s <=? active_count s); [auto|]. destruct (stack s); auto.
      - destruct (giving s) as [[[i u] g]|]; [|discriminate]. destruct g; injection E as <-; auto.
      - destruct (u <? fresh s); [|discriminate]. unfold go in E.
        destruct (at_ (wk_of s u)) as [| | | | |i [| |]|i| |b|b|b|b|b p|] eqn:Ea; try discriminate;
        try (injection E as <-; cbn; auto; fail).
        + destruct (handler (wk_of s u)) as [i|] eqn:Eh; injection E as <-; cbn; eauto.
        + destruct (length (stack s) <? pool_max s); injection E as <-; auto.
      - destruct (at_ (wk_of s u)) as [| | | | |i [| |]|i| |b|b|b|b|b p|]; try discriminate. injection E as <-; auto.
      - destruct (at_ (wk_of s u)) as [| | | | |i [| |]|i| |b|b|b|b|b p|]; try discriminate. injection E as <-; auto.
      - destruct (at_ (wk_of s u)) as [| | | | |i [| |]|i| |b|b|b|b|b p|]; try discriminate. injection E as <-; auto.
      - destruct (find_id s i); [|discriminate]. injection E as <-; auto.
      - destruct (kill_of u (kills s)) as [[| |]|]; try discriminate; injection E as <-; auto. }
    destruct K as [->|[x ->]]; [exact R | right; exact R]. }
  split; [exact V'|]. split; [lia|]. split; [exact R'|].
  assert (requests s' j = requests s j \/ exists h, e = Ask t /\ at_ (wk_of s t) = Inside j h /\ h = Reading /\ requests s' j = S (requests s j)) as Q.
  { unfold requests. destruct (step_asked _ _ _ E) as [->|(u & i & -> & Ea & ->)]; [auto|].
    cbn. destruct (Nat.eq_dec i j) as [->|Di]; [|auto].
    assert (In (j, u) (ran s)) as Ru by (apply (i_in _ V); eauto).
    assert (u = t) as -> by (eapply fst_unique; [apply (i_once _ V) | exact Ru | exact R]).
    right. exists Reading. auto. }
  destruct D as [(h & Hb & Ea & Hq & Hc)|[(Ea & Hq & Hc)|(Ea & Hc)]].
  - destruct (step_session _ _ _ _ _ _ E L Ea) as [K1 K2]. specialize (K1 Hq).
    assert (at_ (wk_of s' t) = Inside j h /\ requests s' j = requests s j -> exists h, h <> Busy /\ at_ (wk_of s' t) = Inside j h /\ req (wk_of s' t) = true /\ S (requests s' j) <= c) as Keep.
    { intros [A B]. exists h. rewrite B. auto. }
    destruct Q as [Q|(h' & -> & Ea' & -> & Q)].
    + destruct e as [i| |u|u|u|u|i|u]; try (left; apply Keep; split; [exact K2 | exact Q]).
      * destruct (Nat.eqb_spec u t) as [->|Du]; [|left; apply Keep; split; [exact K2 | exact Q]].
        destruct h; [|contradiction|congruence]. left. exists Reading. rewrite Q. repeat split; auto; discriminate.
      * destruct (Nat.eqb_spec u t) as [->|Du]; [|left; apply Keep; split; [exact K2 | exact Q]].
        destruct K2 as [-> K2]. right. left. rewrite Q. repeat split; auto; lia.
      * destruct (Nat.eqb_spec u t) as [->|Du]; [|left; apply Keep; split; [exact K2 | exact Q]].
        destruct K2 as [-> K2]. right. right. split; [intros x X; congruence | lia].
      * destruct K2 as [K2|(_ & _ & _ & K2)]; [left; apply Keep; split; [exact K2 | exact Q]|].
        right. right. split; [intros x X; congruence | lia].
    + cbn in K2. rewrite Nat.eqb_refl in K2. destruct K2 as [_ K2]. right. left. repeat split; auto; lia.
  - destruct (step_session _ _ _ _ _ _ E L Ea) as [K1 K2]. specialize (K1 Hq).
    assert (requests s' j = requests s j) as Q' by (destruct Q as [Q|(h' & _ & Ea' & -> & _)]; [exact Q | congruence]).
    rewrite Q'.
    destruct e as [i| |u|u|u|u|i|u]; try (right; left; repeat split; auto; fail).
    + destruct (Nat.eqb_spec u t) as [->|Du]; [|right; left; auto].
      rewrite Hq in K2. right. right. split; [intros x X; congruence | exact Hc].
    + destruct (Nat.eqb_spec u t) as [->|Du]; [|right; left; auto]. destruct K2; discriminate.
    + destruct (Nat.eqb_spec u t) as [->|Du]; [|right; left; auto]. destruct K2; discriminate.
    + destruct K2 as [K2|(_ & C & _)]; [right; left; auto | discriminate].
  - assert (requests s' j = requests s j) as Q'.
    { destruct Q as [Q|(h' & _ & Ea' & _)]; [exact Q | exfalso; exact (Ea _ Ea')]. }
    rewrite Q'. right. right. split; [|exact Hc]. exact (no_reentry s e s' t j V E R Ea t).
Qed.

Lemma kill_bound : forall p c s t j h, reached p c s -> at_ (wk_of s t) = Inside j h -> req (wk_of s t) = true ->
  forall es s', steps s es = Some s' ->
    requests s' j <= requests s j + match h with Busy => 0 | _ => 1 end.
Proof.
  intros p c s t j h Hr Ea Hq es s' E.
  set (n := requests s j + match h with Busy => 0 | _ => 1 end).
  assert (doomed t j n s) as D0.
  { pose proof (reached_inv _ _ _ Hr) as V. split; [exact V|].
    split; [eapply inside_fresh; [exact Hr | congruence]|].
    split; [apply (i_in _ V); eauto|]. unfold n. destruct h.
    - left. exists Checked. repeat split; auto; [discriminate | lia].
    - left. exists Reading. repeat split; auto; [discriminate | lia].
    - right. left. repeat split; auto; lia. }
  assert (doomed t j n s') as (_ & _ & _ & D).
  { eapply (steps_inv (doomed t j n)); [intros; eapply doomed_step; eassumption | exact D0 | exact E]. }
  destruct D as [(h' & _ & _ & _ & D)|[(_ & _ & D)|(_ & D)]]; lia.
Qed.

(** A session nobody kills goes on until its client leaves. *)
Definition unkilled (t j i : nat) (s : st) : Prop :=
  t < fresh s /\ in_session s t j /\ req (wk_of s t) = false /\ id (wk_of s t) = i /\
  kill_of t (kills s) = None /\ ~ In t (stack s) /\ forall i' g, giving s <> Some (i', t, g).

Lemma kill_of_app : forall t l l', kill_of t l = None -> kill_of t (l ++ l') = kill_of t l'.
Proof.
  induction l as [|[t' k] l IH]; cbn; intros l' H; [reflexivity|].
  destruct (Nat.eqb t' t); [discriminate | auto].
Qed.

Lemma kill_of_next : forall t t' l l', t' <> t -> kill_of t l = None -> kill_of t l' = None ->
  kill_of t (kill_next t' l l') = None.
Proof.
  induction l as [|[u k] l IH]; cbn; intros l' D H H'; [reflexivity|].
  destruct (Nat.eqb_spec u t) as [->|Du]; [discriminate|].
  destruct (Nat.eqb_spec u t') as [->|Du'].
  - rewrite kill_of_app by exact H'. exact H.
  - cbn. destruct (Nat.eqb_spec u t); [contradiction|]. auto.
Qed.

Lemma find_id_some : forall s i t, find_id s i = Some t -> id (wk_of s t) = i /\ t < fresh s.
Proof.
  intros s i t H. unfold find_id in H. destruct (Nat.eqb i 0); [discriminate|].
  apply find_some in H. destruct H as [H1 H2]. apply in_seq in H1. apply Nat.eqb_eq in H2. split; [exact H2 | lia].
Qed.

Lemma unkilled_step : forall t j i s e s', unkilled t j i s -> e <> Gone t -> e <> KillFind i ->
  step s e = Some s' -> unkilled t j i s'.
Proof.
  intros t j i s e s' (L & [h S] & Q & Hi & K & Ns & Ng) N1 N2 E.
  destruct (step_frame _ _ _ E) as (Ff & _).
  destruct (step_session _ _ _ _ _ _ E L S) as [_ S'].
  split; [lia|].
  assert (in_session s' t j) as Hs.
  { destruct e as [x| |u|u|u|u|x|u]; try (eexists; exact S').
    - destruct (Nat.eqb_spec u t) as [->|Du]; [|eexists; exact S'].
      destruct h; [eexists; exact S' | contradiction | rewrite Q in S'; eexists; exact S'].
    - destruct (Nat.eqb_spec u t) as [->|Du]; [destruct S' as [_ S']|]; eexists; exact S'.
    - destruct (Nat.eqb_spec u t) as [->|Du]; [contradiction | eexists; exact S'].
    - destruct S' as [S'|(_ & _ & C & _)]; [eexists; exact S' | congruence]. }
  split; [exact Hs|]. clear S' Hs.
  destruct e as [x| |u|u|u|u|x|u]; cbn [step] in E.
  - destruct (giving s) eqn:G; [discriminate|]. destruct (known s x); [discriminate|]. injection E as <-.
    unfold accept in *. destruct (conn_max s <=? active_count s); [cbn; rewrite G; auto 8|].
    destruct (stack s) as [|t' l]; cbn.
    + rewrite upd_other by lia. repeat (split; [auto|]). intros i' g C. injection C as _ C _. lia.
    + repeat (split; [cbn in Ns; auto|]). intros i' g C. injection C as _ C _. apply Ns. left. exact C.
  - destruct (giving s) as [[[x u] g]|] eqn:G; [|discriminate].
    assert (t <> u) as D by (intros ->; exact (Ng _ _ eq_refl)).
    destruct g; injection E as <-; cbn; rewrite upd_other by exact D;
      (repeat (split; [auto|])); intros i' g C; try discriminate C; injection C as _ C _; congruence.
  - destruct (u <? fresh s); [|discriminate]. unfold go in E.
    destruct (Nat.eq_dec t u) as [<-|D].
    + rewrite S in E. destruct h; try discriminate; injection E as <-; cbn; rewrite upd_same; cbn; auto 8.
    + destruct (at_ (wk_of s u)) as [| | | | |y [| |]|y| |b|b|b|b|b p|]; try discriminate;
      repeat match type of E with
             | context [match ?x with Some _ => _ | None => _ end] => destruct x
             | context [if ?x then Some _ else _] => destruct x
             end; injection E as <-; cbn; rewrite upd_other by exact D; auto 8.
      split; [exact Q|]. split; [exact Hi|]. split; [exact K|]. split; [|exact Ng]. intros [C|C]; [congruence | contradiction].
  - destruct (at_ (wk_of s u)) as [| | | | |y [| |]|y| |b|b|b|b|b p|] eqn:Ea; try discriminate.
    injection E as <-. cbn. destruct (Nat.eq_dec t u) as [<-|D]; [rewrite upd_same | rewrite upd_other by exact D]; cbn; auto 8.
  - destruct (at_ (wk_of s u)) as [| | | | |y [| |]|y| |b|b|b|b|b p|] eqn:Ea; try discriminate.
    injection E as <-. cbn. destruct (Nat.eq_dec t u) as [<-|D]; [rewrite upd_same | rewrite upd_other by exact D]; cbn; auto 8.
  - destruct (at_ (wk_of s u)) as [| | | | |y [| |]|y| |b|b|b|b|b p|] eqn:Ea; try discriminate.
    injection E as <-. cbn. destruct (Nat.eq_dec t u) as [<-|D]; [rewrite upd_same | rewrite upd_other by exact D]; cbn; auto 8.
  - destruct (find_id s x) as [u|] eqn:F; [|discriminate]. injection E as <-. cbn.
    destruct (find_id_some _ _ _ F) as [Fi _].
    assert (u <> t) as D by (intros ->; apply N2; congruence).
    split; [exact Q|]. split; [exact Hi|]. split; [|auto]. rewrite kill_of_app by exact K. cbn.
    destruct (Nat.eqb_spec u t); [contradiction | reflexivity].
  - assert (u <> t) as D by (intros ->; rewrite K in E; discriminate).
    assert (Nat.eqb u t = false) as Db by (apply Nat.eqb_neq; exact D).
    destruct (kill_of u (kills s)) as [[| |]|]; try discriminate; injection E as <-; cbn;
      rewrite upd_other by congruence; (split; [exact Q|]); (split; [exact Hi|]);
      (split; [apply kill_of_next; [exact D | exact K | cbn; rewrite ?Db; reflexivity] | auto]).
Qed.

Lemma unkilled_steps : forall t j i es s s', unkilled t j i s -> ~ In (Gone t) es -> ~ In (KillFind i) es ->
  steps s es = Some s' -> unkilled t j i s'.
Proof.
  induction es as [|e r IH]; intros s s' U N1 N2 E; cbn in E.
  - injection E as <-. exact U.
  - destruct (step s e) as [s1|] eqn:E1; [|discriminate].
    apply (IH s1); [|intro C; apply N1; right; exact C | intro C; apply N2; right; exact C | exact E].
    eapply unkilled_step; [exact U | | | exact E1].
    + intros ->. apply N1. left. reflexivity.
    + intros ->. apply N2. left. reflexivity.
Qed.

(** The end of a session gives its slot back. *)
Lemma freed : forall s t j, t < fresh s -> at_ (wk_of s t) = Leave j ->
  exists s', steps s (repeat (Go t) 5) = Some s' /\ id (wk_of s' t) = 0 /\ In j (ended s') /\
    forall t', t' <> t -> wk_of s' t' = wk_of s t'.
Proof.
  intros s t j L X.
  assert (forall s, t < fresh s -> step s (Go t) = go s t) as G.
  { intros s0 L0. apply Nat.ltb_lt in L0. cbn [step]. rewrite L0. reflexivity. }
  assert (forall s s1 es, go s t = Some s1 -> t < fresh s ->
            steps s (Go t :: es) = steps s1 es) as N.
  { intros s0 s1 es E L0. cbn [steps]. rewrite G by exact L0. rewrite E. reflexivity. }
  cbn [repeat].
  set (w := wk_of s t) in *.
  erewrite N; [|unfold go; fold w; rewrite X; reflexivity | exact L].
  erewrite N; [|unfold go; cbn [wk_of set_wk note_ended]; rewrite upd_same; cbn [at_ set_handler goto]; reflexivity | exact L].
  erewrite N; [|unfold go; cbn [wk_of set_wk note_ended]; rewrite upd_same; cbn [at_ set_handler goto]; reflexivity | exact L].
  erewrite N; [|unfold go; cbn [wk_of set_wk note_ended]; rewrite upd_same; cbn [at_ set_handler set_trig goto]; reflexivity | exact L].
  erewrite N; [|unfold go; cbn [wk_of set_wk note_ended]; rewrite upd_same; cbn [at_ set_handler set_trig set_req goto]; reflexivity | exact L].
  cbn [steps].
  eexists. split; [reflexivity|]. cbn. rewrite upd_same.
  split; [destruct (Nat.eqb_spec (id w) 0) as [e|n]; cbn; auto|].
  split; [left; reflexivity|]. intros t' D. rewrite !upd_other by exact D. reflexivity.
Qed.

(** Limits. *)
Lemma count_upd : forall (f g : nat -> bool) t n, (forall u, u <> t -> g u = f u) ->
  length (List.filter g (seq 0 n)) <= S (length (List.filter f (seq 0 n))) /\
  ((g t = true -> f t = true) -> length (List.filter g (seq 0 n)) <= length (List.filter f (seq 0 n))).
Proof.
  intros f g t n H.
  assert (forall k a, (a <= t -> length (List.filter g (seq a k)) <= S (length (List.filter f (seq a k)))) /\
            (t < a -> length (List.filter g (seq a k)) = length (List.filter f (seq a k)))) as K.
  { induction k as [|k IH]; intro a; cbn; [split; lia|].
    destruct (Nat.eq_dec a t) as [->|D].
    - destruct (IH (S t)) as [_ IH2]. specialize (IH2 ltac:(lia)). split; [|lia]. intros _.
      destruct (g t), (f t); cbn; lia.
    - rewrite (H a D). destruct (IH (S a)) as [I1 I2]. split; intro; destruct (f a); cbn; lia. }
  assert ((g t = true -> f t = true) -> forall k a, length (List.filter g (seq a k)) <= length (List.filter f (seq a k))) as M.
  { intro G. induction k as [|k IH]; intro a; cbn; [lia|]. specialize (IH (S a)).
    destruct (Nat.eq_dec a t) as [->|D].
    - destruct (g t) eqn:Eg; [rewrite G by reflexivity; cbn; lia|]. destruct (f t); cbn; lia.
    - rewrite (H a D). destruct (f a); cbn; lia. }
  split; [apply K; lia | intro G; apply M; exact G].
Qed.

Definition limits (s : st) : Prop :=
  length (stack s) <= pool_max s /\ active_count s <= conn_max s /\
  (forall j t, giving s = Some (j, t, Got) -> active_count s < conn_max s).

(** A step that changes one thread and gives it no id. *)
Lemma count_keep : forall s s' t w, wk_of s' = upd (wk_of s) t w -> fresh s' = fresh s ->
  (id w = id (wk_of s t) \/ id w = 0) -> active_count s' <= active_count s.
Proof.
  intros s s' t w E F H. unfold active_count. rewrite E, F.
  apply (count_upd (fun u => negb (Nat.eqb (id (wk_of s u)) 0)) _ t).
  - intros u D. rewrite upd_other by exact D. reflexivity.
  - rewrite upd_same. destruct H as [-> | ->]; [auto | discriminate].
Qed.

Lemma limits_keep : forall s s' t w, limits s -> wk_of s' = upd (wk_of s) t w -> fresh s' = fresh s ->
  conn_max s' = conn_max s -> pool_max s' = pool_max s ->
  (id w = id (wk_of s t) \/ id w = 0) -> length (stack s') <= pool_max s ->
  (forall j t, giving s' = Some (j, t, Got) -> giving s = Some (j, t, Got)) -> limits s'.
Proof.
  intros s s' t w (A & B & C) E1 E2 E3 E4 E5 E6 E7. pose proof (count_keep s s' t w E1 E2 E5) as K.
  split; [rewrite E4; exact E6|]. rewrite E3. split; [lia|]. intros j u H. specialize (C j u (E7 _ _ H)). lia.
Qed.

Lemma limits_step : forall s e s', limits s -> step s e = Some s' -> limits s'.
Proof.
  intros s e s' V E. pose proof V as (A & B & C).
  destruct e as [x| |u|u|u|u|x|u]; cbn [step] in E.
  - destruct (giving s) eqn:G; [discriminate|]. destruct (known s x); [discriminate|]. injection E as <-.
    unfold accept. destruct (Nat.leb_spec (conn_max s) (active_count s)).
    { split; [exact A|]. split; [exact B|]. cbn. rewrite G. discriminate. }
    destruct (stack s) as [|t' l] eqn:Es; cbn.
    + assert (active_count {| wk_of := upd (wk_of s) (fresh s) new_wk; fresh := S (fresh s); stack := [];
               pool_max := pool_max s; conn_max := conn_max s; giving := Some (x, fresh s, Got); last_id := last_id s;
               kills := kills s; accepted := x :: accepted s; refused := refused s; ran := ran s; ended := ended s;
               asked := asked s |} <= active_count s) as K.
      { unfold active_count. cbn [wk_of fresh]. rewrite seq_S, List.filter_app, app_length. cbn.
        rewrite upd_same. cbn. rewrite Nat.add_0_r.
        apply (count_upd (fun u => negb (Nat.eqb (id (wk_of s u)) 0)) _ (fresh s)).
        - intros u D. rewrite upd_other by exact D. reflexivity.
        - rewrite upd_same. discriminate. }
      split; [cbn; lia|]. cbn [conn_max]. split; [lia|]. intros; lia.
    + assert (active_count {| wk_of := wk_of s; fresh := fresh s; stack := l; pool_max := pool_max s;
               conn_max := conn_max s; giving := Some (x, t', Got); last_id := last_id s; kills := kills s;
               accepted := x :: accepted s; refused := refused s; ran := ran s; ended := ended s; asked := asked s |}
              = active_count s) as K by reflexivity.
      split; [cbn in *; lia|]. rewrite K. cbn. split; [exact B|]. intros; lia.
  - destruct (giving s) as [[[x u] g]|] eqn:G; [|discriminate]. destruct g; injection E as <-.
    + specialize (C _ _ eq_refl). split; [exact A|].
      assert (active_count (register s x u) <= S (active_count s)) as K.
      { unfold active_count, register. cbn [wk_of fresh].
        apply (count_upd (fun u => negb (Nat.eqb (id (wk_of s u)) 0)) _ u).
        intros v D. rewrite upd_other by exact D. reflexivity. }
      split; [cbn [conn_max register]; lia|]. cbn. discriminate.
    + eapply (limits_keep s _ u); try reflexivity; eauto. cbn. discriminate.
    + eapply (limits_keep s _ u); try reflexivity; eauto. cbn. discriminate.
  - destruct (u <? fresh s); [|discriminate]. unfold go in E.
    destruct (at_ (wk_of s u)) as [| | | | |y [| |]|y| |b|b|b|b|b p|]; try discriminate;
      try (injection E as <-; eapply (limits_keep s _ u); try reflexivity; eauto; fail).
    + injection E as <-; eapply (limits_keep s _ u); try reflexivity; eauto. destruct (trig (wk_of s u)); auto.
    + destruct (handler (wk_of s u)); injection E as <-; eapply (limits_keep s _ u); try reflexivity; eauto.
    + injection E as <-; eapply (limits_keep s _ u); try reflexivity; eauto.
      destruct (Nat.eqb (id (wk_of s u)) 0); auto.
    + destruct (Nat.ltb_spec (length (stack s)) (pool_max s)); injection E as <-; eapply (limits_keep s _ u);
        try reflexivity; eauto; cbn; lia.
  - destruct (at_ (wk_of s u)) as [| | | | |y [| |]|y| |b|b|b|b|b p|] eqn:Ea; try discriminate.
    injection E as <-. eapply (limits_keep s _ u); try reflexivity; eauto.
  - destruct (at_ (wk_of s u)) as [| | | | |y [| |]|y| |b|b|b|b|b p|] eqn:Ea; try discriminate.
    injection E as <-. eapply (limits_keep s _ u); try reflexivity; eauto.
  - destruct (at_ (wk_of s u)) as [| | | | |y [| |]|y| |b|b|b|b|b p|] eqn:Ea; try discriminate.
    injection E as <-. eapply (limits_keep s _ u); try reflexivity; eauto.
  - destruct (find_id s x) as [u|] eqn:F; [|discriminate]. injection E as <-. exact V.
  - destruct (kill_of u (kills s)) as [[| |]|]; try discriminate; injection E as <-;
      eapply (limits_keep s _ u); try reflexivity; eauto.
    unfold interrupt. destruct (at_ (wk_of s u)) as [| | | | |y [| |]|y| |b|b|b|b|b p|]; auto.
Qed.

Lemma reached_limits : forall p c s, reached p c s -> limits s /\ pool_max s = p /\ conn_max s = c.
Proof.
  intros p c s [es E].
  eapply (steps_inv (fun s => limits s /\ pool_max s = p /\ conn_max s = c)); [| |exact E].
  - intros s1 e s2 (A & B & C) K. split; [eapply limits_step; eassumption|].
    destruct (step_frame _ _ _ K) as (_ & X & Y & _). split; congruence.
  - split; [|split; reflexivity]. split; [cbn; lia|]. split; [cbn; lia|]. cbn. discriminate.
Qed.

Lemma timely_reached : forall p c s, reached_timely p c s -> reached p c s.
Proof. intros p c s (es & _ & E). exists es. exact E. Qed.

Lemma sessions_limit : forall p c s ts, reached_timely p c s -> NoDup ts ->
  (forall t, In t ts -> exists j, in_session s t j) -> length ts <= c.
Proof.
  intros p c s ts H N S. destruct (reached_tinv _ _ _ H) as [_ V].
  destruct (reached_limits _ _ _ (timely_reached _ _ _ H)) as ((_ & B & _) & _ & <-).
  assert (length ts <= active_count s); [|lia].
  apply slots_count; [exact N|]. intros t It. destruct (S t It) as (j & h & Ea).
  destruct (session_working _ _ _ _ V Ea) as (L & _ & _ & W). split; [exact L|].
  unfold working in W. rewrite Ea in W. apply W.
Qed.
