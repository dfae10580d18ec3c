From Coq Require Import List Arith Lia Bool.
From Verif Require Import ThreadModel ThreadSpec ThreadProofs ThreadProofs2 ThreadProofs3 ThreadProofs4 StopModel StopSpec StopProofs StopProofs2 StopProofs3.
Import ListNotations.

Lemma go2_force : forall x t x', go2 x t = Some x' -> force x' = force x /\ fresh (base x') = fresh (base x) /\
  (forall u, In u (stack (base x)) -> In u (stack (base x'))).
Proof.
  intros x t x' E.
  assert (forall s', go (base x) t = Some s' -> fresh s' = fresh (base x) /\ (forall u, In u (stack (base x)) -> In u (stack s'))) as K.
  { intros s' G. unfold go in G.
    destruct (at_ (wk_of (base x) t)) as [| | | | |i [| |]|i| |b|b|b|b|b p|]; try discriminate; try (injection G as <-; cbn; auto; fail).
    - destruct (handler (wk_of (base x) t)); injection G as <-; cbn; auto.
    - destruct (length (stack (base x)) <? pool_max (base x)); injection G as <-; cbn; auto. }
  assert (forall o, o = go (base x) t -> match o with Some s' => Some (set_base x s') | None => None end = Some x' ->
     force x' = force x /\ fresh (base x') = fresh (base x) /\ (forall u, In u (stack (base x)) -> In u (stack (base x')))) as L.
  { intros [s'|] Eo H; [|discriminate]. injection H as <-. cbn. auto. }
  unfold go2 in E.
  destruct (at_ (wk_of (base x) t)) as [| | | | |i [| |]|i| |b|b|b|b|b p|]; try (eapply L; [reflexivity | exact E]).
  - destruct (force x t); [injection E as <-; cbn; auto|]. destruct (go (base x) t) as [s'|]; [|discriminate]. injection E as <-.
    destruct (req (wk_of (base x) t)); cbn; auto.
  - destruct (force x t); [injection E as <-; cbn; auto | eapply L; [reflexivity | exact E]].
  - destruct (force x t); [injection E as <-; cbn; auto|]. destruct (go (base x) t) as [s'|]; [|discriminate]. injection E as <-.
    destruct (req (wk_of (base x) t)); cbn; auto.
  - destruct (map_locked (ph x)); [discriminate|]. destruct (map_cleared (ph x)); [injection E as <-; cbn; auto | eapply L; [reflexivity | exact E]].
  - destruct (pool_locked (ph x)); [discriminate | eapply L; [reflexivity | exact E]].
  - destruct ((negb b && (force x t || req (wk_of (base x) t))) || negb p); [injection E as <-; cbn; auto | eapply L; [reflexivity | exact E]].
Qed.

(** What happens besides the stop unmarks nobody, and once the stop has begun
    takes nobody out of the pool. *)
Lemma ev_force : forall x e x', sstep x (Ev e) = Some x' -> force x' = force x /\ fresh (base x) <= fresh (base x') /\
  (ph x <> Serving -> forall u, In u (stack (base x)) -> In u (stack (base x'))).
Proof.
  intros x e x' E.
  assert (forall s', step (base x) e = Some s' -> fresh (base x) <= fresh s') as F
    by (intros s' H; apply (step_frame _ _ _ H)).
  destruct e as [i| |t|t|t|t|i|t]; cbn [sstep] in E.
  - destruct (ph x) eqn:P; try discriminate. destruct (step (base x) (Accept i)) as [s'|] eqn:Es; [|discriminate].
    injection E as <-. split; [reflexivity|]. split; [apply F; reflexivity | intros C; contradiction].
  - destruct (ph x) eqn:P; try discriminate. destruct (step (base x) Hand) as [s'|] eqn:Es; [|discriminate].
    injection E as <-. split; [reflexivity|]. split; [apply F; reflexivity | intros C; contradiction].
  - destruct (t <? fresh (base x)); [|discriminate]. destruct (go2_force x t x' E) as (A & B & C).
    split; [exact A|]. split; [lia | auto].
  - destruct (step (base x) (Ask t)) as [s'|] eqn:Es; [|discriminate]. injection E as <-.
    split; [reflexivity|]. split; [apply F; reflexivity|]. intros _ u. cbn [step] in Es.
    destruct (at_ (wk_of (base x) t)) as [| | | | |i [| |]|i| |b|b|b|b|b p|]; try discriminate. injection Es as <-. cbn. auto.
  - destruct (step (base x) (Gone t)) as [s'|] eqn:Es; [|discriminate]. injection E as <-.
    split; [reflexivity|]. split; [apply F; reflexivity|]. intros _ u. cbn [step] in Es.
    destruct (at_ (wk_of (base x) t)) as [| | | | |i [| |]|i| |b|b|b|b|b p|]; try discriminate. injection Es as <-. cbn. auto.
  - destruct (step (base x) (Spurious t)) as [s'|] eqn:Es; [|discriminate]. injection E as <-.
    split; [reflexivity|]. split; [apply F; reflexivity|]. intros _ u. cbn [step] in Es.
    destruct (at_ (wk_of (base x) t)) as [| | | | |i [| |]|i| |b|b|b|b|b p|]; try discriminate. injection Es as <-. cbn. auto.
  - destruct (ph x) eqn:P; try discriminate. destruct (step (base x) (KillFind i)) as [s'|] eqn:Es; [|discriminate].
    injection E as <-. split; [reflexivity|]. split; [apply F; reflexivity | intros C; contradiction].
  - destruct (ph x) eqn:P; try discriminate. destruct (step (base x) (KillStep t)) as [s'|] eqn:Es; [|discriminate].
    injection E as <-. split; [reflexivity|]. split; [apply F; reflexivity | intros C; contradiction].
Qed.

(** A thread has been told to stop, or the stop still has it before it. *)
Definition due (x : sst) (t : nat) : Prop :=
  force x t = true \/
  match ph x with
  | Serving => False
  | ActiveP l DoMark => In t l \/ In t (stack (base x))
  | ActiveP l _ => In t (tl l) \/ In t (stack (base x))
  | PoolP (Some (u, DoMark)) => u = t \/ In t (stack (base x))
  | PoolP _ => In t (stack (base x))
  | Closing | Closed => False
  end.

(** The thread at hand has been marked, once the first of the four steps is done. *)
Definition at_hand (x : sst) : Prop :=
  match ph x with
  | ActiveP (t :: l) k => (forall u, In u (t :: l) -> u < fresh (base x)) /\ (k = DoMark \/ force x t = true)
  | PoolP (Some (t, k)) => k = DoMark \/ force x t = true
  | _ => True
  end.

Lemma upd_true : forall f t u, f u = true \/ u = t -> upd f t true u = true.
Proof.
  intros f t u H. destruct (Nat.eq_dec u t) as [->|D]; [apply upd_same|].
  rewrite upd_other by exact D. tauto.
Qed.

Lemma due_step : forall x e x' t, ph x <> Serving -> due x t -> sstep x e = Some x' -> due x' t.
Proof.
  intros x e x' t P H E. destruct e as [e| |].
  - destruct (ev_force x e x' E) as (F & _ & St). specialize (St P). unfold due in *. rewrite F, (ev_phase x e x' E).
    destruct H as [H|H]; [left; exact H | right]. destruct (ph x) as [|l k|[[u k]|]| |]; auto.
    + destruct k; destruct H; auto.
    + destruct k; auto. destruct H; auto.
  - cbn [sstep] in E. unfold main in E. unfold due in *.
    destruct (ph x) as [|[|u l] k|[[u k]|]| |] eqn:Px; try contradiction.
    + injection E as <-. cbn. destruct k; cbn in H; tauto.
    + destruct k.
      * injection E as <-. cbn. destruct H as [H|[[H|H]|H]].
        -- left. apply upd_true. auto.
        -- left. apply upd_true. auto.
        -- right. left. exact H.
        -- right. right. exact H.
      * injection E as <-. cbn. exact H.
      * injection E as <-. cbn. exact H.
      * destruct (shut x u); [|discriminate]. injection E as <-. cbn. exact H.
    + destruct k.
      * injection E as <-. cbn. destruct H as [H|[H|H]].
        -- left. apply upd_true. auto.
        -- left. apply upd_true. auto.
        -- right. exact H.
      * injection E as <-. cbn. exact H.
      * injection E as <-. cbn. exact H.
      * destruct (shut x u); [|discriminate]. injection E as <-. cbn. exact H.
    + destruct (stack (base x)) as [|u l] eqn:Es; injection E as <-; cbn; [tauto|].
      destruct H as [H|H]; [auto|]. right. exact H.
    + injection E as <-. cbn. exact H.
    + discriminate.
  - cbn [sstep] in E. unfold give_up in E. unfold due in *.
    destruct (ph x) as [|[|u l] k|[[u k]|]| |] eqn:Px; try discriminate; destruct k; try discriminate; injection E as <-; cbn; exact H.
Qed.

Lemma serving_left : forall x e x', ph x <> Serving -> sstep x e = Some x' -> ph x' <> Serving.
Proof. intros x e x' P E. apply (work_step x e x' P E). Qed.

Lemma due_steps : forall es x x' t, ph x <> Serving -> due x t -> ssteps x es = Some x' -> due x' t.
Proof.
  induction es as [|e r IH]; cbn [ssteps]; intros x x' t P H E; [injection E as <-; exact H|].
  destruct (sstep x e) as [y|] eqn:Es; [|discriminate].
  apply (IH y x' t); [eapply serving_left | eapply due_step |]; eassumption.
Qed.

Theorem told : forall x x0 es x', ph x = Serving -> sstep x Main = Some x0 -> ssteps x0 es = Some x' -> ph x' = Closed ->
  forall t, t < fresh (base x) -> id (wk_of (base x) t) <> 0 \/ In t (stack (base x)) -> force x' t = true.
Proof.
  intros x x0 es x' P E Es C t L H. cbn [sstep] in E. unfold main in E. rewrite P in E.
  destruct (giving (base x)); [discriminate|]. injection E as <-.
  match type of Es with ssteps ?y _ = _ => assert (due y t) as D end.
  { right. cbn. destruct H as [H|H]; [left | right; exact H].
    apply filter_In. split; [apply in_seq; lia|]. apply negb_true_iff, Nat.eqb_neq. exact H. }
  apply (due_steps es _ x' t) in D; [| cbn; discriminate | exact Es].
  unfold due in D. rewrite C in D. tauto.
Qed.

Lemma at_hand_step : forall x e x', at_hand x -> sstep x e = Some x' -> at_hand x'.
Proof.
  intros x e x' H E. destruct e as [e| |].
  - destruct (ev_force x e x' E) as (F & Fr & _). unfold at_hand in *. rewrite F, (ev_phase x e x' E).
    destruct (ph x) as [|[|u l] k|[[u k]|]| |]; auto. destruct H as [H1 H2]. split; [|exact H2].
    intros v Hv. specialize (H1 v Hv). lia.
  - cbn [sstep] in E. unfold main in E. unfold at_hand in *.
    destruct (ph x) as [|[|u l] k|[[u k]|]| |] eqn:Px.
    + destruct (giving (base x)); [discriminate|]. injection E as <-. cbn.
      assert (forall v, In v (List.filter (fun t => negb (Nat.eqb (id (wk_of (base x) t)) 0)) (seq 0 (fresh (base x)))) -> v < fresh (base x)) as K.
      { intros v Hv. apply filter_In in Hv. destruct Hv as [Hv _]. apply in_seq in Hv. lia. }
      destruct (List.filter _ _); [exact Logic.I|]. split; [exact K | left; reflexivity].
    + injection E as <-. exact Logic.I.
    + destruct H as [H1 H2]. destruct k.
      * injection E as <-. cbn. split; [exact H1|]. right. apply upd_same.
      * injection E as <-. cbn. split; [exact H1|]. right. destruct H2; [discriminate | assumption].
      * injection E as <-. cbn. split; [exact H1|]. right. destruct H2; [discriminate | assumption].
      * destruct (shut x u); [|discriminate]. injection E as <-. cbn. destruct l as [|v l]; [exact Logic.I|].
        split; [|left; reflexivity]. intros w Hw. apply H1. right. exact Hw.
    + destruct k.
      * injection E as <-. cbn. right. apply upd_same.
      * injection E as <-. cbn. right. destruct H; [discriminate | assumption].
      * injection E as <-. cbn. right. destruct H; [discriminate | assumption].
      * destruct (shut x u); [|discriminate]. injection E as <-. exact Logic.I.
    + destruct (stack (base x)); injection E as <-; cbn; auto.
    + injection E as <-. exact Logic.I.
    + discriminate.
  - cbn [sstep] in E. unfold give_up in E. unfold at_hand in *.
    destruct (ph x) as [|[|u l] k|[[u k]|]| |] eqn:Px; try discriminate; destruct k; try discriminate; injection E as <-; cbn; auto.
    destruct H as [H1 H2]. destruct l as [|v l]; [exact Logic.I|]. split; [|left; reflexivity]. intros w Hw. apply H1. right. exact Hw.
Qed.

Lemma at_hand_steps : forall es x x', at_hand x -> ssteps x es = Some x' -> at_hand x'.
Proof.
  induction es as [|e r IH]; cbn [ssteps]; intros x x' H E; [injection E as <-; exact H|].
  destruct (sstep x e) as [y|] eqn:Es; [|discriminate]. eapply IH; [eapply at_hand_step; eassumption | exact E].
Qed.

Theorem prompt_reached : forall p c es x t l j h x1, ssteps (begin_ p c) es = Some x -> ph x = ActiveP (t :: l) DoSignal ->
  at_ (wk_of (base x) t) = Inside j h -> h <> Checked -> sstep x Main = Some x1 ->
  exists n x2, n <= 3 /\ ssteps x1 (repeat (Ev (Go t)) n) = Some x2 /\
    at_ (wk_of (base x2) t) = Exited /\ In j (ended (base x2)) /\
    (exists x3, sstep x2 Main = Some x3 /\ ph x3 = ActiveP l DoMark) /\
    forall u, u <> t -> wk_of (base x2) u = wk_of (base x) u.
Proof.
  intros p c es x t l j h x1 E P Ea Hh E1.
  assert (at_hand x) as A by (eapply at_hand_steps; [|exact E]; exact Logic.I).
  unfold at_hand in A. rewrite P in A. destruct A as [A1 [A2|A2]]; [discriminate|].
  eapply prompt; try eassumption. apply A1. left. reflexivity.
Qed.

(** A proxy thread that nobody stopped goes on. *)
Lemma unstopped : forall es x x', pforce x = false -> pat x <> PDone -> ~ In PStop es -> psteps x es = Some x' ->
  pforce x' = false /\ pat x' <> PDone.
Proof.
  induction es as [|e r IH]; cbn [psteps]; intros x x' F P N E; [injection E as <-; auto|].
  destruct (pstep x e) as [y|] eqn:Es; [|discriminate].
  assert (pforce y = false /\ pat y <> PDone) as [A B].
  { destruct x as [p q f d]. cbn in F, P. subst f. destruct e as [|n| |]; cbn in Es.
    - destruct p; cbn in Es; try discriminate; [| destruct q | |]; injection Es as <-; cbn; split; auto; discriminate.
    - destruct p; try discriminate; injection Es as <-; cbn; split; auto; discriminate.
    - exfalso. apply N. left. reflexivity.
    - destruct p; injection Es as <-; cbn; split; auto; try discriminate. destruct q; discriminate. }
  apply (IH y x' A B); [|exact E]. intros C. apply N. right. exact C.
Qed.

Lemma queue_kept : forall es x, psteps pstart es = Some x ->
  (exists rest, pushed es = rev (processed x) ++ rest) /\
  (~ In PStop es -> pushed es = rev (processed x) ++ held x ++ pqueue x).
Proof.
  intros es x E. destruct (queue_order es x E) as [A B]. split; [exact A|].
  intros N. apply B. apply (unstopped es pstart x); [reflexivity | discriminate | exact N | exact E].
Qed.
