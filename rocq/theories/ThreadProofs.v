From Coq Require Import List Arith Lia Bool.
From Verif Require Import ThreadModel ThreadSpec.
Import ListNotations.

Lemma steps_app : forall es1 es2 s,
  steps s (es1 ++ es2) = match steps s es1 with Some s' => steps s' es2 | None => None end.
Proof.
  induction es1 as [|e r IH]; intros es2 s; cbn; [reflexivity|].
  destruct (step s e); [apply IH | reflexivity].
Qed.

Lemma steps_inv : forall (P : st -> Prop),
  (forall s e s', P s -> step s e = Some s' -> P s') ->
  forall es s s', P s -> steps s es = Some s' -> P s'.
Proof.
  intros P K. induction es as [|e r IH]; intros s s' H E; cbn in E.
  - injection E as <-. exact H.
  - destruct (step s e) as [s1|] eqn:E1; [|discriminate].
    eapply IH; [|exact E]. eapply K; eassumption.
Qed.

Lemma upd_same : forall A (f : nat -> A) i x, upd f i x i = x.
Proof. intros. unfold upd. rewrite Nat.eqb_refl. reflexivity. Qed.
Lemma upd_other : forall A (f : nat -> A) i x j, j <> i -> upd f i x j = f j.
Proof. intros. unfold upd. destruct (Nat.eqb_spec j i); congruence. Qed.

(** What holds in every schedule. *)
Record inv (s : st) : Prop := mkInv {
  i_once : NoDup (map fst (ran s));
  i_ran : forall j t, In (j, t) (ran s) -> In j (accepted s);
  i_acc : forall t j, handler (wk_of s t) = Some j -> In j (accepted s);
  i_run : forall t j, handler (wk_of s t) = Some j -> In j (map fst (ran s)) ->
            at_ (wk_of s t) = Leave j \/ exists h, at_ (wk_of s t) = Inside j h;
  i_one : forall t t' j, handler (wk_of s t) = Some j -> handler (wk_of s t') = Some j -> t = t';
  i_giv : forall j t g, giving s = Some (j, t, g) -> In j (accepted s);
  i_new : forall j t g, giving s = Some (j, t, g) -> g <> Handed ->
            ~ In j (map fst (ran s)) /\ forall t', handler (wk_of s t') <> Some j;
  i_in : forall t j, (at_ (wk_of s t) = Leave j \/ exists h, at_ (wk_of s t) = Inside j h) ->
            In (j, t) (ran s);
  i_ref : forall j, In j (accepted s) -> ~ In j (refused s);
  i_nd : NoDup (accepted s)
}.

Lemma inv_start : forall p c, inv (start p c).
Proof.
  intros p c. constructor; cbn; try discriminate; try contradiction; try (constructor; fail).
  - intros t j [H|[h H]]; discriminate H.
Qed.

Lemma known_spec : forall s j, known s j = false -> ~ In j (accepted s) /\ ~ In j (refused s).
Proof.
  intros s j H. unfold known in H. apply orb_false_iff in H. destruct H as [H1 H2].
  split; intro I1.
  - assert (existsb (Nat.eqb j) (accepted s) = true) as X; [|congruence].
    apply existsb_exists. exists j. split; [exact I1 | apply Nat.eqb_refl].
  - assert (existsb (Nat.eqb j) (refused s) = true) as X; [|congruence].
    apply existsb_exists. exists j. split; [exact I1 | apply Nat.eqb_refl].
Qed.

(** A step that only touches thread [t], keeps its handler or drops it, and
    does not take it into a session from outside. *)
Lemma inv_local : forall s t w s',
  inv s ->
  wk_of s' = upd (wk_of s) t w -> ran s' = ran s -> accepted s' = accepted s ->
  refused s' = refused s ->
  (forall j t g, giving s' = Some (j, t, g) -> giving s = Some (j, t, g)) ->
  (handler w = handler (wk_of s t) \/ handler w = None) ->
  (forall j, at_ w = Leave j \/ (exists h, at_ w = Inside j h) ->
             at_ (wk_of s t) = Leave j \/ exists h, at_ (wk_of s t) = Inside j h) ->
  (forall j, handler w = Some j ->
             at_ (wk_of s t) = Leave j \/ (exists h, at_ (wk_of s t) = Inside j h) ->
             at_ w = Leave j \/ exists h, at_ w = Inside j h) ->
  inv s'.
Proof.
  intros s t w s' V Ew Er Ea Ef Eg Hh Hin Hout.
  destruct V as [V1 V2 V3 V4 V5 V6 V7 V8 V9 V10].
  assert (forall t' j, handler (wk_of s' t') = Some j -> handler (wk_of s t') = Some j) as HH.
  { intros t' j. rewrite Ew. destruct (Nat.eq_dec t' t) as [->|N].
    - rewrite upd_same. destruct Hh as [-> | ->]; [auto | discriminate].
    - rewrite upd_other by exact N. auto. }
  constructor; rewrite ?Er, ?Ea, ?Ef; auto.
  - intros t' j H. eauto.
  - intros t' j H Hr. pose proof (V4 t' j (HH _ _ H) Hr) as X. rewrite Ew in *.
    destruct (Nat.eq_dec t' t) as [->|N].
    + rewrite upd_same in *. apply Hout; assumption.
    + rewrite upd_other in * by exact N. exact X.
  - intros t1 t2 j H1 H2. eapply V5; eauto.
  - intros j t' g H. eapply V6; eauto.
  - intros j t' g H N. apply Eg in H. destruct (V7 _ _ _ H N) as [X Y]. split; [exact X|].
    intros t2 C. apply (Y t2). auto.
  - intros t' j H. apply V8. rewrite Ew in H.
    destruct (Nat.eq_dec t' t) as [->|N].
    + rewrite upd_same in H. apply Hin. exact H.
    + rewrite upd_other in H by exact N. exact H.
Qed.

Ltac loc V t w := apply (inv_local _ t w _ V); try reflexivity; auto.

Lemma inv_go : forall s t s', inv s -> go s t = Some s' -> inv s'.
Proof.
  intros s t s' V E. unfold go in E. set (w := wk_of s t) in *.
  destruct (at_ w) as [| | | | |j h|j| |b|b|b|b|b p|] eqn:Ea; try discriminate.
  - injection E as <-.
    destruct (trig w); [loc V t (set_trig (goto w Check1) false) | loc V t (goto w Asleep)];
      cbn; fold w; rewrite ?Ea; intros; try (destruct H as [H|[? H]]; discriminate H);
      try (destruct H0 as [H0|[? H0]]; discriminate H0); auto.
  - injection E as <-. loc V t (set_trig (goto w Check1) false);
      cbn; fold w; rewrite ?Ea; intros; try (destruct H as [H|[? H]]; discriminate H);
      try (destruct H0 as [H0|[? H0]]; discriminate H0); auto.
  - injection E as <-. loc V t (goto w (if req w then CleanTrig true else Enter));
      cbn; fold w; rewrite ?Ea; destruct (req w); intros; try (destruct H as [H|[? H]]; discriminate H);
      try (destruct H0 as [H0|[? H0]]; discriminate H0); auto.
  - (* Enter *)
    destruct (handler w) as [j|] eqn:Eh; injection E as <-.
    + destruct V as [V1 V2 V3 V4 V5 V6 V7 V8 V9 V10].
      assert (~ In j (map fst (ran s))) as Nr.
      { intro C. destruct (V4 t j Eh C) as [X|[h X]]; fold w in X; congruence. }
      assert (forall t' i, handler (upd (wk_of s) t (goto w (Inside j Checked)) t') = Some i ->
                handler (wk_of s t') = Some i) as HH.
      { intros t' i. destruct (Nat.eq_dec t' t) as [->|N];
          [rewrite upd_same; cbn; auto | rewrite upd_other by exact N; auto]. }
      constructor; cbn.
      * constructor; assumption.
      * intros i t' [X|X]; [injection X as <- <-; eauto | eauto].
      * eauto.
      * intros t' i H Hr. destruct (Nat.eq_dec t' t) as [->|N].
        -- rewrite upd_same in *. cbn in *. fold w in Eh. rewrite Eh in H. injection H as <-.
           right. exists Checked. reflexivity.
        -- rewrite upd_other in * by exact N. destruct Hr as [<-|Hr]; [|apply V4; assumption].
           exfalso. apply N. eapply V5; eassumption.
      * intros t1 t2 i H1 H2. eapply V5; eauto.
      * exact V6.
      * intros i t' g H N. destruct (V7 _ _ _ H N) as [X Y]. split.
        -- intros [<-|C]; [apply (Y t); exact Eh | contradiction].
        -- intros t2 C. apply (Y t2). auto.
      * intros t' i H. destruct (Nat.eq_dec t' t) as [->|N].
        -- rewrite upd_same in H. cbn in H. left.
           destruct H as [H|[h H]]; [discriminate | injection H as <- _; reflexivity].
        -- rewrite upd_other in H by exact N. right. apply V8. exact H.
      * exact V9.
      * exact V10.
    + loc V t (goto w Check2);
      cbn; fold w; rewrite ?Ea; intros; try (destruct H as [H|[? H]]; discriminate H);
      try (destruct H0 as [H0|[? H0]]; discriminate H0); auto.
  - (* Inside *)
    destruct h; try discriminate; injection E as <-.
    + loc V t (goto w (Inside j Reading)); cbn; fold w; rewrite ?Ea.
      * intros i [H|[h H]]; [discriminate | injection H as <- <-; right; eauto].
      * intros i _ [H|[h H]]; [discriminate | injection H as <- <-; right; eauto].
    + loc V t (goto w (if req w then Leave j else Inside j Checked)); cbn; fold w; rewrite ?Ea; destruct (req w).
      * intros i [H|[h H]]; [injection H as <-; right; eauto | discriminate].
      * intros i [H|[h H]]; [discriminate | injection H as <- <-; right; eauto].
      * intros i _ [H|[h H]]; [discriminate | injection H as <- <-; left; reflexivity].
      * intros i _ [H|[h H]]; [discriminate | injection H as <- <-; right; eauto].
  - (* Leave *)
    injection E as <-. loc V t (set_handler (goto w Check2) None); cbn; fold w; rewrite ?Ea;
      intros; try (destruct H as [H|[? H]]; discriminate H); try discriminate.
  - injection E as <-. loc V t (goto w (CleanTrig (req w)));
      cbn; fold w; rewrite ?Ea; intros; try (destruct H as [H|[? H]]; discriminate H);
      try (destruct H0 as [H0|[? H0]]; discriminate H0); auto.
  - injection E as <-. loc V t (set_trig (goto w (CleanReq b)) false);
      cbn; fold w; rewrite ?Ea; intros; try (destruct H as [H|[? H]]; discriminate H);
      try (destruct H0 as [H0|[? H0]]; discriminate H0); auto.
  - injection E as <-. loc V t (set_req (goto w (CleanMap b)) false);
      cbn; fold w; rewrite ?Ea; intros; try (destruct H as [H|[? H]]; discriminate H);
      try (destruct H0 as [H0|[? H0]]; discriminate H0); auto.
  - injection E as <-.
    loc V t (if Nat.eqb (id w) 0 then goto w (After b false) else set_id (goto w (CleanPool b)) 0);
      destruct (Nat.eqb (id w) 0);
      cbn; fold w; rewrite ?Ea; intros; try (destruct H as [H|[? H]]; discriminate H);
      try (destruct H0 as [H0|[? H0]]; discriminate H0); auto.
  - destruct (length (stack s) <? pool_max s); injection E as <-.
    + loc V t (goto w (After b true));
      cbn; fold w; rewrite ?Ea; intros; try (destruct H as [H|[? H]]; discriminate H);
      try (destruct H0 as [H0|[? H0]]; discriminate H0); auto.
    + loc V t (goto w (After b false));
      cbn; fold w; rewrite ?Ea; intros; try (destruct H as [H|[? H]]; discriminate H);
      try (destruct H0 as [H0|[? H0]]; discriminate H0); auto.
  - injection E as <-.
    loc V t (goto w (if negb b && req w then Exited else if p then Top else Exited));
      destruct (negb b && req w), p;
      cbn; fold w; rewrite ?Ea; intros; try (destruct H as [H|[? H]]; discriminate H);
      try (destruct H0 as [H0|[? H0]]; discriminate H0); auto.
Qed.

Lemma inv_accept : forall s j, inv s -> known s j = false -> giving s = None -> inv (accept s j).
Proof.
  intros s j V K G. destruct (known_spec _ _ K) as [Na Nr].
  destruct V as [V1 V2 V3 V4 V5 V6 V7 V8 V9 V10]. unfold accept.
  destruct (conn_max s <=? active_count s).
  - constructor; cbn; auto.
    intros i H [<-|C]; [contradiction | exact (V9 i H C)].
  - assert (~ In j (map fst (ran s))) as Nran.
    { intro C. apply in_map_iff in C. destruct C as [[i t] [<- C]]. apply Na. eapply V2. exact C. }
    assert (forall t, handler (wk_of s t) <> Some j) as Nh.
    { intros t C. apply Na. eapply V3. exact C. }
    assert (forall i, In i (j :: accepted s) -> ~ In i (refused s)) as Nf.
    { intros i [<-|H]; [exact Nr | exact (V9 i H)]. }
    assert (NoDup (j :: accepted s)) as Nd by (constructor; assumption).
    destruct (stack s) as [|t l].
    + assert (forall t i, handler (upd (wk_of s) (fresh s) new_wk t) = Some i ->
                handler (wk_of s t) = Some i /\ upd (wk_of s) (fresh s) new_wk t = wk_of s t) as HH.
      { intros t i. destruct (Nat.eq_dec t (fresh s)) as [->|N];
          [rewrite upd_same; discriminate | rewrite upd_other by exact N; auto]. }
      constructor; cbn; auto.
      * intros i t H. right. eapply V2. exact H.
      * intros t i H. right. apply (V3 t i). apply HH. exact H.
      * intros t i H Hr. destruct (HH _ _ H) as [X Y]. rewrite Y. apply V4; assumption.
      * intros t1 t2 i H1 H2. eapply V5; [apply HH in H1 | apply HH in H2]; [apply H1 | apply H2].
      * intros i t g [= <- _ _]. left. reflexivity.
      * intros i t g [= <- _ _] _. split; [exact Nran|].
        intros t' C. apply HH in C. exact (Nh t' (proj1 C)).
      * intros t i H. apply V8. destruct (Nat.eq_dec t (fresh s)) as [->|N];
          [rewrite upd_same in H; destruct H as [H|[? H]]; discriminate H
          | rewrite upd_other in H by exact N; exact H].
    + constructor; cbn; auto.
      * intros i t' H. right. eapply V2. exact H.
      * intros t' i H. right. eapply V3. exact H.
      * intros i t' g [= <- _ _]. left. reflexivity.
      * intros i t' g [= <- _ _] _. split; [exact Nran | exact Nh].
Qed.

Lemma inv_hand : forall s j t, inv s -> giving s = Some (j, t, Registered) ->
  inv (set_giving (set_wk s t (set_handler (wk_of s t) (Some j))) (Some (j, t, Handed))).
Proof.
  intros s j t V G. destruct V as [V1 V2 V3 V4 V5 V6 V7 V8 V9 V10].
  destruct (V7 _ _ _ G ltac:(discriminate)) as [Nr Nh].
  assert (forall t', t' <> t -> forall x, upd (wk_of s) t x t' = wk_of s t') as U
    by (intros; apply upd_other; assumption).
  constructor; cbn; auto.
  - intros t' i. destruct (Nat.eq_dec t' t) as [->|N].
    + rewrite upd_same. cbn. intros [= <-]. eapply V6. exact G.
    + rewrite U by exact N. apply V3.
  - intros t' i. destruct (Nat.eq_dec t' t) as [->|N].
    + rewrite upd_same. cbn. intros [= <-] C. contradiction.
    + rewrite U by exact N. apply V4.
  - intros t1 t2 i. destruct (Nat.eq_dec t1 t) as [->|N1], (Nat.eq_dec t2 t) as [->|N2];
      rewrite ?upd_same, ?U by assumption; cbn; auto.
    + intros [= <-] H. exfalso. exact (Nh t2 H).
    + intros H [= <-]. exfalso. exact (Nh t1 H).
    + intros H1 H2. eapply V5; eassumption.
  - intros i t' g [= <- _ _]. eapply V6. exact G.
  - intros i t' g [= _ _ <-] C. contradiction.
  - intros t' i. destruct (Nat.eq_dec t' t) as [->|N].
    + rewrite upd_same. cbn. apply V8.
    + rewrite U by exact N. apply V8.
Qed.

Lemma inv_trigger : forall s t s', inv s ->
  wk_of s' = upd (wk_of s) t (trigger (wk_of s t)) -> ran s' = ran s -> accepted s' = accepted s ->
  refused s' = refused s ->
  (forall j t g, giving s' = Some (j, t, g) -> giving s = Some (j, t, g)) -> inv s'.
Proof.
  intros s t s' V E1 E2 E3 E4 E5. apply (inv_local _ t (trigger (wk_of s t)) _ V); auto; cbn;
    destruct (at_ (wk_of s t)); auto; intros i; intros;
    try (destruct H as [H|[? H]]; discriminate H); try (destruct H0 as [H0|[? H0]]; discriminate H0).
Qed.

Lemma inv_step : forall s e s', inv s -> step s e = Some s' -> inv s'.
Proof.
  intros s e s' V E. destruct e as [j| |t|t|t|t|i|t]; cbn [step] in E.
  - destruct (giving s) eqn:G; [discriminate|]. destruct (known s j) eqn:K; [discriminate|].
    injection E as <-. apply inv_accept; assumption.
  - destruct (giving s) as [[[j t] g]|] eqn:G; [|discriminate].
    destruct g; injection E as <-.
    + destruct V as [V1 V2 V3 V4 V5 V6 V7 V8 V9 V10].
      destruct (V7 _ _ _ G ltac:(discriminate)) as [Nr Nh].
      assert (forall t', handler (upd (wk_of s) t (set_id (wk_of s t) (S (last_id s))) t') = handler (wk_of s t')
                /\ at_ (upd (wk_of s) t (set_id (wk_of s t) (S (last_id s))) t') = at_ (wk_of s t')) as U.
      { intro t'. destruct (Nat.eq_dec t' t) as [->|N];
          [rewrite upd_same; split; reflexivity | rewrite upd_other by exact N; split; reflexivity]. }
      constructor; unfold register; cbn; auto.
      * intros t' i. rewrite (proj1 (U t')). apply V3.
      * intros t' i. rewrite (proj1 (U t')), (proj2 (U t')). apply V4.
      * intros t1 t2 i. rewrite (proj1 (U t1)), (proj1 (U t2)). apply V5.
      * intros i t' g [= <- _ _]. eapply V6. exact G.
      * intros i t' g [= <- _ _] _. split; [exact Nr|]. intro t2. rewrite (proj1 (U t2)). apply Nh.
      * intros t' i. rewrite (proj2 (U t')). apply V8.
    + apply inv_hand; assumption.
    + apply (inv_trigger s t); try reflexivity; auto. cbn. intros; discriminate.
  - destruct (t <? fresh s); [|discriminate]. eapply inv_go; eassumption.
  - destruct (at_ (wk_of s t)) as [| | | | |j h|j| |b|b|b|b|b p|] eqn:Ea; try discriminate.
    destruct h; try discriminate. injection E as <-.
    loc V t (goto (wk_of s t) (Inside j Busy)); cbn; rewrite ?Ea.
    + intros i [H|[h H]]; [discriminate | injection H as <- <-; right; eauto].
    + intros i _ [H|[h H]]; [discriminate | injection H as <- <-; right; eauto].
  - destruct (at_ (wk_of s t)) as [| | | | |j h|j| |b|b|b|b|b p|] eqn:Ea; try discriminate.
    destruct h; try discriminate. injection E as <-.
    loc V t (goto (wk_of s t) (Leave j)); cbn; rewrite ?Ea.
    + intros i [H|[h H]]; [injection H as <-; right; eauto | discriminate].
    + intros i _ [H|[h H]]; [discriminate | injection H as <- <-; left; reflexivity].
  - destruct (at_ (wk_of s t)) as [| | | | |j h|j| |b|b|b|b|b p|] eqn:Ea; try discriminate.
    injection E as <-.
    loc V t (goto (wk_of s t) Awake); cbn; rewrite ?Ea; intros;
      try (destruct H as [H|[? H]]; discriminate H); try (destruct H0 as [H0|[? H0]]; discriminate H0).
  - destruct (find_id s i); [|discriminate]. injection E as <-.
    destruct V as [V1 V2 V3 V4 V5 V6 V7 V8 V9 V10]. constructor; cbn; auto.
  - destruct (kill_of t (kills s)) as [[| |]|]; try discriminate; injection E as <-.
    + loc V t (set_req (wk_of s t) true).
    + apply (inv_trigger s t); try reflexivity; auto.
    + unfold interrupt. destruct (at_ (wk_of s t)) as [| | | | |j [| |]|j| |b|b|b|b|b p|] eqn:Ea;
        try (loc V t (wk_of s t); fail).
      loc V t (goto (wk_of s t) (Leave j)); cbn; rewrite ?Ea.
      * intros i [H|[h H]]; [injection H as <-; right; eauto | discriminate].
      * intros i _ [H|[h H]]; [discriminate | injection H as <- <-; left; reflexivity].
Qed.

Lemma reached_inv : forall p c s, reached p c s -> inv s.
Proof.
  intros p c s [es E]. eapply (steps_inv inv inv_step); [apply inv_start | exact E].
Qed.
