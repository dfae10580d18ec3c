From Coq Require Import List Arith Lia Bool.
From Verif Require Import ThreadModel ThreadSpec ThreadProofs ThreadProofs2 ThreadProofs3 ThreadProofs4 StopModel StopSpec.
Import ListNotations.

Lemma go2_serving : forall x t x', ph x = Serving -> force x t = false -> go2 x t = Some x' ->
  go (base x) t = Some (base x') /\ ph x' = Serving /\ force x' = force x /\
  (forall u, shut x' u = true -> shut x u = true \/ (u = t /\ (at_ (wk_of (base x') t) = Exited \/ req (wk_of (base x) t) = true))).
Proof.
  intros x t x' P F E. unfold go2 in E. rewrite P, F in E. cbn in E.
  assert (forall u, upd (shut x) t true u = true -> shut x u = true \/ u = t) as U.
  { intros u. destruct (Nat.eq_dec u t) as [->|D]; [auto | rewrite upd_other by exact D; auto]. }
  assert (forall o : option st, match o with Some s' => Some (set_base x s') | None => None end = Some x' ->
            o = Some (base x') /\ ph x' = Serving /\ force x' = force x /\ shut x' = shut x) as K.
  { intros [s'|] H; [|discriminate]. injection H as <-. cbn. auto. }
  destruct (at_ (wk_of (base x) t)) as [| | | | |j [| |]|j| |b|b|b|b|b p|] eqn:Ea;
    try (apply K in E; destruct E as (E1 & E2 & E3 & E4); rewrite E4; auto; fail).
  - destruct (go (base x) t) as [s'|] eqn:G; [|discriminate]. injection E as <-.
    destruct (req (wk_of (base x) t)); cbn; auto.
    split; [reflexivity|]. split; [exact P|]. split; [reflexivity|]. intros u H. apply U in H. tauto.
  - destruct (go (base x) t) as [s'|] eqn:G; [|discriminate]. injection E as <-.
    destruct (req (wk_of (base x) t)); cbn; auto.
    split; [reflexivity|]. split; [exact P|]. split; [reflexivity|]. intros u H. apply U in H. tauto.
  - destruct ((negb b && req (wk_of (base x) t)) || negb p) eqn:C.
    + injection E as <-. cbn. unfold go. rewrite Ea. rewrite upd_same.
      split; [destruct (negb b && req (wk_of (base x) t)); [reflexivity|]; destruct p; [discriminate | reflexivity]|].
      split; [exact P|]. split; [reflexivity|]. intros u H. apply U in H. cbn. tauto.
    + apply K in E; destruct E as (E1 & E2 & E3 & E4); rewrite E4; auto.
Qed.

Lemma step_req : forall s e s', (forall t, req (wk_of s t) = false) -> (forall t, e <> KillStep t) ->
  step s e = Some s' -> forall t, req (wk_of s' t) = false.
Proof.
  intros s e s' H N E t.
  assert (forall u w v, req w = false -> req (upd (wk_of s) u w v) = false) as U.
  { intros u w v Hw. destruct (Nat.eq_dec v u) as [->|D]; [rewrite upd_same; exact Hw | rewrite upd_other by exact D; apply H]. }
  destruct e as [i| |u|u|u|u|i|u]; cbn [step] in E.
  - destruct (giving s); [discriminate|]. destruct (known s i); [discriminate|]. injection E as <-.
    unfold accept. destruct (conn_max s <=? active_count s); [apply H|]. destruct (stack s); cbn; [apply U; reflexivity | apply H].
  - destruct (giving s) as [[[i u] g]|]; [|discriminate]. destruct g; injection E as <-; cbn; apply U; apply H.
  - destruct (u <? fresh s); [|discriminate]. unfold go in E.
    destruct (at_ (wk_of s u)) as [| | | | |i [| |]|i| |b|b|b|b|b p|]; try discriminate;
      repeat match type of E with
             | context [match ?x with Some _ => _ | None => _ end] => destruct x
             | context [if ?x then Some _ else _] => destruct x
             end; injection E as <-; cbn; apply U; try apply H; try reflexivity.
    + destruct (trig (wk_of s u)); apply H.
    + destruct (Nat.eqb (id (wk_of s u)) 0); apply H.
  - destruct (at_ (wk_of s u)) as [| | | | |i [| |]|i| |b|b|b|b|b p|]; try discriminate. injection E as <-; cbn; apply U; apply H.
  - destruct (at_ (wk_of s u)) as [| | | | |i [| |]|i| |b|b|b|b|b p|]; try discriminate. injection E as <-; cbn; apply U; apply H.
  - destruct (at_ (wk_of s u)) as [| | | | |i [| |]|i| |b|b|b|b|b p|]; try discriminate. injection E as <-; cbn; apply U; apply H.
  - destruct (find_id s i); [|discriminate]. injection E as <-; apply H.
  - exfalso. exact (N u eq_refl).
Qed.

(** While it serves. *)
Definition serving_inv (x : sst) : Prop :=
  inv (base x) /\ tinv (base x) /\ (forall t, req (wk_of (base x) t) = false) /\
  (forall t, shut x t = true -> t < fresh (base x) /\ at_ (wk_of (base x) t) = Exited) /\ (forall t, force x t = false).

(** Once it stops. *)
Definition stopping_inv (x : sst) : Prop :=
  (forall t, req (wk_of (base x) t) = false) /\
  (forall t, shut x t = true -> at_ (wk_of (base x) t) = Exited) /\
  (forall t, fresh (base x) <= t -> at_ (wk_of (base x) t) = Top) /\
  (forall t, t < fresh (base x) ->
     handler (wk_of (base x) t) <> None \/ (exists j, in_session (base x) t j) ->
     at_ (wk_of (base x) t) = Exited \/ exists todo k, ph x = ActiveP todo k /\ In t todo).

Definition stop_inv (x : sst) : Prop :=
  match ph x with Serving => serving_inv x | _ => stopping_inv x end.

Lemma serving_step : forall x e x', ph x = Serving -> serving_inv x -> peaceful_event (Ev e) ->
  sstep x (Ev e) = Some x' -> ph x' = Serving /\ serving_inv x'.
Proof.
  intros x e x' P (V0 & V & Q & S & F) N E.
  assert (exists s', step (base x) e = Some s' /\ base x' = s' /\ ph x' = Serving /\ force x' = force x /\
     (forall u, shut x' u = true -> shut x u = true \/ (e = Go u /\ at_ (wk_of s' u) = Exited /\ u < fresh (base x))))
    as (s' & E1 & E2 & E3 & E4 & E5).
  { destruct e as [i| |t|t|t|t|i|t]; cbn [sstep] in E; rewrite ?P in E.
    - destruct (step (base x) (Accept i)) as [s'|]; [|discriminate]. injection E as <-. exists s'. (split; [reflexivity|]); (split; [reflexivity|]); (split; [exact P|]); (split; [reflexivity|]); cbn; auto.
    - destruct (step (base x) Hand) as [s'|]; [|discriminate]. injection E as <-. exists s'. (split; [reflexivity|]); (split; [reflexivity|]); (split; [exact P|]); (split; [reflexivity|]); cbn; auto.
    - destruct (Nat.ltb_spec t (fresh (base x))) as [L|]; [|discriminate].
      destruct (go2_serving x t x' P (F t) E) as (A & B & C & D). exists (base x').
      assert ((t <? fresh (base x)) = true) as Lb by (apply Nat.ltb_lt; exact L).
      cbn [step]. rewrite Lb. repeat (split; [auto|]).
      intros u Hu. destruct (D u Hu) as [X|[-> [X|X]]]; [auto | auto | rewrite Q in X; discriminate].
    - destruct (step (base x) (Ask t)) as [s'|]; [|discriminate]. injection E as <-. exists s'. (split; [reflexivity|]); (split; [reflexivity|]); (split; [exact P|]); (split; [reflexivity|]); cbn; auto.
    - destruct (step (base x) (Gone t)) as [s'|]; [|discriminate]. injection E as <-. exists s'. (split; [reflexivity|]); (split; [reflexivity|]); (split; [exact P|]); (split; [reflexivity|]); cbn; auto.
    - destruct (step (base x) (Spurious t)) as [s'|]; [|discriminate]. injection E as <-. exists s'. (split; [reflexivity|]); (split; [reflexivity|]); (split; [exact P|]); (split; [reflexivity|]); cbn; auto.
    - destruct (step (base x) (KillFind i)) as [s'|]; [|discriminate]. injection E as <-. exists s'. (split; [reflexivity|]); (split; [reflexivity|]); (split; [exact P|]); (split; [reflexivity|]); cbn; auto.
    - contradiction N. }
  split; [exact E3|]. unfold serving_inv. rewrite E2, E4.
  assert (forall t, e <> KillStep t) as Nk by (intros t ->; exact N).
  split; [eapply inv_step; eassumption|].
  split. { eapply tinv_step; [exact V0 | exact V | | exact E1]. destruct e; try exact Logic.I; contradiction N. }
  split; [eapply step_req; eassumption|]. split; [|exact F].
  intros t Ht. destruct (step_frame _ _ _ E1) as (Ff & _). destruct (E5 t Ht) as [X|(-> & X & L)]; [|split; [lia | exact X]].
  destruct (S t X) as [L X']. split; [lia|]. eapply step_exited; eassumption.
Qed.

(** What one step of a thread does, as far as the stop is concerned. *)
Lemma go2_frame : forall x t x', (forall u, req (wk_of (base x) u) = false) -> go2 x t = Some x' ->
  ph x' = ph x /\ fresh (base x') = fresh (base x) /\ at_ (wk_of (base x) t) <> Exited /\
  (forall u, u <> t -> wk_of (base x') u = wk_of (base x) u /\ shut x' u = shut x u) /\
  req (wk_of (base x') t) = false /\
  (handler (wk_of (base x') t) = None \/ handler (wk_of (base x') t) = handler (wk_of (base x) t)) /\
  (forall j, in_session (base x') t j -> in_session (base x) t j \/ handler (wk_of (base x) t) <> None) /\
  (shut x' t = true -> shut x t = true \/ at_ (wk_of (base x') t) = Exited).
Proof.
  intros x t x' Q E. unfold go2 in E.
  assert (forall s', go (base x) t = Some s' ->
            fresh s' = fresh (base x) /\ (forall u, u <> t -> wk_of s' u = wk_of (base x) u) /\
            req (wk_of s' t) = false /\
            (handler (wk_of s' t) = None \/ handler (wk_of s' t) = handler (wk_of (base x) t)) /\
            (forall j, in_session s' t j -> in_session (base x) t j \/ handler (wk_of (base x) t) <> None) /\
            at_ (wk_of (base x) t) <> Exited) as K.
  { intros s' G. unfold go in G.
    destruct (at_ (wk_of (base x) t)) as [| | | | |j [| |]|j| |b|b|b|b|b p|] eqn:Ea; try discriminate;
      try (injection G as <-; cbn; rewrite upd_same; (split; [reflexivity|]);
           (split; [intros u D; apply upd_other; exact D|]);
           (split; [cbn; auto; try destruct (trig (wk_of (base x) t)); try destruct (Nat.eqb (id (wk_of (base x) t)) 0); apply Q|]);
           (split; [cbn; auto; try destruct (trig (wk_of (base x) t)); try destruct (Nat.eqb (id (wk_of (base x) t)) 0); auto|]);
           (split; [|discriminate]);
           intros i [h C]; cbn in C; rewrite upd_same in C; cbn in C; rewrite ?Q in C;
           try destruct (trig (wk_of (base x) t)); try destruct (Nat.eqb (id (wk_of (base x) t)) 0);
           try destruct b; try destruct p; cbn in C; try discriminate C; left; injection C; intros; subst; eexists; exact Ea).
    - destruct (handler (wk_of (base x) t)) as [j|] eqn:Eh; injection G as <-; cbn; rewrite upd_same; cbn.
      + split; [reflexivity|]. split; [intros u D; apply upd_other; exact D|]. split; [apply Q|].
        split; [auto|]. split; [|discriminate]. intros i _. right. congruence.
      + split; [reflexivity|]. split; [intros u D; apply upd_other; exact D|]. split; [apply Q|].
        split; [auto|]. split; [|discriminate]. intros i [h C]. cbn in C. rewrite upd_same in C. discriminate C.
    - destruct (length (stack (base x)) <? pool_max (base x)); injection G as <-; cbn; rewrite upd_same; cbn;
        (split; [reflexivity|]; split; [intros u D; apply upd_other; exact D|]; split; [apply Q|];
         split; [auto|]; split; [|discriminate]; intros i [h C]; cbn in C; rewrite upd_same in C; cbn in C; discriminate C). }
  assert (forall o, o = go (base x) t -> match o with Some s' => Some (set_base x s') | None => None end = Some x' ->
    ph x' = ph x /\ fresh (base x') = fresh (base x) /\ at_ (wk_of (base x) t) <> Exited /\
    (forall u, u <> t -> wk_of (base x') u = wk_of (base x) u /\ shut x' u = shut x u) /\
    req (wk_of (base x') t) = false /\
    (handler (wk_of (base x') t) = None \/ handler (wk_of (base x') t) = handler (wk_of (base x) t)) /\
    (forall j, in_session (base x') t j -> in_session (base x) t j \/ handler (wk_of (base x) t) <> None) /\
    (shut x' t = true -> shut x t = true \/ at_ (wk_of (base x') t) = Exited)) as B.
  { intros [s'|] Eo H; [|discriminate]. injection H as <-. destruct (K s' (eq_sym Eo)) as (K1 & K2 & K3 & K4 & K5 & K6).
    cbn. repeat (split; [auto|]). auto. }
  assert (forall w, handler w = handler (wk_of (base x) t) -> req w = req (wk_of (base x) t) ->
     (forall j h, at_ w <> Inside j h) -> at_ (wk_of (base x) t) <> Exited -> forall y,
     base y = set_wk (base x) t w -> ph y = ph x -> (forall u, u <> t -> shut y u = shut x u) ->
     (shut y t = true -> shut x t = true \/ at_ w = Exited) -> y = x' ->
    ph x' = ph x /\ fresh (base x') = fresh (base x) /\ at_ (wk_of (base x) t) <> Exited /\
    (forall u, u <> t -> wk_of (base x') u = wk_of (base x) u /\ shut x' u = shut x u) /\
    req (wk_of (base x') t) = false /\
    (handler (wk_of (base x') t) = None \/ handler (wk_of (base x') t) = handler (wk_of (base x) t)) /\
    (forall j, in_session (base x') t j -> in_session (base x) t j \/ handler (wk_of (base x) t) <> None) /\
    (shut x' t = true -> shut x t = true \/ at_ (wk_of (base x') t) = Exited)) as D.
  { intros w W1 W2 W3 W4 y Y1 Y2 Y3 Y4 <-. unfold in_session. rewrite Y1, Y2. cbn. rewrite upd_same.
    split; [reflexivity|]. split; [reflexivity|]. split; [exact W4|].
    split; [intros u N; split; [apply upd_other; exact N | apply Y3; exact N]|].
    split; [rewrite W2; apply Q|]. split; [right; exact W1|]. split; [|exact Y4].
    intros j [h C]. exfalso. exact (W3 _ _ C). }
  destruct (at_ (wk_of (base x) t)) as [| | | | |j [| |]|j| |b|b|b|b|b p|] eqn:Ea;
    try (eapply B; [reflexivity | exact E]; fail).
  - destruct (force x t).
    + eapply (D (goto (wk_of (base x) t) Exited)); [| | | | | | | | injection E as E; exact E];
        try reflexivity; try discriminate; try (intros; discriminate); cbn; try (rewrite upd_same; auto).
      intros u N. apply upd_other. exact N.
    + rewrite Q in E. eapply B; [reflexivity | exact E].
  - destruct (force x t); [|eapply B; [reflexivity | exact E]].
    eapply (D (goto (wk_of (base x) t) (Leave j))); [| | | | | | | | injection E as E; exact E];
        try reflexivity; try discriminate; try (intros; discriminate); cbn; auto.
  - destruct (force x t).
    + eapply (D (goto (wk_of (base x) t) Exited)); [| | | | | | | | injection E as E; exact E];
        try reflexivity; try discriminate; try (intros; discriminate); cbn; try (rewrite upd_same; auto).
      intros u N. apply upd_other. exact N.
    + rewrite Q in E. eapply B; [reflexivity | exact E].
  - destruct (map_locked (ph x)); [discriminate|]. destruct (map_cleared (ph x)).
    + eapply (D (goto (wk_of (base x) t) (After b false))); [| | | | | | | | injection E as E; exact E];
        try reflexivity; try discriminate; try (intros; discriminate); cbn; auto.
    + eapply B; [reflexivity | exact E].
  - destruct (pool_locked (ph x)); [discriminate|]. eapply B; [reflexivity | exact E].
  - destruct ((negb b && (force x t || req (wk_of (base x) t))) || negb p).
    + eapply (D (goto (wk_of (base x) t) Exited)); [| | | | | | | | injection E as E; exact E];
        try reflexivity; try discriminate; try (intros; discriminate); cbn; try (rewrite upd_same; auto).
      intros u N. apply upd_other. exact N.
    + eapply B; [reflexivity | exact E].
Qed.

(** Other threads' affairs, the client's moves. *)
Lemma client_frame : forall s e s', match e with Ask _ | Gone _ => True | _ => False end -> step s e = Some s' ->
  fresh s' = fresh s /\
  (forall u, req (wk_of s' u) = req (wk_of s u) /\ handler (wk_of s' u) = handler (wk_of s u) /\
     (at_ (wk_of s u) = Exited -> at_ (wk_of s' u) = Exited) /\ (at_ (wk_of s u) = Top -> at_ (wk_of s' u) = Top) /\
     (forall j, in_session s' u j -> in_session s u j)).
Proof.
  intros s e s' C E.
  assert (forall t p j, at_ (wk_of s t) = Inside j Reading -> (p = Inside j Busy \/ p = Leave j) -> forall u,
     let s1 := set_wk s t (goto (wk_of s t) p) in
     req (wk_of s1 u) = req (wk_of s u) /\ handler (wk_of s1 u) = handler (wk_of s u) /\
     (at_ (wk_of s u) = Exited -> at_ (wk_of s1 u) = Exited) /\ (at_ (wk_of s u) = Top -> at_ (wk_of s1 u) = Top) /\
     (forall j, in_session s1 u j -> in_session s u j)) as K.
  { intros t p j Ea Hp u s1. unfold s1, in_session. cbn. destruct (Nat.eq_dec u t) as [->|D].
    - rewrite upd_same. cbn. rewrite Ea. repeat (split; [auto; try discriminate|]). intros i [h X].
      destruct Hp as [-> | ->]; [|discriminate]. injection X as -> _. eauto.
    - rewrite upd_other by exact D. auto 6. }
  destruct e as [i| |t|t|t|t|i|t]; try contradiction C; cbn [step] in E;
    destruct (at_ (wk_of s t)) as [| | | | |j [| |]|j| |b|b|b|b|b p|] eqn:Ea; try discriminate;
    injection E as <-; (split; [reflexivity|]); intros u.
  - exact (K t _ j Ea (or_introl eq_refl) u).
  - exact (K t _ j Ea (or_intror eq_refl) u).
Qed.

Lemma trigger_same : forall w, req (trigger w) = req w /\ handler (trigger w) = handler w /\
  (at_ w = Exited -> at_ (trigger w) = Exited) /\ (at_ w = Top -> at_ (trigger w) = Top) /\
  (forall j h, at_ (trigger w) = Inside j h -> at_ w = Inside j h).
Proof.
  intros w. unfold trigger. destruct w as [a hd tr rq i]. cbn.
  destruct a; cbn; repeat split; auto; intros; try discriminate.
Qed.

Lemma interrupt_same : forall w, req (interrupt w) = req w /\ handler (interrupt w) = handler w /\
  (at_ w = Exited -> at_ (interrupt w) = Exited) /\ (at_ w = Top -> at_ (interrupt w) = Top) /\
  (forall j h, at_ (interrupt w) = Inside j h -> at_ w = Inside j h).
Proof.
  intros w. unfold interrupt. destruct w as [a hd tr rq i]. cbn.
  destruct a as [| | | | |j [| |]|j| |b|b|b|b|b p|]; cbn; repeat split; auto; intros; try discriminate.
Qed.

(** A step that touches no more than this keeps the invariant, as long as the
    threads still to be brought to an end stay on the list. *)
Lemma stopping_keep : forall x x',
  stopping_inv x -> fresh (base x') = fresh (base x) ->
  (forall u, shut x' u = shut x u) ->
  (forall u, req (wk_of (base x') u) = req (wk_of (base x) u) /\ handler (wk_of (base x') u) = handler (wk_of (base x) u) /\
     (at_ (wk_of (base x) u) = Exited -> at_ (wk_of (base x') u) = Exited) /\
     (at_ (wk_of (base x) u) = Top -> at_ (wk_of (base x') u) = Top) /\
     (forall j, in_session (base x') u j -> in_session (base x) u j)) ->
  (forall t todo k, ph x = ActiveP todo k -> In t todo -> at_ (wk_of (base x) t) <> Exited ->
     exists todo' k', ph x' = ActiveP todo' k' /\ In t todo') ->
  stopping_inv x'.
Proof.
  intros x x' (I1 & I2 & I3 & I4) Ef Es Ew Ep.
  split; [intros t; destruct (Ew t) as (W & _); rewrite W; apply I1|].
  split. { intros t Ht. rewrite Es in Ht. destruct (Ew t) as (_ & _ & W & _). auto. }
  split. { intros t Ht. rewrite Ef in Ht. destruct (Ew t) as (_ & _ & _ & W & _). auto. }
  intros t Ht H. rewrite Ef in Ht. destruct (Ew t) as (_ & Wh & We & _ & Wi).
  assert (at_ (wk_of (base x) t) = Exited \/ at_ (wk_of (base x) t) <> Exited) as [X|X].
  { destruct (at_ (wk_of (base x) t)); auto; right; discriminate. }
  { left. auto. }
  destruct (I4 t Ht) as [Y|(todo & k & Y1 & Y2)].
  - destruct H as [H|[j H]]; [left; rewrite <- Wh; exact H | right; exists j; auto].
  - left. auto.
  - right. eapply Ep; eassumption.
Qed.

Lemma same_frame : forall s u, req (wk_of s u) = req (wk_of s u) /\ handler (wk_of s u) = handler (wk_of s u) /\
     (at_ (wk_of s u) = Exited -> at_ (wk_of s u) = Exited) /\
     (at_ (wk_of s u) = Top -> at_ (wk_of s u) = Top) /\
     (forall j, in_session s u j -> in_session s u j).
Proof. auto. Qed.

Lemma upd_frame : forall s t w,
  (req w = req (wk_of s t) /\ handler w = handler (wk_of s t) /\
   (at_ (wk_of s t) = Exited -> at_ w = Exited) /\ (at_ (wk_of s t) = Top -> at_ w = Top) /\
   (forall j h, at_ w = Inside j h -> at_ (wk_of s t) = Inside j h)) ->
  forall u, let s1 := set_wk s t w in
     req (wk_of s1 u) = req (wk_of s u) /\ handler (wk_of s1 u) = handler (wk_of s u) /\
     (at_ (wk_of s u) = Exited -> at_ (wk_of s1 u) = Exited) /\
     (at_ (wk_of s u) = Top -> at_ (wk_of s1 u) = Top) /\
     (forall j, in_session s1 u j -> in_session s u j).
Proof.
  intros s t w (H1 & H2 & H3 & H4 & H5) u s1. unfold s1, in_session. cbn.
  destruct (Nat.eq_dec u t) as [->|D]; [rewrite upd_same | rewrite upd_other by exact D; auto].
  repeat (split; [assumption|]). intros j [h X]. eauto.
Qed.

Lemma go2_stopping : forall x t x', t < fresh (base x) -> stopping_inv x -> go2 x t = Some x' -> stopping_inv x'.
Proof.
  intros x t x' L (I1 & I2 & I3 & I4) E.
  destruct (go2_frame x t x' I1 E) as (F1 & F2 & F3 & F4 & F5 & F6 & F7 & F8).
  assert (forall u, u = t \/ u <> t) as Dec by (intros; lia).
  split. { intros u. destruct (Dec u) as [->|D]; [exact F5 | destruct (F4 u D) as [-> _]; apply I1]. }
  split. { intros u Hu. destruct (Dec u) as [->|D].
           - destruct (F8 Hu) as [X|X]; [exfalso; apply F3; auto | exact X].
           - destruct (F4 u D) as [W1 W2]. rewrite W1. rewrite W2 in Hu. auto. }
  split. { intros u Hu. rewrite F2 in Hu. destruct (Dec u) as [->|D]; [lia|destruct (F4 u D) as [-> _]; auto]. }
  intros u Hu H. rewrite F2 in Hu. rewrite F1. destruct (Dec u) as [->|D].
  - destruct (I4 t Hu) as [X|X]; [|contradiction | right; exact X].
    destruct H as [H|[j H]].
    + destruct F6 as [X|X]; [contradiction | left; rewrite <- X; exact H].
    + destruct (F7 j H) as [X|X]; [right; exists j; exact X | left; exact X].
  - unfold in_session in H. destruct (F4 u D) as [-> _]. destruct (F4 u D) as [W _]. rewrite W in H. auto.
Qed.

Lemma main_stopping : forall x x', ph x <> Serving -> stopping_inv x -> main x = Some x' ->
  ph x' <> Serving /\ stopping_inv x'.
Proof.
  intros x x' N V E. unfold main in E. destruct (ph x) as [|[|t l] k|[[t k]|]| |] eqn:P; try contradiction; try discriminate.
  - injection E as <-. split; [discriminate|]. eapply stopping_keep; [exact V | reflexivity | reflexivity | apply same_frame |].
    intros t todo k' Q H _. rewrite P in Q. injection Q as <- <-. contradiction H.
  - destruct k.
    + injection E as <-. split; [discriminate|]. eapply stopping_keep; [exact V | reflexivity | reflexivity | apply same_frame |].
      intros u todo k' Q H _. rewrite P in Q. injection Q as <- <-. cbn. eauto.
    + injection E as <-. split; [discriminate|]. eapply stopping_keep; [exact V | reflexivity | reflexivity | |].
      * intros u. cbn [base set_ph set_base]. apply upd_frame. apply trigger_same.
      * intros u todo k' Q H _. rewrite P in Q. injection Q as <- <-. cbn. eauto.
    + injection E as <-. split; [discriminate|]. eapply stopping_keep; [exact V | reflexivity | reflexivity | |].
      * intros u. cbn [base set_ph set_base]. apply upd_frame. apply interrupt_same.
      * intros u todo k' Q H _. rewrite P in Q. injection Q as <- <-. cbn. eauto.
    + destruct (shut x t) eqn:Sh; [|discriminate]. injection E as <-. split; [discriminate|].
      eapply stopping_keep; [exact V | reflexivity | reflexivity | apply same_frame |].
      intros u todo k' Q H X. rewrite P in Q. injection Q as <- <-. destruct V as (_ & V & _).
      destruct H as [->|H]; [exfalso; apply X; auto | cbn; eauto].
  - destruct k.
    + injection E as <-. split; [discriminate|]. eapply stopping_keep; [exact V | reflexivity | reflexivity | apply same_frame |].
      intros u todo k' Q. rewrite P in Q. discriminate Q.
    + injection E as <-. split; [discriminate|]. eapply stopping_keep; [exact V | reflexivity | reflexivity | |].
      * intros u. cbn [base set_ph set_base]. apply upd_frame. apply trigger_same.
      * intros u todo k' Q. rewrite P in Q. discriminate Q.
    + injection E as <-. split; [discriminate|]. eapply stopping_keep; [exact V | reflexivity | reflexivity | |].
      * intros u. cbn [base set_ph set_base]. apply upd_frame. apply interrupt_same.
      * intros u todo k' Q. rewrite P in Q. discriminate Q.
    + destruct (shut x t) eqn:Sh; [|discriminate]. injection E as <-. split; [discriminate|].
      eapply stopping_keep; [exact V | reflexivity | reflexivity | apply same_frame |].
      intros u todo k' Q. rewrite P in Q. discriminate Q.
  - destruct (stack (base x)) as [|t l]; injection E as <-; (split; [discriminate|]);
      (eapply stopping_keep; [exact V | reflexivity | reflexivity | |]).
    + apply same_frame.
    + intros u todo k' Q. rewrite P in Q. discriminate Q.
    + intros u. cbn. apply (same_frame (base x)).
    + intros u todo k' Q. rewrite P in Q. discriminate Q.
  - injection E as <-. split; [discriminate|]. eapply stopping_keep; [exact V | reflexivity | reflexivity | apply same_frame |].
    intros u todo k' Q. rewrite P in Q. discriminate Q.
Qed.

Lemma main_serving : forall x x', ph x = Serving -> serving_inv x -> main x = Some x' ->
  ph x' <> Serving /\ stopping_inv x'.
Proof.
  intros x x' P (V0 & V & Q & Sh & F) E. unfold main in E. rewrite P in E.
  destruct (giving (base x)) eqn:G; [discriminate|]. injection E as <-. split; [discriminate|].
  split; [exact Q|]. split; [intros t Ht; apply Sh; exact Ht|].
  split; [exact (t_far _ V)|].
  intros t Ht H. right. eexists _, _. split; [reflexivity|]. cbn [base set_ph] in H, Ht.
  apply filter_In. split; [apply in_seq; lia|]. apply negb_true_iff, Nat.eqb_neq.
  assert (~ In t (stack (base x))) as Ns.
  { intros K. apply (t_pool _ V) in K. destruct K as (_ & (_ & _ & K) & Hn & _).
    destruct H as [H|[j [h H]]]; [contradiction | rewrite H in K; contradiction K]. }
  assert (working (wk_of (base x) t)) as W by (apply (t_work _ V); auto; intros; congruence).
  unfold working in W.
  destruct H as [H|[j [h H]]]; [|rewrite H in W; tauto].
  destruct (at_ (wk_of (base x) t)) as [| | | | |j h|j| |b|b|b|b|b [|]|]; tauto.
Qed.

Lemma stop_inv_step : forall x e x', stop_inv x -> peaceful_event e -> sstep x e = Some x' -> stop_inv x'.
Proof.
  intros x e x' V N E. unfold stop_inv in *.
  assert (ph x = Serving \/ ph x <> Serving) as [P|P] by (destruct (ph x); auto; right; discriminate).
  - rewrite P in V. destruct e as [e| |]; [| |contradiction N].
    + destruct (serving_step x e x' P V N E) as (-> & W). exact W.
    + destruct (main_serving x x' P V E) as (Q & W). destruct (ph x'); auto; contradiction.
  - assert (stopping_inv x) as V' by (destruct (ph x); auto; contradiction). clear V.
    assert (ph x' <> Serving /\ stopping_inv x') as [Q W].
    { destruct e as [e| |]; [| |contradiction N].
      - destruct e as [i| |t|t|t|t|i|t]; cbn [sstep] in E.
        + destruct (ph x); try discriminate. contradiction.
        + destruct (ph x); try discriminate. contradiction.
        + destruct (Nat.ltb_spec t (fresh (base x))); [|discriminate]. split.
          * destruct V' as (I1 & _). destruct (go2_frame x t x' I1 E) as (-> & _). exact P.
          * eapply go2_stopping; eassumption.
        + destruct (step (base x) (Ask t)) as [s'|] eqn:Es; [|discriminate]. injection E as <-.
          destruct (client_frame (base x) (Ask t) s' Logic.I Es) as (F & W). split; [exact P|].
          eapply stopping_keep; [exact V' | exact F | reflexivity | exact W |]. cbn. eauto.
        + destruct (step (base x) (Gone t)) as [s'|] eqn:Es; [|discriminate]. injection E as <-.
          destruct (client_frame (base x) (Gone t) s' Logic.I Es) as (F & W). split; [exact P|].
          eapply stopping_keep; [exact V' | exact F | reflexivity | exact W |]. cbn. eauto.
        + contradiction N.
        + destruct (ph x); try discriminate. contradiction.
        + contradiction N.
      - exact (main_stopping x x' P V' E). }
    destruct (ph x'); auto; contradiction.
Qed.

Lemma stop_inv_steps : forall es x x', stop_inv x -> peaceful es -> ssteps x es = Some x' -> stop_inv x'.
Proof.
  induction es as [|e r IH]; cbn; intros x x' V N E; [injection E as <-; exact V|].
  destruct (sstep x e) as [y|] eqn:Es; [|discriminate]. inversion N; subst.
  eapply IH; [eapply stop_inv_step; eassumption | assumption | exact E].
Qed.

Lemma begin_inv : forall p c, stop_inv (begin_ p c).
Proof.
  intros p c. unfold stop_inv, begin_; cbn. split; [apply inv_start|].
  split; [apply tinv_start|].
  split; [reflexivity|]. split; [discriminate | reflexivity].
Qed.

Lemma quiet_past : forall x, stop_inv x ->
  (ph x = Closed \/ ph x = Closing \/ exists c, ph x = PoolP c) -> quiet x.
Proof.
  intros x V P t j H.
  assert (stopping_inv x) as (_ & _ & I3 & I4).
  { unfold stop_inv in V. destruct P as [P|[P|[c P]]]; rewrite P in V; exact V. }
  destruct (Nat.lt_ge_cases t (fresh (base x))) as [L|L].
  - destruct (I4 t L) as [X|(todo & k & X & _)]; [right; eauto| |].
    + destruct H as [h H]. congruence.
    + destruct P as [P|[P|[c P]]]; congruence.
  - destruct H as [h H]. rewrite (I3 t L) in H. discriminate.
Qed.
