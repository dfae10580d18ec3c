From Coq Require Import List Arith Lia Bool.
From Verif Require Import ThreadModel ThreadSpec ThreadProofs ThreadProofs2 ThreadProofs3 ThreadProofs4 StopModel StopSpec StopProofs.
Import ListNotations.

Lemma ssteps_app : forall a x b, ssteps x (a ++ b) = match ssteps x a with Some y => ssteps y b | None => None end.
Proof. induction a as [|e a IH]; cbn; intros x b; [reflexivity|]. destruct (sstep x e); auto. Qed.

Lemma ev_phase : forall x e x', sstep x (Ev e) = Some x' -> ph x' = ph x.
Proof.
  intros x e x' E.
  assert (forall o : option st, match o with Some s' => Some (set_base x s') | None => None end = Some x' -> ph x' = ph x) as K.
  { intros [s'|] H; [injection H as <-; reflexivity | discriminate]. }
  assert (match ph x with Serving => match step (base x) e with Some s' => Some (set_base x s') | None => None end | _ => None end = Some x'
          -> ph x' = ph x) as L.
  { intros H. destruct (ph x) eqn:P; try discriminate. apply K in H. congruence. }
  destruct e as [i| |t|t|t|t|i|t]; cbn [sstep] in E; try (exact (L E)); try (exact (K _ E)).
  destruct (t <? fresh (base x)); [|discriminate]. unfold go2 in E.
  destruct (at_ (wk_of (base x) t)) as [| | | | |j [| |]|j| |b|b|b|b|b p|]; try (exact (K _ E)).
  - destruct (force x t); [injection E as <-; reflexivity|].
    destruct (go (base x) t); [|discriminate]. injection E as <-. destruct (req (wk_of (base x) t)); reflexivity.
  - destruct (force x t); [injection E as <-; reflexivity | exact (K _ E)].
  - destruct (force x t); [injection E as <-; reflexivity|].
    destruct (go (base x) t); [|discriminate]. injection E as <-. destruct (req (wk_of (base x) t)); reflexivity.
  - destruct (map_locked (ph x)); [discriminate|].
    destruct (map_cleared (ph x)); [injection E as <-; reflexivity | exact (K _ E)].
  - destruct (pool_locked (ph x)); [discriminate | exact (K _ E)].
  - destruct ((negb b && (force x t || req (wk_of (base x) t))) || negb p); [injection E as <-; reflexivity | exact (K _ E)].
Qed.

Lemma closed_stays : forall es x x', ph x = Closed -> ssteps x es = Some x' -> ph x' = Closed.
Proof.
  induction es as [|e r IH]; cbn; intros x x' P E; [injection E as <-; exact P|].
  destruct (sstep x e) as [y|] eqn:Es; [|discriminate]. apply (IH y x'); [|exact E].
  destruct e as [e| |]; cbn [sstep] in Es.
  - rewrite (ev_phase x e y Es). exact P.
  - unfold main in Es. rewrite P in Es. discriminate.
  - unfold give_up in Es. rewrite P in Es. discriminate.
Qed.

Theorem quiet_forever : forall p c es x, peaceful es -> ssteps (begin_ p c) es = Some x -> ph x = Closed ->
  forall es' x', peaceful es' -> ssteps x es' = Some x' -> ph x' = Closed /\ quiet x'.
Proof.
  intros p c es x N E P es' x' N' E'. split; [eapply closed_stays; eassumption|].
  apply quiet_past.
  - eapply stop_inv_steps; [|exact N'|exact E']. eapply stop_inv_steps; [apply begin_inv | exact N | exact E].
  - left. eapply closed_stays; eassumption.
Qed.

Lemma sgo : forall x t, t < fresh (base x) -> sstep x (Ev (Go t)) = go2 x t.
Proof. intros x t L. cbn [sstep]. apply Nat.ltb_lt in L. rewrite L. reflexivity. Qed.

Lemma go2_leave : forall x t j, at_ (wk_of (base x) t) = Leave j ->
  go2 x t = Some (set_base x (note_ended (set_wk (base x) t (set_handler (goto (wk_of (base x) t) Check2) None)) j)).
Proof. intros x t j Ea. unfold go2, go. rewrite Ea. reflexivity. Qed.

Lemma go2_busy : forall x t j, at_ (wk_of (base x) t) = Inside j Busy -> force x t = true ->
  go2 x t = Some (set_base x (set_wk (base x) t (goto (wk_of (base x) t) (Leave j)))).
Proof. intros x t j Ea F. unfold go2. rewrite Ea, F. reflexivity. Qed.

Lemma go2_check2 : forall x t, at_ (wk_of (base x) t) = Check2 -> force x t = true -> go2 x t = Some (exit_ x t).
Proof. intros x t Ea F. unfold go2. rewrite Ea, F. reflexivity. Qed.

Lemma leaving : forall x t l j, t < fresh (base x) -> ph x = ActiveP (t :: l) DoWait -> force x t = true ->
  at_ (wk_of (base x) t) = Leave j ->
  exists x2, ssteps x [Ev (Go t); Ev (Go t)] = Some x2 /\
    at_ (wk_of (base x2) t) = Exited /\ In j (ended (base x2)) /\
    (exists x3, sstep x2 Main = Some x3 /\ ph x3 = ActiveP l DoMark) /\
    forall u, u <> t -> wk_of (base x2) u = wk_of (base x) u.
Proof.
  intros x t l j L P F Ea. cbn [ssteps]. rewrite sgo by exact L. rewrite (go2_leave x t j Ea).
  rewrite sgo by exact L. rewrite go2_check2; [| cbn; rewrite upd_same; reflexivity | exact F].
  eexists. split; [reflexivity|]. cbn. rewrite !upd_same. cbn. split; [reflexivity|]. split; [auto|]. split.
  - unfold main. cbn. rewrite P, upd_same. eexists. split; reflexivity.
  - intros u D. rewrite !upd_other by exact D. reflexivity.
Qed.

(** The thread the stop waits for, in a session: what becomes of it. *)
Theorem prompt : forall x t l j h x1, t < fresh (base x) -> ph x = ActiveP (t :: l) DoSignal -> force x t = true ->
  at_ (wk_of (base x) t) = Inside j h -> h <> Checked -> sstep x Main = Some x1 ->
  exists n x2, n <= 3 /\ ssteps x1 (repeat (Ev (Go t)) n) = Some x2 /\
    at_ (wk_of (base x2) t) = Exited /\ In j (ended (base x2)) /\
    (exists x3, sstep x2 Main = Some x3 /\ ph x3 = ActiveP l DoMark) /\
    forall u, u <> t -> wk_of (base x2) u = wk_of (base x) u.
Proof.
  intros x t l j h x1 L P F Ea Hh E. cbn [sstep] in E. unfold main in E. rewrite P in E. injection E as <-.
  destruct h; [contradiction| |].
  - exists 2. edestruct leaving as (x2 & A & B & C & D & G);
      [| | | | exists x2; split; [lia|]; split; [exact A|]; split; [exact B|]; split; [exact C|]; split; [exact D|]].
    + exact L.
    + reflexivity.
    + exact F.
    + cbn. rewrite upd_same. unfold interrupt. rewrite Ea. reflexivity.
    + intros u N. rewrite (G u N). cbn. apply upd_other. exact N.
  - exists 3. cbn [repeat]. change (ssteps ?y (?e :: ?r)) with (match sstep y e with Some z => ssteps z r | None => None end).
    rewrite sgo by exact L. rewrite (go2_busy _ t j); [| cbn; rewrite upd_same; unfold interrupt; rewrite Ea; exact Ea | exact F].
    edestruct leaving as (x2 & A & B & C & D & G);
      [| | | | exists x2; split; [lia|]; split; [exact A|]; split; [exact B|]; split; [exact C|]; split; [exact D|]].
    + exact L.
    + reflexivity.
    + exact F.
    + cbn. rewrite upd_same. reflexivity.
    + intros u N. rewrite (G u N). cbn. rewrite !upd_other by exact N. reflexivity.
Qed.

Lemma go_other : forall s u s' t, go s u = Some s' -> t <> u -> wk_of s' t = wk_of s t.
Proof.
  intros s u s' t E D. unfold go in E.
  destruct (at_ (wk_of s u)) as [| | | | |i [| |]|i| |b|b|b|b|b p|]; try discriminate;
    try (injection E as <-; cbn; apply upd_other; exact D).
  - destruct (handler (wk_of s u)); injection E as <-; cbn; apply upd_other; exact D.
  - destruct (length (stack s) <? pool_max s); injection E as <-; cbn; apply upd_other; exact D.
Qed.

Lemma go2_other : forall x u x' t, go2 x u = Some x' -> t <> u ->
  wk_of (base x') t = wk_of (base x) t /\ shut x' t = shut x t.
Proof.
  intros x u x' t E D. unfold go2 in E.
  destruct (go (base x) u) as [s'|] eqn:G.
  - apply (go_other _ _ _ t) in G; [|exact D].
    destruct (at_ (wk_of (base x) u)) as [| | | | |i [| |]|i| |b|b|b|b|b p|];
      try (injection E as <-; cbn; auto; fail).
    + destruct (force x u); injection E as <-; cbn; [rewrite !upd_other by exact D; auto|].
      destruct (req (wk_of (base x) u)); cbn; rewrite ?upd_other by exact D; auto.
    + destruct (force x u); injection E as <-; cbn; rewrite ?upd_other by exact D; auto.
    + destruct (force x u); injection E as <-; cbn; [rewrite !upd_other by exact D; auto|].
      destruct (req (wk_of (base x) u)); cbn; rewrite ?upd_other by exact D; auto.
    + destruct (map_locked (ph x)); [discriminate|].
      destruct (map_cleared (ph x)); injection E as <-; cbn; rewrite ?upd_other by exact D; auto.
    + destruct (pool_locked (ph x)); [discriminate|]. injection E as <-; cbn; auto.
    + destruct ((negb b && (force x u || req (wk_of (base x) u))) || negb p); injection E as <-; cbn;
        rewrite ?upd_other by exact D; auto.
  - destruct (at_ (wk_of (base x) u)) as [| | | | |i [| |]|i| |b|b|b|b|b p|]; try discriminate.
    + destruct (force x u); [|discriminate]. injection E as <-; cbn; rewrite ?upd_other by exact D; auto.
    + destruct (force x u); [|discriminate]. injection E as <-; cbn; rewrite ?upd_other by exact D; auto.
    + destruct (force x u); [|discriminate]. injection E as <-; cbn; rewrite ?upd_other by exact D; auto.
    + destruct (map_locked (ph x)); [discriminate|]. destruct (map_cleared (ph x)); [|discriminate].
      injection E as <-; cbn; rewrite ?upd_other by exact D; auto.
    + destruct (pool_locked (ph x)); discriminate.
    + destruct ((negb b && (force x u || req (wk_of (base x) u))) || negb p); [|discriminate].
      injection E as <-; cbn; rewrite ?upd_other by exact D; auto.
Qed.

(** A thread on its way into its read when the signal comes. *)
Lemma window_step : forall x t l j h e x', ph x = ActiveP (t :: l) DoWait -> shut x t = false ->
  at_ (wk_of (base x) t) = Inside j h -> h <> Busy ->
  e <> Timeout -> e <> Ev (Ask t) -> e <> Ev (Gone t) -> sstep x e = Some x' ->
  ph x' = ActiveP (t :: l) DoWait /\ shut x' t = false /\ exists h', at_ (wk_of (base x') t) = Inside j h' /\ h' <> Busy.
Proof.
  intros x t l j h e x' P Sh Ea Hh N1 N2 N3 E. destruct e as [e| |]; [| |contradiction].
  - split; [rewrite (ev_phase x e x' E); exact P|].
    destruct e as [i| |u|u|u|u|i|u]; cbn [sstep] in E; rewrite ?P in E; try discriminate.
    + destruct (u <? fresh (base x)); [|discriminate]. destruct (Nat.eq_dec u t) as [->|D].
      * unfold go2, go in E. rewrite Ea in E. destruct h; [|discriminate|contradiction]. injection E as <-. cbn.
        rewrite upd_same. split; [exact Sh|]. exists Reading. split; [reflexivity | discriminate].
      * assert (wk_of (base x') t = wk_of (base x) t /\ shut x' t = shut x t) as [-> ->]; [|eauto].
        eapply go2_other; [exact E | congruence].
    + destruct (step (base x) (Ask u)) as [s'|] eqn:Es; [|discriminate]. injection E as <-. cbn. split; [exact Sh|].
      assert (t <> u) as D by congruence. cbn [step] in Es.
      destruct (at_ (wk_of (base x) u)) as [| | | | |i [| |]|i| |b|b|b|b|b p|]; try discriminate. injection Es as <-. cbn.
      rewrite upd_other by exact D. eauto.
    + destruct (step (base x) (Gone u)) as [s'|] eqn:Es; [|discriminate]. injection E as <-. cbn. split; [exact Sh|].
      assert (t <> u) as D by congruence. cbn [step] in Es.
      destruct (at_ (wk_of (base x) u)) as [| | | | |i [| |]|i| |b|b|b|b|b p|]; try discriminate. injection Es as <-. cbn.
      rewrite upd_other by exact D. eauto.
    + destruct (step (base x) (Spurious u)) as [s'|] eqn:Es; [|discriminate]. injection E as <-. cbn. split; [exact Sh|].
      cbn [step] in Es. destruct (Nat.eq_dec t u) as [->|D]; [rewrite Ea in Es; discriminate|].
      destruct (at_ (wk_of (base x) u)) as [| | | | |i [| |]|i| |b|b|b|b|b p|]; try discriminate. injection Es as <-. cbn.
      rewrite upd_other by exact D. eauto.
  - cbn [sstep] in E. unfold main in E. rewrite P, Sh in E. discriminate.
Qed.

Theorem window : forall x t l j h, ph x = ActiveP (t :: l) DoWait -> shut x t = false ->
  at_ (wk_of (base x) t) = Inside j h -> h <> Busy ->
  stuck_until_timeout x (fun e => e <> Ev (Ask t) /\ e <> Ev (Gone t)).
Proof.
  intros x t l j h P Sh Ea Hh es. revert x j h P Sh Ea Hh.
  induction es as [|e r IH]; cbn; intros x j h P Sh Ea Hh x' N E; [injection E as <-; reflexivity|].
  destruct (sstep x e) as [y|] eqn:Es; [|discriminate]. inversion N as [|? ? (N1 & N2 & N3) Nr]; subst.
  destruct (window_step x t l j h e y P Sh Ea Hh N1 N2 N3 Es) as (P' & Sh' & h' & Ea' & Hh').
  rewrite (IH y j h' P' Sh' Ea' Hh' x' Nr E). congruence.
Qed.

(** A thread that is about to leave the map, whose lock the stop holds. *)
Lemma clean_step : forall x t l b e x', ph x = ActiveP (t :: l) DoWait -> shut x t = false ->
  at_ (wk_of (base x) t) = CleanMap b -> e <> Timeout -> sstep x e = Some x' ->
  ph x' = ActiveP (t :: l) DoWait /\ shut x' t = false /\ at_ (wk_of (base x') t) = CleanMap b.
Proof.
  intros x t l b e x' P Sh Ea N1 E. destruct e as [e| |]; [| |contradiction].
  - split; [rewrite (ev_phase x e x' E); exact P|].
    destruct e as [i| |u|u|u|u|i|u]; cbn [sstep] in E; rewrite ?P in E; try discriminate.
    + destruct (u <? fresh (base x)); [|discriminate]. destruct (Nat.eq_dec u t) as [->|D].
      * unfold go2 in E. rewrite Ea, P in E. discriminate.
      * assert (wk_of (base x') t = wk_of (base x) t /\ shut x' t = shut x t) as [-> ->]; [|eauto].
        eapply go2_other; [exact E | congruence].
    + destruct (step (base x) (Ask u)) as [s'|] eqn:Es; [|discriminate]. injection E as <-. cbn. split; [exact Sh|].
      cbn [step] in Es. destruct (Nat.eq_dec t u) as [->|D]; [rewrite Ea in Es; discriminate|].
      destruct (at_ (wk_of (base x) u)) as [| | | | |i [| |]|i| |b'|b'|b'|b'|b' p|]; try discriminate. injection Es as <-. cbn.
      rewrite upd_other by exact D. eauto.
    + destruct (step (base x) (Gone u)) as [s'|] eqn:Es; [|discriminate]. injection E as <-. cbn. split; [exact Sh|].
      cbn [step] in Es. destruct (Nat.eq_dec t u) as [->|D]; [rewrite Ea in Es; discriminate|].
      destruct (at_ (wk_of (base x) u)) as [| | | | |i [| |]|i| |b'|b'|b'|b'|b' p|]; try discriminate. injection Es as <-. cbn.
      rewrite upd_other by exact D. eauto.
    + destruct (step (base x) (Spurious u)) as [s'|] eqn:Es; [|discriminate]. injection E as <-. cbn. split; [exact Sh|].
      cbn [step] in Es. destruct (Nat.eq_dec t u) as [->|D]; [rewrite Ea in Es; discriminate|].
      destruct (at_ (wk_of (base x) u)) as [| | | | |i [| |]|i| |b'|b'|b'|b'|b' p|]; try discriminate. injection Es as <-. cbn.
      rewrite upd_other by exact D. eauto.
  - cbn [sstep] in E. unfold main in E. rewrite P, Sh in E. discriminate.
Qed.

Theorem clean : forall x t l b, ph x = ActiveP (t :: l) DoWait -> shut x t = false ->
  at_ (wk_of (base x) t) = CleanMap b -> stuck_until_timeout x (fun _ => True).
Proof.
  intros x t l b P Sh Ea es. revert x P Sh Ea.
  induction es as [|e r IH]; cbn; intros x P Sh Ea x' N E; [injection E as <-; reflexivity|].
  destruct (sstep x e) as [y|] eqn:Es; [|discriminate]. inversion N as [|? ? (N1 & _) Nr]; subst.
  destruct (clean_step x t l b e y P Sh Ea N1 Es) as (P' & Sh' & Ea').
  rewrite (IH y P' Sh' Ea' x' Nr E). congruence.
Qed.
