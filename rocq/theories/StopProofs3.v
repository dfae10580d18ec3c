From Coq Require Import List Arith Lia Bool.
From Verif Require Import ThreadModel ThreadSpec ThreadProofs StopModel StopSpec StopProofs StopProofs2.
Import ListNotations.

Lemma count_same : forall (f g : nat -> bool) l, (forall u, In u l -> g u = true -> f u = true) ->
  length (List.filter g l) <= length (List.filter f l).
Proof.
  induction l as [|a l IH]; intros H; cbn; [lia|].
  assert (length (List.filter g l) <= length (List.filter f l)) as K by (apply IH; intros; apply H; cbn; auto).
  destruct (g a) eqn:G; [rewrite (H a (or_introl eq_refl) G); cbn; lia | destruct (f a); cbn; lia].
Qed.

Lemma count_less : forall (f g : nat -> bool) t l, (forall u, In u l -> g u = true -> f u = true) ->
  In t l -> f t = true -> g t = false -> length (List.filter g l) < length (List.filter f l).
Proof.
  induction l as [|a l IH]; intros H Hi F G; [contradiction|]. cbn.
  assert (length (List.filter g l) <= length (List.filter f l)) as K by (apply count_same; intros; apply H; cbn; auto).
  destruct Hi as [->|Hi].
  - rewrite F, G. cbn. lia.
  - assert (length (List.filter g l) < length (List.filter f l)) as K' by (apply IH; auto; intros; apply H; cbn; auto).
    destruct (g a) eqn:Ga; [rewrite (H a (or_introl eq_refl) Ga); cbn; lia | destruct (f a); cbn; lia].
Qed.

Lemma to_pool_wk : forall s t w, (forall b, at_ w <> CleanPool b) \/ (exists b, at_ (wk_of s t) = CleanPool b) ->
  to_pool (set_wk s t w) <= to_pool s.
Proof.
  intros s t w H. unfold to_pool. cbn.
  enough (length (List.filter (pooling (set_wk s t w)) (seq 0 (fresh s))) <= length (List.filter (pooling s) (seq 0 (fresh s)))) by lia.
  apply count_same. intros u _ Hu. unfold pooling in *. cbn in Hu. destruct (Nat.eq_dec u t) as [->|D].
  - rewrite upd_same in Hu. destruct (at_ w) eqn:Ew; try discriminate.
    destruct H as [H|[b H]]; [destruct (H _ eq_refl) | rewrite H; reflexivity].
  - rewrite upd_other in Hu by exact D. exact Hu.
Qed.

Lemma not_pool_wk : forall w, (forall b, at_ (trigger w) = CleanPool b -> at_ w = CleanPool b) /\
  (forall b, at_ (interrupt w) = CleanPool b -> at_ w = CleanPool b).
Proof.
  intros [a hd tr rq i]. split; intros b; unfold trigger, interrupt; cbn;
    destruct a as [| | | | |j [| |]|j| |b'|b'|b'|b'|b' p|]; cbn; auto; discriminate.
Qed.

Lemma pool_dec : forall w, (exists b, at_ w = CleanPool b) \/ (forall b, at_ w <> CleanPool b).
Proof. intros w. destruct (at_ w); eauto; right; discriminate. Qed.

Lemma to_pool_go : forall x t x', t < fresh (base x) -> ph x <> Serving -> go2 x t = Some x' -> to_pool (base x') <= to_pool (base x).
Proof.
  intros x t x' L P E. unfold go2 in E.
  assert (forall w, (forall b, at_ w <> CleanPool b) -> to_pool (set_wk (base x) t w) <= to_pool (base x)) as K
    by (intros w H; apply to_pool_wk; left; exact H).
  assert (forall p, (forall b, p <> CleanPool b) -> to_pool (set_wk (base x) t (goto (wk_of (base x) t) p)) <= to_pool (base x)) as K'
    by (intros p H; apply K; exact H).
  unfold go in E.
  destruct (at_ (wk_of (base x) t)) as [| | | | |i [| |]|i| |b|b|b|b|b p|] eqn:Ea; try discriminate.
  - injection E as <-. cbn [base set_base]. apply K. destruct (trig (wk_of (base x) t)); discriminate.
  - injection E as <-. cbn [base set_base]. apply K. discriminate.
  - destruct (force x t); injection E as <-; cbn [base set_base exit_ set_shut].
    + apply K'. discriminate.
    + destruct (req (wk_of (base x) t)); cbn [base set_base set_shut]; apply K'; discriminate.
  - destruct (handler (wk_of (base x) t)); injection E as <-; cbn [base set_base].
    + change (to_pool (set_wk (base x) t (goto (wk_of (base x) t) (Inside n Checked))) <= to_pool (base x)). apply K'. discriminate.
    + apply K'. discriminate.
  - injection E as <-. cbn [base set_base]. apply K'. discriminate.
  - destruct (force x t); injection E as <-; cbn [base set_base].
    + apply K'. discriminate.
    + apply K'. destruct (req (wk_of (base x) t)); discriminate.
  - injection E as <-. cbn [base set_base].
    change (to_pool (set_wk (base x) t (set_handler (goto (wk_of (base x) t) Check2) None)) <= to_pool (base x)). apply K. discriminate.
  - destruct (force x t); injection E as <-; cbn [base set_base exit_ set_shut].
    + apply K'. discriminate.
    + destruct (req (wk_of (base x) t)); cbn [base set_base set_shut]; apply K'; discriminate.
  - injection E as <-. cbn [base set_base]. apply K. discriminate.
  - injection E as <-. cbn [base set_base]. apply K. discriminate.
  - destruct (ph x) as [|todo k|cur| |]; cbn in E; try contradiction; try discriminate;
      injection E as <-; cbn [base set_base]; apply K'; discriminate.
  - destruct (pool_locked (ph x)); [discriminate|].
    destruct (length (stack (base x)) <? pool_max (base x)); injection E as <-; cbn [base set_base].
    + unfold to_pool. cbn [stack set_stack set_wk fresh length].
      enough (length (List.filter (pooling (set_stack (set_wk (base x) t (goto (wk_of (base x) t) (After b true))) (t :: stack (base x))))
                (seq 0 (fresh (base x)))) < length (List.filter (pooling (base x)) (seq 0 (fresh (base x))))) by lia.
      apply (count_less _ _ t).
      * intros u _ Hu. unfold pooling in *. cbn in Hu. destruct (Nat.eq_dec u t) as [->|D].
        -- rewrite upd_same in Hu. discriminate.
        -- rewrite upd_other in Hu by exact D. exact Hu.
      * apply in_seq. lia.
      * unfold pooling. rewrite Ea. reflexivity.
      * unfold pooling. cbn. rewrite upd_same. reflexivity.
    + apply K'. discriminate.
  - destruct ((negb b && (force x t || req (wk_of (base x) t))) || negb p); injection E as <-; cbn [base set_base exit_ set_shut].
    + apply K'. discriminate.
    + apply K'. destruct (negb b && req (wk_of (base x) t)); [discriminate|]. destruct p; discriminate.
Qed.

Definition kdone (k : kst) : nat := match k with DoMark => 0 | DoTrigger => 1 | DoSignal => 2 | DoWait => 3 end.
Definition work (x : sst) : nat :=
  match ph x with
  | Serving => 0
  | ActiveP [] _ => 5 * to_pool (base x) + 3
  | ActiveP (t :: l) k => 4 * length l + (4 - kdone k) + 5 * to_pool (base x) + 3
  | PoolP None => 5 * to_pool (base x) + 2
  | PoolP (Some (_, k)) => (4 - kdone k) + 5 * to_pool (base x) + 2
  | Closing => 1
  | Closed => 0
  end.
Definition waits (x : sst) : nat :=
  match ph x with
  | Serving => 0
  | ActiveP l _ => length l + to_pool (base x)
  | PoolP None => to_pool (base x)
  | PoolP (Some _) => S (to_pool (base x))
  | Closing | Closed => 0
  end.

Lemma ev_pool : forall x e x', ph x <> Serving -> sstep x (Ev e) = Some x' -> to_pool (base x') <= to_pool (base x).
Proof.
  intros x e x' P E.
  assert (forall u p j, at_ (wk_of (base x) u) = j -> (forall b, p <> CleanPool b) ->
            to_pool (set_wk (base x) u (goto (wk_of (base x) u) p)) <= to_pool (base x)) as K
    by (intros u p j _ H; apply to_pool_wk; left; exact H).
  destruct e as [i| |t|t|t|t|i|t]; cbn [sstep] in E.
  - destruct (ph x); try discriminate. contradiction.
  - destruct (ph x); try discriminate. contradiction.
  - destruct (Nat.ltb_spec t (fresh (base x))); [|discriminate]. eapply to_pool_go; eassumption.
  - destruct (step (base x) (Ask t)) as [s'|] eqn:Es; [|discriminate]. injection E as <-. cbn [base set_base]. cbn [step] in Es.
    destruct (at_ (wk_of (base x) t)) as [| | | | |i [| |]|i| |b|b|b|b|b p|] eqn:Ea; try discriminate. injection Es as <-.
    refine (K t (Inside i Busy) _ Ea _). discriminate.
  - destruct (step (base x) (Gone t)) as [s'|] eqn:Es; [|discriminate]. injection E as <-. cbn [base set_base]. cbn [step] in Es.
    destruct (at_ (wk_of (base x) t)) as [| | | | |i [| |]|i| |b|b|b|b|b p|] eqn:Ea; try discriminate. injection Es as <-.
    refine (K t (Leave i) _ Ea _). discriminate.
  - destruct (step (base x) (Spurious t)) as [s'|] eqn:Es; [|discriminate]. injection E as <-. cbn [base set_base]. cbn [step] in Es.
    destruct (at_ (wk_of (base x) t)) as [| | | | |i [| |]|i| |b|b|b|b|b p|] eqn:Ea; try discriminate. injection Es as <-.
    refine (K t Awake _ Ea _). discriminate.
  - destruct (ph x); try discriminate. contradiction.
  - destruct (ph x); try discriminate. contradiction.
Qed.

Lemma work_step : forall x e x', ph x <> Serving -> sstep x e = Some x' ->
  ph x' <> Serving /\ stop_steps [e] + work x' <= work x /\ given_up [e] + waits x' <= waits x.
Proof.
  intros x e x' P E. destruct e as [e| |].
  - pose proof (ev_phase x e x' E) as Ep. pose proof (ev_pool x e x' P E) as Ew. rewrite Ep. split; [exact P|].
    unfold work, waits. rewrite Ep. cbn [stop_steps given_up].
    destruct (ph x) as [|[|t l] k|[[t k]|]| |]; try contradiction; split; cbn [length]; lia.
  - cbn [sstep] in E. cbn [stop_steps given_up].
    assert (forall t, to_pool (set_wk (base x) t (trigger (wk_of (base x) t))) <= to_pool (base x)) as Kt.
    { intros t. apply to_pool_wk. destruct (pool_dec (wk_of (base x) t)) as [H|H]; [right; exact H | left].
      intros b C. apply (proj1 (not_pool_wk _)) in C. exact (H b C). }
    assert (forall t, to_pool (set_wk (base x) t (interrupt (wk_of (base x) t))) <= to_pool (base x)) as Ki.
    { intros t. apply to_pool_wk. destruct (pool_dec (wk_of (base x) t)) as [H|H]; [right; exact H | left].
      intros b C. apply (proj2 (not_pool_wk _)) in C. exact (H b C). }
    unfold main in E. unfold work, waits. destruct (ph x) as [|[|t l] k|[[t k]|]| |]; try contradiction.
    + injection E as <-. cbn. split; [discriminate|]. lia.
    + destruct k.
      * injection E as <-. cbn. split; [discriminate|]. lia.
      * injection E as <-. cbn [ph base set_ph set_base kdone length]. specialize (Kt t). split; [discriminate|]. lia.
      * injection E as <-. cbn [ph base set_ph set_base kdone length]. specialize (Ki t). split; [discriminate|]. lia.
      * destruct (shut x t); [|discriminate]. injection E as <-. cbn [ph base set_ph set_base]. split; [discriminate|].
        destruct l; cbn [kdone length]; lia.
    + destruct k.
      * injection E as <-. cbn. split; [discriminate|]. lia.
      * injection E as <-. cbn [ph base set_ph set_base kdone length]. specialize (Kt t). split; [discriminate|]. lia.
      * injection E as <-. cbn [ph base set_ph set_base kdone length]. specialize (Ki t). split; [discriminate|]. lia.
      * destruct (shut x t); [|discriminate]. injection E as <-. cbn [ph base set_ph set_base kdone]. split; [discriminate|]. lia.
    + destruct (stack (base x)) as [|t l] eqn:Es; injection E as <-; cbn [ph base set_ph set_base kdone]; (split; [discriminate|]).
      * lia.
      * assert (S (to_pool (set_stack (base x) l)) <= to_pool (base x)) as Q.
        { unfold to_pool. rewrite Es. cbn. apply le_n. }
        lia.
    + injection E as <-. cbn. split; [discriminate|]. lia.
    + discriminate.
  - cbn [sstep] in E. cbn [stop_steps given_up]. unfold give_up in E. unfold work, waits.
    destruct (ph x) as [|[|t l] k|[[t k]|]| |]; try contradiction; try discriminate; destruct k; try discriminate; injection E as <-;
      cbn [ph base set_ph kdone]; (split; [discriminate|]).
    + destruct l; cbn [kdone length]; lia.
    + lia.
Qed.

Lemma work_steps : forall es x x', ph x <> Serving -> ssteps x es = Some x' ->
  ph x' <> Serving /\ stop_steps es + work x' <= work x /\ given_up es + waits x' <= waits x.
Proof.
  induction es as [|e r IH]; cbn [ssteps]; intros x x' P E; [injection E as <-; cbn; auto with arith|].
  destruct (sstep x e) as [y|] eqn:Es; [|discriminate].
  destruct (work_step x e y P Es) as (P1 & A & B). destruct (IH y x' P1 E) as (P2 & C & D). split; [exact P2|].
  destruct e; cbn [stop_steps given_up] in *; lia.
Qed.

Lemma never_stuck : forall x, ph x <> Serving -> ph x <> Closed -> sstep x Main <> None \/ sstep x Timeout <> None.
Proof.
  intros x P Q. cbn [sstep]. unfold main, give_up.
  destruct (ph x) as [|[|t l] [| | |]|[[t [| | |]]|]| |]; try contradiction; try (left; discriminate); try (right; discriminate).
  destruct (stack (base x)); left; discriminate.
Qed.

(** The queue of a proxy thread. *)
Lemma queue_step : forall x e x' h, pstep x e = Some x' ->
  (exists rest, h = rev (processed x) ++ held x ++ pqueue x ++ rest /\ rest = []) \/ (exists rest, h = rev (processed x) ++ rest) /\ pat x = PDone ->
  (exists rest, h ++ pushed [e] = rev (processed x') ++ held x' ++ pqueue x' ++ rest /\ rest = []) \/
  (exists rest, h ++ pushed [e] = rev (processed x') ++ rest) /\ pat x' = PDone.
Proof.
  intros [p q f d] e x' h E [(rest & -> & ->)|((rest & ->) & Hp)].
  - rewrite app_nil_r. destruct e as [|n| |]; cbn [pstep pushed] in *.
    + unfold pgo in E. cbn in E. destruct p.
      * injection E as <-. destruct f.
        -- right. split; [|reflexivity]. cbn. eexists. rewrite app_nil_r. reflexivity.
        -- left. exists []. cbn. rewrite !app_nil_r. auto.
      * destruct q; injection E as <-; left; exists []; cbn; rewrite !app_nil_r; auto.
      * discriminate.
      * injection E as <-. destruct f.
        -- right. split; [|reflexivity]. cbn. eexists. rewrite app_nil_r. reflexivity.
        -- left. exists []. cbn. rewrite !app_nil_r. auto.
      * injection E as <-. left. exists []. cbn. rewrite !app_nil_r, <- app_assoc. auto.
      * discriminate.
    + cbn in E. destruct p; try discriminate; injection E as <-; left; exists []; cbn; rewrite !app_nil_r, <- ?app_assoc; auto.
    + injection E as <-. left. exists []. cbn. rewrite !app_nil_r. destruct p; auto.
    + cbn in E. destruct p; injection E as <-; left; exists []; cbn; rewrite !app_nil_r; destruct q; auto.
  - cbn in Hp. subst p. right. destruct e as [|n| |]; cbn in E; try discriminate; injection E as <-; cbn; split; auto; rewrite app_nil_r; eauto.
Qed.

Lemma queue_steps : forall es x x' h, psteps x es = Some x' ->
  (exists rest, h = rev (processed x) ++ held x ++ pqueue x ++ rest /\ rest = []) \/ (exists rest, h = rev (processed x) ++ rest) /\ pat x = PDone ->
  (exists rest, h ++ pushed es = rev (processed x') ++ held x' ++ pqueue x' ++ rest /\ rest = []) \/
  (exists rest, h ++ pushed es = rev (processed x') ++ rest) /\ pat x' = PDone.
Proof.
  induction es as [|e r IH]; cbn [psteps]; intros x x' h E H; [injection E as <-; cbn [pushed]; rewrite app_nil_r; exact H|].
  destruct (pstep x e) as [y|] eqn:Es; [|discriminate].
  replace (h ++ pushed (e :: r)) with ((h ++ pushed [e]) ++ pushed r).
  - eapply IH; [exact E|]. eapply queue_step; eassumption.
  - destruct e; cbn [pushed]; rewrite ?app_nil_r, <- ?app_assoc; reflexivity.
Qed.

Lemma queue_order : forall es x, psteps pstart es = Some x ->
  (exists rest, pushed es = rev (processed x) ++ rest) /\
  (pat x <> PDone -> pushed es = rev (processed x) ++ held x ++ pqueue x).
Proof.
  intros es x E. pose proof (queue_steps es pstart x [] E) as H. cbn in H.
  destruct H as [(rest & -> & ->)|((rest & ->) & Hp)]; [left; exists []; auto | |].
  - rewrite app_nil_r. split; [eexists; reflexivity | reflexivity].
  - split; [eexists; reflexivity | intros C; contradiction].
Qed.

Lemma after_stop : forall es x x', pforce x = true -> psteps x es = Some x' ->
  pforce x' = true /\
  (processed x' = processed x \/ exists q, pat x = PProcess q /\ processed x' = q :: processed x).
Proof.
  assert (forall es x x', pforce x = true -> (forall q, pat x <> PProcess q) -> psteps x es = Some x' ->
            pforce x' = true /\ processed x' = processed x) as K.
  { induction es as [|e r IH]; cbn [psteps]; intros x x' F N E; [injection E as <-; auto|].
    destruct (pstep x e) as [y|] eqn:Es; [|discriminate].
    assert (pforce y = true /\ (forall q, pat y <> PProcess q) /\ processed y = processed x) as (A & B & C).
    { destruct x as [p q f d]. cbn in F, N. subst f. destruct e as [|n| |]; cbn in Es.
      - destruct p; cbn in Es; try discriminate; [| destruct q | |]; try (injection Es as <-; cbn; repeat split; auto; discriminate).
        destruct (N q0 eq_refl).
      - destruct p; try discriminate; injection Es as <-; cbn; repeat split; auto; discriminate.
      - injection Es as <-. cbn. auto.
      - destruct p; injection Es as <-; cbn; repeat split; auto; try discriminate. destruct q; discriminate. }
    destruct (IH y x' A B E) as (G & H). split; [exact G | congruence]. }
  induction es as [|e r IH]; cbn [psteps]; intros x x' F E; [injection E as <-; auto|].
  destruct (pstep x e) as [y|] eqn:Es; [|discriminate].
  assert ((exists q, pat x = PProcess q) \/ (forall q, pat x <> PProcess q)) as [[q Hq]|N]
    by (destruct (pat x); eauto; right; discriminate).
  2:{ destruct (K (e :: r) x x' F N) as (A & B); [cbn [psteps]; rewrite Es; exact E | auto]. }
  destruct e as [|n| |].
  - destruct x as [p qs f d]. cbn in Hq, F. subst p f. cbn in Es. injection Es as <-.
    apply K in E; [| reflexivity | discriminate]. destruct E as (A & B). split; [exact A|]. right. exists q. auto.
  - destruct x as [p qs f d]. cbn in Hq, F. subst p f. cbn in Es. injection Es as <-. apply IH in E; [exact E | reflexivity].
  - destruct x as [p qs f d]. cbn in Hq, F. subst p f. cbn in Es. injection Es as <-. apply IH in E; [exact E | reflexivity].
  - destruct x as [p qs f d]. cbn in Hq, F. subst p f. cbn in Es. injection Es as <-. apply IH in E; [exact E | reflexivity].
Qed.
