From Coq Require Import List Bool Arith ZArith Lia ZifyBool ZifyNat.
From Verif Require Import FanModel FanSpec.
Import ListNotations.

(** Sums over the workers that have the entry. *)
Fixpoint sumw (w : work -> nat) (f : nat -> work) (l : list nat) : nat :=
  match l with [] => 0 | d :: l' => w (f d) + sumw w f l' end.
Lemma upd_same f d w : upd f d w d = w.
Proof. unfold upd. now rewrite Nat.eqb_refl. Qed.
Lemma upd_other f d w x : x <> d -> upd f d w x = f x.
Proof. intros H. unfold upd. now rewrite (proj2 (Nat.eqb_neq x d) H). Qed.
Lemma sumw_out w f d v l : ~ In d l -> sumw w (upd f d v) l = sumw w f l.
Proof.
  induction l as [|x l IH]; cbn; auto. intros H. rewrite upd_other by (intros ->; apply H; now left). rewrite IH; auto.
Qed.
Lemma sumw_in w f d v l : NoDup l -> In d l -> sumw w (upd f d v) l + w (f d) = sumw w f l + w v.
Proof.
  induction l as [|x l IH]; intros N H; [easy|]. inversion N as [|? ? NI N']; subst. cbn [sumw].
  destruct (Nat.eq_dec x d) as [->|D].
  - rewrite upd_same, sumw_out by auto. lia.
  - rewrite upd_other by auto. destruct H as [H|H]; [congruence|]. specialize (IH N' H). lia.
Qed.
Lemma sumw_app w f l l' : sumw w f (l ++ l') = sumw w f l + sumw w f l'.
Proof. induction l as [|x l IH]; cbn; auto. lia. Qed.
Lemma sumw_pos w f l : 0 < sumw w f l -> exists d, In d l /\ 0 < w (f d).
Proof.
  induction l as [|x l IH]; cbn; [lia|]. intros H. destruct (w (f x)) eqn:E.
  - destruct (IH ltac:(lia)) as (d & J & K). exists d. auto.
  - exists x. split; auto. lia.
Qed.
Lemma sumw_zero w f l d : sumw w f l = 0 -> In d l -> w (f d) = 0.
Proof. induction l as [|x l IH]; cbn; [easy|]. intros H [->|J]; [lia|]. apply IH; auto. lia. Qed.

Definition pend (w : work) : nat := match w with Queued | Busy | Handled | Lost => 1 | _ => 0 end.
Definition left_ (w : work) : nat := match w with Queued => 4 | Busy => 3 | Handled => 2 | Counted _ => 1 | _ => 0 end.

(** The invariant of all schedules. *)
Record inv (s : st) : Prop := mkInv {
  i_nodup : NoDup (given s ++ targets (prog s));
  i_away : forall d, at_ s d = Away <-> ~ In d (given s);
  i_mid : how s = Mid -> exists d p, prog s = Give d :: p;
  i_count : count s = Z.of_nat (sumw pend (at_ s) (given s) + match how s with Mid => 1 | _ => 0 end);
  i_wait : how s = Waits -> (exists p, prog s = Await :: p) /\ ((0 < count s)%Z \/ exists d, at_ s d = Counted true);
  i_got : NoDup (got s) /\ forall d, In d (got s) -> at_ s d = Handled \/ (exists z, at_ s d = Counted z) \/ at_ s d = Done;
  i_through : forall d, at_ s d = Handled -> In d (got s);
  i_past : forall d, (exists z, at_ s d = Counted z) \/ at_ s d = Done -> In d (got s) \/ In d (swept s);
  i_prom : forall d, In d (promised s) -> In d (given s) }.

Lemma inv0 p : fair_prog p -> inv (st0 p).
Proof.
  intros F. split; cbn; auto; try easy; try (intros; now intuition).
  - split; [constructor|easy].
  - intros d [(z & H)|H]; discriminate.
Qed.

Lemma NoDup_app_l {A} (l l' : list A) : NoDup (l ++ l') -> NoDup l.
Proof. induction l as [|x l IH]; cbn; [constructor|]. intros H. inversion H as [|? ? NI N]; subst. constructor; auto. intros J. apply NI, in_or_app. now left. Qed.
Lemma NoDup_drop {A} (l : list A) x l' : NoDup (l ++ x :: l') -> NoDup (l ++ l') /\ ~ In x l.
Proof. intros H. apply NoDup_remove in H. destruct H as (H & NI). split; auto. intros J. apply NI, in_or_app. now left. Qed.
Lemma NoDup_shift {A} (l : list A) x l' : NoDup (l ++ x :: l') -> NoDup ((l ++ [x]) ++ l').
Proof. now rewrite <- app_assoc. Qed.
Lemma NoDup_snoc {A} (l : list A) x : NoDup l -> ~ In x l -> NoDup (l ++ [x]).
Proof.
  induction l as [|y l IH]; cbn; intros N H; [constructor; auto; constructor|]. inversion N as [|? ? NI N']; subst. constructor.
  - intros J. apply in_app_or in J. destruct J as [J|[J|[]]]; [auto|]. apply H. auto.
  - apply IH; auto.
Qed.

Lemma has_given s d : inv s -> at_ s d <> Away -> In d (given s).
Proof. intros V H. destruct (in_dec Nat.eq_dec d (given s)) as [J|J]; auto. destruct (i_away s V d) as [_ K]. destruct (H (K J)). Qed.

Lemma release_inv s : inv s -> how s = Waits \/ (how s = Free /\ exists p, prog s = Await :: p) -> inv (release s).
Proof.
  intros V H. assert (E : exists p, prog s = Await :: p) by (destruct H as [H|[_ H]]; [apply (i_wait s V H)|exact H]). destruct E as (p & E).
  destruct V as [V1 V2 V3 V4 V5 V6 V7 V8 V9]. unfold release. rewrite E in *. split; cbn [prog how count at_ given got swept promised tl] in *; auto; try discriminate.
  destruct H as [H|[H _]]; rewrite H in V4; exact V4.
Qed.

(** A worker moves on; [v] is where to. *)
Lemma put_inv s d v : inv s -> at_ s d <> Away -> v <> Away -> pend v = pend (at_ s d) ->
  (how s = Waits -> at_ s d <> Counted true \/ v = Counted true) ->
  (In d (got s) -> v = Handled \/ (exists z, v = Counted z) \/ v = Done) ->
  (v = Handled -> In d (got s)) -> ((exists z, v = Counted z) \/ v = Done -> In d (got s) \/ In d (swept s)) -> inv (put s d v).
Proof.
  intros V A NA P W G T H. pose proof (has_given s d V A) as J. destruct V as [V1 V2 V3 V4 V5 V6 V7 V8 V9].
  split; cbn [put prog how count at_ given got swept promised] in *; auto.
  - intros x. destruct (Nat.eq_dec x d) as [->|D]; [rewrite upd_same|now rewrite upd_other]. split; [easy|intros K; destruct (K J)].
  - pose proof (sumw_in pend (at_ s) d v (given s) (NoDup_app_l _ _ V1) J) as E. lia.
  - intros K. destruct (V5 K) as (VP & [VC|(x & VX)]); split; auto. right. destruct (Nat.eq_dec x d) as [->|D].
    + destruct (W K) as [B| ->]; [congruence|]. exists d. now rewrite upd_same.
    + exists x. now rewrite upd_other.
  - destruct V6 as (V6a & V6b). split; auto. intros x K. destruct (Nat.eq_dec x d) as [->|D]; [rewrite upd_same; auto|rewrite upd_other; auto].
  - intros x. destruct (Nat.eq_dec x d) as [->|D]; [rewrite upd_same; auto|rewrite upd_other; auto].
  - intros x. destruct (Nat.eq_dec x d) as [->|D]; [rewrite upd_same; auto|rewrite upd_other; auto].
Qed.

Lemma unref_inv s d : inv s -> at_ s d = Queued /\ In d (swept s) \/ at_ s d = Handled -> inv (unref s d).
Proof.
  intros V A. assert (NA : at_ s d <> Away) by (destruct A as [[A _]|A]; congruence).
  assert (P : pend (at_ s d) = 1) by (destruct A as [[A _]|A]; rewrite A; auto).
  pose proof (has_given s d V NA) as J. destruct V as [V1 V2 V3 V4 V5 V6 V7 V8 V9].
  pose proof (sumw_in pend (at_ s) d (Counted (count s - 1 =? 0)%Z) (given s) (NoDup_app_l _ _ V1) J) as E. cbn [pend] in E.
  unfold unref. split; cbn [prog how count at_ given got swept promised] in *; auto.
  - intros x. destruct (Nat.eq_dec x d) as [->|D]; [rewrite upd_same|now rewrite upd_other]. split; [easy|intros K; destruct (K J)].
  - lia.
  - intros K. split; [apply (V5 K)|]. destruct (Z.eqb (count s - 1) 0) eqn:Z0; [right; exists d; now rewrite upd_same|left].
    rewrite K in V4. lia.
  - destruct V6 as (V6a & V6b). split; auto. intros x K. destruct (Nat.eq_dec x d) as [->|D]; [rewrite upd_same; right; left; eauto|rewrite upd_other; auto].
  - intros x. destruct (Nat.eq_dec x d) as [->|D]; [rewrite upd_same; discriminate|rewrite upd_other; auto].
  - intros x. destruct (Nat.eq_dec x d) as [->|D]; [|rewrite upd_other; auto]. intros _. destruct A as [[_ A]|A]; auto.
Qed.

Lemma step_inv s e s' : inv s -> step s e = Some s' -> inv s'.
Proof.
  intros V. destruct e; cbn [step].
  - destruct (how s) eqn:H; try discriminate. destruct (prog s) as [|[d|] p] eqn:E; try discriminate. intros [= <-].
    destruct V as [V1 V2 V3 V4 V5 V6 V7 V8 V9]. rewrite H, E in *. split; cbn [prog how count at_ given got swept promised targets flat_map app] in *; auto; try discriminate.
    apply (NoDup_drop _ d _ V1).
  - destruct (how s) eqn:H; try discriminate. destruct (prog s) as [|[d|] p] eqn:E; try discriminate. intros [= <-].
    destruct V as [V1 V2 V3 V4 V5 V6 V7 V8 V9]. rewrite H, E in *. split; cbn [prog how count at_ given got swept promised] in *; auto; try discriminate; [eauto|lia].
  - destruct (how s) eqn:H; try discriminate. destruct (prog s) as [|[d|] p] eqn:E; try discriminate. intros [= <-].
    destruct V as [V1 V2 V3 V4 V5 V6 V7 V8 V9]. rewrite H, E in *. cbn [targets flat_map app] in V1. pose proof (NoDup_drop _ d _ V1) as (N1 & N2).
    pose proof (proj2 (V2 d) N2) as AD.
    destruct ok; split; cbn [prog how count at_ given got swept promised] in *; auto; try discriminate.
    + now apply NoDup_shift.
    + intros x. destruct (Nat.eq_dec x d) as [->|D].
      * rewrite upd_same. split; [discriminate|intros K; destruct K; apply in_or_app; right; now left].
      * rewrite upd_other by auto. rewrite V2. split; intros K J; apply K; [apply in_app_or in J; destruct J as [J|[J|[]]]; [auto|congruence]|apply in_or_app; auto].
    + rewrite sumw_app, sumw_out by auto. cbn [sumw]. rewrite upd_same. cbn [pend]. lia.
    + destruct V6 as (V6a & V6b). split; auto. intros x K. destruct (Nat.eq_dec x d) as [->|D]; [|rewrite upd_other; auto].
      destruct (V6b d K) as [B|[(z & B)|B]]; congruence.
    + intros x. destruct (Nat.eq_dec x d) as [->|D]; [rewrite upd_same; discriminate|rewrite upd_other; auto].
    + intros x. destruct (Nat.eq_dec x d) as [->|D]; [rewrite upd_same; intros [(z & B)|B]; discriminate|rewrite upd_other; auto].
    + intros x J. apply in_or_app. left. auto.
    + lia.
  - destruct (how s) eqn:H; try discriminate. destruct (prog s) as [|[d|] p] eqn:E; try discriminate. destruct (Z.eqb_spec (count s) 0) as [Z0|Z0]; intros [= <-].
    + apply release_inv; auto. right. eauto.
    + destruct V as [V1 V2 V3 V4 V5 V6 V7 V8 V9]. rewrite H, E in *. split; cbn [prog how count at_ given got swept promised] in *; auto; try discriminate.
      intros _. split; eauto. left. lia.
  - destruct (how s) eqn:H; try discriminate. intros [= <-]. apply release_inv; auto.
  - destruct (at_ s d) eqn:A; try discriminate. intros [= <-]. apply put_inv; auto; rewrite ?A; auto; try discriminate; try (intros _; left; discriminate).
    + intros K. destruct (i_got s V) as (_ & G). destruct (G d K) as [B|[(z & B)|B]]; congruence.
    + intros [(z & B)|B]; discriminate.
  - destruct (at_ s d) eqn:A; try discriminate. intros [= <-]. apply put_inv; auto; rewrite ?A; auto; try discriminate; try (intros _; left; discriminate).
    + intros K. destruct (i_got s V) as (_ & G). destruct (G d K) as [B|[(z & B)|B]]; congruence.
    + intros [(z & B)|B]; discriminate.
  - destruct (at_ s d) eqn:A; try discriminate. intros [= <-]. apply unref_inv.
    + destruct V as [V1 V2 V3 V4 V5 V6 V7 V8 V9]. split; cbn [prog how count at_ given got swept promised]; auto. intros x K. destruct (V8 x K); auto. right. apply in_or_app. auto.
    + left. cbn [at_ swept]. split; auto. apply in_or_app. right. now left.
  - destruct (at_ s d) eqn:A; try discriminate. intros [= <-].
    assert (NG : ~ In d (got s)). { intros K. destruct (i_got s V) as (_ & G). destruct (G d K) as [B|[(z & B)|B]]; congruence. }
    pose proof (has_given s d V ltac:(congruence)) as J. destruct V as [V1 V2 V3 V4 V5 V6 V7 V8 V9].
    pose proof (sumw_in pend (at_ s) d Handled (given s) (NoDup_app_l _ _ V1) J) as E. rewrite A in E. cbn [pend] in E.
    split; cbn [put prog how count at_ given got swept promised] in *; auto.
    + intros x. destruct (Nat.eq_dec x d) as [->|D]; [rewrite upd_same|now rewrite upd_other]. split; [easy|intros K; destruct (K J)].
    + lia.
    + intros K. destruct (V5 K) as (VP & [VC|(x & VX)]); split; auto. right. exists x. rewrite upd_other; auto. intros ->. congruence.
    + destruct V6 as (V6a & V6b). split; [now apply NoDup_snoc|]. intros x K. destruct (Nat.eq_dec x d) as [->|D]; [rewrite upd_same; auto|rewrite upd_other by auto].
      apply in_app_or in K. destruct K as [K|[K|[]]]; [auto|congruence].
    + intros x. destruct (Nat.eq_dec x d) as [->|D]; [intros _; apply in_or_app; right; now left|rewrite upd_other by auto; intros K; apply in_or_app; auto].
    + intros x. destruct (Nat.eq_dec x d) as [->|D]; [rewrite upd_same; intros [(z & B)|B]; discriminate|rewrite upd_other by auto].
      intros K. destruct (V8 x K); auto. left. apply in_or_app. auto.
  - destruct (at_ s d) eqn:A; try discriminate. intros [= <-]. apply unref_inv; auto.
  - destruct (at_ s d) as [| | | |z| |] eqn:A; try discriminate. intros [= <-].
    assert (PV : how s <> Waits \/ z = false -> inv (put s d Done)).
    { intros NW. apply put_inv; auto; rewrite ?A; auto; try discriminate.
      - intros K. left. destruct NW as [NW| ->]; [congruence|discriminate].
      - intros _. apply (i_past s V). left. eauto. }
    destruct z; [|apply PV; auto]. destruct (how s) eqn:H; [apply PV; left; congruence|apply PV; left; congruence|].
    destruct (i_wait s V H) as ((p & E) & _). unfold release, put. cbn [prog how count at_ given got swept promised]. rewrite E. cbn [tl].
    pose proof (has_given s d V ltac:(congruence)) as J. destruct V as [V1 V2 V3 V4 V5 V6 V7 V8 V9]. rewrite E, H in *.
    pose proof (sumw_in pend (at_ s) d Done (given s) (NoDup_app_l _ _ V1) J) as EE. rewrite A in EE. cbn [pend] in EE.
    split; cbn [prog how count at_ given got swept promised targets flat_map app] in *; auto; try discriminate.
    + intros x. destruct (Nat.eq_dec x d) as [->|D]; [rewrite upd_same|now rewrite upd_other]. split; [easy|intros K; destruct (K J)].
    + lia.
    + destruct V6 as (V6a & V6b). split; auto. intros x K. destruct (Nat.eq_dec x d) as [->|D]; [rewrite upd_same; auto|rewrite upd_other; auto].
    + intros x. destruct (Nat.eq_dec x d) as [->|D]; [rewrite upd_same; discriminate|rewrite upd_other; auto].
    + intros x. destruct (Nat.eq_dec x d) as [->|D]; [intros _; apply V8; left; eauto|rewrite upd_other; auto].
Qed.
Lemma steps_inv es : forall s s', inv s -> steps s es = Some s' -> inv s'.
Proof.
  induction es as [|e es IH]; cbn; intros s s' V; [intros [= <-]; auto|]. destruct (step s e) as [s1|] eqn:E; [|discriminate]. apply IH. exact (step_inv s e s1 V E).
Qed.

(** ** Promises *)
Definition quiet (s : st) : Prop := (forall d, at_ s d = Counted true -> count s = 0%Z) /\ (forall d, In d (promised s) -> pend (at_ s d) = 0).
Lemma zero_over s d : inv s -> count s = 0%Z -> In d (given s) -> pend (at_ s d) = 0.
Proof. intros V Z0 J. pose proof (i_count s V). apply (sumw_zero pend (at_ s) (given s) d); auto. lia. Qed.
Lemma pend_upd f d v x : pend v <= pend (f d) -> pend (f x) = 0 -> pend (upd f d v x) = 0.
Proof. intros P H. destruct (Nat.eq_dec x d) as [->|D]; [rewrite upd_same; lia|now rewrite upd_other]. Qed.
Lemma step_quiet s e s' : inv s -> quiet s -> e <> Spurious -> (e = Ref -> forall d, at_ s d <> Counted true) -> step s e = Some s' -> quiet s'.
Proof.
  intros V (Q1 & Q2) NS PR ST. pose proof (step_inv s e s' V ST) as V'. revert ST. destruct e; cbn [step].
  - destruct (how s) eqn:H; try discriminate. destruct (prog s) as [|[d|] p] eqn:E; try discriminate. intros [= <-]. split; cbn [at_ count promised]; auto.
  - destruct (how s) eqn:H; try discriminate. destruct (prog s) as [|[d|] p] eqn:E; try discriminate. intros [= <-]. split; cbn [at_ count promised]; auto.
    intros d0 B. destruct (PR eq_refl d0 B).
  - destruct (how s) eqn:H; try discriminate. destruct (prog s) as [|[d|] p] eqn:E; try discriminate. intros [= <-].
    pose proof (i_count s V) as C. rewrite H in C.
    assert (NT : forall x, at_ s x <> Counted true) by (intros x B; specialize (Q1 x B); lia).
    destruct ok; split; cbn [at_ count promised]; auto.
    + intros x. destruct (Nat.eq_dec x d) as [->|D]; [rewrite upd_same; discriminate|rewrite upd_other by auto; intros B; destruct (NT x B)].
    + intros x J. destruct (Nat.eq_dec x d) as [->|D]; [|rewrite upd_other by auto; auto]. pose proof (i_prom s V d J) as G.
      pose proof (i_nodup s V) as N. rewrite E in N. destruct (NoDup_drop _ d _ N) as (_ & NI). destruct (NI G).
    + intros x B. destruct (NT x B).
  - destruct (how s) eqn:H; try discriminate. destruct (prog s) as [|[d|] p] eqn:E; try discriminate. destruct (Z.eqb_spec (count s) 0) as [Z0|Z0]; intros [= <-].
    + split; cbn [release at_ count promised]; auto. intros x J. apply zero_over; auto.
    + split; cbn [at_ count promised]; auto.
  - destruct (NS eq_refl).
  - destruct (at_ s d) eqn:A; try discriminate. intros [= <-]. split; cbn [put at_ count promised].
    + intros x. destruct (Nat.eq_dec x d) as [->|D]; [rewrite upd_same; discriminate|rewrite upd_other; eauto].
    + intros x J. apply pend_upd; auto. rewrite A. auto.
  - destruct (at_ s d) eqn:A; try discriminate. intros [= <-]. split; cbn [put at_ count promised].
    + intros x. destruct (Nat.eq_dec x d) as [->|D]; [rewrite upd_same; discriminate|rewrite upd_other; eauto].
    + intros x J. apply pend_upd; auto. rewrite A. auto.
  - destruct (at_ s d) eqn:A; try discriminate. intros [= <-]. split; cbn [unref at_ count promised].
    + intros x. destruct (Nat.eq_dec x d) as [->|D]; [rewrite upd_same; intros [= B]; lia|rewrite upd_other by auto].
      intros B. pose proof (Q1 x B) as Z0. pose proof (zero_over s d V Z0 (has_given s d V ltac:(congruence))) as P. rewrite A in P. discriminate.
    + intros x J. apply pend_upd; cbn; auto. lia.
  - destruct (at_ s d) eqn:A; try discriminate. intros [= <-]. split; cbn [put at_ count promised].
    + intros x. destruct (Nat.eq_dec x d) as [->|D]; [rewrite upd_same; discriminate|rewrite upd_other; eauto].
    + intros x J. apply pend_upd; auto. rewrite A. auto.
  - destruct (at_ s d) eqn:A; try discriminate. intros [= <-]. split; cbn [unref at_ count promised].
    + intros x. destruct (Nat.eq_dec x d) as [->|D]; [rewrite upd_same; intros [= B]; lia|rewrite upd_other by auto].
      intros B. pose proof (Q1 x B) as Z0. pose proof (zero_over s d V Z0 (has_given s d V ltac:(congruence))) as P. rewrite A in P. discriminate.
    + intros x J. apply pend_upd; cbn; auto. lia.
  - destruct (at_ s d) as [| | | |z| |] eqn:A; try discriminate. intros [= <-].
    assert (P1 : quiet (put s d Done)).
    { split; cbn [put at_ count promised].
      - intros x. destruct (Nat.eq_dec x d) as [->|D]; [rewrite upd_same; discriminate|rewrite upd_other; eauto].
      - intros x J. apply pend_upd; cbn; auto. lia. }
    destruct z; auto. destruct (how s) eqn:H; auto. destruct P1 as (P1 & _). split; cbn [release put at_ count promised given] in *; auto.
    intros x J. apply pend_upd; [cbn; lia|]. apply zero_over; auto. exact (Q1 d A).
Qed.
Lemma steps_quiet es : forall s s', inv s -> quiet s -> no_spurious es -> prompt s es -> steps s es = Some s' -> quiet s'.
Proof.
  induction es as [|e es IH]; cbn [steps prompt]; intros s s' V Q NS P; [intros [= <-]; auto|]. destruct (step s e) as [s1|] eqn:E; [|discriminate].
  destruct (P s1 eq_refl) as (P1 & P2). apply IH; auto.
  - exact (step_inv s e s1 V E).
  - apply (step_quiet s e s1); auto. intros ->. apply NS. now left.
  - intros K. apply NS. now right.
Qed.
Lemma promises_kept p es s : fair_prog p -> no_spurious es -> prompt (st0 p) es -> steps (st0 p) es = Some s ->
  forall d, In d (promised s) -> In d (got s) \/ In d (swept s).
Proof.
  intros F NS P R d J. pose proof (steps_inv es _ s (inv0 p F) R) as V.
  assert (Q : quiet s) by (apply (steps_quiet es (st0 p) s); auto; [now apply inv0|split; cbn; easy]).
  pose proof (proj2 Q d J) as D. pose proof (i_prom s V d J) as G. apply (i_past s V).
  destruct (at_ s d) as [| | | |z| |] eqn:A; try discriminate; eauto. destruct (i_away s V d) as [K _]. destruct (K A G).
Qed.

(** ** Swept and stopped workers *)
Lemma no_stop_step s e s' : step s e = Some s' -> (forall d, e <> Drop d) -> (forall d, e <> Sweep d) -> swept s' = swept s /\ forall d, at_ s' d = Lost -> at_ s d = Lost.
Proof.
  intros ST ND NW. revert ST. destruct e; cbn [step]; try (destruct (ND d eq_refl)); try (destruct (NW d eq_refl)).
  - destruct (how s); try discriminate. destruct (prog s) as [|[d|] p]; try discriminate. now intros [= <-].
  - destruct (how s); try discriminate. destruct (prog s) as [|[d|] p]; try discriminate. now intros [= <-].
  - destruct (how s); try discriminate. destruct (prog s) as [|[d|] p]; try discriminate. intros [= <-]. destruct ok; cbn; split; auto.
    intros x. destruct (Nat.eq_dec x d) as [->|D]; [rewrite upd_same; discriminate|rewrite upd_other; eauto].
  - destruct (how s); try discriminate. destruct (prog s) as [|[d|] p]; try discriminate. intros [= <-]. destruct (count s =? 0)%Z; auto.
  - destruct (how s); try discriminate. now intros [= <-].
  - destruct (at_ s d) eqn:A; try discriminate. intros [= <-]. cbn. split; auto. intros x. destruct (Nat.eq_dec x d) as [->|D]; [rewrite upd_same; discriminate|rewrite upd_other; auto].
  - destruct (at_ s d) eqn:A; try discriminate. intros [= <-]. cbn. split; auto. intros x. destruct (Nat.eq_dec x d) as [->|D]; [rewrite upd_same; discriminate|rewrite upd_other; auto].
  - destruct (at_ s d) eqn:A; try discriminate. intros [= <-]. cbn. split; auto. intros x. destruct (Nat.eq_dec x d) as [->|D]; [rewrite upd_same; discriminate|rewrite upd_other; auto].
  - destruct (at_ s d) as [| | | |z| |] eqn:A; try discriminate. intros [= <-].
    assert (G : swept (put s d Done) = swept s /\ forall x, at_ (put s d Done) x = Lost -> at_ s x = Lost).
    { cbn. split; auto. intros x. destruct (Nat.eq_dec x d) as [->|D]; [rewrite upd_same; discriminate|rewrite upd_other; auto]. }
    destruct z; auto. destruct (how s); auto.
Qed.
Lemma no_stop_steps es : forall s s', no_stop es -> steps s es = Some s' -> swept s' = swept s /\ forall d, at_ s' d = Lost -> at_ s d = Lost.
Proof.
  induction es as [|e es IH]; cbn [steps]; intros s s' N; [intros [= <-]; auto|]. destruct (step s e) as [s1|] eqn:E; [|discriminate]. intros R.
  destruct (IH s1 s') as (I1 & I2); auto.
  { intros d. destruct (N d) as (N1 & N2). split; intros K; [apply N1|apply N2]; now right. }
  destruct (no_stop_step s e s1 E) as (J1 & J2).
  - intros d ->. apply (proj1 (N d)). now left.
  - intros d ->. apply (proj2 (N d)). now left.
  - split; [congruence|auto].
Qed.

(** ** Progress *)
Lemma stuck_finished s : inv s -> (forall d, at_ s d <> Lost) -> stuck s -> finished s /\ forall d, over s d.
Proof.
  intros V NL S. assert (W : forall d, at_ s d = Away \/ at_ s d = Done).
  { intros d. destruct (at_ s d) as [| | | |z| |] eqn:A; auto; exfalso.
    - specialize (S (Start d) ltac:(discriminate)). cbn in S. rewrite A in S. discriminate.
    - specialize (S (Handle d) ltac:(discriminate)). cbn in S. rewrite A in S. discriminate.
    - specialize (S (Unref d) ltac:(discriminate)). cbn in S. rewrite A in S. discriminate.
    - specialize (S (Signal d) ltac:(discriminate)). cbn in S. rewrite A in S. discriminate.
    - exact (NL d A). }
  split; [|exact W].
  destruct (how s) eqn:H.
  - split; auto. destruct (prog s) as [|[d|] p] eqn:E; auto; exfalso.
    + specialize (S Ref ltac:(discriminate)). cbn in S. rewrite H, E in S. discriminate.
    + specialize (S Sync ltac:(discriminate)). cbn in S. rewrite H, E in S. discriminate.
  - exfalso. destruct (i_mid s V H) as (d & p & E). specialize (S (Push true) ltac:(discriminate)). cbn in S. rewrite H, E in S. discriminate.
  - exfalso. destruct (i_wait s V H) as (_ & [C|(d & A)]).
    + pose proof (i_count s V) as K. rewrite H in K. destruct (sumw_pos pend (at_ s) (given s)) as (d & J & P); [lia|].
      destruct (W d) as [B|B]; rewrite B in P; cbn in P; lia.
    + destruct (W d); congruence.
Qed.
(** The steps that are left. *)
Fixpoint todo (p : list instr) : nat := match p with [] => 0 | Give _ :: p => 6 + todo p | Await :: p => 2 + todo p end.
Definition remains (s : st) : nat := todo (prog s) + sumw left_ (at_ s) (given s) - match how s with Free => 0 | _ => 1 end.
Lemma step_less s e s' : inv s -> step s e = Some s' -> remains s' < remains s.
Proof.
  intros V. pose proof (NoDup_app_l _ _ (i_nodup s V)) as ND.
  assert (M : forall d v, at_ s d <> Away -> sumw left_ (upd (at_ s) d v) (given s) + left_ (at_ s d) = sumw left_ (at_ s) (given s) + left_ v).
  { intros d v A. apply sumw_in; auto. apply has_given; auto. }
  assert (T : how s <> Free -> 0 < todo (prog s)).
  { intros K. destruct (how s) eqn:H; [congruence| |].
    - destruct (i_mid s V H) as (x & p & E). rewrite E. cbn. lia.
    - destruct (i_wait s V H) as ((p & E) & _). rewrite E. cbn. lia. }
  unfold remains. destruct e; cbn [step].
  - destruct (how s) eqn:H; try discriminate. destruct (prog s) as [|[d|] p] eqn:E; try discriminate. intros [= <-]. cbn [prog how at_ given todo]. lia.
  - destruct (how s) eqn:H; try discriminate. destruct (prog s) as [|[d|] p] eqn:E; try discriminate. intros [= <-]. cbn [prog how at_ given todo]. lia.
  - destruct (how s) eqn:H; try discriminate. destruct (prog s) as [|[d|] p] eqn:E; try discriminate. intros [= <-].
    pose proof (i_nodup s V) as N. rewrite E in N. destruct (NoDup_drop _ d _ N) as (_ & NI).
    destruct ok; cbn [prog how at_ given todo]; [|lia]. rewrite sumw_app, sumw_out by auto. cbn [sumw]. rewrite upd_same. cbn [left_]. lia.
  - destruct (how s) eqn:H; try discriminate. destruct (prog s) as [|[d|] p] eqn:E; try discriminate. intros [= <-].
    destruct (count s =? 0)%Z; unfold release; cbn [prog how at_ given]; rewrite ?E; cbn [tl todo]; lia.
  - destruct (how s) eqn:H; try discriminate. intros [= <-]. destruct (i_wait s V H) as ((p & E) & _). unfold release; cbn [prog how at_ given]; rewrite E; cbn [tl todo]; lia.
  - destruct (at_ s d) eqn:A; try discriminate. intros [= <-]. cbn [put prog how at_ given]. pose proof (M d Busy ltac:(congruence)) as K. rewrite A in K. cbn [left_] in K.
    destruct (how s) eqn:H; [lia| |]; specialize (T ltac:(discriminate)); lia.
  - destruct (at_ s d) eqn:A; try discriminate. intros [= <-]. cbn [put prog how at_ given]. pose proof (M d Lost ltac:(congruence)) as K. rewrite A in K. cbn [left_] in K.
    destruct (how s) eqn:H; [lia| |]; specialize (T ltac:(discriminate)); lia.
  - destruct (at_ s d) eqn:A; try discriminate. intros [= <-]. cbn [unref prog how at_ given count]. pose proof (M d (Counted (count s - 1 =? 0)%Z) ltac:(congruence)) as K. rewrite A in K. cbn [left_] in K.
    destruct (how s) eqn:H; [lia| |]; specialize (T ltac:(discriminate)); lia.
  - destruct (at_ s d) eqn:A; try discriminate. intros [= <-]. cbn [put prog how at_ given]. pose proof (M d Handled ltac:(congruence)) as K. rewrite A in K. cbn [left_] in K.
    destruct (how s) eqn:H; [lia| |]; specialize (T ltac:(discriminate)); lia.
  - destruct (at_ s d) eqn:A; try discriminate. intros [= <-]. cbn [unref prog how at_ given count]. pose proof (M d (Counted (count s - 1 =? 0)%Z) ltac:(congruence)) as K. rewrite A in K. cbn [left_] in K.
    destruct (how s) eqn:H; [lia| |]; specialize (T ltac:(discriminate)); lia.
  - destruct (at_ s d) as [| | | |z| |] eqn:A; try discriminate. intros [= <-]. pose proof (M d Done ltac:(congruence)) as K. rewrite A in K. cbn [left_] in K.
    destruct z; [destruct (how s) eqn:H|]; unfold release; cbn [put prog how at_ given]; rewrite ?H; try specialize (T ltac:(discriminate)); try lia.
    + destruct (i_wait s V H) as ((p & E) & _). rewrite E in *. cbn [tl todo]. lia.
    + destruct (how s) eqn:H; [lia| |]; specialize (T ltac:(discriminate)); lia.
Qed.
Lemma steps_less es : forall s s', inv s -> steps s es = Some s' -> List.length es + remains s' <= remains s.
Proof.
  induction es as [|e es IH]; cbn [steps List.length]; intros s s' V; [intros [= <-]; lia|]. destruct (step s e) as [s1|] eqn:E; [|discriminate]. intros R.
  pose proof (step_less s e s1 V E). pose proof (IH s1 s' (step_inv s e s1 V E) R). lia.
Qed.
Lemma todo_budget p : todo p <= budget p.
Proof. unfold budget. induction p as [|[d|] p IH]; cbn [todo List.length]; lia. Qed.

(** ** One worker at a time needs no promptness *)
Fixpoint single (given_yet : bool) (p : list instr) : Prop :=
  match p with [] => True | Give _ :: p => given_yet = false /\ single true p | Await :: p => single given_yet p end.
Lemma single_mono b p : single true p -> single b p.
Proof. revert b. induction p as [|[d|] p IH]; cbn; auto. intros b (H & _). discriminate. Qed.
Lemma prompt_single es : forall s, inv s -> single (negb (match given s with [] => true | _ => false end)) (prog s) -> prompt s es.
Proof.
  induction es as [|e es IH]; cbn [prompt]; auto. intros s V SG s' ST. pose proof (step_inv s e s' V ST) as V'. split.
  - intros -> d A. pose proof (has_given s d V ltac:(congruence)) as J. destruct (given s) as [|x l] eqn:G; [easy|]. cbn [negb] in SG.
    cbn in ST. destruct (how s); try discriminate. destruct (prog s) as [|[y|] p] eqn:E; try discriminate. destruct SG. discriminate.
  - apply IH; auto. clear V V' IH. revert ST. destruct e; cbn [step].
    + destruct (how s); try discriminate. destruct (prog s) as [|[d|] p]; try discriminate. intros [= <-]. cbn [prog given]. destruct SG as (_ & SG). now apply single_mono.
    + destruct (how s); try discriminate. destruct (prog s) as [|[d|] p] eqn:E; try discriminate. intros [= <-]. cbn [prog given]. exact SG.
    + destruct (how s); try discriminate. destruct (prog s) as [|[d|] p]; try discriminate. intros [= <-]. destruct SG as (_ & SG). destruct ok; cbn [prog given]; now apply single_mono.
    + destruct (how s); try discriminate. destruct (prog s) as [|[d|] p] eqn:E; try discriminate. intros [= <-]. destruct (count s =? 0)%Z; cbn [release prog given]; rewrite ?E; auto.
    + destruct (how s); try discriminate. intros [= <-]. cbn [release prog given]. destruct (prog s) as [|[d|] p]; auto. destruct SG as (_ & SG). now apply single_mono.
    + destruct (at_ s d); try discriminate. now intros [= <-].
    + destruct (at_ s d); try discriminate. now intros [= <-].
    + destruct (at_ s d); try discriminate. now intros [= <-].
    + destruct (at_ s d); try discriminate. now intros [= <-].
    + destruct (at_ s d); try discriminate. now intros [= <-].
    + destruct (at_ s d) as [| | | |z| |]; try discriminate. intros [= <-]. destruct z; auto. destruct (how s); auto.
      cbn [release put prog given]. destruct (prog s) as [|[d0|] p]; auto. destruct SG as (_ & SG). now apply single_mono.
Qed.

(** ** What is promised at the end *)
Lemma step_prog s e s' : inv s -> step s e = Some s' ->
  (prog s' = prog s /\ given s' = given s /\ promised s' = promised s)
  \/ (exists d p, prog s = Give d :: p /\ prog s' = p /\ (given s' = given s \/ given s' = given s ++ [d]) /\ promised s' = promised s)
  \/ (exists p, prog s = Await :: p /\ prog s' = p /\ given s' = given s /\ promised s' = given s).
Proof.
  intros V. destruct e; cbn [step].
  - destruct (how s); try discriminate. destruct (prog s) as [|[d|] p]; try discriminate. intros [= <-]. right. left. exists d, p. cbn. auto.
  - destruct (how s); try discriminate. destruct (prog s) as [|[d|] p] eqn:E; try discriminate. intros [= <-]. left. cbn. rewrite ?E. auto.
  - destruct (how s); try discriminate. destruct (prog s) as [|[d|] p]; try discriminate. intros [= <-]. right. left. exists d, p. destruct ok; cbn; auto.
  - destruct (how s); try discriminate. destruct (prog s) as [|[d|] p] eqn:E; try discriminate. intros [= <-]. destruct (count s =? 0)%Z; cbn; rewrite ?E; auto.
    right. right. exists p. auto.
  - destruct (how s) eqn:H; try discriminate. destruct (i_wait s V H) as ((p & E) & _). intros [= <-]. cbn. rewrite ?E. right. right. exists p. auto.
  - destruct (at_ s d); try discriminate. intros [= <-]. cbn. auto.
  - destruct (at_ s d); try discriminate. intros [= <-]. cbn. auto.
  - destruct (at_ s d); try discriminate. intros [= <-]. cbn. auto.
  - destruct (at_ s d); try discriminate. intros [= <-]. cbn. auto.
  - destruct (at_ s d); try discriminate. intros [= <-]. cbn. auto.
  - destruct (at_ s d) as [| | | |z| |]; try discriminate. intros [= <-]. destruct z; cbn; auto. destruct (how s) eqn:H; cbn; auto.
    destruct (i_wait s V H) as ((p & E) & _). rewrite E. right. right. exists p. auto.
Qed.
Definition along (q rest : list instr) (s : st) : Prop :=
  (exists a, prog s = a ++ Await :: rest)
  \/ (~ In Await (prog s) /\ incl (targets (prog s)) (targets rest) /\ forall d, In d (given s) -> In d (promised s) \/ In d (targets rest)).
Lemma step_along q rest s e s' : ~ In Await rest -> inv s -> along q rest s -> step s e = Some s' -> along q rest s'.
Proof.
  intros NA V L ST. destruct (step_prog s e s' V ST) as [(E1 & E2 & E3)|[(d & p & E1 & E2 & E3 & E4)|(p & E1 & E2 & E3 & E4)]].
  - unfold along in *. rewrite E1, E2, E3. exact L.
  - destruct L as [(a & L)|(L1 & L2 & L3)].
    + left. rewrite E1 in L. destruct a as [|i a]; cbn in L; [discriminate|]. injection L as _ L. exists a. congruence.
    + right. rewrite E1 in L1, L2. rewrite E2, E4. cbn in L1, L2. split; [intros J; apply L1; now right|]. split; [intros x J; apply L2; now right|].
      intros x J. destruct E3 as [E3|E3]; rewrite E3 in J; auto. apply in_app_or in J. destruct J as [J|[J|[]]]; auto. right. apply L2. now left.
  - destruct L as [(a & L)|(L1 & _)]; [|rewrite E1 in L1; destruct L1; now left].
    rewrite E1 in L. destruct a as [|i a]; cbn in L.
    + right. injection L as L. rewrite E2, E3, E4, L. split; [exact NA|]. split; [intros x J; exact J|]. auto.
    + left. injection L as _ L. exists a. congruence.
Qed.
Lemma steps_along q rest es : forall s s', ~ In Await rest -> inv s -> along q rest s -> steps s es = Some s' -> along q rest s'.
Proof.
  induction es as [|e es IH]; cbn [steps]; intros s s' NA V L; [intros [= <-]; auto|]. destruct (step s e) as [s1|] eqn:E; [|discriminate].
  apply IH; auto; [exact (step_inv s e s1 V E)|exact (step_along q rest s e s1 NA V L E)].
Qed.
Lemma promised_at_end q rest es s : fair_prog (q ++ Await :: rest) -> ~ In Await rest -> steps (st0 (q ++ Await :: rest)) es = Some s -> ~ In Await (prog s) ->
  forall d, In d (given s) -> In d (promised s) \/ In d (targets rest).
Proof.
  intros F NA R E. destruct (steps_along q rest es _ s NA (inv0 _ F)) as [(a & L)|(_ & _ & L)]; auto.
  - left. exists q. reflexivity.
  - destruct E. rewrite L. apply in_or_app. right. now left.
Qed.

(** ** Workers that stop *)
Lemma lost_step s e s' : step s e = Some s' -> (forall d, e <> Drop d) -> forall d, at_ s' d = Lost -> at_ s d = Lost.
Proof.
  intros ST ND. destruct e; try (apply (no_stop_step s _ s' ST); discriminate); [destruct (ND d eq_refl)|].
  revert ST. cbn. destruct (at_ s d) eqn:A; try discriminate. intros [= <-]. cbn. intros x. destruct (Nat.eq_dec x d) as [->|D]; [rewrite upd_same; discriminate|rewrite upd_other; auto].
Qed.
Lemma lost_steps es : forall s s', (forall d, ~ In (Drop d) es) -> steps s es = Some s' -> forall d, at_ s' d = Lost -> at_ s d = Lost.
Proof.
  induction es as [|e es IH]; cbn [steps]; intros s s' N; [intros [= <-]; auto|]. destruct (step s e) as [s1|] eqn:E; [|discriminate]. intros R d L.
  apply (lost_step s e s1 E); [intros x ->; apply (N x); now left|]. apply (IH s1 s'); auto. intros x K. apply (N x). now right.
Qed.
Lemma targets_app p q : targets (p ++ q) = targets p ++ targets q.
Proof. unfold targets. now rewrite flat_map_app. Qed.
Lemma targets_give l : targets (map Give l) = l.
Proof. induction l as [|x l IH]; cbn; auto. unfold targets in IH. now rewrite IH. Qed.
Lemma fair_write n b : fair_prog (write_prog n b).
Proof.
  unfold fair_prog, write_prog. rewrite targets_app, targets_give. cbn. destruct b; cbn.
  - apply NoDup_snoc; [apply seq_NoDup|]. rewrite in_seq. lia.
  - rewrite app_nil_r. apply seq_NoDup.
Qed.
Lemma fair_broadcast m n : fair_prog (broadcast_prog m n).
Proof.
  unfold fair_prog, broadcast_prog. rewrite !targets_app, targets_give. cbn. rewrite app_nil_r. destruct (Nat.eqb_spec m 0) as [->|D].
  - cbn. apply seq_NoDup.
  - rewrite targets_app, targets_give. cbn. rewrite app_nil_r, <- seq_app. apply seq_NoDup.
Qed.
Lemma given_targets s e s' l : inv s -> (forall d, In d (given s) \/ In d (targets (prog s)) -> In d l) -> step s e = Some s' -> forall d, In d (given s') \/ In d (targets (prog s')) -> In d l.
Proof.
  intros V H ST x. destruct (step_prog s e s' V ST) as [(E1 & E2 & E3)|[(d & p & E1 & E2 & E3 & E4)|(p & E1 & E2 & E3 & E4)]].
  - rewrite E1, E2. apply H.
  - rewrite E1 in H. cbn in H. rewrite E2. intros [J|J]; [|apply H; right; now right].
    destruct E3 as [E3|E3]; rewrite E3 in J; [apply H; now left|]. apply in_app_or in J. destruct J as [J|[J|[]]]; apply H; auto. 
  - rewrite E1 in H. cbn in H. rewrite E2, E3. apply H.
Qed.
Lemma given_among p es s : fair_prog p -> steps (st0 p) es = Some s -> incl (given s) (targets p).
Proof.
  intros F. assert (G : forall es s0, inv s0 -> (forall d, In d (given s0) \/ In d (targets (prog s0)) -> In d (targets p)) -> steps s0 es = Some s -> incl (given s) (targets p)).
  { clear es. induction es as [|e es IH]; cbn [steps]; intros s0 V H; [intros [= <-] d J; apply H; now left|]. destruct (step s0 e) as [s1|] eqn:E; [|discriminate].
    apply IH; [exact (step_inv s0 e s1 V E)|exact (given_targets s0 e s1 _ V H E)]. }
  apply G; [now apply inv0|]. cbn. intros d [[]|J]; exact J.
Qed.
