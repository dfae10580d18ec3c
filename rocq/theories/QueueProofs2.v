From Coq Require Import List Bool NArith ZArith Lia.
From Coq Require Import ZifyBool ZifyNat ZifyN.
From Verif Require Import QueueModel QueueSpec QueueProofs.
Import ListNotations.

(** ** Nobody is released early *)
Definition rel (s : st) : Prop := forall i, stage_of s i = Released -> In i (settled s).
Lemma signal_stage s i j : stage_of (signal s i) j = Released -> j = i \/ stage_of s j = Released.
Proof.
  unfold signal. destruct (Z.eqb _ _); [|auto]. destruct (stage_of s i); auto. cbn. destruct (N.eq_dec j i) as [->|NE]; [auto|rewrite upd_other by auto; auto].
Qed.
Lemma signal_settled s i : settled (signal s i) = settled s.
Proof. unfold signal. destruct (Z.eqb _ _); [|auto]. destruct (stage_of s i); auto. Qed.
Lemma wake_settled s : settled (wake s) = settled s.
Proof. unfold wake. destruct (at_ s); auto. Qed.
Lemma wake_stage_of s : stage_of (wake s) = stage_of s.
Proof. unfold wake. destruct (at_ s); auto. Qed.
Lemma rel_stage s i g : rel s -> (g = Released -> In i (settled s)) -> rel (set_stage s i g).
Proof. intros R G j. cbn. destruct (N.eq_dec j i) as [->|NE]; [rewrite upd_same; auto|rewrite upd_other by auto; auto]. Qed.
Lemma rel_signal s i p : rel s -> In i (settled s) -> rel (signal (set_place s p) i).
Proof. intros R I j J. rewrite signal_settled. apply signal_stage in J as [->|J]; auto. Qed.
Lemma rel_grow s s' : rel s -> (forall j, stage_of s' j = Released -> stage_of s j = Released) -> (forall j, In j (settled s) -> In j (settled s')) -> rel s'.
Proof. intros R A B j J. auto. Qed.

Lemma rel_step k s e s' : inv s -> rel s -> no_spurious e = true -> step k s e = Some s' -> rel s'.
Proof.
  intros V R NS E. destruct e as [i|i|i room|i|i|i| | | | |i]; cbn [step] in E.
  - destruct (stage_of s i) eqn:G; try discriminate E. injection E as <-. intros j. cbn. destruct (N.eq_dec j i) as [->|NE]; [rewrite upd_same; discriminate|rewrite upd_other by auto; auto].
  - destruct (stage_of s i) eqn:G; try discriminate E. injection E as <-. apply rel_stage; auto. destruct (running s); discriminate.
  - destruct (stage_of s i) eqn:G; try discriminate E. destruct room; injection E as <-; [|apply rel_stage; auto; discriminate].
    intros j. cbn. destruct (N.eq_dec j i) as [->|NE]; [rewrite upd_same; discriminate|rewrite upd_other by auto; auto].
  - destruct (stage_of s i) eqn:G; try discriminate E. injection E as <-. rewrite wake_stage. apply rel_stage; [|discriminate].
    intros j. rewrite wake_settled, wake_stage_of. auto.
  - destruct (stage_of s i) eqn:G; try discriminate E. injection E as <-. apply rel_stage; [|discriminate].
    intros j J. cbn. apply in_or_app. left. auto.
  - destruct (stage_of s i) eqn:G; try discriminate E. injection E as <-. apply rel_stage; auto.
    destruct (Z.eqb_spec (refs s i) 0) as [Z|Z]; [|discriminate]. intros _. rewrite (v_refs s V), G, cnt_in in Z by apply V.
    destruct (in_dec N.eq_dec i (settled s)); [auto|discriminate Z].
  - pose proof (v_signal s V) as VS. destruct (at_ s) as [ | | | |i|i|i| |i| |i| | ] eqn:A; try discriminate E; try injection E as <-.
    + exact R.
    + destruct (queue s); exact R.
    + destruct (queue s); exact R.
    + destruct (shut s); [destruct (releases k)|]; injection E as <-; try exact R. intros j J. cbn. apply in_or_app. left. auto.
    + intros j J. cbn. apply in_or_app. left. auto.
    + apply rel_signal; auto.
    + exact R.
    + apply rel_signal; auto.
    + destruct (queue s); [exact R|]. intros j J. cbn. apply in_or_app. left. auto.
    + apply rel_signal; auto.
  - destruct (at_ s) eqn:A; try discriminate E. destruct (timed k); [|discriminate E]. injection E as <-. exact R.
  - injection E as <-. destruct (running s); [|exact R]. intros j. rewrite wake_settled, wake_stage_of. apply R.
  - destruct (at_ s) eqn:A; try discriminate E. injection E as <-. exact R.
  - discriminate NS.
Qed.
Lemma rel_steps k : forall es s s', inv s -> rel s -> forallb no_spurious es = true -> steps k s es = Some s' -> rel s'.
Proof.
  induction es as [|e es IH]; cbn [steps forallb]; intros s s' V R NS E; [now injection E as <-|]. apply andb_prop in NS as (N1 & N2).
  destruct (step k s e) as [s1|] eqn:S; [|discriminate E]. apply (IH s1); auto; [eapply inv_step; eauto|eapply rel_step; eauto].
Qed.

(** ** Without a shutdown everything gets done *)
Definition active (p : place) : bool := match p with Top | Enter | Asleep | Awake | Holds _ | Works _ | Signals _ => true | _ => false end.
Definition live (s : st) : Prop := shut s = false /\ active (at_ s) = true.
Lemma signal_fields s i : queue (signal s i) = queue s /\ at_ (signal s i) = at_ s /\ shut (signal s i) = shut s /\ pushed (signal s i) = pushed s.
Proof. unfold signal. destruct (Z.eqb _ _); [|auto]. destruct (stage_of s i); auto. Qed.
Lemma wake_fields s : queue (wake s) = queue s /\ shut (wake s) = shut s /\ at_ (wake s) = (match at_ s with Asleep => Awake | p => p end) /\ pushed (wake s) = pushed s.
Proof. unfold wake. destruct (at_ s) eqn:E; cbn; auto. Qed.
Lemma live_step k s e s' : uses_null k = false -> live s -> quiet e = true -> step k s e = Some s' -> live s'.
Proof.
  intros U (SH & A) Q E. unfold live. destruct e as [i|i|i room|i|i|i| | | | |i]; cbn [step quiet] in *; try discriminate Q.
  - destruct (stage_of s i); try discriminate E. injection E as <-. auto.
  - destruct (stage_of s i); try discriminate E. injection E as <-. auto.
  - destruct (stage_of s i); try discriminate E. destruct room; injection E as <-; auto.
  - destruct (stage_of s i); try discriminate E. injection E as <-. destruct (wake_fields (set_stage s i Sent)) as (_ & B & C & _). rewrite B, C. cbn. destruct (at_ s); auto.
  - destruct (stage_of s i); try discriminate E. injection E as <-. auto.
  - destruct (stage_of s i); try discriminate E. injection E as <-. auto.
  - destruct (at_ s) as [ | | | |i|i|i| |i| |i| | ] eqn:P; try discriminate A; try discriminate E; rewrite ?SH, ?U in E; try injection E as <-; cbn; auto.
    + destruct (queue s); cbn; auto.
    + destruct (queue s); cbn; auto.
    + destruct (signal_fields (set_place s Top) i) as (_ & B & C & _). rewrite B, C. auto.
  - destruct (at_ s) eqn:P; try discriminate E. destruct (timed k); [|discriminate E]. injection E as <-. auto.
Qed.
Lemma live_steps k : uses_null k = false -> forall es s s', live s -> forallb quiet es = true -> steps k s es = Some s' -> live s'.
Proof.
  intros U. induction es as [|e es IH]; cbn [steps forallb]; intros s s' L Q E; [now injection E as <-|]. apply andb_prop in Q as (N1 & N2).
  destruct (step k s e) as [s1|] eqn:S; [|discriminate E]. apply (IH s1); auto. eapply live_step; eauto.
Qed.
Lemma steps_app k : forall es es' s s1 s2, steps k s es = Some s1 -> steps k s1 es' = Some s2 -> steps k s (es ++ es') = Some s2.
Proof.
  induction es as [|e es IH]; cbn [steps app]; intros es' s s1 s2 A B; [now injection A as ->|].
  destruct (step k s e); [eapply IH; eauto|discriminate A].
Qed.

(** Worker steps up to the next call of dequeue. *)
Definition reaches (k : kind) (s s' : st) : Prop :=
  exists es, forallb internal es = true /\ steps k s es = Some s'.
Lemma reaches_trans k s s1 s2 : reaches k s s1 -> reaches k s1 s2 -> reaches k s s2.
Proof. intros (e1 & I1 & S1) (e2 & I2 & S2). exists (e1 ++ e2). split; [rewrite forallb_app, I1, I2; auto|eapply steps_app; eauto]. Qed.
Lemma reaches_one k s s' : step k s Worker = Some s' -> reaches k s s'.
Proof. intros E. exists [Worker]. cbn [steps]. rewrite E. auto. Qed.

Lemma to_enter_top k s : live s -> at_ s = Top -> exists s', reaches k s s' /\ live s' /\ at_ s' = Enter /\ queue s' = queue s /\ pushed s' = pushed s.
Proof.
  intros (SH & _) A. exists (set_place s Enter). split; [apply reaches_one; cbn; now rewrite A, SH|]. cbn. repeat split; auto.
Qed.
Lemma to_enter_signals k s i : live s -> at_ s = Signals i -> exists s', reaches k s s' /\ live s' /\ at_ s' = Enter /\ queue s' = queue s /\ pushed s' = pushed s.
Proof.
  intros (SH & _) A. set (s1 := signal (set_place s Top) i). destruct (signal_fields (set_place s Top) i) as (Q1 & A1 & S1 & P1). fold s1 in Q1, A1, S1, P1.
  destruct (to_enter_top k s1) as (s2 & R & L & A2 & Q2 & P2); auto; [split; [rewrite S1; auto|rewrite A1; auto]|].
  exists s2. split; [|rewrite Q2, P2; auto]. eapply reaches_trans; [apply reaches_one; cbn; rewrite A; reflexivity|exact R].
Qed.
Lemma to_enter_works k s i : live s -> at_ s = Works i -> exists s', reaches k s s' /\ live s' /\ at_ s' = Enter /\ queue s' = queue s /\ pushed s' = pushed s.
Proof.
  intros (SH & _) A. destruct (to_enter_signals k (unref (set_place s (Signals i)) i) i) as (s2 & R & L & A2 & Q2 & P2); auto; [split; auto|].
  exists s2. split; [|rewrite Q2, P2; auto]. eapply reaches_trans; [apply reaches_one; cbn; rewrite A; reflexivity|exact R].
Qed.
Lemma to_enter_holds k s i : live s -> at_ s = Holds i -> exists s', reaches k s s' /\ live s' /\ at_ s' = Enter /\ queue s' = queue s /\ pushed s' = pushed s.
Proof.
  intros (SH & _) A.
  destruct (to_enter_works k (mkSt (queue s) (Works i) (running s) false (stage_of s) (refs s) (pushed s) (taken s) (handled s ++ [i]) (settled s)) i) as (s2 & R & L & A2 & Q2 & P2); auto; [split; auto|].
  exists s2. split; [|rewrite Q2, P2; auto]. eapply reaches_trans; [apply reaches_one; cbn [step]; rewrite A, SH; reflexivity|exact R].
Qed.
Lemma to_enter_take k s i q : live s -> (at_ s = Enter \/ at_ s = Awake) -> queue s = i :: q -> exists s', reaches k s s' /\ live s' /\ at_ s' = Enter /\ queue s' = q /\ pushed s' = pushed s.
Proof.
  intros (SH & _) A Q. destruct (to_enter_holds k (take s i q) i) as (s2 & R & L & A2 & Q2 & P2); auto; [split; auto|].
  exists s2. split; [|rewrite Q2, P2; auto]. eapply reaches_trans; [|exact R]. apply reaches_one. destruct A as [A|A]; cbn [step]; rewrite A, Q; reflexivity.
Qed.
Lemma drain_enter k : forall n s, uses_null k = false -> live s -> at_ s = Enter -> length (queue s) = n ->
  exists s', reaches k s s' /\ live s' /\ at_ s' = Asleep /\ queue s' = [] /\ pushed s' = pushed s.
Proof.
  induction n as [|n IH]; intros s U L A N; destruct (queue s) as [|i q] eqn:Q; try discriminate N.
  - exists (set_place s Asleep). split; [apply reaches_one; cbn; now rewrite A, Q|]. destruct L. cbn. repeat split; auto.
  - destruct (to_enter_take k s i q L (or_introl A) Q) as (s1 & R1 & L1 & A1 & Q1 & P1).
    destruct (IH s1 U L1 A1) as (s2 & R2 & L2 & A2 & Q2 & P2); [rewrite Q1; now injection N|].
    exists s2. split; [eapply reaches_trans; eauto|]. rewrite P2. auto.
Qed.
Lemma drain k s : uses_null k = false -> inv s -> live s -> exists s', reaches k s s' /\ at_ s' = Asleep /\ queue s' = [] /\ pushed s' = pushed s.
Proof.
  intros U V L. assert (H : (at_ s = Asleep /\ queue s = []) \/ exists s', reaches k s s' /\ live s' /\ at_ s' = Enter /\ pushed s' = pushed s).
  { pose proof L as (SH & A). destruct (at_ s) as [ | | | |i|i|i| |i| |i| | ] eqn:P; try discriminate A.
    - right. destruct (to_enter_top k s L P) as (s' & X). exists s'. tauto.
    - right. exists s. split; [exists []; auto|auto].
    - destruct (queue s) as [|i q] eqn:Q; [auto|]. right.
      assert (G : stage_of s i = Pushed) by (apply (v_asleep s V); [exact P|rewrite Q; now left]).
      set (s1 := wake (set_stage s i Sent)). destruct (wake_fields (set_stage s i Sent)) as (W1 & W2 & W3 & W4). fold s1 in W1, W2, W3, W4. cbn in W1, W2, W3, W4. rewrite P in W3.
      destruct (to_enter_take k s1 i q) as (s2 & R & X & Y & Q2 & Z2); auto; [split; [rewrite W2; auto|rewrite W3; auto]|rewrite W1; auto|].
      exists s2. split; [|rewrite Z2; auto]. eapply reaches_trans; [|exact R]. exists [Send i]. cbn [steps step forallb internal]. rewrite G. auto.
    - right. destruct (queue s) as [|i q] eqn:Q.
      + destruct (to_enter_top k (set_place s Top)) as (s' & R & X); auto; [split; auto|]. exists s'. split; [|tauto].
        eapply reaches_trans; [|exact R]. apply reaches_one. cbn. rewrite P, Q, SH, U. reflexivity.
      + destruct (to_enter_take k s i q L (or_intror P) Q) as (s' & X). exists s'. tauto.
    - right. destruct (to_enter_holds k s i L P) as (s' & X). exists s'. tauto.
    - right. destruct (to_enter_works k s i L P) as (s' & X). exists s'. tauto.
    - right. destruct (to_enter_signals k s i L P) as (s' & X). exists s'. tauto. }
  destruct H as [(A & Q)|(s1 & R & L1 & A1 & P1)].
  - exists s. split; [exists []; auto|auto].
  - destruct (drain_enter k _ s1 U L1 A1 eq_refl) as (s2 & R2 & _ & A2 & Q2 & P2). exists s2. split; [eapply reaches_trans; eauto|]. rewrite P2. auto.
Qed.
(** At rest everything has been handled and nobody waits. *)
Lemma rest s : inv s -> at_ s = Asleep -> queue s = [] -> handled s = pushed s /\ forall i, stage_of s i <> Waits.
Proof.
  intros V A Q. pose proof (v_place s V) as P. rewrite A in P. pose proof (v_split s V) as S. rewrite Q, app_nil_r in S.
  split; [congruence|]. intros i W. assert (I : In i (handled s)) by (rewrite <- P, <- S; apply (v_in s V); now rewrite W).
  destruct (v_done s V i I) as [D|D]; [|congruence]. destruct (v_waits s V i W D) as [H|[H|H]]; congruence.
Qed.

(** ** A worker that releases what it does not process *)
Definition sound (s : st) : Prop := forall i, In i (taken s) -> In i (settled s) \/ at_ s = Holds i \/ at_ s = Works i.
Lemma signal_taken s i : taken (signal s i) = taken s.
Proof. unfold signal. destruct (Z.eqb _ _); [|auto]. destruct (stage_of s i); auto. Qed.
Lemma wake_taken s : taken (wake s) = taken s.
Proof. unfold wake. destruct (at_ s); auto. Qed.
Lemma sound_step k s e s' : releases k = true -> sound s -> step k s e = Some s' -> sound s'.
Proof.
  intros RL R E. destruct e as [i|i|i room|i|i|i| | | | |i]; cbn [step] in E.
  - destruct (stage_of s i) eqn:G; try discriminate E. injection E as <-. exact R.
  - destruct (stage_of s i) eqn:G; try discriminate E. injection E as <-. exact R.
  - destruct (stage_of s i) eqn:G; try discriminate E. destruct room; injection E as <-; exact R.
  - destruct (stage_of s i) eqn:G; try discriminate E. injection E as <-. intros j. rewrite wake_taken, wake_settled. cbn. intros J.
    destruct (wake_fields (set_stage s i Sent)) as (_ & _ & -> & _). cbn. destruct (R j J) as [H|H]; auto. right. destruct (at_ s); auto; destruct H; discriminate H.
  - destruct (stage_of s i) eqn:G; try discriminate E. injection E as <-. intros j J. cbn in *. destruct (R j J); auto. left. apply in_or_app. auto.
  - destruct (stage_of s i) eqn:G; try discriminate E. injection E as <-. exact R.
  - destruct (at_ s) as [ | | | |i|i|i| |i| |i| | ] eqn:A; try discriminate E; try injection E as <-.
    + intros j J. destruct (R j J) as [H|[H|H]]; auto; congruence.
    + destruct (queue s); intros j J; cbn in *.
      * destruct (R j J) as [H|[H|H]]; auto; congruence.
      * apply in_app_or in J as [J|[->|[]]]; [|auto]. destruct (R j J) as [H|[H|H]]; auto; congruence.
    + destruct (queue s); intros j J; cbn in *.
      * destruct (R j J) as [H|[H|H]]; auto; congruence.
      * apply in_app_or in J as [J|[->|[]]]; [|auto]. destruct (R j J) as [H|[H|H]]; auto; congruence.
    + destruct (shut s); [rewrite RL in E|]; injection E as <-; intros j J; cbn in *.
      * left. apply in_or_app. destruct (R j J) as [H|[H|H]]; auto; [right; left; congruence|congruence].
      * destruct (R j J) as [H|[H|H]]; auto; [right; right; congruence|congruence].
    + intros j J; cbn in *. left. apply in_or_app. destruct (R j J) as [H|[H|H]]; auto; [congruence|right; left; congruence].
    + intros j. rewrite signal_taken, signal_settled. intros J. destruct (R j J) as [H|[H|H]]; auto; congruence.
    + intros j J. destruct (R j J) as [H|[H|H]]; auto; congruence.
    + intros j. rewrite signal_taken, signal_settled. intros J. destruct (R j J) as [H|[H|H]]; auto; congruence.
    + destruct (queue s); intros j J; cbn in *.
      * destruct (R j J) as [H|[H|H]]; auto; congruence.
      * left. apply in_or_app. apply in_app_or in J as [J|[->|[]]]; [|right; now left]. destruct (R j J) as [H|[H|H]]; auto; congruence.
    + intros j. rewrite signal_taken, signal_settled. intros J. destruct (R j J) as [H|[H|H]]; auto; congruence.
  - destruct (at_ s) eqn:A; try discriminate E. destruct (timed k); [|discriminate E]. injection E as <-. intros j J. destruct (R j J) as [H|[H|H]]; auto; congruence.
  - injection E as <-. destruct (running s); [|exact R]. intros j. rewrite wake_taken, wake_settled. unfold wake. cbn. intros J.
    destruct (R j J) as [H|H]; auto. right. destruct (at_ s); auto; destruct H; discriminate H.
  - destruct (at_ s) eqn:A; try discriminate E. injection E as <-. intros j J. destruct (R j J) as [H|[H|H]]; auto; congruence.
  - destruct (stage_of s i) eqn:G; try discriminate E. injection E as <-. exact R.
Qed.
Lemma sound_steps k : releases k = true -> forall es s s', sound s -> steps k s es = Some s' -> sound s'.
Proof.
  intros RL. induction es as [|e es IH]; cbn [steps]; intros s s' R E; [now injection E as <-|].
  destruct (step k s e) as [s1|] eqn:S; [|discriminate E]. apply (IH s1); auto. eapply sound_step; eauto.
Qed.

(** ** A worker that is gone releases nobody *)
Lemma stuck_step k s e s' i : at_ s = Swept -> stage_of s i = Waits -> no_spurious e = true -> step k s e = Some s' -> at_ s' = Swept /\ stage_of s' i = Waits.
Proof.
  intros A W NS E. assert (ST : forall j g, stage_of s j <> Waits -> stage_of (set_stage s j g) i = Waits).
  { intros j g NW. cbn. rewrite upd_other; [exact W|]. intros ->. congruence. }
  destruct e as [j|j|j room|j|j|j| | | | |j]; cbn [step] in E; try discriminate NS.
  - destruct (stage_of s j) eqn:G; try discriminate E. injection E as <-. split; [exact A|]. cbn. rewrite upd_other; [exact W|congruence].
  - destruct (stage_of s j) eqn:G; try discriminate E. injection E as <-. split; [exact A|]. apply ST. congruence.
  - destruct (stage_of s j) eqn:G; try discriminate E. destruct room; injection E as <-; (split; [exact A|]); [|apply ST; congruence]. cbn. rewrite upd_other; [exact W|congruence].
  - destruct (stage_of s j) eqn:G; try discriminate E. injection E as <-. destruct (wake_fields (set_stage s j Sent)) as (_ & _ & -> & _). cbn [at_ set_stage]. rewrite A. split; [auto|].
    rewrite wake_stage_of. apply ST. congruence.
  - destruct (stage_of s j) eqn:G; try discriminate E. injection E as <-. split; [exact A|]. cbn. rewrite upd_other; [exact W|congruence].
  - destruct (stage_of s j) eqn:G; try discriminate E. injection E as <-. split; [exact A|]. apply ST. congruence.
  - rewrite A in E. discriminate E.
  - rewrite A in E. discriminate E.
  - injection E as <-. destruct (running s); [|auto]. unfold wake. cbn. rewrite A. auto.
  - rewrite A in E. discriminate E.
Qed.
Lemma stuck_steps k i : forall es s s', at_ s = Swept -> stage_of s i = Waits -> forallb no_spurious es = true -> steps k s es = Some s' -> stage_of s' i = Waits.
Proof.
  induction es as [|e es IH]; cbn [steps forallb]; intros s s' A W NS E; [now injection E as <-|]. apply andb_prop in NS as (N1 & N2).
  destruct (step k s e) as [s1|] eqn:S; [|discriminate E]. destruct (stuck_step k s e s1 i A W N1 S). now apply (IH s1).
Qed.

(** ** The limit *)
Definition admitted (max : N) (l : load) (w : nat) : bool := match inside l w with Some size => N.ltb size max | None => false end.
Definition pending (max : N) (n : nat) (l : load) : nat := length (filter (admitted max l) (seq 0 n)).
Lemma filter_ext_len (f g : nat -> bool) l : (forall x, In x l -> f x = g x) -> length (filter f l) = length (filter g l).
Proof. intros H. now rewrite (filter_ext_in f g l H). Qed.
Lemma pending_upd max l n w v t : (w < n)%nat -> admitted max (mkLoad t (updn (inside l) w v)) w = match v with Some size => N.ltb size max | None => false end /\
  pending max n (mkLoad t (updn (inside l) w v)) + (if admitted max l w then 1 else 0) = pending max n l + (if match v with Some size => N.ltb size max | None => false end then 1 else 0).
Proof.
  intros L. unfold admitted at 1. cbn. unfold updn at 1. rewrite Nat.eqb_refl. split; [reflexivity|].
  unfold pending. set (l' := mkLoad t (updn (inside l) w v)).
  assert (SP : seq 0 n = seq 0 w ++ w :: seq (S w) (n - S w)).
  { replace n with (w + S (n - S w)) at 1 by lia. rewrite seq_app. reflexivity. }
  rewrite SP, !filter_app, !app_length. cbn [filter].
  assert (O : forall x, x <> w -> admitted max l' x = admitted max l x). { intros x NE. unfold admitted, l'. cbn. unfold updn. apply Nat.eqb_neq in NE. now rewrite NE. }
  assert (W : admitted max l' w = match v with Some size => N.ltb size max | None => false end). { unfold admitted, l'. cbn. unfold updn. now rewrite Nat.eqb_refl. }
  rewrite (filter_ext_len (admitted max l') (admitted max l) (seq 0 w)) by (intros x I; apply in_seq in I; apply O; lia).
  rewrite W. assert (F : filter (admitted max l') (seq (S w) (n - S w)) = filter (admitted max l) (seq (S w) (n - S w))) by (apply filter_ext_in; intros x I; apply in_seq in I; apply O; lia).
  rewrite F. destruct (match v with Some size => N.ltb size max | None => false end), (admitted max l w); cbn [length]; lia.
Qed.
Definition of_workers (n : nat) (e : levent) : Prop := match e with ReadSize w | PushOrNot w | Pop w => (w < n)%nat end.
Lemma pending_le max n l w : (w < n)%nat -> inside l w = None -> (pending max n l < n)%nat.
Proof.
  intros L I. pose proof (pending_upd max l n w (Some 0%N) (total l) L) as (_ & H). unfold admitted in H at 1. rewrite I in H.
  assert (B : forall l', (pending max n l' <= n)%nat).
  { intros l'. unfold pending. rewrite <- (seq_length n 0) at 2. generalize (seq 0 n) as m. induction m as [|x m IH]; cbn; [lia|]. destruct (admitted max l' x); cbn; lia. }
  pose proof (B (mkLoad (total l) (updn (inside l) w (Some 0%N)))). destruct (N.ltb 0 max) eqn:M; [lia|].
  (* a limit of 0 admits nobody *)
  unfold pending. assert (Z : filter (admitted max l) (seq 0 n) = []).
  { clear - M. assert (max = 0%N) by lia. subst. induction (seq 0 n) as [|x m IH]; cbn; [auto|]. unfold admitted at 1. destruct (inside l x); [rewrite (proj2 (N.ltb_ge n0 0)) by lia|]; exact IH. }
  rewrite Z. cbn. lia.
Qed.
Lemma load_bound max n : (0 < max)%N -> (0 < n)%nat -> forall es l l', Forall (of_workers n) es ->
  (total l + N.of_nat (pending max n l) <= max + N.of_nat n - 1)%N -> lsteps max l es = Some l' ->
  (total l' + N.of_nat (pending max n l') <= max + N.of_nat n - 1)%N.
Proof.
  intros M N0. induction es as [|e es IH]; intros l l' F B E; cbn [lsteps] in E; [now injection E as <-|].
  inversion F as [|? ? F1 F2]; subst. destruct (lstep max l e) as [l1|] eqn:S; [|discriminate E]. apply (IH l1 l'); auto. clear IH E.
  destruct e as [w|w|w]; cbn [lstep of_workers] in *.
  - destruct (inside l w) as [x|] eqn:I; [discriminate S|]. injection S as <-. cbn [total].
    destruct (pending_upd max l n w (Some (total l)) (total l) F1) as (_ & H). pose proof (pending_le max n l w F1 I).
    unfold admitted in H at 1. rewrite I in H. destruct (N.ltb_spec (total l) max); lia.
  - destruct (inside l w) as [x|] eqn:I; [|discriminate S]. injection S as <-. cbn [total].
    match goal with |- context [pending max n (mkLoad ?t _)] => destruct (pending_upd max l n w None t F1) as (_ & H) end.
    unfold admitted in H at 1. rewrite I in H. assert (M0 : N.eqb max 0 = false) by lia. rewrite M0 in *. cbn [orb] in *.
    destruct (N.ltb_spec x max); cbv beta iota in *; lia.
  - destruct (inside l w) as [x|] eqn:I; [discriminate S|]. destruct (N.eqb_spec (total l) 0); [discriminate S|]. injection S as <-. cbn [total].
    replace (pending max n (mkLoad (total l - 1) (inside l))) with (pending max n l) by reflexivity. lia.
Qed.

Lemma handled_prefix s : inv s -> prefix (handled s) (pushed s).
Proof.
  intros V. assert (T : exists d, taken s = handled s ++ d).
  { pose proof (v_place s V) as P. destruct (at_ s); try exact P; try (exists []; rewrite app_nil_r; exact P). exists [i]. exact P. }
  destruct T as (d & T). exists (d ++ queue s). rewrite (v_split s V), T. now rewrite app_assoc.
Qed.
Lemma settled_handled s i : inv s -> match at_ s with Top | Enter | Asleep | Awake | Holds _ | Works _ | Signals _ => True | _ => False end ->
  In i (settled s) -> In i (handled s) \/ stage_of s i = Failed.
Proof.
  intros V A I. pose proof (v_place s V) as P. destruct (v_settled s V i I) as ([F|T] & NH & NW); [auto|]. left.
  destruct (at_ s); try contradiction; rewrite P in T; auto. apply in_app_or in T as [T|[->|[]]]; [auto|]. now elim NH.
Qed.
Lemma wakeup_coming k s i : inv s -> stage_of s i = Waits -> In i (settled s) ->
  exists s', step k s Worker = Some s' /\ stage_of s' i = Released.
Proof.
  intros V W I. assert (Z : refs s i = 0%Z).
  { rewrite (v_refs s V), W, cnt_in by apply V. destruct (in_dec N.eq_dec i (settled s)); [reflexivity|contradiction]. }
  assert (S : forall p, stage_of (signal (set_place s p) i) i = Released).
  { intros p. unfold signal. cbn [refs set_place stage_of]. rewrite Z, W. cbn. apply upd_same. }
  destruct (v_waits s V i W I) as [A|[A|A]]; cbn [step]; rewrite A; eexists; split; try reflexivity; apply S.
Qed.

Lemma wake_place s p : at_ (wake s) = p -> p <> Awake -> at_ s = p.
Proof. unfold wake. destruct (at_ s) eqn:E; cbn; intros <-; congruence. Qed.
Lemma signal_place s i : at_ (signal s i) = at_ s.
Proof. unfold signal. destruct (Z.eqb _ _); [|reflexivity]. destruct (stage_of s i); reflexivity. Qed.
Lemma no_null_step k s e s' : uses_null k = false -> at_ s <> Crashed -> step k s e = Some s' -> at_ s' <> Crashed.
Proof.
  intros U N E C. destruct e as [i|i|i room|i|i|i| | | | |i]; cbn [step] in E.
  - destruct (stage_of s i); try discriminate E. injection E as <-. now apply N.
  - destruct (stage_of s i); try discriminate E. injection E as <-. now apply N.
  - destruct (stage_of s i); try discriminate E. destruct room; injection E as <-; now apply N.
  - destruct (stage_of s i); try discriminate E. injection E as <-. apply wake_place in C; [|discriminate]. now apply N.
  - destruct (stage_of s i); try discriminate E. injection E as <-. now apply N.
  - destruct (stage_of s i); try discriminate E. injection E as <-. now apply N.
  - destruct (at_ s) as [| | | |i|i|i| |i| |i| |] eqn:P; try discriminate E.
    + injection E as <-. cbn in C. destruct (shut s); discriminate C.
    + injection E as <-. destruct (queue s); discriminate C.
    + injection E as <-. rewrite U in C. destruct (queue s); [|discriminate C]. cbn in C. destruct (shut s); discriminate C.
    + destruct (shut s); [|injection E as <-; discriminate C]. destruct (releases k); injection E as <-; discriminate C.
    + injection E as <-. discriminate C.
    + injection E as <-. rewrite signal_place in C. discriminate C.
    + injection E as <-. discriminate C.
    + injection E as <-. rewrite signal_place in C. discriminate C.
    + injection E as <-. destruct (queue s); discriminate C.
    + injection E as <-. rewrite signal_place in C. discriminate C.
  - destruct (at_ s) eqn:P; try discriminate E. destruct (timed k); [|discriminate E]. injection E as <-. discriminate C.
  - destruct (running s); injection E as <-; [apply wake_place in C; [|discriminate]|]; now apply N.
  - destruct (at_ s) eqn:P; try discriminate E. injection E as <-. discriminate C.
  - destruct (stage_of s i); try discriminate E. injection E as <-. now apply N.
Qed.
