(** Property C72: replication requests of which only some are answered. *)
From Coq Require Import List Bool Arith ZArith Lia.
From Verif Require Import WindowModel WindowSpec WindowProofs.
Import ListNotations.

(** With one slave, in every schedule: each answer that is read is that of the request it is
    read for, one is read exactly for the requests that ask for it, and of the requests to the
    slave at most [limit] in a row do not. *)
Theorem c72_one_slave_partial limit es s d : one_slave es -> steps limit st0 es = Some s ->
  own_answers (asked s d) (reads s d) /\ runs_within (Z.to_nat limit) (asked s d).
Proof.
  intros ON R. destruct (alone0 es ON) as (o & A). split.
  - apply tidy_own. exact (steps_tidy limit es st0 s tidy0 (alone_apart limit o es st0 A) R).
  - exact (proj1 (proj2 (steps_windowed limit o es st0 s A (windowed0 limit) R d))).
Qed.
Print Assumptions c72_one_slave_partial.
(** Without a window, for any number of slaves: every request asks for an answer and
    gets its own. *)
Theorem c72_off limit es s d : (limit <= 0)%Z -> steps limit st0 es = Some s ->
  own_answers (asked s d) (reads s d) /\ forall i b, In (i, b) (asked s d) -> b = false.
Proof.
  intros L R. destruct (no_marks limit es L st0 s) as (A & _); auto; [intros; discriminate|]. split; [apply tidy_own; exact (steps_tidy limit es st0 s tidy0 A R)|].
  assert (G : forall es s0, (forall d i, at_ s0 d <> Marks i) -> (forall i, bit s0 i = false) -> (forall i b, In (i, b) (asked s0 d) -> b = false) ->
              steps limit s0 es = Some s -> forall i b, In (i, b) (asked s d) -> b = false).
  { clear es R A. induction es as [|e es IH]; cbn [steps]; intros s0 NM NB H; [intros [= <-]; auto|]. destruct (step limit s0 e) as [s1|] eqn:E; [|discriminate]. intros R.
    assert (R1 : steps limit s0 [e] = Some s1) by (cbn [steps]; now rewrite E). destruct (no_marks limit [e] L s0 s1 NM NB R1) as (_ & NB1).
    apply (IH s1); auto.
    - revert E. destruct e as [x i|x|x|x|x]; cbn [step].
      + intros [= <-]. exact NM.
      + destruct (at_ s0 x) eqn:P; try discriminate. destruct (queue s0 x) as [|i q]; try discriminate. rewrite (proj2 (Z.leb_le limit 0) L), orb_true_r. intros [= <-] y j. cbn. at_worker y x; auto. discriminate.
      + destruct (at_ s0 x) eqn:P; try discriminate. destruct (NM _ _ P).
      + destruct (at_ s0 x) eqn:P; try discriminate. intros [= <-] y j. cbn. at_worker y x; auto. discriminate.
      + destruct (at_ s0 x) as [| | |i b] eqn:P; try discriminate. rewrite NB. destruct (way s0 x); try discriminate. intros [= <-] y j. cbn. at_worker y x; auto. discriminate.
    - revert E. destruct e as [x i|x|x|x|x]; cbn [step].
      + intros [= <-]. exact H.
      + destruct (at_ s0 x) eqn:P; try discriminate. destruct (queue s0 x) as [|i q]; try discriminate. rewrite (proj2 (Z.leb_le limit 0) L), orb_true_r. intros [= <-]. exact H.
      + destruct (at_ s0 x) eqn:P; try discriminate. destruct (NM _ _ P).
      + destruct (at_ s0 x) eqn:P; try discriminate. rewrite NB. intros [= <-] j b. cbn. at_worker d x; [|eauto]. intros J. apply in_app_or in J. destruct J as [J|[J|[]]]; [eauto|congruence].
      + destruct (at_ s0 x) as [| | |i b] eqn:P; try discriminate. rewrite NB. destruct (way s0 x); try discriminate. intros [= <-]. exact H. }
  apply (G es st0); auto; [intros; discriminate|easy].
Qed.
Print Assumptions c72_off.
(** With more slaves the answers are those of their requests if no entry is marked by one
    worker while another one is between writing its request and reading its answer. *)
Theorem c72_own_partial limit es s d : apart limit st0 es -> steps limit st0 es = Some s -> own_answers (asked s d) (reads s d).
Proof. intros A R. apply tidy_own. exact (steps_tidy limit es st0 s tidy0 A R). Qed.
Print Assumptions c72_own_partial.
Lemma succ_mod l m : S m mod S l = if m mod S l =? l then 0 else S (m mod S l).
Proof.
  pose proof (Nat.div_mod m (S l) ltac:(lia)) as D. pose proof (Nat.mod_upper_bound m (S l) ltac:(lia)) as B. destruct (Nat.eqb_spec (m mod S l) l) as [E|E].
  - symmetry. apply (Nat.mod_unique _ _ (S (m / S l))); lia.
  - symmetry. apply (Nat.mod_unique _ _ (m / S l)); lia.
Qed.
Lemma patterned_snoc l a x : patterned l a -> snd x = says_noreply l (List.length a) -> patterned l (a ++ [x]).
Proof.
  intros P E n y H. destruct (Nat.lt_ge_cases n (List.length a)) as [L|L]; [rewrite nth_error_app1 in H by exact L; exact (P n y H)|].
  rewrite nth_error_app2 in H by exact L. destruct (n - List.length a) as [|k] eqn:K; [|destruct k; discriminate H]. injection H as <-. replace n with (List.length a) by lia. exact E.
Qed.
Definition paced (l : nat) (s : st) : Prop := forall d, patterned l (asked s d) /\ (0 <= sent s d <= Z.of_nat l)%Z /\
  let m := List.length (asked s d) mod S l in
  match at_ s d with
  | Marks _ => Z.to_nat (sent s d) = S m
  | Judged i => if bit s i then Z.to_nat (sent s d) = S m else m = l /\ sent s d = 0%Z
  | _ => Z.to_nat (sent s d) = m
  end.
Lemma step_paced l owner s e s' rest : 0 < l -> alone owner s (e :: rest) -> paced l s -> step (Z.of_nat l) s e = Some s' -> paced l s'.
Proof.
  intros L [A1 A2 A3 A4] W. destruct e as [d i|d|d|d|d]; cbn [step].
  - intros [= <-] x. exact (W x).
  - pose proof (W d) as WD. destruct (at_ s d) eqn:P; try discriminate. destruct (queue s d) as [|i q] eqn:Q; try discriminate.
    assert (B : bit s i = false).
    { destruct (bit s i) eqn:B; auto. destruct (A4 i B) as (_ & B2 & _). destruct B2. assert (OW : owner i = d).
      { apply A1. unfold mine. rewrite Q. apply in_or_app. right. apply in_or_app. right. now left. }
      rewrite OW, Q. now left. }
    rewrite B. cbn [orb]. intros [= <-]. destruct (Z.leb_spec (Z.of_nat l) 0) as [K|K]; [lia|]. destruct (Z.ltb_spec (sent s d) (Z.of_nat l)) as [L2|L2]; intros x; specialize (W x); cbn [at_ bit sent asked].
    + at_worker x d; auto. destruct WD as (D1 & D2 & D3). split; [exact D1|]. split; [lia|]. cbv zeta in *. lia.
    + at_worker x d; auto. rewrite B. destruct WD as (D1 & D2 & D3). split; [exact D1|]. split; [lia|]. cbv zeta in *. lia.
  - pose proof (W d) as WD. destruct (at_ s d) as [|i|i|i b] eqn:P; try discriminate. intros [= <-] x. specialize (W x). cbn [at_ bit sent asked].
    assert (OW : owner i = d) by (apply A1; unfold mine; rewrite P; apply in_or_app; right; now left).
    at_worker x d; [rewrite ?upd_same; exact WD|]. destruct (at_ s x) as [|j|j|j b] eqn:PX; auto. rewrite upd_other; auto. intros ->.
    assert (O2 : owner i = x) by (apply A1; unfold mine; rewrite PX; apply in_or_app; right; now left). congruence.
  - pose proof (W d) as WD. destruct (at_ s d) as [|i|i|i b] eqn:P; try discriminate. intros [= <-] x. specialize (W x). cbn [at_ bit sent asked].
    at_worker x d; auto. destruct WD as (D1 & D2 & D3). cbv zeta in *. rewrite app_length. cbn [List.length]. rewrite Nat.add_1_r, succ_mod.
    pose proof (Nat.mod_upper_bound (List.length (asked s d)) (S l) ltac:(lia)) as MB.
    destruct (bit s i) eqn:B.
    + assert (NE : List.length (asked s d) mod S l <> l) by lia. apply Nat.eqb_neq in NE. rewrite NE. split; [|split; [exact D2|exact D3]].
      apply patterned_snoc; [exact D1|]. cbn [snd]. unfold says_noreply. now rewrite NE.
    + destruct D3 as [D3 D4]. rewrite D3, Nat.eqb_refl, D4. split; [|split; [lia|reflexivity]].
      apply patterned_snoc; [exact D1|]. cbn [snd]. unfold says_noreply. now rewrite D3, Nat.eqb_refl.
  - pose proof (W d) as WD. destruct (at_ s d) as [|i|i|i b] eqn:P; try discriminate. intros ST.
    assert (G : forall w o, mkSt (bit s) (queue s) (upd (at_ s) d Idle) (sent s) w (asked s) (upd (reads s) d (reads s d ++ [(i, o)])) = s' -> paced l s').
    { intros w o <- x. specialize (W x). cbn [at_ bit sent asked]. at_worker x d; auto. }
    destruct (bit s i); [injection ST as ST; exact (G _ _ ST)|]. destruct (way s d); [discriminate|]. injection ST as ST. exact (G _ _ ST).
Qed.
(** The window exactly: of the requests to one slave, after each [limit] that do not ask for an answer one does. *)
Theorem c72_pattern l es s d : 0 < l -> one_slave es -> steps (Z.of_nat l) st0 es = Some s -> patterned l (asked s d).
Proof.
  intros L ON. destruct (alone0 es ON) as (o & A). assert (P0 : paced l st0).
  { intros x. split; [intros n y H; destruct n; discriminate H|]. split; [cbn; lia|]. cbn [at_ st0 asked sent List.length]. cbv zeta. rewrite Nat.mod_0_l by lia. reflexivity. }
  intros R. assert (G : paced l s); [|exact (proj1 (G d))]. clear ON. revert A P0 R. generalize st0. induction es as [|e es IH]; intros s0 A P0 R; cbn [steps] in R; [injection R as <-; exact P0|].
  destruct (step (Z.of_nat l) s0 e) as [s1|] eqn:E; [|discriminate R]. exact (IH s1 (step_alone _ _ _ _ _ _ A E) (step_paced l o s0 e s1 es L A P0 E) R).
Qed.
Print Assumptions c72_pattern.
Definition one_by_one (i : nat) (m : bool) : list event := [Enq 0 i; Judge 0] ++ (if m then [Mark 0] else []) ++ [Write 0; Read 0].
Example c72_pattern_met : let es := one_by_one 1 true ++ one_by_one 2 true ++ one_by_one 3 false ++ one_by_one 4 true in one_slave es /\
  exists s, steps 2 st0 es = Some s /\ asked s 0 = [(1, true); (2, true); (3, false); (4, true)].
Proof.
  cbv zeta. split.
  - split; [exists (fun _ => 0); cbn; intros d i H; repeat (destruct H as [H|H]; [congruence|]); contradiction|].
    intros d. cbn. destruct d; cbn; repeat constructor; cbn; intuition discriminate.
  - eexists. split; vm_compute; reflexivity.
Qed.
(** In no schedule does a worker wait for an answer that does not come. *)
Theorem c72_goes_on limit es s d i b : steps limit st0 es = Some s -> at_ s d = Wrote i b -> exists s', step limit s (Read d) = Some s'.
Proof.
  intros R P. assert (V : served s) by (apply (steps_served limit es st0 s); [intros x j c H; discriminate|exact R]). specialize (V d i b P). cbn [step]. rewrite P.
  destruct (bit s i) eqn:B; [eauto|]. destruct b; [congruence|]. destruct (way s d); [easy|eauto].
Qed.
Print Assumptions c72_goes_on.

(** One slave, window of two: two requests without answer, one with. *)
Definition ev1 (i : nat) : list event := [Enq 0 i; Judge 0; Mark 0; Write 0; Read 0].
Definition ev2 (i : nat) : list event := [Enq 0 i; Judge 0; Write 0; Read 0].
Definition ex_run : list event := ev1 0 ++ ev1 1 ++ ev2 2 ++ ev1 3.
Example c72_example : exists s, steps 2 st0 ex_run = Some s /\ one_slave ex_run /\
  asked s 0 = [(0, true); (1, true); (2, false); (3, true)] /\ reads s 0 = [(0, None); (1, None); (2, Some 2); (3, None)].
Proof.
  eexists. split; [vm_compute; reflexivity|]. split; [|split; reflexivity]. split.
  - exists (fun _ => 0). intros d i H. cbn in H. intuition (try discriminate); congruence.
  - intros d. destruct d; cbn; repeat constructor; cbn; intuition discriminate.
Qed.

(** ** What fails with two slaves *)
(** Worker 1 has asked for an answer to entry 1; worker 0 marks the entry before it is
    read.  Worker 1 leaves the answer on the connection and takes it for that to entry 3. *)
Definition stale_run : list event :=
  [Enq 0 0; Enq 1 0; Judge 1; Mark 1; Write 1; Read 1; Judge 0; Write 0; Read 0;
   Enq 0 1; Enq 1 1; Judge 1; Write 1; Judge 0; Mark 0; Write 0; Read 0; Read 1;
   Enq 0 2; Enq 1 2; Judge 1; Mark 1; Write 1; Read 1;
   Enq 0 3; Enq 1 3; Judge 1; Write 1; Read 1].
Theorem c72_stale_refuted : exists s, steps 1 st0 stale_run = Some s /\
  asked s 1 = [(0, true); (1, false); (2, true); (3, false)] /\ reads s 1 = [(0, None); (1, None); (2, None); (3, Some 1)] /\ ~ own_answers (asked s 1) (reads s 1).
Proof. eexists. split; [vm_compute; reflexivity|]. split; [reflexivity|]. split; [reflexivity|]. vm_compute. discriminate. Qed.
Print Assumptions c72_stale_refuted.
(** Entries that one worker has marked are not counted by the other: with a window of one,
    three requests in a row ask for no answer, even if the workers take turns. *)
Definition turn (a b i : nat) (m : bool) : list event := [Judge a] ++ (if m then [Mark a] else []) ++ [Write a; Read a].
Definition long_run : list event :=
  [Enq 0 0; Enq 1 0] ++ turn 0 1 0 true ++ turn 1 0 0 false ++
  [Enq 0 1; Enq 1 1] ++ turn 0 1 1 false ++ turn 1 0 1 true ++
  [Enq 0 2; Enq 1 2] ++ turn 0 1 2 true ++ turn 1 0 2 false.
Theorem c72_window_refuted : exists s, steps 1 st0 long_run = Some s /\ asked s 1 = [(0, true); (1, true); (2, true)] /\ ~ runs_within 1 (asked s 1).
Proof.
  eexists. split; [vm_compute; reflexivity|]. split; [reflexivity|]. intros H. specialize (H [] [(0, true); (1, true); (2, true)] [] eq_refl).
  cbn in H. assert (3 <= 1); [apply H; repeat constructor|lia].
Qed.
Print Assumptions c72_window_refuted.
