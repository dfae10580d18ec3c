(** Lemmas for C78. *)
From Coq Require Import NArith ZArith List Bool Lia ZifyBool ZifyNat ZifyN.
From Verif Require Import Base BaseLemmas TextModel TextProofs2 AmountProofs PidModel PidSpec.
Import ListNotations.
Local Open Scope N_scope.

Lemma upd_same {A} (f : N -> A) p x : upd f p x p = x.
Proof. unfold upd. now rewrite N.eqb_refl. Qed.
Lemma upd_other {A} (f : N -> A) p x q : q <> p -> upd f p x q = f q.
Proof. intro H. unfold upd. apply N.eqb_neq in H. now rewrite H. Qed.

(** ** Reading the file *)
Lemma digit_space c : is_digit c = true -> is_space c = false.
Proof. unfold is_digit, is_space. lia. Qed.
Lemma to_space_digits d r : Forall (fun c => is_digit c = true) d -> to_space (d ++ 10 :: r) = d.
Proof. intro H. induction H as [|c d Hc Hd IH]; [reflexivity|]. cbn. rewrite (digit_space c Hc), IH. reflexivity. Qed.
Lemma lex_dec n : n < 2147483648 -> lex_i32 (dec n) = Ok (Z.of_N n).
Proof.
  intro H. pose proof (lex_i32_decZ (Z.of_N n)) as E. unfold decZ in E.
  destruct (Z.of_N n <? 0)%Z eqn:S0; [lia|]. rewrite N2Z.id in E. rewrite E.
  change (2 ^ 31)%Z with 2147483648%Z. replace ((- (2147483648) <=? Z.of_N n) && (Z.of_N n <? 2147483648))%Z with true by lia.
  reflexivity.
Qed.
Lemma pid_plain c t : c <> 43 -> pid_of (c :: t) = match lex_i32 (c :: t) with Ok z => Some z | _ => None end.
Proof. intro H. unfold pid_of. destruct c as [|p]; [reflexivity|]. repeat (destruct p as [p|p|]; try reflexivity). congruence. Qed.
Lemma pid_back p r : p < 2147483648 -> pid_of (first_word (dec p ++ 10 :: r)) = Some (Z.of_N p).
Proof.
  intro H. destruct (dec_head p) as (c & t & E & Hc). unfold first_word.
  assert (S0 : skip_space (dec p ++ 10 :: r) = dec p ++ 10 :: r).
  { rewrite E. cbn. rewrite digit_space by (unfold is_digit; lia). reflexivity. }
  rewrite S0, to_space_digits by apply dec_digits. rewrite E, pid_plain by lia. rewrite <- E, lex_dec by exact H. reflexivity.
Qed.

(** ** The invariant *)
Definition busy (x : stage) : Prop := match x with Checked | Opened _ | Running => True | _ => False end.
Definition ours (x : stage) : Prop := match x with Away | Other => False | _ => True end.
Record inv (s : st) : Prop := mkInv
  { one : forall p q, busy (at_ s p) -> busy (at_ s q) -> p = q;
    named : forall p, at_ s p = Running -> names s p;
    emptied : forall p i, at_ s p = Opened i -> file s = Some (i, []);
    small : forall p, ours (at_ s p) -> 1 <= p < 2147483648 }.
Lemma inv0 s : nobody s -> inv s.
Proof.
  intro H. split.
  - intros p q P _. destruct (H p) as [E|E]; rewrite E in P; destruct P.
  - intros p P. destruct (H p) as [E|E]; congruence.
  - intros p i P. destruct (H p) as [E|E]; congruence.
  - intros p P. destruct (H p) as [E|E]; rewrite E in P; destruct P.
Qed.
(** a process becomes one that neither runs nor enters *)
Lemma inv_move s p x : inv s -> ~ busy x -> (ours x -> 1 <= p < 2147483648) -> inv (move s p x).
Proof.
  intros [O N0 E S0] B U. split; cbn [at_ file move].
  - intros a b A0 B0. destruct (N.eq_dec a p) as [->|Na]; [rewrite upd_same in A0; contradiction|].
    destruct (N.eq_dec b p) as [->|Nb]; [rewrite upd_same in B0; contradiction|].
    rewrite upd_other in A0, B0 by assumption. auto.
  - intros a A0. destruct (N.eq_dec a p) as [->|Na]; [rewrite upd_same in A0; subst x; destruct B; exact Logic.I|].
    rewrite upd_other in A0 by assumption. exact (N0 a A0).
  - intros a i A0. destruct (N.eq_dec a p) as [->|Na]; [rewrite upd_same in A0; subst x; destruct B; exact Logic.I|].
    rewrite upd_other in A0 by assumption. exact (E a i A0).
  - intros a A0. destruct (N.eq_dec a p) as [->|Na]; [rewrite upd_same in A0; auto|].
    rewrite upd_other in A0 by assumption. exact (S0 a A0).
Qed.
(** the only busy process changes *)
Lemma inv_only s p x f n : inv s -> (forall q, busy (at_ s q) -> q = p) -> ours (at_ s p) ->
  (x = Running -> exists i, f = Some (i, dec p ++ [10])) -> (forall i, x = Opened i -> f = Some (i, [])) ->
  inv (mkSt f n (upd (at_ s) p x)).
Proof.
  intros [O N0 E S0] B U R F. split; cbn [at_ file].
  - intros a b A0 B0. assert (H : forall c, busy (upd (at_ s) p x c) -> c = p).
    { intros c C. destruct (N.eq_dec c p) as [->|Nc]; [reflexivity|]. rewrite upd_other in C by assumption. auto. }
    rewrite (H a A0), (H b B0). reflexivity.
  - intros a A0. destruct (N.eq_dec a p) as [->|Na]; [rewrite upd_same in A0; exact (R A0)|].
    rewrite upd_other in A0 by assumption. destruct Na. apply B. rewrite A0. exact Logic.I.
  - intros a i A0. destruct (N.eq_dec a p) as [->|Na]; [rewrite upd_same in A0; auto|].
    rewrite upd_other in A0 by assumption. destruct Na. apply B. rewrite A0. exact Logic.I.
  - intros a A0. destruct (N.eq_dec a p) as [->|Na]; [auto|]. rewrite upd_other in A0 by assumption. auto.
Qed.
Lemma exists_live groups s p : 1 <= p -> at_ s p <> Away -> exists_ groups s (Z.of_N p) = true.
Proof.
  intros P A. unfold exists_. replace (0 <? Z.of_N p)%Z with true by lia. rewrite N2Z.id. unfold alive. destruct (at_ s p); congruence.
Qed.
Lemma check_running groups s p q : inv s -> at_ s p = Starting -> at_ s q = Running ->
  step groups s (Check p) = Some (move s p Away).
Proof.
  intros I P Q. destruct (named s I q Q) as [i F]. cbn [step]. rewrite P, F.
  assert (S0 : 1 <= q < 2147483648) by (apply (small s I); rewrite Q; exact Logic.I).
  rewrite (pid_back q []) by lia. rewrite exists_live; [reflexivity|lia|congruence].
Qed.
Lemma step_inv groups s e s' : inv s -> calm s e -> step groups s e = Some s' -> inv s'.
Proof.
  intros I C E. destruct e as [p|p|p ok|p whole|p|p|p on]; cbn [step] in E.
  - destruct (at_ s p); try discriminate. destruct ((1 <=? p) && (p <? 2147483648)) eqn:B; [|discriminate]. injection E as <-.
    apply inv_move; auto. lia.
  - destruct (at_ s p) eqn:A; try discriminate.
    assert (S0 : 1 <= p < 2147483648) by (apply (small s I); rewrite A; exact Logic.I).
    assert (K : (forall q, at_ s q <> Running) -> inv (move s p Checked)).
    { intro NR. unfold move. apply inv_only; auto.
      - intros q Q. exfalso. cbn [calm] in C. specialize (C q). specialize (NR q). destruct (at_ s q); cbn in *; tauto.
      - rewrite A. exact Logic.I.
      - discriminate.
      - discriminate. }
    assert (W : inv (move s p Away)) by (apply inv_move; auto; contradiction).
    assert (D : s' = move s p Away \/ (s' = move s p Checked /\ forall q, at_ s q <> Running)).
    { destruct (file s) as [[i w]|] eqn:F.
      - destruct (pid_of (first_word w)) as [z|] eqn:Z0; [|injection E as <-; auto].
        destruct (exists_ groups s z) eqn:X; injection E as <-; [auto|]. right. split; [reflexivity|].
        intros q Q. destruct (named s I q Q) as [j G]. rewrite F in G. injection G as _ ->.
        assert (T0 : 1 <= q < 2147483648) by (apply (small s I); rewrite Q; exact Logic.I).
        rewrite (pid_back q []) in Z0 by lia. injection Z0 as <-. rewrite exists_live in X; [discriminate|lia|congruence].
      - injection E as <-. right. split; [reflexivity|]. intros q Q. destruct (named s I q Q) as [j G]. congruence. }
    destruct D as [->|[-> NR]]; auto.
  - destruct (at_ s p) eqn:A; try discriminate.
    assert (B : forall q, busy (at_ s q) -> q = p) by (intros q Q; apply (one s I); [exact Q|rewrite A; exact Logic.I]).
    assert (U : ours (at_ s p)) by (rewrite A; exact Logic.I).
    destruct ok; [|injection E as <-; apply inv_move; auto; contradiction].
    destruct (file s) as [[i w]|]; injection E as <-; apply inv_only; auto; try discriminate; intros j [= <-]; reflexivity.
  - destruct (at_ s p) eqn:A; try discriminate. cbn [calm] in C. subst whole.
    assert (B : forall q, busy (at_ s q) -> q = p) by (intros q Q; apply (one s I); [exact Q|rewrite A; exact Logic.I]).
    injection E as <-. rewrite (emptied s I p _ A), N.eqb_refl. cbn [andb]. rewrite skipn_nil, app_nil_r.
    apply inv_only; auto; [rewrite A; exact Logic.I| |discriminate]. intros _. exists inode. reflexivity.
  - destruct (at_ s p) eqn:A; try discriminate. injection E as <-.
    apply inv_only; auto; [|rewrite A; exact Logic.I|discriminate|discriminate].
    intros q Q. apply (one s I); [exact Q|rewrite A; exact Logic.I].
  - destruct (at_ s p) eqn:A; try discriminate; injection E as <-; apply inv_move; auto; contradiction.
  - destruct (at_ s p) eqn:A; try discriminate; destruct on; try discriminate; injection E as <-; apply inv_move; auto; contradiction.
Qed.
Lemma steps_inv groups es : forall s s', inv s -> all_calm groups s es -> steps groups s es = Some s' -> inv s'.
Proof.
  induction es as [|e es IH]; intros s s' I C E; cbn in *; [injection E as <-; exact I|].
  destruct C as [C1 C2]. destruct (step groups s e) as [s1|] eqn:E1; [|discriminate].
  apply (IH s1 s'); auto. eapply step_inv; eauto.
Qed.

(** ** A file that keeps every server from starting *)
(** [barred s f P]: nobody enters, and every server with a number in [P] is turned away by the file *)
Definition idle (s : st) : Prop := forall p, ~ busy (at_ s p).
Definition bars (w : bytes) (P : N -> Prop) : Prop :=
  forall z, pid_of (first_word w) = Some z -> forall p, P p -> z = Z.of_N p.
Definition numbered (P : N -> Prop) (e : event) : Prop := match e with Spawn p => P p | _ => True end.
Record barred (P : N -> Prop) (f : option (N * bytes)) (s : st) : Prop := mkBarred
  { b_file : file s = f; b_idle : idle s; b_num : forall p, ours (at_ s p) -> P p /\ 1 <= p }.
Lemma barred_step groups P i w s e s' : bars w P -> barred P (Some (i, w)) s -> numbered P e -> step groups s e = Some s' ->
  barred P (Some (i, w)) s'.
Proof.
  intros W [F I U] Q E.
  assert (M : forall p x, ~ busy x -> (ours x -> P p /\ 1 <= p) -> barred P (Some (i, w)) (move s p x)).
  { intros p x B O. split; cbn [file at_ move]; [exact F| |].
    - intros a A0. cbn [at_ move] in A0. destruct (N.eq_dec a p) as [->|Na]; [rewrite upd_same in A0; auto|]. rewrite upd_other in A0 by assumption. exact (I a A0).
    - intros a A0. destruct (N.eq_dec a p) as [->|Na]; [rewrite upd_same in A0; auto|]. rewrite upd_other in A0 by assumption. exact (U a A0). }
  destruct e as [p|p|p ok|p whole|p|p|p on]; cbn [step] in E.
  - destruct (at_ s p); try discriminate. destruct ((1 <=? p) && (p <? 2147483648)) eqn:B; [|discriminate]. injection E as <-.
    apply M; [auto|]. intros _. split; [exact Q|lia].
  - destruct (at_ s p) eqn:A; try discriminate. rewrite F in E. destruct (pid_of (first_word w)) as [z|] eqn:Z0.
    + destruct (U p) as [U1 U2]; [rewrite A; exact Logic.I|]. rewrite (W z Z0 p U1) in E.
      rewrite exists_live in E; [|exact U2|congruence]. injection E as <-. apply M; auto; contradiction.
    + injection E as <-. apply M; auto; contradiction.
  - exfalso. destruct (at_ s p) eqn:A; try discriminate. apply (I p). rewrite A. exact Logic.I.
  - exfalso. destruct (at_ s p) eqn:A; try discriminate. apply (I p). rewrite A. exact Logic.I.
  - exfalso. destruct (at_ s p) eqn:A; try discriminate. apply (I p). rewrite A. exact Logic.I.
  - destruct (at_ s p) eqn:A; try discriminate; injection E as <-; apply M; auto; contradiction.
  - destruct (at_ s p) eqn:A; try discriminate; destruct on; try discriminate; injection E as <-; apply M; auto; contradiction.
Qed.
Lemma barred_steps groups P i w es : forall s s', bars w P -> barred P (Some (i, w)) s -> Forall (numbered P) es ->
  steps groups s es = Some s' -> barred P (Some (i, w)) s'.
Proof.
  induction es as [|e es IH]; intros s s' W B Q E; cbn in E; [injection E as <-; exact B|].
  inversion Q as [|? ? Q1 Q2]; subst. destruct (step groups s e) as [s1|] eqn:E1; [|discriminate].
  apply (IH s1 s'); auto. eapply barred_step; eauto.
Qed.
Lemma nobody_barred P s i w : nobody s -> file s = Some (i, w) -> barred P (Some (i, w)) s.
Proof.
  intros H F. split; [exact F| |].
  - intros p B. destruct (H p) as [E|E]; rewrite E in B; destruct B.
  - intros p B. destruct (H p) as [E|E]; rewrite E in B; destruct B.
Qed.

(** ** Deciding whether a schedule is calm, for the examples *)
Definition subject (e : event) : N := match e with Spawn p | Check p | Open p _ | Write p _ | Stop p | Kill p | Others p _ => p end.
Lemma step_other groups s e s' q : step groups s e = Some s' -> q <> subject e -> at_ s' q = at_ s q.
Proof.
  intros E Q. destruct e; cbn [step subject] in *; destruct (at_ s p) eqn:A; try discriminate;
    repeat match type of E with context [match ?x with _ => _ end] => destruct x; try discriminate end;
    injection E as <-; cbn [at_ move]; apply upd_other; exact Q.
Qed.
Definition enteringb (x : stage) : bool := match x with Checked | Opened _ => true | _ => false end.
Fixpoint calmb (groups : Z -> bool) (ps : list N) (s : st) (es : list event) : bool :=
  match es with
  | [] => true
  | e :: es =>
      existsb (N.eqb (subject e)) ps
      && match e with Check _ => forallb (fun q => negb (enteringb (at_ s q))) ps | Write _ whole => whole | _ => true end
      && match step groups s e with Some s' => calmb groups ps s' es | None => true end
  end.
Lemma calmb_calm groups ps es : forall s, (forall q, ~ In q ps -> ~ entering (at_ s q)) -> calmb groups ps s es = true -> all_calm groups s es.
Proof.
  induction es as [|e es IH]; intros s H B; [exact Logic.I|]. cbn [calmb all_calm] in *. apply andb_true_iff in B. destruct B as [B C].
  apply andb_true_iff in B. destruct B as [A B]. apply existsb_exists in A. destruct A as (x & X & A). apply N.eqb_eq in A.
  split.
  - destruct e; cbn [calm]; auto. intros q Q. destruct (in_dec N.eq_dec q ps) as [J|J]; [|exact (H q J Q)].
    rewrite forallb_forall in B. specialize (B q J). destruct (at_ s q); cbn in *; try contradiction; discriminate.
  - destruct (step groups s e) as [s'|] eqn:E; [|exact Logic.I]. apply IH; [|exact C]. intros q Q.
    rewrite (step_other groups s e s' q E); [exact (H q Q)|]. intros ->. congruence.
Qed.

(** ** What is read from the file *)
Lemma blank_space c : is_space c = true <-> blank c.
Proof.
  unfold is_space, blank. cbn [In]. split.
  - intro H. assert (c = 9 \/ c = 10 \/ c = 11 \/ c = 12 \/ c = 13 \/ c = 32) by lia. intuition.
  - intros [<-|[<-|[<-|[<-|[<-|[<-|[]]]]]]]; reflexivity.
Qed.
Lemma word_read ws w r : Forall blank ws -> Forall (fun c => ~ blank c) w -> w <> [] -> (r = [] \/ exists b t, r = b :: t /\ blank b) ->
  first_word (ws ++ w ++ r) = w.
Proof.
  intros A B N0 R. unfold first_word.
  assert (E : skip_space (ws ++ w ++ r) = w ++ r).
  { induction A as [|c ws C A IH].
    - destruct w as [|c w]; [congruence|]. inversion B as [|? ? C _]; subst. cbn. destruct (is_space c) eqn:X; [|reflexivity].
      apply blank_space in X. contradiction.
    - cbn. apply blank_space in C. rewrite C. exact IH. }
  rewrite E. clear E N0. induction B as [|c w C B IH].
  - cbn. destruct R as [->|(b & t & -> & R)]; [reflexivity|]. cbn. apply blank_space in R. rewrite R. reflexivity.
  - cbn. destruct (is_space c) eqn:X; [apply blank_space in X; contradiction|]. rewrite IH. reflexivity.
Qed.
Lemma unsigned_numeral d : is_unsigned d = true <-> numeral d.
Proof.
  unfold is_unsigned, numeral. destruct d as [|c d]; [split; [discriminate|intros [H _]; congruence]|].
  rewrite forallb_forall, Forall_forall. split; [intro H; split; [discriminate|exact H]|intros [_ H]; exact H].
Qed.
Lemma lex_i64_written w z : lex_i64 w = Ok z <->
  (exists d, numeral d /\ ((w = d /\ z = Z.of_N (dec_val d)) \/ (w = 45 :: d /\ z = (- Z.of_N (dec_val d))%Z))) /\ (- 9223372036854775808 <= z < 9223372036854775808)%Z.
Proof.
  destruct w as [|c w].
  - split; [discriminate|]. intros ((d & (D & _) & [[E _]|[E _]]) & _); congruence.
  - destruct (N.eq_dec c 45) as [->|N0].
    + cbn [lex_i64]. split.
      * destruct (is_unsigned w && _) eqn:B; [|discriminate]. intro H. injection H as <-. apply andb_true_iff in B. destruct B as [B1 B2].
        apply unsigned_numeral in B1. split; [eauto|]. unfold i64_max in *. lia.
      * intros ((d & D & [[E _]|[E Z0]]) & L).
        { exfalso. destruct D as [_ D]. rewrite <- E in D. inversion D. discriminate. }
        injection E as <-. apply unsigned_numeral in D. rewrite D. unfold i64_max. replace (dec_val w <=? 9223372036854775807 + 1) with true by lia.
        cbn [andb]. congruence.
    + rewrite lex_i64_plain by exact N0. split.
      * destruct (is_unsigned (c :: w) && _) eqn:B; [|discriminate]. intro H. injection H as <-. apply andb_true_iff in B. destruct B as [B1 B2].
        apply unsigned_numeral in B1. split; [eauto|]. unfold i64_max in *. lia.
      * intros ((d & D & [[E Z0]|[E _]]) & L); [|congruence]. subst d. apply unsigned_numeral in D. rewrite D. unfold i64_max.
        replace (dec_val (c :: w) <=? 9223372036854775807) with true by lia. cbn [andb]. congruence.
Qed.
Lemma lex_i32_written w z : lex_i32 w = Ok z <->
  (exists d, numeral d /\ ((w = d /\ z = Z.of_N (dec_val d)) \/ (w = 45 :: d /\ z = (- Z.of_N (dec_val d))%Z))) /\ (- 2147483648 <= z < 2147483648)%Z.
Proof.
  unfold lex_i32. split.
  - destruct (lex_i64 w) as [| |v] eqn:E; cbn [bind]; try discriminate. apply lex_i64_written in E. destruct E as [E L].
    destruct ((-2147483648 <=? v) && (v <=? 2147483647))%Z eqn:B; [|discriminate]. intro H. injection H as <-. split; [exact E|lia].
  - intros [E L]. assert (H : lex_i64 w = Ok z) by (apply lex_i64_written; split; [exact E|lia]). rewrite H. cbn [bind].
    replace ((-2147483648 <=? z) && (z <=? 2147483647))%Z with true by lia. reflexivity.
Qed.
Lemma pid_of_plus d : pid_of (43 :: d) = match d with 45 :: _ => None | _ => match lex_i32 d with Ok z => Some z | _ => None end end.
Proof. destruct d as [|c d]; [reflexivity|]. cbn [pid_of]. destruct c as [|p]; [reflexivity|]. repeat (destruct p as [p|p|]; try reflexivity). Qed.
Lemma numeral_head d : numeral d -> exists c t, d = c :: t /\ 48 <= c <= 57.
Proof. intros [N0 D]. destruct d as [|c t]; [congruence|]. inversion D as [|? ? C _]; subst. unfold is_digit in C. exists c, t. split; [reflexivity|lia]. Qed.
Lemma pid_written w z : pid_of w = Some z <-> written w z /\ (- 2147483648 <= z < 2147483648)%Z.
Proof.
  assert (K : forall v, match lex_i32 v with Ok z => Some z | _ => None end = Some z <-> lex_i32 v = Ok z).
  { intro v. destruct (lex_i32 v); split; congruence. }
  destruct w as [|c w].
  - split; [discriminate|]. intros ([(d & D & [E|E] & _)|(d & D & E & _)] & _); try discriminate. destruct D as [D _]. congruence.
  - destruct (N.eq_dec c 43) as [->|N0].
    + rewrite pid_of_plus. split.
      * intro H. assert (L : lex_i32 w = Ok z /\ forall t, w <> 45 :: t).
        { destruct w as [|a t]; [apply K in H; split; [exact H|discriminate]|].
          destruct (N.eq_dec a 45) as [->|Na]; [discriminate|]. split; [|congruence]. apply K.
          destruct a as [|q]; [exact H|]. repeat (destruct q as [q|q|]; try exact H; try congruence). }
        destruct L as [L NM]. apply lex_i32_written in L. destruct L as ((d & D & [[E Z0]|[E _]]) & L); [|exfalso; exact (NM d E)].
        subst d. split; [left; eauto|exact L].
      * intros ([(d & D & [E|E] & Z0)|(d & D & E & _)] & L); [|injection E as ->|discriminate].
        { exfalso. destruct (numeral_head d D) as (a & t & Q & B). rewrite Q in E. injection E as <- _. lia. }
        destruct (numeral_head d D) as (a & t & Q & B).
        assert (H : lex_i32 d = Ok z) by (apply lex_i32_written; split; [eauto|exact L]). rewrite <- K in H. rewrite Q in H |- *.
        destruct a as [|q]; [exact H|]. clear - B H. repeat (destruct q as [q|q|]; try exact H; try lia).
    + rewrite pid_plain by exact N0. rewrite K, lex_i32_written. split.
      * intros ((d & D & [[E Z0]|[E Z0]]) & L); (split; [|exact L]); [left|right]; eauto.
      * intros ([(d & D & [E|E] & Z0)|(d & D & E & Z0)] & L); (split; [|exact L]); [eauto|congruence|eauto].
Qed.
