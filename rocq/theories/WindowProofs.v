From Coq Require Import List Bool Arith ZArith Lia ZifyBool ZifyNat.
From Verif Require Import WindowModel WindowSpec.
Import ListNotations.

Lemma upd_same {A} (f : nat -> A) d v : upd f d v d = v.
Proof. unfold upd. now rewrite Nat.eqb_refl. Qed.
Lemma upd_other {A} (f : nat -> A) d v x : x <> d -> upd f d v x = f x.
Proof. intros H. unfold upd. now rewrite (proj2 (Nat.eqb_neq x d) H). Qed.
Ltac at_worker x d := destruct (Nat.eq_dec x d) as [->|]; [rewrite ?upd_same in *|rewrite ?upd_other in * by assumption].

Definition expected (x : nat * bool) : nat * option nat := (fst x, if snd x then None else Some (fst x)).
(** ** Own answers *)
Definition tidy (s : st) : Prop := forall d,
  match at_ s d with
  | Wrote i b => b = bit s i /\ way s d = (if b then [] else [i]) /\ exists l, asked s d = l ++ [(i, b)] /\ reads s d = map expected l
  | _ => way s d = [] /\ reads s d = map expected (asked s d)
  end.
Lemma step_tidy limit s e s' : tidy s -> (forall d i d' b, e = Mark d -> at_ s d = Marks i -> at_ s d' <> Wrote i b) -> step limit s e = Some s' -> tidy s'.
Proof.
  intros T A. destruct e as [d i|d|d|d|d]; cbn [step].
  - intros [= <-] x. exact (T x).
  - pose proof (T d) as TD. destruct (at_ s d) eqn:P; try discriminate. destruct (queue s d) as [|i q]; try discriminate. intros [= <-].
    destruct (bit s i || (limit <=? 0)%Z); [|destruct (sent s d <? limit)%Z]; intros x; pose proof (T x); cbn [at_ bit way asked reads]; at_worker x d; auto.
  - pose proof (T d) as TD. destruct (at_ s d) eqn:P; try discriminate. intros [= <-]. intros x. pose proof (T x) as TX. cbn [at_ bit way asked reads]. at_worker x d; auto.
    destruct (at_ s x) as [| | |j b] eqn:PX; auto. rewrite upd_other; auto. intros ->. exact (A d i x b eq_refl P PX).
  - pose proof (T d) as TD. destruct (at_ s d) eqn:P; try discriminate. intros [= <-]. intros x. pose proof (T x) as TX. cbn [at_ bit way asked reads]. at_worker x d.
    + split; auto. destruct TD as (T1 & T2). split; [destruct (bit s i); [auto|rewrite upd_same, T1; auto]|]. exists (asked s d). auto.
    + destruct (bit s i); [|rewrite upd_other by assumption]; exact TX.
  - pose proof (T d) as TD. destruct (at_ s d) as [| | |i b] eqn:P; try discriminate. destruct TD as (-> & T2 & l & T3 & T4). destruct (bit s i) eqn:B.
    + intros [= <-]. intros x. pose proof (T x) as TX. cbn [at_ bit way asked reads]. at_worker x d; auto. split; auto. rewrite T3, T4, map_app. reflexivity.
    + rewrite T2. intros [= <-]. intros x. pose proof (T x) as TX. cbn [at_ bit way asked reads]. at_worker x d; auto. split; auto. rewrite T3, T4, map_app. reflexivity.
Qed.
Lemma tidy0 : tidy st0.
Proof. intros d. cbn. auto. Qed.
Lemma steps_tidy limit es : forall s s', tidy s -> apart limit s es -> steps limit s es = Some s' -> tidy s'.
Proof.
  induction es as [|e es IH]; cbn [steps apart]; intros s s' T A; [intros [= <-]; auto|]. destruct (step limit s e) as [s1|] eqn:E; [|discriminate].
  destruct (A s1 eq_refl) as (A1 & A2). apply IH; auto. exact (step_tidy limit s e s1 T A1 E).
Qed.
Lemma map_firstn_all {A B} (f : A -> B) l l' : firstn (List.length (map f l)) (l ++ l') = l.
Proof. rewrite map_length, firstn_app, Nat.sub_diag, firstn_all. cbn. apply app_nil_r. Qed.
Lemma tidy_own s d : tidy s -> own_answers (asked s d) (reads s d).
Proof.
  intros T. specialize (T d). unfold own_answers. change (reads s d = map expected (firstn (List.length (reads s d)) (asked s d))).
  destruct (at_ s d) as [| | |i b].
  1-3: destruct T as (_ & ->); rewrite <- (app_nil_r (asked s d)) at 3; now rewrite map_firstn_all.
  destruct T as (_ & _ & l & -> & ->). now rewrite map_firstn_all.
Qed.

(** ** Without a window nothing is marked *)
Lemma no_marks limit es : (limit <= 0)%Z -> forall s s', (forall d i, at_ s d <> Marks i) -> (forall i, bit s i = false) -> steps limit s es = Some s' ->
  apart limit s es /\ (forall i, bit s' i = false).
Proof.
  intros L. induction es as [|e es IH]; cbn [steps apart]; intros s s' NM NB; [intros [= <-]; auto|]. destruct (step limit s e) as [s1|] eqn:E; [|discriminate]. intros R.
  assert (G : (forall d i, at_ s1 d <> Marks i) /\ forall i, bit s1 i = false).
  { revert E. destruct e as [d i|d|d|d|d]; cbn [step].
    - intros [= <-]. auto.
    - destruct (at_ s d) eqn:P; try discriminate. destruct (queue s d) as [|i q]; try discriminate. rewrite (proj2 (Z.leb_le limit 0) L), orb_true_r. intros [= <-]. cbn. split; auto.
      intros x j. at_worker x d; auto. discriminate.
    - destruct (at_ s d) eqn:P; try discriminate. destruct (NM _ _ P).
    - destruct (at_ s d) eqn:P; try discriminate. intros [= <-]. cbn. split; auto. intros x j. at_worker x d; auto. discriminate.
    - destruct (at_ s d) as [| | |i b] eqn:P; try discriminate. rewrite NB. destruct (way s d); try discriminate. intros [= <-]. cbn. split; auto. intros x j. at_worker x d; auto. discriminate. }
  destruct G as (G1 & G2). destruct (IH s1 s' G1 G2 R) as (I1 & I2). split; auto. intros s2 [= <-]. split; auto. intros d i d' b -> M. destruct (NM _ _ M).
Qed.

(** ** One slave *)
Definition cur (p : place) : list nat := match p with Idle => [] | Marks i | Judged i | Wrote i _ => [i] end.
Definition mine (s : st) (d : nat) : list nat := map fst (reads s d) ++ cur (at_ s d) ++ queue s d.
Record alone (owner : nat -> nat) (s : st) (rest : list event) : Prop := mkAlone {
  a_owner : forall d i, In i (mine s d) -> owner i = d;
  a_rest : forall d i, In (Enq d i) rest -> owner i = d;
  a_nodup : forall d, NoDup (mine s d ++ entries d rest);
  a_bit : forall i, bit s i = true -> In i (mine s (owner i)) /\ ~ In i (queue s (owner i)) /\ at_ s (owner i) <> Marks i }.
Lemma alone0 es : one_slave es -> exists owner, alone owner st0 es.
Proof. intros ((o & H) & N). exists o. split; cbn; auto; try easy. Qed.
Lemma step_alone limit owner s e s' rest : alone owner s (e :: rest) -> step limit s e = Some s' -> alone owner s' rest.
Proof.
  intros [A1 A2 A3 A4] ST.
  assert (R : forall d i, In (Enq d i) rest -> owner i = d) by (intros; apply A2; now right).
  assert (SAME : (forall d, mine s' d = mine s d) -> (forall d i, e <> Enq d i) ->
                 (forall i, bit s' i = true -> In i (mine s' (owner i)) /\ ~ In i (queue s' (owner i)) /\ at_ s' (owner i) <> Marks i) -> alone owner s' rest).
  { intros M NE B. split; auto.
    - intros d i. rewrite M. apply A1.
    - intros d. rewrite M. specialize (A3 d). destruct e; auto. destruct (NE d0 i eq_refl). }
  revert ST. destruct e as [d i|d|d|d|d]; cbn [step].
  - intros [= <-]. pose proof (A2 d i (or_introl eq_refl)) as OW.
    assert (ND : ~ In i (mine s d)).
    { specialize (A3 d). cbn [entries flat_map] in A3. rewrite Nat.eqb_refl in A3. apply NoDup_remove in A3. destruct A3 as (_ & A3). intros J. apply A3, in_or_app. now left. }
    assert (M : forall x, mine (mkSt (bit s) (upd (queue s) d (queue s d ++ [i])) (at_ s) (sent s) (way s) (asked s) (reads s)) x = mine s x ++ (if Nat.eqb d x then [i] else [])).
    { intros x. unfold mine. cbn [reads at_ queue]. destruct (Nat.eqb_spec d x) as [->|D]; [rewrite upd_same, <- !app_assoc; auto|rewrite upd_other, app_nil_r by auto; auto]. }
    split; auto.
    + intros x j. rewrite M. intros J. apply in_app_or in J. destruct J as [J|J]; [auto|]. destruct (Nat.eqb_spec d x) as [->|D]; [|easy]. destruct J as [<-|[]]. auto.
    + intros x. rewrite M. specialize (A3 x). cbn [entries flat_map] in A3. unfold entries in *. destruct (Nat.eqb d x); cbn [app] in A3.
      * now rewrite <- app_assoc.
      * now rewrite app_nil_r.
    + intros j B. cbn [bit] in B. destruct (A4 j B) as (B1 & B2 & B3). split; [rewrite M; apply in_or_app; now left|]. cbn [queue at_]. split; auto.
      destruct (Nat.eq_dec (owner j) d) as [E|D]; [|rewrite upd_other; auto]. rewrite E, upd_same. intros J. apply in_app_or in J. destruct J as [J|[->|[]]]; [apply B2; now rewrite E|].
      apply ND. now rewrite E in B1.
  - destruct (at_ s d) eqn:P; try discriminate. destruct (queue s d) as [|i q] eqn:Q; try discriminate. intros [= <-]. 
    assert (G : forall p' se, cur p' = [i] -> (p' = Marks i -> bit s i = false) -> alone owner (mkSt (bit s) (upd (queue s) d q) (upd (at_ s) d p') se (way s) (asked s) (reads s)) rest).
    { intros p' se CP PB.
      assert (M : forall x, mine (mkSt (bit s) (upd (queue s) d q) (upd (at_ s) d p') se (way s) (asked s) (reads s)) x = mine s x).
      { intros x. unfold mine. cbn [reads at_ queue]. at_worker x d; auto. rewrite CP, P, Q. reflexivity. }
      split; auto.
      - intros x j. rewrite M. apply A1.
      - intros x. rewrite M. exact (A3 x).
      - intros j B. cbn [bit] in B. destruct (A4 j B) as (B1 & B2 & B3). split; [now rewrite M|]. cbn [queue at_]. destruct (Nat.eq_dec (owner j) d) as [E|D]; [|rewrite !upd_other; auto].
        rewrite E, !upd_same in *. split; [intros J; apply B2; rewrite Q; now right|]. intros ->. cbn in CP. injection CP as ->. rewrite (PB eq_refl) in B. discriminate. }
    destruct (bit s i) eqn:B; cbn [orb]; [apply G; auto; discriminate|]. destruct (limit <=? 0)%Z; [apply G; auto|]. destruct (sent s d <? limit)%Z; apply G; auto.
  - destruct (at_ s d) as [|i|i|i b] eqn:P; try discriminate. intros [= <-].
    assert (IM : In i (mine s d)) by (unfold mine; rewrite P; apply in_or_app; right; now left). pose proof (A1 d i IM) as OW.
    assert (NQ : ~ In i (queue s d)).
    { specialize (A3 d). unfold mine in A3. rewrite P in A3. cbn [cur app] in A3. rewrite <- !app_assoc in A3. cbn [app] in A3. apply NoDup_remove in A3. destruct A3 as (_ & A3).
      intros J. apply A3. apply in_or_app. right. apply in_or_app. now left. }
    apply SAME; [|discriminate|].
    + intros x. unfold mine. cbn [reads at_ queue]. at_worker x d; auto. now rewrite P.
    + intros j B. cbn [bit] in B. destruct (Nat.eq_dec j i) as [->|D].
      * unfold mine. cbn [reads at_ queue]. rewrite OW, upd_same. split; [apply in_or_app; right; now left|]. split; auto. discriminate.
      * rewrite upd_other in B by auto. destruct (A4 j B) as (B1 & B2 & B3). unfold mine in *. cbn [reads at_ queue]. destruct (Nat.eq_dec (owner j) d) as [E|N].
        -- rewrite E, upd_same in *. rewrite P in B1. split; auto. split; auto. discriminate.
        -- rewrite !upd_other by auto. auto.
  - destruct (at_ s d) as [|i|i|i b] eqn:P; try discriminate. intros [= <-]. 
    assert (M : forall x, mine (mkSt (bit s) (queue s) (upd (at_ s) d (Wrote i (bit s i))) (sent s) (if bit s i then way s else upd (way s) d (way s d ++ [i])) (upd (asked s) d (asked s d ++ [(i, bit s i)])) (reads s)) x = mine s x).
    { intros x. unfold mine. cbn [reads at_ queue]. at_worker x d; auto. now rewrite P. }
    apply SAME; [exact M|discriminate|]. intros j B. cbn [bit] in B. destruct (A4 j B) as (B1 & B2 & B3). split; [now rewrite M|]. cbn [queue at_]. split; auto.
    destruct (Nat.eq_dec (owner j) d) as [E|N]; [rewrite E, upd_same; discriminate|rewrite upd_other; auto].
  - destruct (at_ s d) as [|i|i|i b] eqn:P; try discriminate. intros ST.
    assert (G : forall w o, mkSt (bit s) (queue s) (upd (at_ s) d Idle) (sent s) w (asked s) (upd (reads s) d (reads s d ++ [(i, o)])) = s' -> alone owner s' rest).
    { intros w o <-.
      assert (M : forall x, mine (mkSt (bit s) (queue s) (upd (at_ s) d Idle) (sent s) w (asked s) (upd (reads s) d (reads s d ++ [(i, o)]))) x = mine s x).
      { intros x. unfold mine. cbn [reads at_ queue]. at_worker x d; auto. rewrite P, map_app, <- app_assoc. reflexivity. }
      apply SAME; [exact M|discriminate|]. intros j B. cbn [bit] in B. destruct (A4 j B) as (B1 & B2 & B3). split; [now rewrite M|]. cbn [queue at_]. split; auto.
      destruct (Nat.eq_dec (owner j) d) as [E|N]; [rewrite E, upd_same; discriminate|rewrite upd_other; auto]. }
    destruct (bit s i); [injection ST as ST; exact (G _ _ ST)|]. destruct (way s d); [discriminate|]. injection ST as ST. exact (G _ _ ST).
Qed.
Lemma alone_apart limit owner es : forall s, alone owner s es -> apart limit s es.
Proof.
  induction es as [|e es IH]; cbn [apart]; auto. intros s A s' ST. split; [|apply IH; exact (step_alone limit owner s e s' es A ST)].
  intros d i d' b _ M W. assert (O1 : owner i = d) by (apply (a_owner _ _ _ A); unfold mine; rewrite M; apply in_or_app; right; now left).
  assert (O2 : owner i = d') by (apply (a_owner _ _ _ A); unfold mine; rewrite W; apply in_or_app; right; now left). congruence.
Qed.

(** ** The window *)
Definition tail_run (l : list (nat * bool)) (n : nat) : Prop := forall a b, l = a ++ b -> Forall (fun x => snd x = true) b -> List.length b <= n.
Lemma runs_snoc n l i : runs_within n l -> tail_run l (n - 1) -> 1 <= n -> runs_within n (l ++ [(i, true)]).
Proof.
  intros R T N a b c E F. destruct c as [|x c] using rev_ind.
  - rewrite app_nil_r in E. destruct b as [|y b] using rev_ind; [cbn; lia|]. rewrite app_assoc in E. apply app_inj_tail in E. destruct E as (E & <-).
    rewrite app_length. cbn. apply Forall_app in F. pose proof (T a b E (proj1 F)). lia.
  - rewrite !app_assoc in E. apply app_inj_tail in E. destruct E as (E & _). rewrite <- app_assoc in E. exact (R a b c E F).
Qed.
Lemma runs_snoc_f n l i : runs_within n l -> runs_within n (l ++ [(i, false)]).
Proof.
  intros R a b c E F. destruct c as [|x c] using rev_ind.
  - rewrite app_nil_r in E. destruct b as [|y b] using rev_ind; [cbn; lia|]. rewrite app_assoc in E. apply app_inj_tail in E. destruct E as (E & <-).
    apply Forall_app in F. destruct F as (_ & F). inversion F as [|? ? F1 _]. discriminate F1.
  - rewrite !app_assoc in E. apply app_inj_tail in E. destruct E as (E & _). rewrite <- app_assoc in E. exact (R a b c E F).
Qed.
Lemma tail_snoc n l i : tail_run l n -> tail_run (l ++ [(i, true)]) (n + 1).
Proof.
  intros T a b E F. destruct b as [|y b] using rev_ind; [cbn; lia|]. rewrite app_assoc in E. apply app_inj_tail in E. destruct E as (E & <-).
  rewrite app_length. cbn. apply Forall_app in F. pose proof (T a b E (proj1 F)). lia.
Qed.
Lemma tail_snoc_f n l i : tail_run (l ++ [(i, false)]) n.
Proof.
  intros a b E F. destruct b as [|y b] using rev_ind; [cbn; lia|]. rewrite app_assoc in E. apply app_inj_tail in E. destruct E as (E & <-).
  apply Forall_app in F. destruct F as (_ & F). inversion F as [|? ? F1 _]. discriminate F1.
Qed.
Lemma tail_mono n m l : n <= m -> tail_run l n -> tail_run l m.
Proof. intros L T a b E F. specialize (T a b E F). lia. Qed.
Definition windowed (limit : Z) (s : st) : Prop := forall d,
  (0 <= sent s d <= Z.max 0 limit)%Z /\ runs_within (Z.to_nat limit) (asked s d) /\
  match at_ s d with
  | Marks _ => (1 <= sent s d)%Z /\ tail_run (asked s d) (Z.to_nat (sent s d) - 1) /\ (0 < limit)%Z
  | Judged i => if bit s i then (1 <= sent s d)%Z /\ tail_run (asked s d) (Z.to_nat (sent s d) - 1) /\ (0 < limit)%Z else True
  | _ => tail_run (asked s d) (Z.to_nat (sent s d))
  end.
Lemma windowed0 limit : windowed limit st0.
Proof.
  intros d. cbn. split; [lia|]. split.
  - intros a b c E _. symmetry in E. apply app_eq_nil in E. destruct E as (_ & E). apply app_eq_nil in E. destruct E as (-> & _). cbn. lia.
  - intros a b E _. symmetry in E. apply app_eq_nil in E. destruct E as (_ & ->). cbn. lia.
Qed.
Lemma step_windowed limit owner s e s' rest : alone owner s (e :: rest) -> windowed limit s -> step limit s e = Some s' -> windowed limit s'.
Proof.
  intros [A1 A2 A3 A4] W. destruct e as [d i|d|d|d|d]; cbn [step].
  - intros [= <-] x. exact (W x).
  - pose proof (W d) as WD. destruct (at_ s d) eqn:P; try discriminate. destruct (queue s d) as [|i q] eqn:Q; try discriminate.
    assert (B : bit s i = false).
    { destruct (bit s i) eqn:B; auto. destruct (A4 i B) as (_ & B2 & _). destruct B2. assert (OW : owner i = d).
      { apply A1. unfold mine. rewrite Q. apply in_or_app. right. apply in_or_app. right. now left. }
      rewrite OW, Q. now left. }
    rewrite B. cbn [orb]. intros [= <-]. destruct (Z.leb_spec limit 0) as [L|L]; [|destruct (Z.ltb_spec (sent s d) limit) as [L2|L2]]; intros x; specialize (W x); cbn [at_ bit sent asked].
    + at_worker x d; auto. rewrite B. tauto.
    + at_worker x d; auto. destruct WD as (D1 & D2 & D3). split; [lia|]. split; auto. split; [lia|]. split; auto. apply (tail_mono (Z.to_nat (sent s d))); auto. lia.
    + at_worker x d; auto. rewrite B. destruct WD as (D1 & D2 & D3). split; [lia|]. auto.
  - pose proof (W d) as WD. destruct (at_ s d) as [|i|i|i b] eqn:P; try discriminate. intros [= <-] x. specialize (W x). cbn [at_ bit sent asked].
    assert (OW : owner i = d) by (apply A1; unfold mine; rewrite P; apply in_or_app; right; now left).
    at_worker x d; [rewrite ?upd_same; exact WD|]. destruct (at_ s x) as [|j|j|j b] eqn:PX; auto. rewrite upd_other; auto. intros ->.
    assert (O2 : owner i = x) by (apply A1; unfold mine; rewrite PX; apply in_or_app; right; now left). congruence.
  - pose proof (W d) as WD. destruct (at_ s d) as [|i|i|i b] eqn:P; try discriminate. intros [= <-] x. specialize (W x). cbn [at_ bit sent asked].
    at_worker x d; auto. destruct WD as (D1 & D2 & D3). destruct (bit s i) eqn:B.
    + destruct D3 as (D3 & D4 & D5). split; [exact D1|]. split.
      * apply runs_snoc; auto; [|lia]. apply (tail_mono (Z.to_nat (sent s d) - 1)); auto. lia.
      * replace (Z.to_nat (sent s d)) with (Z.to_nat (sent s d) - 1 + 1) by lia. now apply tail_snoc.
    + split; [exact D1|]. split; [now apply runs_snoc_f|apply tail_snoc_f].
  - pose proof (W d) as WD. destruct (at_ s d) as [|i|i|i b] eqn:P; try discriminate. intros ST.
    assert (G : forall w o, mkSt (bit s) (queue s) (upd (at_ s) d Idle) (sent s) w (asked s) (upd (reads s) d (reads s d ++ [(i, o)])) = s' -> windowed limit s').
    { intros w o <- x. specialize (W x). cbn [at_ bit sent asked]. at_worker x d; auto. }
    destruct (bit s i); [injection ST as ST; exact (G _ _ ST)|]. destruct (way s d); [discriminate|]. injection ST as ST. exact (G _ _ ST).
Qed.
Lemma steps_windowed limit owner es : forall s s', alone owner s es -> windowed limit s -> steps limit s es = Some s' -> windowed limit s'.
Proof.
  induction es as [|e es IH]; cbn [steps]; intros s s' A W; [intros [= <-]; auto|]. destruct (step limit s e) as [s1|] eqn:E; [|discriminate].
  apply IH; [exact (step_alone limit owner s e s1 es A E)|exact (step_windowed limit owner s e s1 es A W E)].
Qed.

(** ** No worker waits in vain *)
Definition served (s : st) : Prop := forall d i b, at_ s d = Wrote i b -> if b then bit s i = true else way s d <> [].
Lemma step_served limit s e s' : served s -> step limit s e = Some s' -> served s'.
Proof.
  intros T. destruct e as [d i|d|d|d|d]; cbn [step].
  - intros [= <-] x. exact (T x).
  - destruct (at_ s d) eqn:P; try discriminate. destruct (queue s d) as [|i q]; try discriminate. intros [= <-].
    destruct (bit s i || (limit <=? 0)%Z); [|destruct (sent s d <? limit)%Z]; intros x j b; pose proof (T x j b); cbn [at_ bit way]; at_worker x d; auto; discriminate.
  - destruct (at_ s d) eqn:P; try discriminate. intros [= <-] x j b. pose proof (T x j b) as TX. cbn [at_ bit way]. at_worker x d; [discriminate|]. intros H. specialize (TX H).
    destruct b; auto. unfold upd. destruct (Nat.eqb j i); auto.
  - destruct (at_ s d) eqn:P; try discriminate. intros [= <-] x j b. pose proof (T x j b) as TX. cbn [at_ bit way]. at_worker x d.
    + intros [= <- <-]. destruct (bit s i) eqn:B; auto. rewrite upd_same. now destruct (way s d).
    + intros H. specialize (TX H). destruct b; auto. destruct (bit s i); [|rewrite upd_other by assumption]; exact TX.
  - destruct (at_ s d) as [| | |i b0] eqn:P; try discriminate. destruct (bit s i) eqn:B.
    + intros [= <-] x j b. pose proof (T x j b) as TX. cbn [at_ bit way]. at_worker x d; [discriminate|auto].
    + destruct (way s d); try discriminate. intros [= <-] x j b. pose proof (T x j b) as TX. cbn [at_ bit way]. at_worker x d; [discriminate|auto].
Qed.
Lemma steps_served limit es : forall s s', served s -> steps limit s es = Some s' -> served s'.
Proof.
  induction es as [|e es IH]; cbn [steps]; intros s s' T; [intros [= <-]; auto|]. destruct (step limit s e) as [s1|] eqn:E; [|discriminate]. apply IH. exact (step_served limit s e s1 T E).
Qed.
