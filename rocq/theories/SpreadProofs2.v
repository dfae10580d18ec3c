(** Proofs about SpreadModel: changes made one at a time. *)
From Coq Require Import List Bool NArith ZArith Lia.
From Coq Require Import ZifyBool ZifyN ZifyNat.
From Verif Require Import MonitorModel SpreadModel SpreadSpec SpreadProofs.
Import ListNotations.
Local Open Scope N_scope.

(** The maps in the queue are not older than [a], nor than those before them, nor newer than [b]. *)
Fixpoint rising (a : N) (q : list (N * N)) (b : N) : Prop := match q with [] => a <= b | (_, v) :: q => a <= v /\ rising v q b end.
Lemma rising_push q j b : forall a, rising a q b -> rising a (q ++ [(j, b)]) b.
Proof. induction q as [|[i v] q IH]; intros a H; cbn in *; [lia|]. destruct H. auto. Qed.
Lemma rising_more q b b' : b <= b' -> forall a, rising a q b -> rising a q b'.
Proof. intros L. induction q as [|[i v] q IH]; intros a H; cbn in *; [lia|]. destruct H. auto. Qed.
Lemma rising_less q b a a' : a' <= a -> rising a q b -> rising a' q b.
Proof. intros L. destruct q as [|[i v] q]; cbn; [lia|]. intros (A & B). split; [lia|exact B]. Qed.
Record ser (s : st) : Prop := mkSer {
  r_one : forall i j, over (job_of s i) = false -> over (job_of s j) = false -> i = j;
  r_job : forall j, match job_of s j with Priors v _ _ | Rest v _ _ => v = cur s | _ => True end;
  r_queue : forall n, rising (seen s n) (queue_of s n) (cur s) }.
Lemma ser0 ms t : ser (st0 ms t).
Proof. constructor; cbn; auto; [intros; discriminate|intros; lia]. Qed.
Lemma ser_job s j x : ser s -> over (job_of s j) = false -> match x with Priors v _ _ | Rest v _ _ => v = cur s | _ => True end -> ser (set_job s j x).
Proof.
  intros [A B C] J X. constructor; cbn [set_job cur seen queue_of job_of]; auto.
  - intros i k. unfold upd. destruct (N.eqb_spec i j) as [->|]; destruct (N.eqb_spec k j) as [->|]; auto.
  - intros i. unfold upd. destruct (i =? j); [exact X|apply B].
Qed.
Lemma ser_push s n j v : ser s -> v = cur s -> ser (enqueue s n (j, v)).
Proof.
  intros [A B C] ->. constructor; cbn [enqueue cur seen queue_of job_of]; auto.
  intros i. unfold upd. destruct (N.eqb_spec i n) as [->|]; [apply rising_push|]; apply C.
Qed.
Lemma ser_ref s j d : ser s -> ser (add_ref s j d).
Proof. intros [A B C]. constructor; auto. Qed.
Lemma active j s x : job_of s j = x -> over x = false -> over (job_of s j) = false.
Proof. now intros ->. Qed.
Lemma ser_step s e s' : inv s -> ser s -> step true s e = Some s' -> ser s'.
Proof.
  intros I R E. apply step_does in E. destruct E as [j prior excl ms ds J F G|j prior excl J|j room v n todo excl J X|j v n todo excl J X|j v excl J Rf|j room v n todo excl J X|j v n todo excl J X|j v excl J|n j v q s' Q O L W|n ok j v q o s' Q O W|n ok s' Q W|n o M|up].
  - specialize (G eq_refl). destruct R as [A B C].
    assert (G' : forall i, over (job_of s i) = true).
    { intros i. destruct (job_of s i) eqn:K; try reflexivity; rewrite <- K; apply G, (i_started s I); congruence. }
    constructor; cbn [cur seen queue_of job_of].
    + intros i k. unfold upd. destruct (N.eqb_spec i j) as [->|]; destruct (N.eqb_spec k j) as [->|]; rewrite ?G'; try discriminate; auto.
    + intros i. unfold upd. destruct (i =? j); [exact Logic.I|]. specialize (G' i). destruct (job_of s i); try exact Logic.I; discriminate G'.
    + intros n. apply rising_more with (cur s); [lia|apply C].
  - apply ser_job; [exact R|exact (active _ _ _ J eq_refl)|reflexivity].
  - pose proof (r_job s R j) as K. rewrite J in K. apply ser_job; [exact R|exact (active _ _ _ J eq_refl)|exact K].
  - pose proof (r_job s R j) as K. rewrite J in K. apply ser_ref, ser_push; [|exact K]. apply ser_job; [exact R|exact (active _ _ _ J eq_refl)|exact K].
  - pose proof (r_job s R j) as K. rewrite J in K. apply ser_job; [exact R|exact (active _ _ _ J eq_refl)|exact K].
  - pose proof (r_job s R j) as K. rewrite J in K. apply ser_job; [exact R|exact (active _ _ _ J eq_refl)|exact K].
  - pose proof (r_job s R j) as K. rewrite J in K. apply ser_push; [|exact K]. apply ser_job; [exact R|exact (active _ _ _ J eq_refl)|exact K].
  - apply ser_job; [exact R|exact (active _ _ _ J eq_refl)|exact Logic.I].
  - fields W. destruct R as [A B C]. constructor; rewrite ?Hcur, ?Hjob, ?Hq, ?Hs; auto. intros i. unfold upd. destruct (N.eqb_spec i n) as [->|]; [|apply C].
    specialize (C n). rewrite Q in C. exact (proj2 C).
  - fields W. destruct R as [A B C]. constructor; rewrite ?Hcur, ?Hjob, ?Hq, ?Hs; auto. intros i. unfold upd. destruct (N.eqb_spec i n) as [->|]; [|apply C].
    specialize (C n). rewrite Q in C. cbn in C. apply rising_less with v; tauto.
  - fields W. destruct R as [A B C]. constructor; rewrite ?Hcur, ?Hjob, ?Hq, ?Hs; auto. intros i. unfold upd. destruct (N.eqb_spec i n) as [->|]; [|apply C].
    specialize (C n). rewrite Q in C. exact C.
  - destruct R as [A B C]. constructor; cbn [cur seen queue_of job_of]; auto. intros i. unfold upd. destruct (N.eqb_spec i n) as [->|]; [|apply C].
    apply rising_less with (seen s n); [lia|apply C].
  - constructor; cbn [restart cur seen queue_of job_of].
    + intros i j. destruct (job_of s i); discriminate.
    + intros j. destruct (job_of s j); exact Logic.I.
    + intros n. exact (i_seen s I n).
Qed.

(** ** No node is taken for dead that answers *)
Lemma calm_step s e s' n : ser s -> open_ s n = true -> works n s e = true -> step true s e = Some s' -> ~ In (n, RequestDown) (requests s) ->
  open_ s' n = true /\ ~ In (n, RequestDown) (requests s').
Proof.
  intros R O Wk E NR. apply step_does in E. destruct E as [j prior excl ms ds J F G|j prior excl J|j room v m todo excl J X|j v m todo excl J X|j v excl J Rf|j room v m todo excl J X|j v m todo excl J X|j v excl J|m j v q s' Q O' L W|m ok j v q o s' Q O' W|m ok s' Q W|m o M|up];
    try (split; [exact O|exact NR]).
  - fields W. destruct Hit as (mo & rs & It & ->). rewrite Ho. unfold upd. split; [destruct (n =? m); auto|].
    rewrite in_app_iff, in_map_iff. intros [H|(x & H1 & H2)]; [auto|]. injection H1 as -> ->. unfold iterate in It. cbn [process_queue negb] in It.
    rewrite andb_false_r in It. injection It as _ <-. destruct H2.
  - fields W. destruct Hit as (mo & rs & It & ->). rewrite Ho. unfold upd. destruct (N.eqb_spec n m) as [->|D].
    + cbn [works] in Wk. rewrite N.eqb_refl, orb_false_r in Wk. subst ok. destruct (O' eq_refl O) as (L & ->). exfalso. pose proof (r_queue s R m) as C. rewrite Q in C. cbn in C. lia.
    + split; [exact O|]. rewrite in_app_iff, in_map_iff. intros [H|(x & H1 & H2)]; [auto|]. injection H1 as H1 _. congruence.
  - fields W. destruct Hit as (mo & rs & It & ->). rewrite Ho. unfold upd. destruct (N.eqb_spec n m) as [->|D].
    + cbn [works] in Wk. rewrite N.eqb_refl, orb_false_r in Wk. subst ok. split; [reflexivity|]. rewrite in_app_iff, in_map_iff. intros [H|(x & H1 & H2)]; [auto|]. injection H1 as ->.
      unfold iterate in It. injection It as _ <-. destruct (threshold _ <=? _)%Z; [|destruct H2]. destruct H2 as [H2|[]]. discriminate H2.
    + split; [exact O|]. rewrite in_app_iff, in_map_iff. intros [H|(x & H1 & H2)]; [auto|]. injection H1 as H1 _. congruence.
  - split; [|exact NR]. cbn [open_]. unfold upd. destruct (N.eqb_spec n m) as [->|D]; [|exact O]. cbn [works] in Wk. now rewrite N.eqb_refl, orb_false_r in Wk.
  - cbn [works] in Wk. cbn [restart open_ requests]. split; [exact Wk|]. rewrite in_app_iff, in_flat_map. intros [H|(x & _ & H)]; [auto|]. rewrite in_map_iff in H. destruct H as (y & H1 & H2). injection H1 as -> ->.
    unfold first_look in H2. rewrite Wk in H2. destruct H2.
Qed.
Lemma calm_steps n es : forall s s', inv s -> ser s -> open_ s n = true -> all_works true n s es -> steps true s es = Some s' -> ~ In (n, RequestDown) (requests s) -> ~ In (n, RequestDown) (requests s').
Proof.
  induction es as [|e es IH]; intros s s' I R O Wk E NR; cbn [steps] in E; [injection E as <-; exact NR|]. cbn [all_works] in Wk. destruct Wk as (W1 & W2).
  destruct (step true s e) as [s1|] eqn:S1; [|discriminate E]. destruct (calm_step _ _ _ _ R O W1 S1 NR) as (O1 & N1).
  exact (IH s1 s' (inv_step _ _ _ _ I S1) (ser_step _ _ _ I R S1) O1 W2 E N1).
Qed.

(** ** Those to be told first *)
Definition count (j : N) (q : list (N * N)) : nat := length (filter (fun m => fst m =? j) q).
(** The number of references is that of the entries of the job that are in queues. *)
Definition tracked (s : st) : Prop := forall j, match job_of s j with
  | NoJob | Changed _ _ | Priors _ _ _ => exists out, refs s j = Z.of_nat (length out) /\ forall n, (count j (queue_of s n) <= count_occ N.eq_dec out n)%nat
  | _ => True
  end.
Lemma tracked0 ms t : tracked (st0 ms t).
Proof. intros j. exists []. split; [reflexivity|]. intros n. cbn. lia. Qed.
Lemma count_app j a b : count j (a ++ b) = (count j a + count j b)%nat.
Proof. unfold count. now rewrite filter_app, app_length. Qed.
Fixpoint drop1 (n : N) (l : list N) : list N := match l with [] => [] | x :: l => if N.eq_dec x n then l else x :: drop1 n l end.
Lemma drop1_spec n l : (0 < count_occ N.eq_dec l n)%nat -> length l = S (length (drop1 n l)) /\ (count_occ N.eq_dec l n = S (count_occ N.eq_dec (drop1 n l) n)) /\ forall m, m <> n -> count_occ N.eq_dec (drop1 n l) m = count_occ N.eq_dec l m.
Proof.
  induction l as [|x l IH]; cbn [count_occ drop1]; [lia|]. destruct (N.eq_dec x n) as [->|D].
  - intros _. split; [reflexivity|]. split; [reflexivity|]. intros m M. destruct (N.eq_dec n m); [congruence|reflexivity].
  - intros H. destruct (IH H) as (A & B & C). cbn [length count_occ]. split; [lia|]. split; [destruct (N.eq_dec x n); [contradiction|exact B]|]. intros m M. destruct (N.eq_dec x m); [f_equal|]; auto.
Qed.
Lemma tracked_job s j x : tracked s -> match job_of s j with NoJob | Changed _ _ | Priors _ _ _ => True | _ => over x = true /\ x <> NoJob \/ match x with Rest _ _ _ => True | _ => False end end -> tracked (set_job s j x).
Proof.
  intros T H i. cbn [set_job job_of refs queue_of]. unfold upd. destruct (N.eqb_spec i j) as [->|]; [|apply T]. specialize (T j).
  destruct (job_of s j); [destruct x; auto..|destruct H as [(H1 & H2)|H]; destruct x; try discriminate; try contradiction; auto|destruct H as [(H1 & H2)|H]; destruct x; try discriminate; try contradiction; auto].
Qed.
Lemma tracked_watched s n j v q w o h u s' : tracked s -> queue_of s n = (j, v) :: q -> watched (add_ref s j (-1)) n w q o h u = Some s' -> tracked s'.
Proof.
  intros T Q W. fields W. intros i. rewrite Hjob, Hrefs, Hq. specialize (T i).
  assert (K : (exists out, refs s i = Z.of_nat (length out) /\ forall n, (count i (queue_of s n) <= count_occ N.eq_dec out n)%nat) ->
    exists out, upd (refs s) j (refs s j + -1)%Z i = Z.of_nat (length out) /\ forall k, (count i (upd (queue_of s) n q k) <= count_occ N.eq_dec out k)%nat).
  { intros (out & A & B). unfold upd. destruct (N.eqb_spec i j) as [->|D].
    - pose proof (B n) as Bn. rewrite Q in Bn. unfold count in Bn. cbn [filter fst] in Bn. rewrite N.eqb_refl in Bn. cbn [length] in Bn.
      destruct (drop1_spec n out) as (L & C1 & C2); [lia|]. exists (drop1 n out). split; [lia|]. intros k. destruct (N.eqb_spec k n) as [->|K]; [unfold count; lia|rewrite C2 by exact K; apply B].
    - exists out. split; [exact A|]. intros k. destruct (N.eqb_spec k n) as [->|K]; [|apply B]. specialize (B n). rewrite Q in B. unfold count in *. cbn [filter fst] in B.
      destruct (j =? i); cbn [length] in B; lia. }
  destruct (job_of s i); auto.
Qed.
Lemma tracked_step serial s e s' : tracked s -> step serial s e = Some s' -> tracked s'.
Proof.
  intros T E. apply step_does in E. destruct E as [j prior excl ms ds J F G|j prior excl J|j room v n todo excl J X|j v n todo excl J X|j v excl J R|j room v n todo excl J X|j v n todo excl J X|j v excl J|n j v q s' Q O L W|n ok j v q o s' Q O W|n ok s' Q W|n o M|up].
  - intros i. cbn [job_of refs queue_of]. unfold upd. destruct (N.eqb_spec i j) as [->|]; [|apply T]. specialize (T j). rewrite J in T. exact T.
  - apply tracked_job; [exact T|]. rewrite J. exact Logic.I.
  - apply tracked_job; [exact T|]. rewrite J. exact Logic.I.
  - intros i. cbn [add_ref enqueue set_job job_of refs queue_of]. specialize (T i). unfold upd at 1. destruct (N.eqb_spec i j) as [->|D].
    + rewrite J in T. destruct T as (out & A & B). exists (n :: out). rewrite upd_same. cbn [length]. split; [lia|]. intros k. unfold upd. cbn [count_occ]. destruct (N.eqb_spec k n) as [->|K].
      * rewrite count_app. unfold count at 2. cbn [filter fst]. rewrite N.eqb_refl. cbn [length]. destruct (N.eq_dec n n); [|congruence]. specialize (B n). lia.
      * destruct (N.eq_dec n k); [congruence|apply B].
    + rewrite (upd_other (refs s)) by exact D.
      assert (K : (exists out, refs s i = Z.of_nat (length out) /\ forall n, (count i (queue_of s n) <= count_occ N.eq_dec out n)%nat) ->
        exists out, refs s i = Z.of_nat (length out) /\ forall k, (count i (upd (queue_of s) n (queue_of s n ++ [(j, v)]) k) <= count_occ N.eq_dec out k)%nat).
      { intros (out & A & B). exists out. split; [exact A|]. intros k. unfold upd. destruct (N.eqb_spec k n) as [->|]; [|apply B]. rewrite count_app. unfold count at 2. cbn [filter fst].
        destruct (N.eqb_spec j i); [congruence|]. cbn [length]. specialize (B n). lia. }
      destruct (job_of s i); auto.
  - apply tracked_job; [exact T|]. rewrite J. exact Logic.I.
  - apply tracked_job; [exact T|]. rewrite J. right. exact Logic.I.
  - intros i. cbn [enqueue set_job job_of refs queue_of]. specialize (T i). unfold upd at 1. destruct (N.eqb_spec i j) as [->|D]; [exact Logic.I|].
    assert (K : (exists out, refs s i = Z.of_nat (length out) /\ forall n, (count i (queue_of s n) <= count_occ N.eq_dec out n)%nat) ->
      exists out, refs s i = Z.of_nat (length out) /\ forall k, (count i (upd (queue_of s) n (queue_of s n ++ [(j, v)]) k) <= count_occ N.eq_dec out k)%nat).
    { intros (out & A & B). exists out. split; [exact A|]. intros k. unfold upd. destruct (N.eqb_spec k n) as [->|]; [|apply B]. rewrite count_app. unfold count at 2. cbn [filter fst].
      destruct (N.eqb_spec j i); [congruence|]. cbn [length]. specialize (B n). lia. }
    destruct (job_of s i); auto.
  - apply tracked_job; [exact T|]. rewrite J. left. split; [reflexivity|discriminate].
  - exact (tracked_watched _ _ _ _ _ _ _ _ _ _ T Q W).
  - exact (tracked_watched _ _ _ _ _ _ _ _ _ _ T Q W).
  - fields W. intros i. rewrite Hjob, Hrefs, Hq. specialize (T i).
    assert (K : forall k, upd (queue_of s) n [] k = queue_of s k) by (intros k; unfold upd; destruct (N.eqb_spec k n) as [->|]; congruence).
    destruct (job_of s i); auto; destruct T as (out & A & B); exists out; (split; [exact A|]); intros k; rewrite K; apply B.
  - exact T.
  - intros i. cbn [restart job_of refs queue_of]. destruct (job_of s i); try exact Logic.I. exists []. split; [reflexivity|]. intros n. cbn. lia.
Qed.

(** Node [p] knows of map [v], or nobody knows but those to be told first, and it is going to be told by job [j]. *)
Definition first (j v p : N) (prior : list N) (s : st) : Prop :=
  (v <= seen s p /\ v <= held s p)
  \/ (cur s = v /\ open_ s p = true /\ (forall x, ~ In x prior -> held s x < v /\ forall i w, In (i, w) (queue_of s x) -> w < v)
      /\ match job_of s j with
         | Changed pr excl => pr = prior /\ In p prior /\ excluded excl p = false
         | Priors w todo excl => w = v /\ incl todo prior /\ excluded excl p = false /\ (In p todo \/ In (j, v) (queue_of s p))
         | _ => False
         end).
Lemma first_step s e s' j v p prior : inv s -> ser s -> tracked s -> (forall n, joins n e = false) -> is_restart e = false -> works p s e = true ->
  first j v p prior s -> step true s e = Some s' -> first j v p prior s'.
Proof.
  intros I R T NJ NR Wk C E. apply step_does in E. destruct C as [(C1 & C2)|(C1 & C2 & C3 & C4)].
  { left. destruct E as [i pr excl ms ds J F G|i pr excl J|i room w m todo excl J X|i w m todo excl J X|i w excl J Rf|i room w m todo excl J X|i w m todo excl J X|i w excl J|m i w q s' Q O L W|m ok i w q o s' Q O W|m ok s' Q W|m o M|up]; try (split; assumption).
    - fields W. rewrite Hh, Hs. unfold upd. destruct (N.eqb_spec p m) as [->|]; lia.
    - fields W. rewrite Hh, Hs. unfold upd. destruct (N.eqb_spec p m) as [->|]; lia.
    - fields W. rewrite Hh, Hs. unfold upd. destruct (N.eqb_spec p m) as [->|]; lia.
    - specialize (NJ m). cbn [joins] in NJ. rewrite N.eqb_refl in NJ. discriminate NJ. }
  assert (Act : over (job_of s j) = false) by (destruct (job_of s j); try reflexivity; destruct C4).
  assert (Only : forall i, over (job_of s i) = false -> i = j) by (intros i Hi; exact (r_one s R i j Hi Act)).
  destruct E as [i pr excl ms ds J F G|i pr excl J|i room w m todo excl J X|i w m todo excl J X|i w excl J Rf|i room w m todo excl J X|i w m todo excl J X|i w excl J|m i w q s' Q O L W|m ok i w q o s' Q O W|m ok s' Q W|m o M|up].
  - exfalso. specialize (G eq_refl j). rewrite Act in G. discriminate G. apply (i_started s I). intros E. rewrite E in Act. discriminate Act.
  - assert (i = j) as -> by (apply Only; now rewrite J). right. rewrite J in C4. destruct C4 as (-> & C5 & C6). cbn [set_job cur open_ held queue_of job_of]. rewrite upd_same.
    split; [exact C1|]. split; [exact C2|]. split; [exact C3|]. split; [exact C1|]. split; [apply incl_refl|]. auto.
  - assert (i = j) as -> by (apply Only; now rewrite J). right. rewrite J in C4. destruct C4 as (-> & C5 & C6 & C7). cbn [set_job cur open_ held queue_of job_of]. rewrite upd_same.
    split; [exact C1|]. split; [exact C2|]. split; [exact C3|]. split; [reflexivity|]. split; [intros x Hx; apply C5; now right|]. split; [exact C6|]. destruct C7 as [[->|C7]|C7]; auto.
    exfalso. cbn [works] in Wk. rewrite J, N.eqb_refl in Wk. rewrite C6 in X. destruct room; discriminate.
  - assert (i = j) as -> by (apply Only; now rewrite J). right. rewrite J in C4. destruct C4 as (-> & C5 & C6 & C7). cbn [add_ref enqueue set_job cur open_ held queue_of job_of]. rewrite upd_same.
    split; [exact C1|]. split; [exact C2|]. split.
    + intros x Hx. destruct (C3 x Hx) as (D1 & D2). split; [exact D1|]. unfold upd. destruct (N.eqb_spec x m) as [->|]; [|exact D2]. exfalso. apply Hx, C5. now left.
    + split; [reflexivity|]. split; [intros x Hx; apply C5; now right|]. split; [exact C6|]. unfold upd. destruct C7 as [[->|C7]|C7].
      * right. rewrite N.eqb_refl. apply in_app_iff. right. now left.
      * auto.
      * right. destruct (N.eqb_spec p m) as [->|]; [apply in_app_iff; now left|exact C7].
  - assert (i = j) as -> by (apply Only; now rewrite J). exfalso. rewrite J in C4. destruct C4 as (-> & C5 & C6 & [[]|C7]). specialize (T j). rewrite J in T. destruct T as (out & T1 & T2).
    rewrite Rf in T1. destruct out; [|discriminate T1]. specialize (T2 p). cbn [count_occ] in T2. assert (count j (queue_of s p) = 0%nat) as T3 by lia. unfold count in T3.
    assert (In (j, v) (filter (fun m => fst m =? j) (queue_of s p))) as F by (apply filter_In; split; [exact C7|apply N.eqb_refl]). destruct (filter _ _); [destruct F|discriminate T3].
  - assert (i = j) as -> by (apply Only; now rewrite J). rewrite J in C4. destruct C4.
  - assert (i = j) as -> by (apply Only; now rewrite J). rewrite J in C4. destruct C4.
  - assert (i = j) as -> by (apply Only; now rewrite J). rewrite J in C4. destruct C4.
  - fields W. unfold first. rewrite Hcur, Hjob, Hq, Ho, Hh, Hs. destruct (N.eq_dec m p) as [->|D].
    + assert (V : w <= v) by (rewrite <- C1; apply (i_queue s I p i w); rewrite Q; now left). destruct (N.eq_dec w v) as [->|Dw]; [left; rewrite !upd_same; lia|]. right. rewrite !upd_same.
      split; [exact C1|]. split; [reflexivity|]. split.
      * intros x Hx. destruct (C3 x Hx) as (D1 & D2). unfold upd. destruct (N.eqb_spec x p) as [->|]; [|auto]. split; [lia|]. intros k u H. apply (D2 k u). rewrite Q. now right.
      * destruct (job_of s j); auto. rewrite Q in C4. destruct C4 as (E1 & E2 & E3 & [E4|[E4|E4]]); auto. injection E4 as _ E4. contradiction.
    + right. rewrite !(upd_other _ m p) by congruence. split; [exact C1|]. split; [exact C2|]. split; [|exact C4].
      intros x Hx. destruct (C3 x Hx) as (D1 & D2). unfold upd. destruct (N.eqb_spec x m) as [->|]; [|auto]. split; [apply (D2 i); rewrite Q; now left|]. intros k u H. apply (D2 k u). rewrite Q. now right.
  - fields W. unfold first. rewrite Hcur, Hjob, Hq, Ho, Hh, Hs. destruct (N.eq_dec m p) as [->|D].
    + cbn [works] in Wk. rewrite N.eqb_refl, orb_false_r in Wk. subst ok. destruct (O eq_refl C2) as (L & ->). right. rewrite !upd_same.
      assert (V : w < v) by (pose proof (i_seen s I p); lia). split; [exact C1|]. split; [reflexivity|]. split.
      * intros x Hx. destruct (C3 x Hx) as (D1 & D2). unfold upd. destruct (N.eqb_spec x p) as [->|]; [|auto]. split; [exact D1|]. intros k u H. apply (D2 k u). rewrite Q. now right.
      * destruct (job_of s j); auto. rewrite Q in C4. destruct C4 as (E1 & E2 & E3 & [E4|[E4|E4]]); auto. injection E4 as _ E4. lia.
    + right. rewrite !(upd_other _ m p) by congruence. split; [exact C1|]. split; [exact C2|]. split; [|exact C4].
      intros x Hx. destruct (C3 x Hx) as (D1 & D2). unfold upd. destruct (N.eqb_spec x m) as [->|]; [|auto]. split; [exact D1|]. intros k u H. apply (D2 k u). rewrite Q. now right.
  - fields W. unfold first. rewrite Hcur, Hjob, Hq, Ho, Hh, Hs. right.
    assert (K : forall k, upd (queue_of s) m [] k = queue_of s k) by (intros k; unfold upd; destruct (N.eqb_spec k m) as [->|]; congruence).
    assert (K2 : forall k, upd (held s) m (held s m) k = held s k) by (intros k; unfold upd; destruct (N.eqb_spec k m) as [->|]; congruence).
    split; [exact C1|]. split; [unfold upd; destruct (N.eqb_spec p m) as [->|]; [|exact C2]; cbn [works] in Wk; now rewrite N.eqb_refl, orb_false_r in Wk|].
    split; [intros x Hx; rewrite K, K2; apply C3; exact Hx|]. rewrite K. exact C4.
  - specialize (NJ m). cbn [joins] in NJ. rewrite N.eqb_refl in NJ. discriminate NJ.
  - discriminate NR.
Qed.
Lemma first_steps j v p prior es : forall s s', inv s -> ser s -> tracked s -> (forall n, existsb (joins n) es = false) -> existsb is_restart es = false -> all_works true p s es ->
  first j v p prior s -> steps true s es = Some s' -> first j v p prior s'.
Proof.
  induction es as [|e es IH]; intros s s' I R T NJ NR Wk C E; cbn [steps] in E; [injection E as <-; exact C|]. cbn [existsb] in NR. apply orb_false_iff in NR as (NR1 & NR2). cbn [all_works] in Wk. destruct Wk as (W1 & W2).
  destruct (step true s e) as [s1|] eqn:S1; [|discriminate E]. apply (IH s1 s' (inv_step _ _ _ _ I S1) (ser_step _ _ _ I R S1) (tracked_step _ _ _ _ T S1)); auto.
  - intros n. specialize (NJ n). cbn [existsb] in NJ. now apply orb_false_iff in NJ as (_ & NJ).
  - apply (first_step s e); auto. intros n. specialize (NJ n). cbn [existsb] in NJ. now apply orb_false_iff in NJ as (NJ & _).
Qed.
Lemma all_steps ms t es : forall s, steps true (st0 ms t) es = Some s -> inv s /\ ser s /\ tracked s.
Proof.
  assert (G : forall s0 s, inv s0 -> ser s0 -> tracked s0 -> steps true s0 es = Some s -> inv s /\ ser s /\ tracked s).
  { induction es as [|e es IH]; intros s0 s I R T E; cbn [steps] in E; [injection E as <-; auto|]. destruct (step true s0 e) as [s1|] eqn:S1; [|discriminate E].
    exact (IH s1 s (inv_step _ _ _ _ I S1) (ser_step _ _ _ I R S1) (tracked_step _ _ _ _ T S1) E). }
  intros s E. exact (G _ _ (inv0 ms t) (ser0 ms t) (tracked0 ms t) E).
Qed.
Lemma told_first ms0 t e1 j prior excl ms ds e2 s1 s p x :
  steps true (st0 ms0 t) e1 = Some s1 -> steps true s1 (Change j prior excl ms ds :: e2) = Some s -> In p prior -> excluded excl p = false -> open_ s1 p = true ->
  (forall n, existsb (joins n) e2 = false) -> existsb is_restart e2 = false -> all_works true p s1 (Change j prior excl ms ds :: e2) ->
  ~ In x prior -> cur s1 + 1 <= held s x -> cur s1 + 1 <= held s p.
Proof.
  intros E1 E P X O NJ NR Wk Nx Hx. destruct (all_steps _ _ _ _ E1) as (I & R & T). cbn [steps all_works] in *. destruct (step true s1 _) as [s2|] eqn:S1; [|discriminate E]. destruct Wk as (_ & Wk).
  pose proof (step_does _ _ _ _ S1) as D. inversion D as [? ? ? ? ? J F G| | | | | | | | | | | |]; subst.
  assert (C : first j (cur s1 + 1) p prior s); [|destruct C as [(_ & C)|(_ & _ & C & _)]; [exact C|destruct (C x Nx) as (C' & _); lia]].
  eapply first_steps; [exact (inv_step _ _ _ _ I S1)|exact (ser_step _ _ _ I R S1)|exact (tracked_step _ _ _ _ T S1)|exact NJ|exact NR|exact Wk| |exact E].
  right. cbn [cur open_ held queue_of job_of]. split; [reflexivity|]. split; [exact O|]. split.
  - intros y _. split; [pose proof (i_held s1 I y); lia|]. intros i w H. pose proof (i_queue s1 I y i w H). lia.
  - rewrite upd_same. auto.
Qed.

(** ** When all is quiet *)
Lemma quiet_step serial s e s' : quiet s -> is_change e = false -> (forall n, joins n e = false) -> step serial s e = Some s' -> quiet s' /\ forall n, held s' n = held s n.
Proof.
  intros (Q1 & Q2) NC NJ E. apply step_does in E. destruct E as [j prior excl ms ds J F G|j prior excl J|j room v n todo excl J X|j v n todo excl J X|j v excl J R|j room v n todo excl J X|j v n todo excl J X|j v excl J|n j v q s' Q O L W|n ok j v q o s' Q O W|n ok s' Q W|n o M|up];
    try (specialize (Q1 j); rewrite J in Q1; discriminate Q1); try (rewrite Q2 in Q; discriminate Q).
  - discriminate NC.
  - fields W. split.
    + split; [intros i; rewrite Hjob; apply Q1|]. intros i. rewrite Hq. unfold upd. destruct (i =? n); [reflexivity|apply Q2].
    + intros i. rewrite Hh. unfold upd. destruct (N.eqb_spec i n) as [->|]; reflexivity.
  - specialize (NJ n). cbn [joins] in NJ. rewrite N.eqb_refl in NJ. discriminate NJ.
  - split; [|reflexivity]. split; [|reflexivity]. intros j. cbn [restart job_of]. destruct (job_of s j); reflexivity.
Qed.
Lemma quiet_steps serial es : forall s s', quiet s -> existsb is_change es = false -> (forall n, existsb (joins n) es = false) -> steps serial s es = Some s' -> forall n, held s' n = held s n.
Proof.
  induction es as [|e es IH]; intros s s' Q NC NJ E n; cbn [steps] in E; [now injection E as <-|]. cbn [existsb] in NC. apply orb_false_iff in NC as (N1 & N2).
  destruct (step serial s e) as [s1|] eqn:S1; [|discriminate E]. destruct (quiet_step _ _ _ _ Q N1 (fun n => proj1 (orb_false_elim _ _ (NJ n))) S1) as (Q' & H).
  rewrite (IH s1 s' Q' N2 (fun n => proj2 (orb_false_elim _ _ (NJ n))) E n). apply H.
Qed.
