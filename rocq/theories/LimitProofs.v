From Coq Require Import List Bool NArith ZArith Lia.
From Coq Require Import ZifyBool ZifyNat ZifyN.
From Verif Require Import LimitModel LimitSpec.
Import ListNotations.
Local Open Scope Z_scope.

Lemma long_ok z : - 2 ^ 63 <= z < 2 ^ 63 -> long z = Some z.
Proof. unfold long. intros. replace (_ && _) with true by lia. reflexivity. Qed.
Lemma to_long_ok z : - 2 ^ 63 <= z < 2 ^ 63 -> to_long z = z.
Proof. unfold to_long. intros. rewrite Z.mod_small; lia. Qed.
Lemma elapsed_ok a b : time_of_day a -> time_of_day b -> elapsed a b = Some (usec a - usec b).
Proof.
  unfold time_of_day, elapsed, usec, one_sec. intros. cbn [bind].
  rewrite long_ok by lia. cbn [bind]. rewrite long_ok by lia. cbn [bind]. rewrite long_ok by lia. cbn [bind]. rewrite long_ok by lia. f_equal. lia.
Qed.
Lemma unit_usec_eq : unit_usec = 976. Proof. reflexivity. Qed.
Lemma quot_bound x : - 976 < 976 * Z.quot x 976 - x < 976.
Proof. pose proof (Z.quot_rem x 976 ltac:(lia)). pose proof (Z.rem_bound_abs x 976 ltac:(lia)). lia. Qed.
Lemma worth_ok limit e : (limit < 2 ^ 20)%N -> - 2 ^ 63 <= e * Z.of_N limit < 2 ^ 63 -> worth limit e = Some (Z.quot (e * Z.of_N limit) 976).
Proof.
  intros L B. unfold worth. rewrite to_long_ok by lia. rewrite long_ok by lia. cbn [bind]. rewrite unit_usec_eq. apply long_ok.
  pose proof (quot_bound (e * Z.of_N limit)). lia.
Qed.

Definition fresh (l : limiter) : bool := tv_sec (prior l) =? 0.
Definition since (l : limiter) (s : timeval) : option Z := if fresh l then None else Some (usec s - usec (prior l)).

(** One call without wrap-around. *)
Lemma sleep_for_ok l b s w : (0 < bw l < 2 ^ 20)%N -> (b <> 0)%N ->
  - 2 ^ 60 <= total l -> total l + Z.of_N b < 2 ^ 50 -> (fresh l = true -> total l = 0) -> (fresh l = false -> time_of_day (prior l) /\ 0 <= usec s - usec (prior l) <= 2 ^ 42) ->
  time_of_day s -> time_of_day w -> 0 <= usec w - usec s <= 2 ^ 42 ->
  let out := outstanding (bw l) (total l) b (since l s) in
  let sleep := due_sleep (bw l) out in
  0 <= out <= Z.max 0 (total l + Z.of_N b) /\
  sleep_for l b s w = Some (
    if sleep <? 100000 then (mkLim (bw l) out s, None, 0)
    else (mkLim (bw l) (Z.quot ((sleep - (usec w - usec s)) * Z.of_N (bw l)) 976) w, Some (sleep mod 2 ^ 32), usec w - usec s)).
Proof.
  intros L NB T0 T1 FR PR S W E out sleep.
  assert (OUT : 0 <= out <= Z.max 0 (total l + Z.of_N b)).
  { unfold out, outstanding, since, allowance. destruct (fresh l) eqn:F.
    - rewrite FR by auto. lia.
    - destruct (PR eq_refl) as (_ & P). assert (0 <= Z.of_N (bw l) * (usec s - usec (prior l)) / 976) by (apply Z.div_pos; nia). lia. }
  split; [exact OUT|].
  unfold sleep_for. replace ((bw l =? 0)%N || (b =? 0)%N) with false by lia.
  rewrite to_long_ok by lia.
  assert (X : (if tv_sec (prior l) =? 0 then Some (total l + Z.of_N b)
    else do e <- elapsed s (prior l); do w0 <- worth (bw l) e; do t <- long (total l + Z.of_N b - w0); Some (if t <? 0 then 0 else t)) = Some out).
  { unfold out, outstanding, since. change (tv_sec (prior l) =? 0) with (fresh l). destruct (fresh l) eqn:F.
    - rewrite FR by auto. reflexivity.
    - destruct (PR eq_refl) as (PT & P). rewrite elapsed_ok by auto. cbn [bind]. rewrite worth_ok by nia. cbn [bind].
      unfold allowance. rewrite Z.quot_div_nonneg by nia. rewrite (Z.mul_comm (Z.of_N (bw l))).
      set (q := (usec s - usec (prior l)) * Z.of_N (bw l) / 976). assert (Q : 0 <= q <= 2 ^ 62).
      { unfold q. split; [apply Z.div_pos; nia|]. apply Z.div_le_upper_bound; nia. }
      rewrite long_ok by lia. cbn [bind]. f_equal. destruct (Z.ltb_spec (total l + Z.of_N b - q) 0); lia. }
  rewrite X. cbn [bind]. rewrite unit_usec_eq. rewrite long_ok by lia. cbn [bind].
  rewrite (Z.mod_small (out * 976)) by lia. fold (due_sleep (bw l) out). fold sleep.
  assert (SL : 0 <= sleep /\ sleep * Z.of_N (bw l) <= out * 976).
  { unfold sleep, due_sleep. split; [apply Z.div_pos; lia|]. rewrite Z.mul_comm. apply Z.mul_div_le. lia. }
  rewrite to_long_ok by nia. change (one_sec / 10) with 100000. destruct (Z.ltb_spec sleep 100000); [reflexivity|].
  rewrite elapsed_ok by auto. cbn [bind]. rewrite long_ok by nia. cbn [bind]. rewrite worth_ok by nia. reflexivity.
Qed.

(** ** Sequences *)
(** The state after calls that handed over [W] bytes from [T1] on, with [K] sleeps. *)
Record good (limit : N) (l : limiter) (W T1 t : Z) (K : Z) : Prop := mkGood {
  g_bw : bw l = limit;
  g_fresh : fresh l = true -> total l = 0 /\ W = 0 /\ K = 0;
  g_prior : fresh l = false -> time_of_day (prior l) /\ T1 <= usec (prior l) <= t;
  g_K : 0 <= K;
  g_W : 0 <= W;
  g_up : total l <= W;
  g_low : - 2 ^ 60 <= total l;
  g_debt : fresh l = false -> 976 * (W - total l) <= allowance limit (usec (prior l) - T1) + K * (Z.of_N limit + 976) }.

Definition count (u : option Z) : Z := match u with Some _ => 1 | None => 0 end.
Lemma step_good limit l W T1 t t1 K b s w : (0 < limit < 2 ^ 20)%N -> good limit l W T1 t K -> W + Z.of_N b < 2 ^ 50 ->
  T1 <= t -> t1 <= T1 + 2 ^ 42 -> time_of_day s -> time_of_day w -> t <= usec s -> usec s <= usec w -> usec w <= t1 ->
  exists l' u r, sleep_for l b s w = Some (l', u, r) /\ good limit l' (W + Z.of_N b) T1 (usec w) (K + count u) /\
    ((forall u', u = Some u' -> usec s + u' <= usec w) -> Z.of_N b <= 4000000 * Z.of_N limit ->
     976 * total l <= 100000 * Z.of_N limit -> K * 100000 <= Z.max 0 (usec (prior l) - T1) ->
     976 * total l' <= 100000 * Z.of_N limit /\ (K + count u) * 100000 <= Z.max 0 (usec (prior l') - T1)).
Proof.
  intros L G V T TT S1 W1 A B C. destruct (N.eq_dec b 0) as [->|NB].
  - exists l, None, 0. unfold sleep_for. rewrite orb_true_r. split; [reflexivity|].
    change (Z.of_N 0) with 0. cbn [count]. rewrite !Z.add_0_r. split; [|tauto]. destruct G; constructor; auto.
    intros F. destruct (g_prior0 F). split; auto. lia.
  - pose proof (sleep_for_ok l b s w) as H. rewrite (g_bw _ _ _ _ _ _ G) in H.
    assert (UP := g_up _ _ _ _ _ _ G). assert (LOW := g_low _ _ _ _ _ _ G). assert (KK := g_K _ _ _ _ _ _ G). assert (WW := g_W _ _ _ _ _ _ G).
    cbv zeta in H. destruct H as (OUT & E); auto; try lia.
    { intros F. apply G in F. tauto. } { intros F. destruct (g_prior _ _ _ _ _ _ G F). split; auto. lia. }
    set (out := outstanding _ _ _ _) in *. set (sleep := due_sleep _ _) in *.
    assert (NF : forall x y z, time_of_day z -> fresh (mkLim x y z) = false) by (intros x y z (Z1 & _); unfold fresh; cbn; lia).
    assert (OD : 976 * (W + Z.of_N b - out) <= allowance limit (usec s - T1) + K * (Z.of_N limit + 976)).
    { unfold out, outstanding, since, allowance. destruct (fresh l) eqn:F.
      - destruct (g_fresh _ _ _ _ _ _ G F) as (_ & -> & ->). nia.
      - pose proof (g_debt _ _ _ _ _ _ G F) as D. unfold allowance in D. destruct (g_prior _ _ _ _ _ _ G F) as (_ & P).
        pose proof (Z.mul_div_le (Z.of_N limit * (usec s - usec (prior l))) 976 ltac:(lia)). nia. }
    assert (SL : sleep * Z.of_N limit <= out * 976 < (sleep + 1) * Z.of_N limit).
    { unfold sleep, due_sleep. pose proof (Z.mul_div_le (out * 976) (Z.of_N limit) ltac:(lia)). pose proof (Z.mul_succ_div_gt (out * 976) (Z.of_N limit) ltac:(lia)). lia. }
    assert (OW : out <= Z.max 0 (total l + Z.of_N b)) by lia.
    destruct (Z.ltb_spec sleep 100000) as [LT|GE].
    + eexists _, _, _. split; [exact E|]. split.
      * constructor; cbn [bw total prior count]; auto; try lia.
        -- rewrite NF by auto. discriminate.
        -- intros _. split; auto. lia.
      * intros _ _ TL KL. cbn [total prior count]. split; [nia|]. destruct (fresh l) eqn:F.
        -- destruct (g_fresh _ _ _ _ _ _ G F) as (_ & _ & ->). lia.
        -- destruct (g_prior _ _ _ _ _ _ G F) as (_ & P). lia.
    + eexists _, _, _. split; [exact E|]. set (x := (sleep - (usec w - usec s)) * Z.of_N limit). pose proof (quot_bound x) as Q.
      assert (QN : 0 <= x -> 0 <= Z.quot x 976 /\ 976 * Z.quot x 976 <= x).
      { intros X. rewrite Z.quot_div_nonneg by lia. split; [apply Z.div_pos; lia|apply Z.mul_div_le; lia]. }
      assert (XB : x <= out * 976) by (unfold x; nia).
      assert (XL : - 2 ^ 62 <= x) by (unfold x; nia).
      split.
      * constructor; cbn [bw total prior count]; auto; try lia.
        -- rewrite NF by auto. discriminate.
        -- intros _. split; auto. lia.
        -- intros _. unfold allowance in *. unfold x in *. nia.
      * intros U BB TL KL. cbn [total prior count]. 
        assert (SM : sleep mod 2 ^ 32 = sleep).
        { apply Z.mod_small. split; [lia|]. assert (out * 976 <= 100000 * Z.of_N limit + 976 * (4000000 * Z.of_N limit)) by lia. nia. }
        specialize (U _ eq_refl). rewrite SM in U. assert (x <= 0) by (apply Z.mul_nonpos_nonneg; lia).
        split.
        -- assert (Z.quot x 976 <= 0); [|lia]. rewrite <- (Z.opp_involutive x), Z.quot_opp_l by lia. pose proof (Z.quot_pos (- x) 976). lia.
        -- destruct (fresh l) eqn:F.
           ++ destruct (g_fresh _ _ _ _ _ _ G F) as (_ & _ & ->). lia.
           ++ destruct (g_prior _ _ _ _ _ _ G F) as (_ & P). lia.
Qed.

Definition sleeps (us : list (option Z)) : Z := fold_right (fun u a => count u + a) 0 us.
Lemma calls_good limit T1 t1 : (0 < limit < 2 ^ 20)%N -> t1 <= T1 + 2 ^ 42 -> forall cs l W t K,
  good limit l W T1 t K -> W + sent cs < 2 ^ 50 -> T1 <= t -> forwards t t1 cs ->
  exists l' us t' , calls l cs = Some (l', us) /\ t <= t' <= Z.max t t1 /\ good limit l' (W + sent cs) T1 t' (K + sleeps us) /\
    (slept us cs -> (forall c, In c cs -> Z.of_N (fst (fst c)) <= 4000000 * Z.of_N limit) ->
     976 * total l <= 100000 * Z.of_N limit -> K * 100000 <= Z.max 0 (usec (prior l) - T1) ->
     976 * total l' <= 100000 * Z.of_N limit /\ (K + sleeps us) * 100000 <= Z.max 0 (usec (prior l') - T1)).
Proof.
  intros L TT. assert (SN : forall cs : list call, 0 <= sent cs) by (intros cs; induction cs as [|c cs IHc]; cbn [sent fold_right]; [lia|fold (sent cs); lia]).
  induction cs as [|((b & s) & w) cs IH]; intros l W t K G V T F; cbn [calls sent fold_right fst] in *.
  - exists l, [], t. cbn [sleeps fold_right]. rewrite !Z.add_0_r. split; [reflexivity|]. split; [lia|]. split; [exact G|tauto].
  - fold (sent cs) in *. destruct F as (S1 & W1 & A & B & C & F). pose proof (SN cs).
    destruct (step_good limit l W T1 t t1 K b s w) as (l1 & u & r & -> & G1 & R1); auto; try lia.
    destruct (IH l1 _ (usec w) _ G1) as (l2 & us & t' & -> & TA & G2 & R2); auto; try lia.
    exists l2, (u :: us), t'. split; [reflexivity|]. split; [lia|]. cbn [sleeps fold_right]. fold (sleeps us).
    rewrite !Z.add_assoc. split; [exact G2|]. cbn [slept]. intros (SU & SS) BS TL KL. apply R2; auto.
    + intros c I. apply BS. now right.
    + apply R1; auto; [|apply (BS (b, s, w)); now left]. intros u' ->. exact SU.
    + apply R1; auto; [|apply (BS (b, s, w)); now left]. intros u' ->. exact SU.
Qed.

Lemma good0 limit t : good limit (limiter0 limit) 0 t t 0.
Proof. constructor; cbn; auto; try lia; discriminate. Qed.

Lemma run_good limit cs t t1 : sane limit (sent cs) (t1 - t) -> forwards t t1 cs ->
  exists l us, calls (limiter0 limit) cs = Some (l, us) /\
    976 * (sent cs - total l) <= allowance limit (Z.max 0 (t1 - t)) + sleeps us * (Z.of_N limit + 976) /\
    (slept us cs -> (forall c, In c cs -> Z.of_N (fst (fst c)) <= 4000000 * Z.of_N limit) ->
     976 * total l <= 100000 * Z.of_N limit /\ sleeps us * 100000 <= Z.max 0 (t1 - t)).
Proof.
  intros (L & V & D) F. destruct (calls_good limit t t1 L ltac:(lia) cs (limiter0 limit) 0 t 0) as (l & us & t' & E & TT & G & R); auto; try lia.
  { apply good0. }
  rewrite !Z.add_0_l in *. exists l, us. split; [exact E|]. split.
  - destruct (fresh l) eqn:FR.
    + destruct (g_fresh _ _ _ _ _ _ G FR) as (-> & -> & ->). unfold allowance. nia.
    + pose proof (g_debt _ _ _ _ _ _ G FR) as H. destruct (g_prior _ _ _ _ _ _ G FR) as (_ & P). unfold allowance in *. nia.
  - intros S B. destruct (R S B) as (R1 & R2); [cbn [total limiter0]; lia|lia|]. split; auto.
    destruct (fresh l) eqn:FR.
    + destruct (g_fresh _ _ _ _ _ _ G FR) as (_ & _ & ->). lia.
    + destruct (g_prior _ _ _ _ _ _ G FR) as (_ & P). lia.
Qed.

(** The rate. *)
Lemma rate limit cs t t1 l us : sane limit (sent cs) (t1 - t) -> t <= t1 -> forwards t t1 cs -> calls (limiter0 limit) cs = Some (l, us) ->
  slept us cs -> (forall c, In c cs -> Z.of_N (fst (fst c)) <= 4000000 * Z.of_N limit) ->
  sent cs * 1000000 <= Z.of_N limit * 1025 * (t1 - t + 100000) + 10 * (t1 - t).
Proof.
  intros S T F E SL B. destruct (run_good limit cs t t1 S F) as (l' & us' & E' & D & R). rewrite E in E'. injection E' as <- <-.
  destruct (R SL B) as (R1 & R2). unfold allowance in D. rewrite Z.max_r in * by lia. set (d := t1 - t) in *. assert (0 <= d) by lia.
  set (n := Z.of_N limit) in *. assert (0 <= n) by lia. set (k := sleeps us) in *.
  assert (976 * sent cs <= n * d + k * (n + 976) + 100000 * n) by lia.
  assert (100000 * (976 * sent cs) <= 100000 * (n * d) + d * (n + 976) + 100000 * (100000 * n)) by nia.
  nia.
Qed.
