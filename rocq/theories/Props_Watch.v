(** Properties C38 (monitor), C41 (bandwidth limit) and C42 (watchdog). *)
From Coq Require Import List Bool NArith ZArith Lia Permutation.
From Verif Require Import MonitorModel MonitorSpec MonitorProofs LimitModel LimitSpec LimitProofs WatchModel WatchSpec WatchProofs.
Import ListNotations.
Local Open Scope Z_scope.

(** ** C38 *)
(** While the controller carries out requests before the next ping and nothing else
    changes the node's state, the requests are those of [expecteds]: down at the [t]th
    failure since the last success, once, and up at the next success.  Missing from the
    full property: a controller that lags behind (below). *)
Theorem c38_monitor_partial t connected ws m q : 0 < t < 2 ^ 31 - 1 -> forallb plain ws = true -> start t connected = Some (m, q) ->
  let b := if connected then Alive 0 else if t =? 1 then Dead else Alive 1 in
  exists m' d, closed m (fold_left obey q false) ws = Some (m', d, expecteds t b ws).
Proof.
  intros T P S. cbv zeta. apply closed_spec; auto. unfold start in S. destruct connected.
  - injection S as <- <-. split; auto. cbn. left. split; auto. lia.
  - apply down_spec in S as (A & B & EM & _ & Q). cbn [failures threshold] in *. change (0 + 1) with 1 in *.
    destruct (Z.eqb_spec t 1) as [E|NE].
    + destruct Q as [-> | ->]; [destruct (proj2 EM (eq_sym E))|]. split; [auto|reflexivity].
    + destruct Q as [-> | ->]; [|exfalso; apply NE; symmetry; apply EM; now left]. split; auto. cbn. left. rewrite A. split; auto. lia.
Qed.
Print Assumptions c38_monitor_partial.
Definition ok1 : work := Ping true.
Definition no1 : work := Ping false.
Example c38_nonvacuous : expecteds 3 (Alive 0) [no1; no1; ok1; no1; no1; no1; no1; ok1; ok1; no1; NodeSync true false; no1] =
  [[]; []; []; []; []; [RequestDown]; []; [RequestUp]; []; []; []; [RequestDown]].
Proof. reflexivity. Qed.
Example c38_closed_example : exists m d, closed (mkMonitor 0 3) false [no1; no1; ok1; no1; no1; no1; no1; ok1; ok1] =
  Some (m, d, [[]; []; []; []; []; [RequestDown]; []; [RequestUp]; []]).
Proof. eexists _, _. vm_compute. reflexivity. Qed.

(** Whatever the map says when: a request to take the node down is made only after [t]
    failures without a success in between. *)
Theorem c38_no_early_down t connected es r w m q m' qs q' : 0 < t -> start t connected = Some (m, q) ->
  forallb plain (map snd es) = true -> plain w = true ->
  iterates m (es ++ [(r, w)]) = Some (m', qs ++ [q']) -> List.length qs = List.length es -> In RequestDown q' ->
  t <= run_of_failures (w :: rev (map snd es) ++ if connected then [] else [Ping false]).
Proof.
  intros T S PS P E LE IQ. apply (down_after_failures t T es r w m _ m' qs q'); auto.
  unfold start in S. unfold counted. destruct connected.
  - injection S as <- <-. cbn. repeat split; lia.
  - apply down_spec in S as (A & B & _). cbn [failures threshold] in *. cbn. lia.
Qed.
Print Assumptions c38_no_early_down.
(** [t] failures in a row while the map does not say down: a request is made. *)
Theorem c38_down_follows t es m m' qs : 0 < t -> threshold m = t -> 0 <= failures m ->
  (forall r w, In (r, w) es -> r = ReadsOther /\ fails w = true) -> t <= Z.of_nat (List.length es) ->
  iterates m es = Some (m', qs) -> In [RequestDown] qs.
Proof.
  intros T TH NN F L E. apply (failures_make_down t T es m m' qs); auto. destruct (Z.leb_spec t (failures m)); lia.
Qed.
Print Assumptions c38_down_follows.
(** A request to bring it up is made exactly when a ping succeeds while the map says down. *)
Theorem c38_up_exactly m r w m' q : 0 < threshold m -> r <> Missing -> iterate m r w = Some (m', q) ->
  In RequestUp q <-> r = ReadsDown /\ w = Ping true.
Proof. intros T MI. apply up_exactly; auto. intros ->. now destruct MI. Qed.
Print Assumptions c38_up_exactly.
Example c38_iterates_example : iterates (mkMonitor 0 2) [(ReadsOther, no1); (ReadsOther, no1); (ReadsDown, no1); (ReadsDown, ok1); (ReadsOther, ok1)] =
  Some (mkMonitor 0 2, [[]; [RequestDown]; []; [RequestUp]; []]).
Proof. reflexivity. Qed.
(** A controller that lags: one outage, two requests. *)
Theorem c38_once_refuted : exists m, iterates (mkMonitor 0 2) [(ReadsOther, no1); (ReadsOther, no1); (ReadsOther, no1); (ReadsOther, no1)] =
  Some (m, [[]; [RequestDown]; []; [RequestDown]]).
Proof. eexists. reflexivity. Qed.
Print Assumptions c38_once_refuted.

(** ** C41 *)
(** No delay without a limit. *)
Theorem c41_no_limit l b s w : bw l = 0%N -> sleep_for l b s w = Some (l, None, 0).
Proof. intros H. unfold sleep_for. now rewrite H. Qed.
Print Assumptions c41_no_limit.
(** Each call: the sleep is what the outstanding bytes are worth, none below a tenth of a
    second, and the outstanding bytes are carried on, whatever the sleep really took. *)
Theorem c41_call l b s w : (0 < bw l < 2 ^ 20)%N -> (b <> 0)%N ->
  - 2 ^ 60 <= total l -> total l + Z.of_N b < 2 ^ 50 -> time_of_day (prior l) -> time_of_day s -> time_of_day w ->
  0 <= usec s - usec (prior l) <= 2 ^ 42 -> 0 <= usec w - usec s <= 2 ^ 42 ->
  let out := outstanding (bw l) (total l) b (Some (usec s - usec (prior l))) in
  let sleep := due_sleep (bw l) out in
  exists l' u r, sleep_for l b s w = Some (l', u, r) /\ bw l' = bw l /\ 0 <= out /\
    (sleep < 100000 -> u = None /\ total l' = out /\ prior l' = s) /\
    (100000 <= sleep -> u = Some (sleep mod 2 ^ 32) /\ prior l' = w /\
       976 * out <= 976 * total l' + allowance (bw l) (usec w - usec s) + Z.of_N (bw l) + 976).
Proof.
  intros L NB T0 T1 P S W E1 E2 out sleep.
  assert (F : fresh l = false) by (unfold fresh; destruct P as (P & _); apply Z.eqb_neq; lia).
  destruct (sleep_for_ok l b s w) as (O & E); auto; [congruence|]. unfold since in O, E. rewrite F in O, E. fold out in O, E. fold sleep in E.
  destruct (Z.ltb_spec sleep 100000) as [LT|GE].
  - eexists _, _, _. split; [exact E|]. cbn [bw total prior]. repeat split; auto; try lia. 
  - eexists _, _, _. split; [exact E|]. cbn [bw total prior]. repeat split; auto; try lia.
    pose proof (quot_bound ((sleep - (usec w - usec s)) * Z.of_N (bw l))).
    assert (out * 976 < (sleep + 1) * Z.of_N (bw l)).
    { unfold sleep, due_sleep. pose proof (Z.mul_succ_div_gt (out * 976) (Z.of_N (bw l)) ltac:(lia)). lia. }
    unfold allowance. lia.
Qed.
Print Assumptions c41_call.
(** Nothing overflows within these bounds, and no debt is lost: what was sent is still
    outstanding, or was allowed for in the meantime, up to rounding at each sleep. *)
Theorem c41_debt_kept limit cs t t1 : sane limit (sent cs) (t1 - t) -> t <= t1 -> forwards t t1 cs ->
  exists l us, calls (limiter0 limit) cs = Some (l, us) /\
    976 * sent cs <= 976 * total l + allowance limit (t1 - t) + Z.of_nat (List.length us) * (Z.of_N limit + 976).
Proof.
  intros S T F. destruct (run_good limit cs t t1 S F) as (l & us & E & D & _). exists l, us. split; [exact E|].
  rewrite Z.max_r in D by lia. assert (sleeps us <= Z.of_nat (List.length us)).
  { clear. induction us as [|[u|] us IH]; cbn [sleeps fold_right List.length count]; [lia|fold (sleeps us); lia..]. }
  assert (sleeps us * (Z.of_N limit + 976) <= Z.of_nat (List.length us) * (Z.of_N limit + 976)) by (apply Z.mul_le_mono_nonneg_r; lia). lia.
Qed.
Print Assumptions c41_debt_kept.
(** The rate: when sleeps last at least as long as asked, within [d] microseconds no more is
    sent than [limit] kilobytes a second allow for that time and a tenth of a second more
    (a kilobyte counted as 1025 bytes), and ten bytes a second. *)
Theorem c41_rate limit cs t t1 l us : sane limit (sent cs) (t1 - t) -> t <= t1 -> forwards t t1 cs -> calls (limiter0 limit) cs = Some (l, us) ->
  slept us cs -> (forall c, In c cs -> Z.of_N (fst (fst c)) <= 4000000 * Z.of_N limit) ->
  sent cs * 1000000 <= Z.of_N limit * 1025 * (t1 - t + 100000) + 10 * (t1 - t).
Proof. exact (rate limit cs t t1 l us). Qed.
Print Assumptions c41_rate.
Definition tv (u : Z) : timeval := mkTv (1700000000 + u / 1000000) (u mod 1000000).
(** One hundred kilobytes a second; 30000 bytes at once ask for a sleep of 0.29 seconds. *)
Definition some_calls : list call := [(30000%N, tv 0, tv 300000); (5000%N, tv 310000, tv 310000); (20000%N, tv 320000, tv 320001); (1000%N, tv 320002, tv 550000)].
Example c41_nonvacuous : exists l us, calls (limiter0 100) some_calls = Some (l, us) /\ us = [Some 292800; None; Some 216818; Some 226568] /\
  sane 100 (sent some_calls) (usec (tv 600000) - usec (tv 0)) /\ forwards (usec (tv 0)) (usec (tv 600000)) some_calls.
Proof.
  eexists _, _. split; [vm_compute; reflexivity|]. split; [reflexivity|]. split.
  - unfold sane. vm_compute. intuition congruence.
  - unfold some_calls, forwards, time_of_day, usec, tv. cbn [tv_sec tv_usec]. vm_compute. intuition congruence.
Qed.
Definition slept_calls : list call := [(30000%N, tv 0, tv 300000); (5000%N, tv 310000, tv 310000); (20000%N, tv 320000, tv 540000)].
Example c41_slept_nonvacuous : exists l us, calls (limiter0 100) slept_calls = Some (l, us) /\ slept us slept_calls /\
  sane 100 (sent slept_calls) (usec (tv 540000) - usec (tv 0)) /\ forwards (usec (tv 0)) (usec (tv 540000)) slept_calls /\
  (forall c, In c slept_calls -> Z.of_N (fst (fst c)) <= 4000000 * 100).
Proof.
  eexists _, _. split; [vm_compute; reflexivity|]. split; [vm_compute; intuition congruence|]. split; [unfold sane; vm_compute; intuition congruence|].
  split; [unfold slept_calls, forwards, time_of_day, usec, tv; vm_compute; intuition congruence|].
  intros c [<-|[<-|[<-|[]]]]; vm_compute; congruence.
Qed.
(** Nothing is said for a clock that is set back: an hour back, one byte, an hour of sleep. *)
Theorem c41_clock_back_refuted : exists l us, calls (limiter0 100) [(1000%N, tv 3600000000, tv 3600000000); (1%N, tv 0, tv 0)] = Some (l, us) /\ us = [None; Some 3600009769].
Proof. eexists _, _. split; [vm_compute; reflexivity|reflexivity]. Qed.
Print Assumptions c41_clock_back_refuted.
(** And with a limit of eight megabytes a second: set back to 1970 by a machine without a clock of its own, or forward
    by as much, it makes the arithmetic overflow. *)
Theorem c41_clock_jump_refuted : calls (limiter0 8192) [(1000%N, tv 0, tv 0); (1%N, mkTv 1 0, mkTv 1 0)] = None /\
  calls (limiter0 8192) [(1000%N, mkTv 1 0, mkTv 1 0); (1%N, tv 0, tv 0)] = None.
Proof. split; vm_compute; reflexivity. Qed.
Print Assumptions c41_clock_jump_refuted.

(** ** C42 *)
(** The arithmetic. *)
Theorem c42_time_arithmetic a b : reading a -> reading b ->
  (exists r, ts_add a b = Some r /\ normal r /\ ns r = ns a + ns b) /\
  (exists r, ts_sub a b = Some r /\ normal r /\ ns r = ns a - ns b) /\
  is_bigger a b = (ns b <? ns a).
Proof. intros A B. split; [now apply ts_add_ok|]. split; [now apply ts_sub_ok|]. apply is_bigger_ns; [apply A|apply B]. Qed.
Print Assumptions c42_time_arithmetic.
Theorem c42_time_conversions m s u : (m < 2 ^ 32)%N -> - 2 ^ 63 <= s < 2 ^ 63 -> 0 <= u < 1000000 ->
  normal (msec_to_timespec m) /\ ns (msec_to_timespec m) = Z.of_N m * 1000000 /\
  exists r, timeval_to_timespec s u = Some r /\ normal r /\ ns r = (s * 1000000 + u) * 1000.
Proof. intros _ S U. split; [apply msec_ns|]. split; [apply msec_ns|]. now apply timeval_ns. Qed.
Print Assumptions c42_time_conversions.
(** After any history of accesses, polls and changes of the thresholds a poll reports
    exactly the accesses under way that are older than the threshold set when they began,
    each once, with its age, and as a failure if it is older than the second threshold. *)
Theorem c42_reports_exactly warn ng es clk : fairs (view0 warn ng) es -> (forall a, WatchSpec.reading (clk a)) ->
  exists w rs w' r, run (watcher0 warn ng) es = Some (w, rs) /\ step w (Poll clk) = Some (w', r) /\
    Permutation (map seen r) (due (view_of warn ng es) clk).
Proof.
  intros F C. destruct (run_ok es _ _ (ok0 warn ng) F) as (w & rs & E & O).
  destruct (step_ok w _ (Poll clk) O C) as (w' & r & E' & _ & P & _). exists w, rs, w', r. repeat split; auto.
Qed.
Print Assumptions c42_reports_exactly.
(** The node answers ping with OK as long as no poll saw a failure, and never again after. *)
Theorem c42_ping warn ng es w rs : fairs (view0 warn ng) es -> run (watcher0 warn ng) es = Some (w, rs) ->
  ping_ok w = true <-> no_failure warn ng es.
Proof.
  intros F E. unfold ping_ok, no_failure, view_of. rewrite (run_health es _ _ w rs (ok0 warn ng) F E). cbn. tauto.
Qed.
Print Assumptions c42_ping.
(** Thread 1 is still busy after two seconds, thread 2 has ended, thread 3 has just begun. *)
Definition a_history : list event := [Begin 1 (mkTs 100 500); Begin 2 (mkTs 100 600); Poll (fun _ => mkTs 100 700); End 2; Begin 3 (mkTs 102 0)].
Example c42_nonvacuous : fairs (view0 500 1500) a_history /\
  due (view_of 500 1500 a_history) (fun _ => mkTs 102 100) = [(1%N, 1999999600, true)] /\
  exists w rs, run (watcher0 500 1500) (a_history ++ [Poll (fun _ => mkTs 102 100)]) = Some (w, rs) /\ ping_ok w = false /\
    nth 5 rs [] = [Failed 1 (mkTs 1 999999600)].
Proof.
  repeat split; try (vm_compute; intuition (congruence || lia)).
  eexists _, _. split; [vm_compute; reflexivity|]. split; reflexivity.
Qed.
