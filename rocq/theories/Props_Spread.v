(** C76: the nodes learn of a new map. *)
From Coq Require Import List Bool NArith ZArith Lia.
From Coq Require Import ZifyBool ZifyN.
From Verif Require Import MonitorModel SpreadModel SpreadSpec SpreadProofs SpreadProofs2.
Import ListNotations.
Local Open Scope N_scope.

(** Examples: [sp_run serial t es]: nodes 1, 2 and 3. *)
Definition sp0 (t : Z) : st := st0 [1; 2; 3] t.
Definition sp_run (serial : bool) (t : Z) (es : list event) : st := match steps serial (sp0 t) es with Some s => s | None => sp0 t end.
Definition sp_ok (serial : bool) (t : Z) (es : list event) : bool := match steps serial (sp0 t) es with Some _ => true | None => false end.
Lemma sp_run_ok serial t es : sp_ok serial t es = true -> steps serial (sp0 t) es = Some (sp_run serial t es).
Proof. unfold sp_ok, sp_run. destruct (steps _ _ _); [reflexivity|discriminate]. Qed.
(** Job [j] changes the map, and tells [prior] first and then all. *)
Definition tells (j : N) (prior : list N) : list event :=
  Change j prior None [1; 2; 3] [] :: Make j :: map (fun _ => PushPrior j true) prior ++ map (fun n => Deliver n true) prior
  ++ [Wait j; Push j true; Push j true; Push j true; End j].
Definition reaches : list event := [Deliver 1 true; Deliver 2 true; Deliver 3 true].
(** All of a state that a run can have changed for nodes 1 to 3 and jobs 0 to 3 is as when all is quiet. *)
Lemma untouched serial es : forall s s' n, steps serial s es = Some s' -> queue_of s n = [] -> ~ In n (members s) ->
  (forall j, match job_of s j with Priors _ l _ | Rest _ l _ => ~ In n l | Changed l _ => ~ In n l | _ => True end) ->
  Forall (fun e => match e with Change _ p _ ms _ => ~ In n ms /\ ~ In n p | _ => True end) es -> queue_of s' n = [].
Proof.
  induction es as [|e es IH]; intros s s' n E Q M J F; cbn [steps] in E; [injection E as <-; exact Q|]. inversion F as [|? ? F1 F2]; subst.
  destruct (step serial s e) as [s1|] eqn:S1; [|discriminate E]. apply step_does in S1.
  assert (G : forall i x, match x with Priors _ l _ | Rest _ l _ => ~ In n l | Changed l _ => ~ In n l | _ => True end ->
    forall j, match upd (job_of s) i x j with Priors _ l _ | Rest _ l _ => ~ In n l | Changed l _ => ~ In n l | _ => True end).
  { intros i x X j. unfold upd. destruct (j =? i); [exact X|apply J]. }
  destruct S1 as [j prior excl ms ds K F' G'|j prior excl K|j room v m todo excl K X|j v m todo excl K X|j v excl K R|j room v m todo excl K X|j v m todo excl K X|j v excl K|m j v q s'' Q' O L W|m ok j v q o s'' Q' O W|m ok s'' Q' W|m o M'|up].
  - destruct F1 as (F1 & F3). apply (IH _ _ n E); cbn [queue_of members job_of]; auto. exact (G j (Changed prior excl) F3).
  - pose proof (J j) as J1. rewrite K in J1. apply (IH _ _ n E); cbn [set_job queue_of members job_of]; auto. exact (G j (Priors (cur s) prior excl) J1).
  - pose proof (J j) as J1. rewrite K in J1. apply (IH _ _ n E); cbn [set_job queue_of members job_of]; auto. apply (G j (Priors v todo excl)). intros H. apply J1. now right.
  - pose proof (J j) as J1. rewrite K in J1. apply (IH _ _ n E); cbn [add_ref enqueue set_job queue_of members job_of]; auto.
    + rewrite upd_other; [exact Q|]. intros ->. apply J1. now left.
    + apply (G j (Priors v todo excl)). intros H. apply J1. now right.
  - apply (IH _ _ n E); cbn [set_job queue_of members job_of]; auto. exact (G j (Rest v (members s) excl) M).
  - pose proof (J j) as J1. rewrite K in J1. apply (IH _ _ n E); cbn [set_job queue_of members job_of]; auto. apply (G j (Rest v todo excl)). intros H. apply J1. now right.
  - pose proof (J j) as J1. rewrite K in J1. apply (IH _ _ n E); cbn [enqueue set_job queue_of members job_of]; auto.
    + rewrite upd_other; [exact Q|]. intros ->. apply J1. now left.
    + apply (G j (Rest v todo excl)). intros H. apply J1. now right.
  - apply (IH _ _ n E); cbn [set_job queue_of members job_of]; auto. exact (G j Done Logic.I).
  - fields W. apply (IH _ _ n E); rewrite ?Hq, ?Hmem, ?Hjob; auto. rewrite upd_other; [exact Q|]. intros ->. congruence.
  - fields W. apply (IH _ _ n E); rewrite ?Hq, ?Hmem, ?Hjob; auto. rewrite upd_other; [exact Q|]. intros ->. congruence.
  - fields W. apply (IH _ _ n E); rewrite ?Hq, ?Hmem, ?Hjob; auto. unfold upd. destruct (n =? m); auto.
  - apply (IH _ _ n E); auto.
  - apply (IH _ _ n E); cbn [restart queue_of members job_of]; auto. intros j. destruct (job_of s j); exact Logic.I.
Qed.
Definition idle_job (es : list event) (j : N) : bool := negb (existsb (fun e => match e with Change i _ _ _ _ => j =? i | _ => false end) es).
Lemma idle serial es : forall s s' j, steps serial s es = Some s' -> job_of s j = NoJob -> idle_job es j = true -> job_of s' j = NoJob.
Proof.
  induction es as [|e es IH]; intros s s' j E J F; cbn [steps] in E; [injection E as <-; exact J|]. unfold idle_job in *. cbn [existsb] in F. rewrite negb_orb in F. apply andb_prop in F as (F1 & F2).
  destruct (step serial s e) as [s1|] eqn:S1; [|discriminate E]. apply (IH s1 s' j E); [|exact F2]. apply step_does in S1.
  destruct S1 as [i prior excl ms ds K F' G'|i prior excl K|i room v m todo excl K X|i v m todo excl K X|i v excl K R|i room v m todo excl K X|i v m todo excl K X|i v excl K|m i v q s'' Q' O L W|m ok i v q o s'' Q' O W|m ok s'' Q' W|m o M'|up];
    try (fields W; rewrite Hjob; exact J); try exact J; try (cbn [restart job_of]; rewrite J; reflexivity); cbn [add_ref enqueue set_job job_of]; (rewrite upd_other; [exact J|]); try (intros ->; congruence).
  intros ->. cbn in F1. rewrite N.eqb_refl in F1. discriminate F1.
Qed.
(** To be computed on an example: all is quiet. *)
Definition quiet_upto (s : st) (es : list event) : bool :=
  forallb (fun j => over (job_of s j)) (flat_map (fun e => match e with Change j _ _ _ _ => [j] | _ => [] end) es) && forallb (fun n => match queue_of s n with [] => true | _ => false end) [1; 2; 3].
Lemma is_quiet serial t es : sp_ok serial t es = true -> forallb (fun e => match e with Change _ p _ ms _ => forallb (fun n => (1 <=? n) && (n <=? 3)) (p ++ ms) | _ => true end) es = true ->
  quiet_upto (sp_run serial t es) es = true -> quiet (sp_run serial t es).
Proof.
  intros O F Q. apply sp_run_ok in O. apply andb_prop in Q as (Q1 & Q2). split.
  - intros j. destruct (idle_job es j) eqn:I; [rewrite (idle _ _ _ _ _ O eq_refl I); reflexivity|]. rewrite forallb_forall in Q1. apply Q1. apply in_flat_map.
    apply negb_false_iff, existsb_exists in I as (e & I1 & I2). exists e. split; [exact I1|]. destruct e; try discriminate. left. lia.
  - intros n. destruct (N.eq_dec n 1) as [->|N1]; [|destruct (N.eq_dec n 2) as [->|N2]; [|destruct (N.eq_dec n 3) as [->|N3]]].
    1-3: cbn [forallb] in Q2; apply andb_prop in Q2 as (A & Q2); apply andb_prop in Q2 as (B & Q2); apply andb_prop in Q2 as (C & _).
    + destruct (queue_of _ 1); [reflexivity|discriminate].
    + destruct (queue_of _ 2); [reflexivity|discriminate].
    + destruct (queue_of _ 3); [reflexivity|discriminate].
    + apply (untouched _ _ _ _ n O); [reflexivity|cbn; lia|cbn; tauto|]. apply Forall_forall. intros e He. rewrite forallb_forall in F. specialize (F e He). destruct e; auto.
      rewrite forallb_forall in F. split; intros H; assert (K : In n (prior ++ ms)) by (apply in_app_iff; tauto); specialize (F n K); lia.
Qed.

(** ** A node is told of the newest map.  Missing: a connection that is not open when the change is made, an index server that is started again, see below. *)
Theorem c76_newest_partial : forall serial ms0 t e1 j prior excl ms ds e2 s1 s n,
  steps serial (st0 ms0 t) e1 = Some s1 -> steps serial s1 (Change j prior excl ms ds :: e2) = Some s -> existsb is_change e2 = false -> existsb is_restart e2 = false ->
  quiet s -> In n (members s) -> excluded excl n = false ->
  open_ s1 n = true -> existsb (joins n) e2 = false -> all_works serial n s1 (Change j prior excl ms ds :: e2) -> held s n = cur s.
Proof. exact newest. Qed.
Print Assumptions c76_newest_partial.
(** Whatever became of the messages about the maps before.  Here node 1 did not get the map of job 0, and the map of job 1
    was in its queue after that of job 2. *)
Definition sp_mixed : list event :=
  tells 0 [] ++ [Deliver 1 false; Deliver 2 true; Deliver 3 true; Ping 1 true; Change 1 [2] None [1; 2; 3] []; Make 1].
Definition sp_mixed2 : list event :=
  [Make 2; Wait 2; Push 2 true; PushPrior 1 true; Deliver 2 true; Wait 1; Push 1 true; Push 2 true; Push 1 true; Push 1 true; Push 2 true; End 1; End 2; Deliver 1 true; Deliver 1 true]
  ++ [Deliver 2 true; Deliver 2 true; Deliver 3 true; Deliver 3 true].
Example c76_newest_ex : let c := Change 2 [] None [1; 2; 3] [] in exists s1, steps false (sp0 3) sp_mixed = Some s1 /\
  steps false s1 (c :: sp_mixed2) = Some (sp_run false 3 (sp_mixed ++ c :: sp_mixed2)) /\ quiet (sp_run false 3 (sp_mixed ++ c :: sp_mixed2))
  /\ open_ s1 1 = true /\ held s1 1 = 0 /\ all_works false 1 s1 (c :: sp_mixed2) /\ held (sp_run false 3 (sp_mixed ++ c :: sp_mixed2)) 1 = 3.
Proof.
  intros c. exists (sp_run false 3 sp_mixed). split; [vm_compute; reflexivity|]. split.
  { assert (E : steps false (sp0 3) (sp_mixed ++ c :: sp_mixed2) = Some (sp_run false 3 (sp_mixed ++ c :: sp_mixed2))) by (apply sp_run_ok; vm_compute; reflexivity).
    rewrite steps_app in E. rewrite (sp_run_ok false 3 sp_mixed) in E by (vm_compute; reflexivity). exact E. }
  split; [apply is_quiet; vm_compute; reflexivity|]. vm_compute. repeat split; reflexivity.
Qed.
(** No node goes by a map that the index server did not have, and none goes back to an older one while it runs. *)
Theorem c76_monotone : forall serial ms t e1 e2 s1 s n,
  steps serial (st0 ms t) e1 = Some s1 -> steps serial s1 e2 = Some s -> existsb (joins n) (e1 ++ e2) = false ->
  held s1 n <= held s n <= cur s.
Proof.
  intros serial ms t e1 e2 s1 s n E1 E2 NJ. rewrite existsb_app in NJ. apply orb_false_iff in NJ as (N1 & N2). destruct (held_steps serial n e1 (st0 ms t) s1 eq_refl N1 E1) as (H1 & _).
  split; [exact (proj2 (held_steps serial n e2 s1 s H1 N2 E2))|]. pose proof (inv_steps _ _ _ _ (inv_steps _ _ _ _ (inv0 ms t) E1) E2) as I. apply (i_held s I).
Qed.
Print Assumptions c76_monotone.
Example c76_monotone_ex : map (fun k => held (sp_run false 3 (firstn k (sp_mixed ++ Change 2 [] None [1; 2; 3] [] :: sp_mixed2))) 2) [0; 7; 9; 18; 33; 34]%nat = [0; 0; 1; 1; 3; 3].
Proof. vm_compute. reflexivity. Qed.
(** A map that is in no queue any more is never told again: only a further change or a new start of the node (not of the index server)
    brings the newest map to a node that was not told. *)
Theorem c76_lost_for_good : forall serial es s s' n, quiet s -> existsb is_change es = false -> (forall m, existsb (joins m) es = false) ->
  steps serial s es = Some s' -> held s' n = held s n.
Proof. intros serial es s s' n Q NC NJ E. exact (quiet_steps serial es s s' Q NC NJ E n). Qed.
Print Assumptions c76_lost_for_good.
(** Node 1 does not answer one ping, and the next change is made before it is pinged again: it is not told, though it answers
    every ping from then on, and it is not taken for dead. *)
Definition sp_lost : list event := Ping 1 false :: tells 0 [] ++ reaches ++ [Ping 1 true; Ping 2 true].
Theorem c76_lost_refuted : exists es s, steps true (sp0 3) es = Some s /\ quiet s /\ In 1 (members s) /\ held s 1 < cur s /\ requests s = []
  /\ length (filter (fun e => match e with Ping _ false | Deliver _ false | PushPrior _ false | Push _ false => true | _ => false end) es) = 1%nat
  /\ forall es' s', existsb is_change es' = false -> (forall m, existsb (joins m) es' = false) -> steps true s es' = Some s' -> held s' 1 < cur s.
Proof.
  assert (Q : quiet (sp_run true 3 sp_lost)) by (apply is_quiet; vm_compute; reflexivity).
  exists sp_lost, (sp_run true 3 sp_lost). split; [apply sp_run_ok; vm_compute; reflexivity|]. split; [exact Q|]. split; [vm_compute; tauto|]. split; [vm_compute; reflexivity|]. split; [vm_compute; reflexivity|].
  split; [vm_compute; reflexivity|]. intros es' s' NC NJ E. rewrite (quiet_steps true es' _ _ Q NC NJ E 1). vm_compute. reflexivity.
Qed.
Print Assumptions c76_lost_refuted.

(** ** A node that answers is not taken for dead, if changes are made one at a time. *)
Theorem c76_no_alarm : forall ms t es s n, steps true (st0 ms t) es = Some s -> all_works true n (st0 ms t) es -> ~ In (n, RequestDown) (requests s).
Proof. intros ms t es s n E W. exact (calm_steps n es _ s (inv0 ms t) (ser0 ms t) eq_refl W E (fun H => H)). Qed.
Print Assumptions c76_no_alarm.
(** Node 3 does not answer and is taken for dead, nodes 1 and 2 are not. *)
Definition sp_calm : list event := tells 0 [2] ++ [Deliver 1 true; Deliver 2 true; Deliver 3 false; Ping 3 false; Ping 3 false; Ping 1 true; Join 1 true] ++ tells 1 [1] ++ [Deliver 1 true].
Example c76_no_alarm_ex : steps true (sp0 3) sp_calm = Some (sp_run true 3 sp_calm) /\ all_works true 1 (sp0 3) sp_calm /\ requests (sp_run true 3 sp_calm) = [(3, RequestDown)] /\ held (sp_run true 3 sp_calm) 1 = 2.
Proof. split; [apply sp_run_ok; vm_compute; reflexivity|]. vm_compute. repeat split; reflexivity. Qed.
(** With the coordinator for files, two changes at a time can make the index server take a node for dead that
    answers everything. *)
Definition sp_alarm : list event :=
  [Change 0 [] None [1; 2; 3] []; Make 0; Wait 0; Change 1 [] None [1; 2; 3] []; Make 1; Wait 1; Push 1 true; Push 0 true; Deliver 1 true; Deliver 1 true].
Theorem c76_alarm_refuted : exists es s, steps false (sp0 1) es = Some s /\ all_works false 1 (sp0 1) es /\ In (1, RequestDown) (requests s).
Proof. exists sp_alarm, (sp_run false 1 sp_alarm). split; [apply sp_run_ok; vm_compute; reflexivity|]. vm_compute. repeat split; auto. Qed.
Print Assumptions c76_alarm_refuted.
(** With the default threshold, four. *)
Definition sp_alarm3 : list event :=
  flat_map (fun j => [Change j [] None [1; 2; 3] []; Make j; Wait j]) [0; 1; 2; 3] ++ map (fun j => Push j true) [3; 2; 1; 0] ++ repeat (Deliver 1 true) 4.
Theorem c76_alarm_default_refuted : exists es s, steps false (sp0 3) es = Some s /\ all_works false 1 (sp0 3) es /\ In (1, RequestDown) (requests s).
Proof. exists sp_alarm3, (sp_run false 3 sp_alarm3). split; [apply sp_run_ok; vm_compute; reflexivity|]. vm_compute. repeat split; auto. Qed.
Print Assumptions c76_alarm_default_refuted.

(** ** The nodes that are to be told first (a new master before those that write to it) know before the others.
    Missing: other nodes that start meanwhile, an index server that is started again, changes that are not made one at a time, lost messages, see below. *)
Theorem c76_prior_partial : forall ms0 t e1 j prior excl ms ds e2 s1 s p x,
  steps true (st0 ms0 t) e1 = Some s1 -> steps true s1 (Change j prior excl ms ds :: e2) = Some s ->
  In p prior -> excluded excl p = false -> open_ s1 p = true -> (forall n, existsb (joins n) e2 = false) -> existsb is_restart e2 = false -> all_works true p s1 (Change j prior excl ms ds :: e2) ->
  ~ In x prior -> cur s1 + 1 <= held s x -> cur s1 + 1 <= held s p.
Proof. exact told_first. Qed.
Print Assumptions c76_prior_partial.
Example c76_prior_ex : let s := sp_run true 3 (tells 0 [2] ++ [Deliver 3 true]) in
  steps true (sp0 3) (tells 0 [2] ++ [Deliver 3 true]) = Some s /\ all_works true 2 (sp0 3) (tells 0 [2] ++ [Deliver 3 true]) /\ 1 <= held s 3 /\ held s 1 = 0 /\ held s 2 = 1.
Proof. intros s. subst s. split; [apply sp_run_ok; vm_compute; reflexivity|]. vm_compute. repeat split; (reflexivity || discriminate). Qed.
(** Two changes at a time: the others learn of both from the second. *)
Definition sp_late : list event := [Change 0 [2] None [1; 2; 3] []; Change 1 [] None [1; 2; 3] []; Make 1; Wait 1; Push 1 true; Deliver 1 true].
Theorem c76_prior_refuted : exists es s, steps false (sp0 3) (Change 0 [2] None [1; 2; 3] [] :: es) = Some s /\ all_works false 2 (sp0 3) (Change 0 [2] None [1; 2; 3] [] :: es)
  /\ 1 <= held s 1 /\ held s 2 = 0.
Proof. exists (tl sp_late), (sp_run false 3 sp_late). split; [apply sp_run_ok; vm_compute; reflexivity|]. vm_compute. repeat split; (reflexivity || discriminate). Qed.
Print Assumptions c76_prior_refuted.
(** One at a time, but another node starts. *)
Theorem c76_prior_join_refuted : exists es s, steps true (sp0 3) (Change 0 [2] None [1; 2; 3] [] :: es) = Some s /\ all_works true 2 (sp0 3) (Change 0 [2] None [1; 2; 3] [] :: es)
  /\ 1 <= held s 1 /\ held s 2 = 0.
Proof. exists [Join 1 true], (sp_run true 3 [Change 0 [2] None [1; 2; 3] []; Join 1 true]). split; [apply sp_run_ok; vm_compute; reflexivity|]. vm_compute. repeat split; (reflexivity || discriminate). Qed.
Print Assumptions c76_prior_join_refuted.
(** The message to the node that is to be told first fails: the others are told all the same, and it never is. *)
Definition sp_failed : list event :=
  [Change 0 [2] None [1; 2; 3] []; Make 0; PushPrior 0 true; Deliver 2 false; Wait 0; Push 0 true; Push 0 false; Push 0 true; End 0; Deliver 1 true; Deliver 3 true; Ping 2 true].
Theorem c76_prior_failed_refuted : exists es s, steps true (sp0 3) (Change 0 [2] None [1; 2; 3] [] :: es) = Some s /\ quiet s /\ held s 1 = 1 /\ held s 3 = 1 /\ held s 2 = 0 /\ requests s = [].
Proof.
  exists (tl sp_failed), (sp_run true 3 sp_failed). split; [apply sp_run_ok; vm_compute; reflexivity|]. split; [apply is_quiet; vm_compute; reflexivity|]. vm_compute. repeat split; reflexivity.
Qed.
Print Assumptions c76_prior_failed_refuted.

(** ** A node that starts gets the newest map in the answer, without the number: it takes an older map that is still
    in the queue for newer, and with the coordinator for files it stays with it. *)
Definition sp_start : list event := tells 0 [] ++ [Change 1 [] None [1; 2; 3] []; Join 1 true].
Theorem c76_back_refuted : exists e1 e2 s1 s, steps true (sp0 3) e1 = Some s1 /\ steps true s1 e2 = Some s /\ existsb (joins 1) e2 = false /\ held s 1 < held s1 1.
Proof.
  exists sp_start, [Deliver 1 true], (sp_run true 3 sp_start), (sp_run true 3 (sp_start ++ [Deliver 1 true])).
  assert (E1 : steps true (sp0 3) sp_start = Some (sp_run true 3 sp_start)) by (apply sp_run_ok; vm_compute; reflexivity).
  assert (E : steps true (sp0 3) (sp_start ++ [Deliver 1 true]) = Some (sp_run true 3 (sp_start ++ [Deliver 1 true]))) by (apply sp_run_ok; vm_compute; reflexivity).
  rewrite steps_app, E1 in E. split; [exact E1|]. split; [exact E|]. split; vm_compute; reflexivity.
Qed.
Print Assumptions c76_back_refuted.
Definition sp_stays : list event :=
  [Change 0 [] None [1; 2; 3] []; Make 0; Wait 0; Change 1 [] None [1; 2; 3] []; Make 1; Wait 1; Push 1 true; Push 1 true; Push 1 true; End 1; Push 0 true; Push 0 true; Push 0 true; End 0;
   Deliver 1 true; Join 1 true; Deliver 1 true; Deliver 2 true; Deliver 2 true; Deliver 3 true; Deliver 3 true].
Theorem c76_stays_refuted : exists es s, steps false (sp0 3) es = Some s /\ all_works false 1 (sp0 3) es /\ quiet s /\ In 1 (members s) /\ held s 1 < cur s /\ held s 2 = cur s /\ held s 3 = cur s.
Proof.
  exists sp_stays, (sp_run false 3 sp_stays). split; [apply sp_run_ok; vm_compute; reflexivity|]. split; [vm_compute; repeat split; reflexivity|]. split; [apply is_quiet; vm_compute; reflexivity|].
  vm_compute. repeat split; auto.
Qed.
Print Assumptions c76_stays_refuted.

(** ** The index server is started again *)
(** It ends and starts again: it has the map it had, has nothing to tell, and counts anew for every node, whatever was counted before; the nodes
    themselves notice nothing.  Only with threshold 1 is a node taken for dead because it is not reached at once. *)
Theorem c76_restart_fresh serial s up s' : step serial s (Restart up) = Some s' ->
  cur s' = cur s /\ members s' = members s /\ downs s' = downs s
  /\ (forall n, queue_of s' n = [] /\ held s' n = held s n /\ seen s' n = seen s n /\ open_ s' n = member n up
      /\ mon s' n = mkMonitor (if member n up then 0 else 1) (threshold (mon s n)))
  /\ exists rs, requests s' = requests s ++ rs
      /\ forall n r, In (n, r) rs <-> In n (members s) /\ member n up = false /\ threshold (mon s n) = 1%Z /\ r = RequestDown.
Proof.
  intro E. cbn [step] in E. injection E as <-. unfold restart. cbn [cur members downs queue_of held seen open_ mon requests].
  assert (L : forall n, first_look s up n = (mkMonitor (if member n up then 0 else 1) (threshold (mon s n)),
      if member n up then [] else if (1 =? threshold (mon s n))%Z then [RequestDown] else [])).
  { intro n. unfold first_look, start. destruct (member n up); reflexivity. }
  repeat split; try reflexivity.
  - rewrite L. reflexivity.
  - eexists. split; [reflexivity|]. intros n r. rewrite in_flat_map. split.
    + intros (m & M & H). rewrite L in H. cbn [snd] in H. destruct (member m up) eqn:U; [contradiction|].
      destruct (1 =? threshold (mon s m))%Z eqn:T; [|contradiction]. cbn in H. destruct H as [H|[]]. injection H as <- <-.
      apply Z.eqb_eq in T. auto.
    + intros (M & U & T & ->). exists n. split; [exact M|]. rewrite L, U, T. left. reflexivity.
Qed.
Print Assumptions c76_restart_fresh.
Example c76_restart_fresh_met : sp_ok true 3 [Ping 2 false; Restart [1; 3]] = true
  /\ failures (mon (sp_run true 3 [Ping 2 false; Ping 2 false; Restart [1; 3]]) 2) = 1%Z
  /\ failures (mon (sp_run true 3 [Ping 2 false; Ping 2 false]) 2) = 2%Z.
Proof. vm_compute. auto. Qed.
(** It ends after it has stored a new map and before it has told all nodes: the others are not told, although everything answers, before and
    after. *)
Definition sp_again : list event := [Change 0 [] None [1; 2; 3] []; Make 0; Wait 0; Push 0 true; Deliver 1 true; Restart [1; 2; 3]; Ping 1 true; Ping 2 true; Ping 3 true].
Theorem c76_restart_refuted : exists es s, steps true (sp0 3) es = Some s /\ (forall n, In n (members s) -> all_works true n (sp0 3) es) /\ quiet s
  /\ held s 1 = cur s /\ held s 2 < cur s
  /\ forall es' s', existsb is_change es' = false -> (forall m, existsb (joins m) es' = false) -> steps true s es' = Some s' -> held s' 2 < cur s.
Proof.
  assert (Q : quiet (sp_run true 3 sp_again)) by (apply is_quiet; vm_compute; reflexivity).
  exists sp_again, (sp_run true 3 sp_again). split; [apply sp_run_ok; vm_compute; reflexivity|]. split.
  { intros n. vm_compute members. intros [<-|[<-|[<-|[]]]]; vm_compute; repeat split; reflexivity. }
  split; [exact Q|]. split; [vm_compute; reflexivity|]. split; [vm_compute; reflexivity|].
  intros es' s' NC NJ E. rewrite (quiet_steps true es' _ _ Q NC NJ E 2). vm_compute. reflexivity.
Qed.
Print Assumptions c76_restart_refuted.
(** It ends before it has told the node that was to be told first; the next change tells another node before that one. *)
Definition sp_again_prior : list event :=
  [Change 0 [2] None [1; 2; 3] []; Restart [1; 2; 3]; Change 1 [] None [1; 2; 3] []; Make 1; Wait 1; Push 1 true; Deliver 1 true].
Theorem c76_prior_restart_refuted : exists es s, steps true (sp0 3) (Change 0 [2] None [1; 2; 3] [] :: es) = Some s /\ all_works true 2 (sp0 3) (Change 0 [2] None [1; 2; 3] [] :: es)
  /\ 1 <= held s 1 /\ held s 2 = 0.
Proof. exists (tl sp_again_prior), (sp_run true 3 sp_again_prior). split; [apply sp_run_ok; vm_compute; reflexivity|]. vm_compute. repeat split; (reflexivity || discriminate). Qed.
Print Assumptions c76_prior_restart_refuted.
(** It is started with an older state (a copy that was put back, or a file that was lost with the power): every node that has seen more
    changes than that state refuses the new maps, until as many changes have been made; each refusal counts as if it did not answer. *)
Theorem c76_restored_refused : forall serial s j v q n, queue_of s n = (j, v) :: q -> v < seen s n -> open_ s n = true ->
  forall s', step serial s (Deliver n true) = Some s' -> held s' n = held s n /\ seen s' n = seen s n.
Proof.
  intros serial s j v q n Q L O s' E. cbn [step] in E. rewrite Q in E. cbn [add_ref open_ seen held] in E. rewrite O in E. cbn [andb] in E. apply N.ltb_lt in L. rewrite L in E. fields E. rewrite Hh, Hs, !upd_same. auto.
Qed.
Print Assumptions c76_restored_refused.
Definition sp_old : list event := tells 0 [] ++ reaches ++ tells 1 [] ++ reaches ++ tells 2 [] ++ reaches.
Definition sp_older (es : list event) : option st := steps true (restart (sp_run true 3 sp_old) 0 [1; 2; 3] [] [1; 2; 3]) es.
Theorem c76_restored_refuted : exists s s', sp_older (tells 3 [] ++ reaches ++ [Ping 1 true; Ping 2 true; Ping 3 true]) = Some s /\ cur s = 1 /\ held s 1 = 3 /\ held s 2 = 3 /\ held s 3 = 3 /\ requests s = []
  /\ sp_older (tells 3 [] ++ reaches ++ tells 4 [] ++ reaches ++ tells 5 [] ++ [Deliver 1 true]) = Some s' /\ held s' 1 = cur s'
  /\ forall t, sp_older (tells 3 [] ++ reaches ++ tells 4 [] ++ reaches ++ tells 5 [] ++ [Deliver 2 false]) = Some t -> requests t = [(2, RequestDown)].
Proof.
  set (a := tells 3 [] ++ reaches ++ [Ping 1 true; Ping 2 true; Ping 3 true]). set (b := tells 3 [] ++ reaches ++ tells 4 [] ++ reaches ++ tells 5 [] ++ [Deliver 1 true]).
  assert (A : exists s, sp_older a = Some s) by (destruct (sp_older a) eqn:E; [eauto|vm_compute in E; discriminate E]).
  assert (B : exists s, sp_older b = Some s) by (destruct (sp_older b) eqn:E; [eauto|vm_compute in E; discriminate E]).
  destruct A as (s & A), B as (s' & B). exists s, s'. split; [exact A|].
  assert (HA : match sp_older a with Some s => (cur s =? 1) && (held s 1 =? 3) && (held s 2 =? 3) && (held s 3 =? 3) && match requests s with [] => true | _ => false end | None => false end = true) by (vm_compute; reflexivity).
  assert (HB : match sp_older b with Some s => held s 1 =? cur s | None => false end = true) by (vm_compute; reflexivity).
  rewrite A in HA. rewrite B in HB. apply andb_prop in HA as (HA & H5). apply andb_prop in HA as (HA & H4). apply andb_prop in HA as (HA & H3). apply andb_prop in HA as (H1 & H2).
  apply N.eqb_eq in H1, H2, H3, H4, HB. split; [exact H1|]. split; [exact H2|]. split; [exact H3|]. split; [exact H4|]. split; [destruct (requests s); [reflexivity|discriminate H5]|]. split; [exact B|]. split; [exact HB|].
  intros t T. assert (R : option_map requests (sp_older (tells 3 [] ++ reaches ++ tells 4 [] ++ reaches ++ tells 5 [] ++ [Deliver 2 false])) = Some [(2, RequestDown)]) by (vm_compute; reflexivity).
  rewrite T in R. now injection R.
Qed.
Print Assumptions c76_restored_refuted.

(** ** The node a change leaves out, and nodes that do not answer *)
(** The broadcast of a change that leaves out node [n] puts nothing into its queue. *)
Definition left_out (j n : N) (s : st) : Prop :=
  (forall v, ~ In (j, v) (queue_of s n)) /\ match job_of s j with Changed _ excl | Priors _ _ excl | Rest _ _ excl => excl = Some n | Done => True | NoJob => False end.
Lemma left_out_step serial s e s' j n : left_out j n s -> step serial s e = Some s' -> left_out j n s'.
Proof.
  intros (A & B) E. apply step_does in E.
  assert (K : forall i x, (i = j -> match x with Changed _ excl | Priors _ _ excl | Rest _ _ excl => excl = Some n | Done => True | NoJob => False end) -> left_out j n (set_job s i x)).
  { intros i x H. split; [exact A|]. cbn [set_job job_of]. unfold upd. destruct (N.eqb_spec j i) as [->|]; [apply H; reflexivity|exact B]. }
  destruct E as [i prior excl ms ds J F G|i prior excl J|i room v m todo excl J X|i v m todo excl J X|i v excl J R|i room v m todo excl J X|i v m todo excl J X|i v excl J|m i v q s' Q O L W|m ok i v q o s' Q O W|m ok s' Q W|m o M|up].
  - split; [exact A|]. cbn [job_of]. unfold upd. destruct (N.eqb_spec j i) as [->|]; [rewrite J in B; destruct B|exact B].
  - apply K. intros ->. rewrite J in B. exact B.
  - apply K. intros ->. rewrite J in B. exact B.
  - split.
    + intros w. cbn [add_ref enqueue set_job queue_of]. unfold upd. destruct (N.eqb_spec n m) as [->|]; [|apply A]. rewrite in_app_iff. intros [H|[H|[]]]; [exact (A w H)|]. injection H as -> ->.
      rewrite J in B. subst excl. cbn [excluded] in X. rewrite N.eqb_refl in X. discriminate X.
    + cbn [add_ref enqueue set_job job_of]. unfold upd. destruct (N.eqb_spec j i) as [->|]; [rewrite J in B; exact B|exact B].
  - apply K. intros ->. rewrite J in B. exact B.
  - apply K. intros ->. rewrite J in B. exact B.
  - split.
    + intros w. cbn [enqueue set_job queue_of]. unfold upd. destruct (N.eqb_spec n m) as [->|]; [|apply A]. rewrite in_app_iff. intros [H|[H|[]]]; [exact (A w H)|]. injection H as -> ->.
      rewrite J in B. subst excl. cbn [excluded] in X. rewrite N.eqb_refl in X. discriminate X.
    + cbn [enqueue set_job job_of]. unfold upd. destruct (N.eqb_spec j i) as [->|]; [rewrite J in B; exact B|exact B].
  - apply K. intros ->. exact Logic.I.
  - fields W. split; rewrite ?Hq, ?Hjob; [|exact B]. intros w. unfold upd. destruct (N.eqb_spec n m) as [->|]; [|apply A]. intros H. apply (A w). rewrite Q. now right.
  - fields W. split; rewrite ?Hq, ?Hjob; [|exact B]. intros w. unfold upd. destruct (N.eqb_spec n m) as [->|]; [|apply A]. intros H. apply (A w). rewrite Q. now right.
  - fields W. split; rewrite ?Hq, ?Hjob; [|exact B]. intros w. unfold upd. destruct (N.eqb_spec n m) as [->|]; [|apply A]. intros [].
  - split; [exact A|exact B].
  - split; [intros w []|]. cbn [restart job_of]. destruct (job_of s j); auto.
Qed.
Theorem c76_excluded : forall serial s0 j prior n ms ds es s, (forall v, ~ In (j, v) (queue_of s0 n)) ->
  steps serial s0 (Change j prior (Some n) ms ds :: es) = Some s -> forall v, ~ In (j, v) (queue_of s n).
Proof.
  intros serial s0 j prior n ms ds es s A E. cbn [steps] in E. destruct (step serial s0 _) as [s1|] eqn:S1; [|discriminate E].
  assert (B : left_out j n s1).
  { apply step_does in S1. inversion S1; subst. split; [exact A|]. cbn [job_of]. now rewrite upd_same. }
  clear - B E. revert s1 B E. induction es as [|e es IH]; intros s1 B E; cbn [steps] in E; [injection E as <-; apply B|].
  destruct (step serial s1 e) as [s2|] eqn:S2; [|discriminate E]. exact (IH s2 (left_out_step _ _ _ _ _ _ B S2) E).
Qed.
Print Assumptions c76_excluded.
Example c76_excluded_ex : let s := sp_run true 3 (Change 0 [2] (Some 3) [1; 2; 3] [3] :: Make 0 :: PushPrior 0 true :: Deliver 2 true :: Wait 0 :: map (fun _ => Push 0 true) [1; 2; 3] ++ [End 0]) in
  queue_of s 1 = [(0, 1)] /\ queue_of s 2 = [(0, 1)] /\ queue_of s 3 = [] /\ over (job_of s 0) = true.
Proof. vm_compute. auto. Qed.
(** A node that does not answer as many pings as the threshold says is taken for dead, once. *)
Lemma silent serial n : forall k s s', In n (members s) -> ~ In n (downs s) -> (0 <= failures (mon s n))%Z -> (failures (mon s n) + Z.of_nat k < threshold (mon s n))%Z ->
  steps serial s (repeat (Ping n false) k) = Some s' -> requests s' = requests s /\ failures (mon s' n) = (failures (mon s n) + Z.of_nat k)%Z /\ threshold (mon s' n) = threshold (mon s n) /\ members s' = members s /\ downs s' = downs s /\ queue_of s' n = queue_of s n.
Proof.
  induction k as [|k IH]; intros s s' M D F L E; cbn [repeat steps] in E; [injection E as <-; repeat split; lia|].
  destruct (step serial s (Ping n false)) as [s1|] eqn:S1; [|discriminate E]. cbn [step] in S1. destruct (queue_of s n) eqn:Q; [|discriminate S1].
  unfold watched, iterate, reading_of in S1. apply member_in in M as M'. rewrite M' in S1. destruct (member n (downs s)) eqn:D'; [apply member_in in D'; contradiction|].
  cbn [sync_map] in S1. replace (threshold (mon s n) <=? failures (mon s n))%Z with false in S1 by lia. unfold down in S1. destruct (2 ^ 31 <=? failures (mon s n) + 1)%Z; [discriminate S1|].
  replace (failures (mon s n) + 1 =? threshold (mon s n))%Z with false in S1 by lia. injection S1 as <-. cbn [map app] in E. rewrite app_nil_r in E.
  apply IH in E; cbn [members downs mon requests queue_of] in *; rewrite ?upd_same in *; cbn [failures threshold] in *; auto; try lia.
  destruct E as (E1 & E2 & E3 & E4 & E5 & E6). repeat split; auto; lia.
Qed.
Theorem c76_dead : forall serial ms t n s, In n ms -> (0 < t < 2 ^ 31)%Z -> steps serial (st0 ms t) (repeat (Ping n false) (Z.to_nat t)) = Some s -> requests s = [(n, RequestDown)].
Proof.
  intros serial ms t n s M T E. replace (Z.to_nat t) with (Z.to_nat (t - 1) + 1)%nat in E by lia. rewrite repeat_app, steps_app in E.
  destruct (steps serial (st0 ms t) (repeat (Ping n false) (Z.to_nat (t - 1)))) as [s1|] eqn:S1; [|discriminate E].
  destruct (silent serial n (Z.to_nat (t - 1)) (st0 ms t) s1 M (fun H => H) (Z.le_refl 0) ltac:(cbn [st0 mon failures threshold]; lia) S1) as (A & B & C & D & F & G). cbn [st0 mon failures threshold requests members downs queue_of] in *.
  cbn [repeat steps step] in E. rewrite G in E. unfold watched, iterate, reading_of in E. rewrite D, F in E. apply member_in in M. rewrite M in E. cbn [member existsb sync_map] in E.
  replace (threshold (mon s1 n) <=? failures (mon s1 n))%Z with false in E by lia. unfold down in E. replace (2 ^ 31 <=? failures (mon s1 n) + 1)%Z with false in E by lia.
  replace (failures (mon s1 n) + 1 =? threshold (mon s1 n))%Z with true in E by lia. injection E as <-. cbn [requests]. rewrite A. reflexivity.
Qed.
Print Assumptions c76_dead.
Example c76_dead_ex : sp_ok true 3 (repeat (Ping 2 false) 3) = true.
Proof. vm_compute. reflexivity. Qed.
(** While the map says it is down, its silence brings no further request, and its first answer one to take it back. *)
Theorem c76_down_again : forall serial s n s', In n (members s) -> In n (downs s) -> queue_of s n = [] ->
  (step serial s (Ping n false) = Some s' -> requests s' = requests s) /\
  (step serial s (Ping n true) = Some s' -> requests s' = requests s ++ [(n, RequestUp)] /\ open_ s' n = true).
Proof.
  intros serial s n s' M D Q. apply member_in in M, D. cbn [step]. rewrite Q. unfold watched, iterate, reading_of. rewrite M, D. cbn [sync_map]. unfold down, up. cbn [failures threshold]. split.
  - destruct (2 ^ 31 <=? threshold (mon s n) + 1)%Z; [discriminate|]. replace (threshold (mon s n) + 1 =? threshold (mon s n))%Z with false by lia. intros E. injection E as <-. cbn [requests map]. apply app_nil_r.
  - rewrite Z.leb_refl. intros E. injection E as <-. cbn [requests open_]. rewrite upd_same. auto.
Qed.
Print Assumptions c76_down_again.
Example c76_down_again_ex : requests (sp_run true 3 (repeat (Ping 2 false) 3 ++ [Change 0 [] None [1; 2; 3] [2]; Ping 2 false; Ping 2 false; Ping 2 true])) = [(2, RequestDown); (2, RequestUp)].
Proof. vm_compute. reflexivity. Qed.
