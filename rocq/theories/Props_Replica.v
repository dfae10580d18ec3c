(** C53: a replica follows its master. *)
From Coq Require Import String.
From stdpp Require Import gmap.
From Coq Require Import ZifyBool ZifyNat ZifyN.
From Verif Require Import Base BaseLemmas StorageModel StorageSpec StorageProofs StorageProofs2 TextModel TextSpec SessionModel ServerModel ServerProofs
  ReplicaModel ReplicaSpec ReplicaProofs3.
Local Open Scope N_scope.

(** Whatever clients do, however deliveries are interleaved with it and repeated: once everything was
    delivered, the replica shows what the master shows, and answers reads with the same bytes.
    Missing: deliveries of one key out of order and touches that arrive after the record expired at the
    replica are excluded by [admissible]; see the refutations below. *)
Theorem c53_catches_up_partial trail T0 st0 l T st : Forall legal_node_name trail -> synchronized T0 st0 ->
  execution trail T0 st0 l T st -> pending st = [] ->
  (forall k, agree_from T k (master st) (replica st))
  /\ forall now t keys, (T <= now < 2 ^ 62)%Z -> snd (run_get now (replica st) t keys) = snd (run_get now (master st) t keys).
Proof. intros Ht Hs. exact (catches_up trail Ht T0 st0 Hs l T st). Qed.
Print Assumptions c53_catches_up_partial.

(** At any moment in between: what the replica shows under a key is what the master showed after the
    first [pos n] of the [n] events so far, and this position never moves back.  So readers of the replica never
    see a value the master did not have, nor an older value after a newer one. *)
Theorem c53_reads_forward_partial trail T0 st0 l T st k : Forall legal_node_name trail -> synchronized T0 st0 ->
  execution trail T0 st0 l T st ->
  exists pos : nat -> nat, (forall n, (n < length l)%nat -> (pos n <= pos (S n))%nat)
    /\ forall n Tn stn Tm stm, (n <= length l)%nat ->
         execution trail T0 st0 (firstn n l) Tn stn -> execution trail T0 st0 (firstn (pos n) l) Tm stm ->
         (pos n <= n)%nat /\ agree_from Tn k (master stm) (replica stn).
Proof. intros Ht Hs. exact (reads_forward trail Ht T0 st0 Hs l T st k). Qed.
Print Assumptions c53_reads_forward_partial.

(** Every prefix of an execution is an execution, so the states the theorem above speaks about exist. *)
Theorem c53_prefixes trail T0 st0 l T st n : execution trail T0 st0 l T st -> (n <= length l)%nat ->
  exists Tn stn, execution trail T0 st0 (firstn n l) Tn stn.
Proof.
  intros H Hn. induction H as [T1 st1|T1 st1 l T2 st2 ev st3 out H IH Hle Hlt Hadm Hstep].
  - destruct n; cbn in *; [|lia]. do 2 eexists. constructor.
  - rewrite app_length in Hn. cbn in Hn. destruct (Nat.eq_dec n (length l + 1)%nat) as [->|Hne].
    + rewrite firstn_all2 by (rewrite app_length; cbn; lia). do 2 eexists. econstructor; eauto.
    + rewrite firstn_app. replace (n - length l)%nat with 0%nat by lia. cbn [firstn]. rewrite app_nil_r. apply IH. lia.
Qed.
Print Assumptions c53_prefixes.

(** A delivery that respects the conditions is always accepted and understood by the replica. *)
Theorem c53_deliverable trail T0 st0 l T st now i f : Forall legal_node_name trail -> synchronized T0 st0 ->
  execution trail T0 st0 l T st -> nth_error (pending st) i = Some f ->
  (T <= now)%Z -> (now < 2 ^ 62)%Z -> admissible st (Deliver now i) ->
  exists st2 out, step trail st (Deliver now i) = Ok (st2, out).
Proof. intros Ht Hs. exact (deliverable trail Ht T0 st0 Hs l T st now i f). Qed.
Print Assumptions c53_deliverable.

(** ** Examples *)
Definition empty_pair : pair := mkPair (init_store 8) (init_store 8) [].
Lemma visible_empty n now k o : visible (init_store n) now k o <-> o = None.
Proof.
  destruct o as [r|]; cbn [visible].
  - split; [|discriminate]. intros (H & _). unfold holds in H. cbn in H. rewrite lookup_empty in H. discriminate.
  - split; auto. intros _. left. unfold holds. cbn. apply lookup_empty.
Qed.
Example c53_start : synchronized 1600000000 empty_pair.
Proof.
  split; try (apply init_wf); try reflexivity; try lia.
  - intros k r H. unfold holds in H. cbn in H. rewrite lookup_empty in H. discriminate.
  - intros k now o _. cbn [master replica empty_pair]. rewrite !visible_empty. reflexivity.
Qed.

(** The conditions, checked by computation. *)
Definition live_b (s : store) (now : Z) (k : key) : bool :=
  match db s !! k with
  | None => false
  | Some raw =>
      let r := mkRec (le_dec (firstn 4 raw)) (u64_to_i64 (le_dec (firstn 8 (skipn 4 raw)))) (le_dec (firstn 8 (skipn 20 raw))) (skipn 28 raw) in
      beq raw (encode_rec r) && (r_flag r <? 2 ^ 32) && (- 2 ^ 63 <=? r_expire r)%Z && (r_expire r <? 2 ^ 63)%Z && (r_version r <? 2 ^ 64)
      && (blen (r_data r) <=? 2147483647 - 28) && forallb (fun b => b <? 256) (r_data r) && negb ((0 <? r_expire r)%Z && (r_expire r <=? now)%Z)
  end.
Lemma live_b_ok s now k : live_b s now k = true -> exists r, live s now k r.
Proof.
  unfold live_b. destruct (db s !! k) as [raw|] eqn:E; [|discriminate]. set (r := mkRec _ _ _ _). clearbody r. intros H.
  rewrite !andb_true_iff in H. destruct H as [[[[[[[H H1] H2] H3] H4] H5] H6] H7]. apply beq_eq in H. exists r. split; [unfold holds; rewrite E; exact (f_equal Some H)|].
  split. 2:{ unfold expired. lia. } unfold wf_rec. split; [lia|]. split; [unfold is_i64; lia|]. split; [lia|]. split; [lia|].
  apply List.Forall_forall. intros b Hb. rewrite forallb_forall in H6. apply H6 in Hb. now apply N.ltb_lt in Hb.
Qed.
Lemma nth_error_firstn_lt' {A} (l : list A) : forall i j, (j < i)%nat -> nth_error (firstn i l) j = nth_error l j.
Proof. induction l as [|x l IH]; intros [|i] [|j] H; cbn; auto; try lia. apply IH. lia. Qed.
Definition admissible_b (st : pair) (ev : event) : bool :=
  match ev with
  | Client now stream =>
      forallb (fun b => b <? 256) stream && match serve_next now stream with Ok (Accepted _ (RFlush _), _) => false | _ => true end
  | Read _ _ _ => true
  | Attempt now i | Deliver now i =>
      match nth_error (pending st) i with
      | None => false
      | Some (ident, e) =>
          forallb (fun f => negb (beq (e_key (snd f)) (e_key e))) (firstn i (pending st))
          && (if beq ident (s2b "touch") || beq ident (s2b "gat") then live_b (replica st) now (e_key e) else true)
          && negb (e_version e =? 0)
      end
  end.
Lemma admissible_b_ok st ev : admissible_b st ev = true -> admissible st ev.
Proof.
  assert (A : forall now i, admissible_b st (Attempt now i) = true -> admissible st (Attempt now i)).
  { intros now i. cbn [admissible_b]. destruct (nth_error (pending st) i) as [[ident e]|] eqn:E; [|discriminate].
    rewrite !andb_true_iff, forallb_forall. intros [[H1 H2] H3]. split.
    - intros j f g Hj Hf Hg. rewrite E in Hg. injection Hg as <-. cbn [snd].
      assert (In f (firstn i (pending st))) as Hin.
      { apply nth_error_In with j. rewrite nth_error_firstn_lt'; auto. }
      apply H1 in Hin. intros X. rewrite X, beq_refl in Hin. discriminate.
    - intros ident' e' H. rewrite E in H. assert (ident' = ident /\ e' = e) as [-> ->] by (split; congruence). split; [|lia].
      intros [-> | ->]; rewrite beq_refl in H2; rewrite ?orb_true_r in H2; cbn [orb] in H2; now apply live_b_ok. }
  destruct ev as [now stream|now t keys|now i|now i]; try apply A; cbn [admissible_b]; [|constructor].
  intros H. apply andb_true_iff in H as [H H2]. split; [|intros c nr rest E; rewrite E in H2; discriminate].
  apply List.Forall_forall. intros b Hb. rewrite forallb_forall in H. apply H in Hb. now apply N.ltb_lt in Hb.
Qed.
Fixpoint good_run (trail : list bytes) (T : Z) (st : pair) (l : list event) (P : pair -> bool) : bool :=
  match l with
  | [] => P st
  | ev :: l' => (T <=? event_time ev)%Z && (event_time ev <? 2 ^ 62)%Z && admissible_b st ev
      && match step trail st ev with Ok (st', _) => good_run trail (event_time ev) st' l' P | _ => false end
  end.
Lemma good_run_execution trail T0 st0 l' P : forall l T st, execution trail T0 st0 l T st -> good_run trail T st l' P = true ->
  exists T' st', execution trail T0 st0 (l ++ l') T' st' /\ P st' = true.
Proof.
  induction l' as [|ev l' IH]; intros l T st H G; cbn [good_run] in G.
  - exists T, st. now rewrite app_nil_r.
  - rewrite !andb_true_iff in G. destruct G as [[[G1 G2] G3] G4]. destruct (step trail st ev) as [| |[st' out]] eqn:E; try discriminate.
    destruct (IH (l ++ [ev]) (event_time ev) st') as (T' & st'' & A & B); [|exact G4|].
    { econstructor; eauto; [lia|lia|now apply admissible_b_ok]. }
    exists T', st''. rewrite <- app_assoc in A. auto.
Qed.

Definition line (s : string) : bytes := s2b s ++ crlf.
Definition node_trail : list bytes := [s2b "node1:12121"].
Definition history : list event :=
  [ Client 1600000000 (line "set a 5 0 3" ++ line "one");
    Client 1600000001 (line "set b 0 100 2" ++ line "10");
    Client 1600000001 (line "append a 0 0 4" ++ line "+two");
    Deliver 1600000002 1;                                      (* b overtakes a *)
    Read 1600000002 response_gets [s2b "a"; s2b "b"];
    Client 1600000003 (line "incr b 32");
    Attempt 1600000003 0; Attempt 1600000004 0; Deliver 1600000004 0;   (* answers lost *)
    Client 1600000005 (line "touch b 1000");
    Client 1600000005 (line "add a 0 0 1" ++ line "x");         (* not stored *)
    Deliver 1600000006 0; Deliver 1600000006 0; Deliver 1600000007 0;
    Client 1600000008 (line "delete a");
    Deliver 1600000009 0 ].
Definition answers (st : pair) (now : Z) (out : bytes) : bool :=
  match pending st with [] => beq (snd (run_get now (replica st) response_gets [s2b "a"; s2b "b"])) out | _ => false end.
Example c53_history_runs : exists T st, execution node_trail 1600000000 empty_pair history T st
  /\ pending st = [] /\ snd (run_get 1600000500 (replica st) response_gets [s2b "a"; s2b "b"]) = line "VALUE b 0 2 2" ++ line "42" ++ line "END".
Proof.
  destruct (good_run_execution node_trail 1600000000 empty_pair history (fun st => answers st 1600000500 (line "VALUE b 0 2 2" ++ line "42" ++ line "END"))
    [] 1600000000%Z empty_pair) as (T & st & H & P); [apply exec_nil|vm_compute; reflexivity|].
  exists T, st. split; [exact H|]. unfold answers in P. destruct (pending st); [|discriminate]. split; [reflexivity|]. now apply beq_eq in P.
Qed.
(** In between, the replica showed the first value of a together with the new b. *)
Example c53_in_between : exists T st, execution node_trail 1600000000 empty_pair (firstn 9 history) T st
  /\ snd (run_get 1600000005 (replica st) response_gets [s2b "a"; s2b "b"]) = line "VALUE a 5 3 1" ++ line "one" ++ line "VALUE b 0 2 1" ++ line "10" ++ line "END"
  /\ snd (run_get 1600000005 (master st) response_gets [s2b "a"; s2b "b"]) = line "VALUE a 5 7 2" ++ line "one+two" ++ line "VALUE b 0 2 2" ++ line "42" ++ line "END".
Proof.
  destruct (good_run_execution node_trail 1600000000 empty_pair (firstn 9 history) (fun st =>
     beq (snd (run_get 1600000005 (replica st) response_gets [s2b "a"; s2b "b"])) (line "VALUE a 5 3 1" ++ line "one" ++ line "VALUE b 0 2 1" ++ line "10" ++ line "END")
     && beq (snd (run_get 1600000005 (master st) response_gets [s2b "a"; s2b "b"])) (line "VALUE a 5 7 2" ++ line "one+two" ++ line "VALUE b 0 2 2" ++ line "42" ++ line "END"))
    [] 1600000000%Z empty_pair) as (T & st & H & P); [apply exec_nil|vm_compute; reflexivity|].
  exists T, st. split; [exact H|]. apply andb_true_iff in P as [P1 P2]. apply beq_eq in P1, P2. auto.
Qed.
Example c53_trail : Forall legal_node_name node_trail.
Proof. repeat constructor; vm_compute; try reflexivity; try discriminate. Qed.

(** ** What goes wrong otherwise *)
Fixpoint run_events (trail : list bytes) (st : pair) (l : list event) : res pair :=
  match l with
  | [] => Ok st
  | ev :: l' => let* (st', _) := step trail st ev in run_events trail st' l'
  end.
(** A set and a delete of one key by two clients: the storage calls are made in this order, the
    operations are queued in the other one (the lock of the storage is released before
    post_proxy_write).  The replica keeps the record for ever. *)
Theorem c53_reordered_refuted : exists l st, Forall (fun ev => event_time ev = 1600000000%Z) l /\ run_events node_trail empty_pair l = Ok st
  /\ pending st = []
  /\ snd (run_get 1700000000 (master st) response_get [s2b "a"]) = line "END"
  /\ snd (run_get 1700000000 (replica st) response_get [s2b "a"]) = line "VALUE a 0 3" ++ line "old" ++ line "END".
Proof.
  exists [ Client 1600000000 (line "set a 0 0 3" ++ line "old"); Client 1600000000 (line "delete a"); Deliver 1600000000 1; Deliver 1600000000 0 ].
  eexists. split; [repeat constructor|]. split; [vm_compute; reflexivity|]. vm_compute. auto.
Qed.
Print Assumptions c53_reordered_refuted.

(** A touch that extends the life of a record and reaches the replica after the old expiry time is lost
    there: the replica never shows the record again although nothing is pending. *)
Theorem c53_late_touch_refuted : exists l st, run_events node_trail empty_pair l = Ok st
  /\ pending st = []
  /\ snd (run_get 1600000006 (master st) response_get [s2b "a"]) = line "VALUE a 0 3" ++ line "one" ++ line "END"
  /\ snd (run_get 1600000006 (replica st) response_get [s2b "a"]) = line "END".
Proof.
  exists [ Client 1600000000 (line "set a 0 5 3" ++ line "one"); Deliver 1600000000 0; Client 1600000004 (line "touch a 1000"); Deliver 1600000006 0 ].
  eexists. split; [vm_compute; reflexivity|]. vm_compute. auto.
Qed.
Print Assumptions c53_late_touch_refuted.

(** flush_all is not forwarded: the replica goes on showing what the master has thrown away. *)
Theorem c53_flush_refuted : exists l st, run_events node_trail empty_pair l = Ok st
  /\ pending st = []
  /\ snd (run_get 1600000006 (master st) response_get [s2b "a"]) = line "END"
  /\ snd (run_get 1600000006 (replica st) response_get [s2b "a"]) = line "VALUE a 0 3" ++ line "one" ++ line "END".
Proof.
  exists [ Client 1600000000 (line "set a 0 0 3" ++ line "one"); Deliver 1600000000 0; Client 1600000004 (line "flush_all") ].
  eexists. split; [vm_compute; reflexivity|]. vm_compute. auto.
Qed.
Print Assumptions c53_flush_refuted.
