(** Proofs about SpreadModel: what holds in every state. *)
From Coq Require Import List Bool NArith ZArith Lia.
From Coq Require Import ZifyBool ZifyN.
From Verif Require Import MonitorModel SpreadModel SpreadSpec.
Import ListNotations.
Local Open Scope N_scope.

Lemma upd_same {A} (f : N -> A) i v : upd f i v i = v.
Proof. unfold upd. now rewrite N.eqb_refl. Qed.
Lemma upd_other {A} (f : N -> A) i j v : j <> i -> upd f i v j = f j.
Proof. unfold upd. intros H. destruct (N.eqb_spec j i); [contradiction|reflexivity]. Qed.
Lemma member_in n l : member n l = true <-> In n l.
Proof. unfold member. rewrite existsb_exists. split; [intros (x & I & E); apply N.eqb_eq in E; now subst|intros I; exists n; split; [exact I|apply N.eqb_refl]]. Qed.

(** What a step does, without the case distinctions that do not matter. *)
Inductive does (serial : bool) (s : st) : event -> st -> Prop :=
| d_change j prior excl ms ds : job_of s j = NoJob -> forallb (fun n => member n ms) prior = true -> (serial = true -> forall i, In i (started s) -> over (job_of s i) = true) ->
    does serial s (Change j prior excl ms ds) (mkSt (cur s + 1) ms ds (upd (job_of s) j (Changed prior excl)) (j :: started s) (refs s) (queue_of s) (open_ s) (mon s) (held s) (seen s) (requests s))
| d_make j prior excl : job_of s j = Changed prior excl -> does serial s (Make j) (set_job s j (Priors (cur s) prior excl))
| d_skip_prior j room v n todo excl : job_of s j = Priors v (n :: todo) excl -> excluded excl n || negb room = true -> does serial s (PushPrior j room) (set_job s j (Priors v todo excl))
| d_push_prior j v n todo excl : job_of s j = Priors v (n :: todo) excl -> excluded excl n = false ->
    does serial s (PushPrior j true) (add_ref (enqueue (set_job s j (Priors v todo excl)) n (j, v)) j 1)
| d_wait j v excl : job_of s j = Priors v [] excl -> refs s j = 0%Z -> does serial s (Wait j) (set_job s j (Rest v (members s) excl))
| d_skip j room v n todo excl : job_of s j = Rest v (n :: todo) excl -> excluded excl n || negb room = true -> does serial s (Push j room) (set_job s j (Rest v todo excl))
| d_push j v n todo excl : job_of s j = Rest v (n :: todo) excl -> excluded excl n = false ->
    does serial s (Push j true) (enqueue (set_job s j (Rest v todo excl)) n (j, v))
| d_end j v excl : job_of s j = Rest v [] excl -> does serial s (End j) (set_job s j Done)
| d_deliver n j v q s' : queue_of s n = (j, v) :: q -> open_ s n = true -> seen s n <= v -> watched (add_ref s j (-1)) n (NodeSync true true) q true v v = Some s' -> does serial s (Deliver n true) s'
| d_lose n ok j v q o s' : queue_of s n = (j, v) :: q -> (ok = true -> open_ s n = true -> v < seen s n /\ o = true) ->
    watched (add_ref s j (-1)) n (NodeSync (open_ s n) false) q o (held s n) (seen s n) = Some s' -> does serial s (Deliver n ok) s'
| d_ping n ok s' : queue_of s n = [] -> watched s n (MonitorModel.Ping ok) [] ok (held s n) (seen s n) = Some s' -> does serial s (Ping n ok) s'
| d_join n o : member n (members s) = true ->
    does serial s (Join n o) (mkSt (cur s) (members s) (downs s) (job_of s) (started s) (refs s) (queue_of s) (upd (open_ s) n o) (mon s) (upd (held s) n (cur s)) (upd (seen s) n 0) (requests s))
| d_restart up : does serial s (Restart up) (restart s (cur s) (members s) (downs s) up).
Lemma step_does serial s e s' : step serial s e = Some s' -> does serial s e s'.
Proof.
  intros E. destruct e as [j prior excl ms ds|j|j room|j|j room|j|n ok|n ok|n o|up]; cbn [step] in E.
  - destruct (job_of s j) eqn:J; try discriminate E. destruct (forallb (fun n => member n ms) prior) eqn:F; [|discriminate E]. cbn [negb orb] in E.
    destruct (serial && negb (forallb _ (started s))) eqn:G; [discriminate E|]. injection E as <-. constructor; auto.
    intros -> i I. cbn [andb] in G. apply negb_false_iff in G. rewrite forallb_forall in G. exact (G i I).
  - destruct (job_of s j) eqn:J; try discriminate E. injection E as <-. now constructor.
  - destruct (job_of s j) as [| |v [|n todo] excl| |] eqn:J; try discriminate E. destruct (excluded excl n || negb room) eqn:X; injection E as <-; [now apply d_skip_prior with n|].
    apply orb_false_iff in X as (X & Y). apply negb_false_iff in Y as ->. now apply d_push_prior.
  - destruct (job_of s j) as [| |v [|n todo] excl| |] eqn:J; try discriminate E. destruct (Z.eqb_spec (refs s j) 0); [|discriminate E]. injection E as <-. now apply d_wait.
  - destruct (job_of s j) as [| | |v [|n todo] excl|] eqn:J; try discriminate E. destruct (excluded excl n || negb room) eqn:X; injection E as <-; [now apply d_skip with n|].
    apply orb_false_iff in X as (X & Y). apply negb_false_iff in Y as ->. now apply d_push.
  - destruct (job_of s j) as [| | |v [|n todo] excl|] eqn:J; try discriminate E. injection E as <-. now apply d_end with v excl.
  - destruct (queue_of s n) as [|[j v] q] eqn:Q; [discriminate E|]. cbn [add_ref open_ seen held] in E. destruct (open_ s n && ok) eqn:X.
    + apply andb_true_iff in X as (O & ->). destruct (N.ltb_spec v (seen s n)) as [L|L].
      * rewrite <- O in E at 1. apply d_lose with j v q true; [exact Q|auto|exact E].
      * now apply d_deliver with j v q.
    + apply d_lose with j v q false; [exact Q| |exact E]. intros -> O. rewrite O in X. discriminate X.
  - destruct (queue_of s n) eqn:Q; [|discriminate E]. now apply d_ping.
  - destruct (member n (members s)) eqn:M; [|discriminate E]. injection E as <-. now apply d_join.
  - injection E as <-. apply d_restart.
Qed.
Lemma watched_fields s n w q o h v s' : watched s n w q o h v = Some s' ->
  cur s' = cur s /\ members s' = members s /\ downs s' = downs s /\ job_of s' = job_of s /\ started s' = started s /\ refs s' = refs s /\
  queue_of s' = upd (queue_of s) n q /\ open_ s' = upd (open_ s) n o /\ held s' = upd (held s) n h /\ seen s' = upd (seen s) n v /\
  exists m rs, iterate (mon s n) (reading_of s n) w = Some (m, rs) /\ requests s' = requests s ++ map (pair n) rs.
Proof.
  unfold watched. destruct (iterate _ _ _) as [[m rs]|] eqn:E; [|discriminate]. intros X. injection X as <-. repeat split. exists m, rs. auto.
Qed.
(** Opens the result of [watched] in [H]. *)
Ltac fields H :=
  apply watched_fields in H; cbn [add_ref cur members downs job_of started refs queue_of open_ mon held seen requests reading_of] in H;
  destruct H as (Hcur & Hmem & Hdown & Hjob & Hst & Hrefs & Hq & Ho & Hh & Hs & Hit).

Record inv (s : st) : Prop := mkInv {
  i_seen : forall n, seen s n <= cur s;
  i_held : forall n, held s n <= cur s;
  i_queue : forall n j v, In (j, v) (queue_of s n) -> v <= cur s;
  i_job : forall j, match job_of s j with Priors v _ _ | Rest v _ _ => v <= cur s | _ => True end;
  i_started : forall j, job_of s j <> NoJob -> In j (started s) }.
Lemma inv0 ms t : inv (st0 ms t).
Proof. constructor; cbn; try (intros; lia); try tauto. Qed.
Lemma inv_job s s' j x : inv s -> s' = set_job s j x -> (job_of s j <> NoJob) -> match x with Priors v _ _ | Rest v _ _ => v <= cur s | _ => True end -> inv s'.
Proof.
  intros I -> J X. destruct I as [A B C D E]. constructor; cbn [set_job cur seen held queue_of job_of started]; auto.
  - intros i. unfold upd. destruct (N.eqb_spec i j); [exact X|apply D].
  - intros i. unfold upd. destruct (N.eqb_spec i j) as [->|]; auto.
Qed.
Lemma inv_enqueue s n m : inv s -> snd m <= cur s -> inv (enqueue s n m).
Proof.
  intros [A B C D E] L. constructor; cbn [enqueue cur seen held queue_of job_of started]; auto.
  intros i j v. unfold upd. destruct (N.eqb_spec i n) as [->|]; [|apply C]. rewrite in_app_iff. intros [H|[->|[]]]; [exact (C n j v H)|exact L].
Qed.
Lemma inv_ref s j d : inv s -> inv (add_ref s j d).
Proof. intros [A B C D E]. constructor; cbn [add_ref cur seen held queue_of job_of started]; auto. Qed.
Lemma inv_step serial s e s' : inv s -> step serial s e = Some s' -> inv s'.
Proof.
  intros I E. apply step_does in E. destruct E as [j prior excl ms ds J F G|j prior excl J|j room v n todo excl J X|j v n todo excl J X|j v excl J R|j room v n todo excl J X|j v n todo excl J X|j v excl J|n j v q s' Q O L W|n ok j v q o s' Q O W|n ok s' Q W|n o M|up].
  - destruct I as [A B C D H]. constructor; cbn [cur seen held queue_of job_of started].
    + intros n. specialize (A n). lia.
    + intros n. specialize (B n). lia.
    + intros n i v V. specialize (C n i v V). lia.
    + intros i. unfold upd. destruct (i =? j); [exact Logic.I|]. specialize (D i). destruct (job_of s i); auto; lia.
    + intros i. unfold upd. destruct (N.eqb_spec i j) as [->|]; [now left|right; auto].
  - eapply inv_job; [exact I|reflexivity|congruence|cbn; lia].
  - pose proof (i_job s I j) as K. rewrite J in K. eapply inv_job; [exact I|reflexivity|congruence|exact K].
  - pose proof (i_job s I j) as K. rewrite J in K. apply inv_ref, inv_enqueue; [|exact K]. eapply inv_job; [exact I|reflexivity|congruence|exact K].
  - pose proof (i_job s I j) as K. rewrite J in K. eapply inv_job; [exact I|reflexivity|congruence|exact K].
  - pose proof (i_job s I j) as K. rewrite J in K. eapply inv_job; [exact I|reflexivity|congruence|exact K].
  - pose proof (i_job s I j) as K. rewrite J in K. apply inv_enqueue; [|exact K]. eapply inv_job; [exact I|reflexivity|congruence|exact K].
  - eapply inv_job; [exact I|reflexivity|congruence|exact Logic.I].
  - fields W. destruct I as [A B C D H]. assert (V : v <= cur s) by (apply (C n j v); rewrite Q; now left).
    constructor; rewrite ?Hcur, ?Hjob, ?Hst, ?Hq, ?Hh, ?Hs; auto.
    + intros i. unfold upd. destruct (i =? n); auto.
    + intros i. unfold upd. destruct (i =? n); auto.
    + intros i k w. unfold upd. destruct (N.eqb_spec i n) as [->|]; [|apply C]. intros K. apply (C n k w). rewrite Q. now right.
  - fields W. destruct I as [A B C D H]. constructor; rewrite ?Hcur, ?Hjob, ?Hst, ?Hq, ?Hh, ?Hs; auto.
    + intros i. unfold upd. destruct (i =? n); auto.
    + intros i. unfold upd. destruct (i =? n); auto.
    + intros i k w. unfold upd. destruct (N.eqb_spec i n) as [->|]; [|apply C]. intros K. apply (C n k w). rewrite Q. now right.
  - fields W. destruct I as [A B C D H]. constructor; rewrite ?Hcur, ?Hjob, ?Hst, ?Hq, ?Hh, ?Hs; auto.
    + intros i. unfold upd. destruct (i =? n); auto.
    + intros i. unfold upd. destruct (i =? n); auto.
    + intros i k w. unfold upd. destruct (N.eqb_spec i n) as [->|]; [|apply C]. intros [].
  - destruct I as [A B C D H]. constructor; cbn [cur seen held queue_of job_of started]; auto; intros i; unfold upd; destruct (i =? n); auto; lia.
  - destruct I as [A B C D H]. constructor; cbn [restart cur seen held queue_of job_of started]; auto.
    + intros n j v [].
    + intros i. destruct (job_of s i); exact Logic.I.
    + intros i Hi. apply H. intros K. rewrite K in Hi. contradiction.
Qed.
Lemma inv_steps serial es : forall s s', inv s -> steps serial s es = Some s' -> inv s'.
Proof.
  induction es as [|e es IH]; intros s s' I E; cbn [steps] in E; [injection E as <-; exact I|].
  destruct (step serial s e) as [s1|] eqn:S1; [|discriminate E]. exact (IH s1 s' (inv_step _ _ _ _ I S1) E).
Qed.
Lemma steps_app serial e1 e2 : forall s, steps serial s (e1 ++ e2) = match steps serial s e1 with Some s1 => steps serial s1 e2 | None => None end.
Proof. induction e1 as [|e e1 IH]; intros s; [reflexivity|]. cbn [app steps]. destruct (step serial s e); auto. Qed.

(** ** The map of a node *)
Lemma held_seen_step serial s e s' n : held s n = seen s n -> joins n e = false -> step serial s e = Some s' -> held s' n = seen s' n /\ held s n <= held s' n.
Proof.
  intros I N0 E. apply step_does in E. destruct E as [j prior excl ms ds J F G|j prior excl J|j room v m todo excl J X|j v m todo excl J X|j v excl J R|j room v m todo excl J X|j v m todo excl J X|j v excl J|m j v q s' Q O L W|m ok j v q o s' Q O W|m ok s' Q W|m o M|up];
    try (split; [exact I|cbn; lia]).
  - fields W. rewrite Hh, Hs. unfold upd. destruct (N.eqb_spec n m) as [->|]; [lia|]. split; [exact I|lia].
  - fields W. rewrite Hh, Hs. unfold upd. destruct (N.eqb_spec n m) as [->|]; split; auto; lia.
  - fields W. rewrite Hh, Hs. unfold upd. destruct (N.eqb_spec n m) as [->|]; split; auto; lia.
  - cbn [joins] in N0. cbn [held seen]. rewrite !upd_other by (intros ->; rewrite N.eqb_refl in N0; discriminate N0). split; [exact I|lia].
Qed.
Lemma held_steps serial n es : forall s s', held s n = seen s n -> existsb (joins n) es = false -> steps serial s es = Some s' -> held s' n = seen s' n /\ held s n <= held s' n.
Proof.
  induction es as [|e es IH]; intros s s' I N0 E; cbn [steps] in E; [injection E as <-; split; [exact I|lia]|].
  cbn [existsb] in N0. apply orb_false_iff in N0 as (N1 & N2). destruct (step serial s e) as [s1|] eqn:S1; [|discriminate E].
  destruct (held_seen_step _ _ _ _ _ I N1 S1) as (I1 & L1). destruct (IH s1 s' I1 N2 E) as (I2 & L2). split; [exact I2|lia].
Qed.

(** ** The newest map *)
(** Node [n] has the newest map, or is going to be told by job [j]. *)
Definition coming (j n : N) (s : st) : Prop :=
  (held s n = cur s /\ seen s n = cur s)
  \/ (exists i, In (i, cur s) (queue_of s n))
  \/ match job_of s j with
     | Changed _ excl => excluded excl n = false
     | Priors v _ excl => v = cur s /\ excluded excl n = false
     | Rest v todo excl => v = cur s /\ excluded excl n = false /\ In n todo
     | _ => False
     end.
Lemma coming_step serial s e s' j n : inv s -> In n (members s) -> open_ s n = true -> is_change e = false -> is_restart e = false -> joins n e = false -> works n s e = true ->
  coming j n s -> step serial s e = Some s' -> members s' = members s /\ open_ s' n = true /\ cur s' = cur s /\ coming j n s'.
Proof.
  intros I M O NC NR NJ Wk C E. apply step_does in E.
  assert (K : forall i x, job_of s i <> x -> coming j n s -> (i = j -> match x with Priors v _ excl => v = cur s /\ excluded excl n = false | Rest v todo excl => v = cur s /\ excluded excl n = false /\ In n todo | Changed _ excl => excluded excl n = false | _ => False end \/
      (held s n = cur s /\ seen s n = cur s) \/ (exists i, In (i, cur s) (queue_of s n))) -> coming j n (set_job s i x)).
  { intros i x _ C' H. unfold coming. cbn [set_job held seen cur queue_of job_of]. unfold upd. destruct (N.eqb_spec j i) as [->|D]; [|exact C']. destruct (H eq_refl) as [H'|[H'|H']]; auto. }
  destruct E as [i prior excl ms ds J F G|i prior excl J|i room v m todo excl J X|i v m todo excl J X|i v excl J R|i room v m todo excl J X|i v m todo excl J X|i v excl J|m i v q s' Q O' L W|m ok i v q o s' Q O' W|m ok s' Q W|m o M'|up].
  - discriminate NC.
  - split; [reflexivity|]. split; [exact O|]. split; [reflexivity|]. apply K; [congruence|exact C|]. intros ->. destruct C as [C|[C|C]]; auto. rewrite J in C. auto.
  - split; [reflexivity|]. split; [exact O|]. split; [reflexivity|]. apply K; [rewrite J; intros Y; injection Y as Y; clear -Y; apply (f_equal (@length N)) in Y; cbn in Y; lia|exact C|].
    intros ->. destruct C as [C|[C|C]]; auto. rewrite J in C. auto.
  - split; [reflexivity|]. split; [exact O|]. split; [reflexivity|]. destruct C as [C|[(k & C)|C]].
    + left. exact C.
    + right. left. exists k. cbn [add_ref enqueue set_job queue_of cur]. unfold upd. destruct (N.eqb_spec n m) as [->|]; [apply in_app_iff; now left|exact C].
    + right. right. cbn [add_ref enqueue set_job job_of cur]. unfold upd. destruct (N.eqb_spec j i) as [->|]; [|exact C]. rewrite J in C. exact C.
  - split; [reflexivity|]. split; [exact O|]. split; [reflexivity|]. apply K; [congruence|exact C|]. intros ->. destruct C as [C|[C|C]]; auto. rewrite J in C. destruct C; auto.
  - split; [reflexivity|]. split; [exact O|]. split; [reflexivity|]. apply K; [rewrite J; intros Y; injection Y as Y; clear -Y; apply (f_equal (@length N)) in Y; cbn in Y; lia|exact C|].
    intros ->. destruct C as [C|[C|C]]; auto. rewrite J in C. destruct C as (C1 & C2 & [->|C3]); [|auto].
    cbn [works] in Wk. rewrite J, N.eqb_refl, C2 in *. cbn [negb orb] in *. destruct room; discriminate.
  - split; [reflexivity|]. split; [exact O|]. split; [reflexivity|]. destruct C as [C|[(k & C)|C]].
    + left. exact C.
    + right. left. exists k. cbn [enqueue set_job queue_of cur]. unfold upd. destruct (N.eqb_spec n m) as [->|]; [apply in_app_iff; now left|exact C].
    + destruct (N.eqb_spec j i) as [->|D].
      * rewrite J in C. destruct C as (-> & C2 & [->|C3]).
        -- right. left. exists i. cbn [enqueue set_job queue_of cur]. rewrite upd_same. apply in_app_iff. right. now left.
        -- right. right. cbn [enqueue set_job job_of cur]. rewrite upd_same. auto.
      * right. right. cbn [enqueue set_job job_of cur]. now rewrite upd_other.
  - split; [reflexivity|]. split; [exact O|]. split; [reflexivity|]. apply K; [congruence|exact C|]. intros ->. destruct C as [C|[C|C]]; auto. rewrite J in C. destruct C as (_ & _ & []).
  - fields W. unfold coming. rewrite Hmem, Hcur, Hjob, Hq, Ho, Hh, Hs. split; [reflexivity|]. unfold upd. destruct (N.eqb_spec n m) as [->|D]; [|auto].
    split; [reflexivity|]. split; [reflexivity|]. assert (V : v <= cur s) by (apply (i_queue s I m i v); rewrite Q; now left).
    destruct C as [(C1 & C2)|[(k & C)|C]]; [left; lia| |auto]. rewrite Q in C. destruct C as [C|C]; [injection C as -> ->; auto|right; left; now exists k].
  - fields W. unfold coming. rewrite Hmem, Hcur, Hjob, Hq, Ho, Hh, Hs. split; [reflexivity|]. unfold upd. destruct (N.eqb_spec n m) as [->|D]; [|auto].
    cbn [works] in Wk. rewrite N.eqb_refl, orb_false_r in Wk. subst ok. destruct (O' eq_refl O) as (L & ->). split; [reflexivity|]. split; [reflexivity|].
    assert (V : v < cur s) by (pose proof (i_seen s I m); lia).
    destruct C as [C|[(k & C)|C]]; auto. rewrite Q in C. destruct C as [C|C]; [injection C as -> ->; lia|right; left; now exists k].
  - fields W. unfold coming. rewrite Hmem, Hcur, Hjob, Hq, Ho, Hh, Hs. split; [reflexivity|]. unfold upd. destruct (N.eqb_spec n m) as [->|D]; [|auto].
    cbn [works] in Wk. rewrite N.eqb_refl, orb_false_r in Wk. subst ok. split; [reflexivity|]. split; [reflexivity|]. unfold coming in C. rewrite Q in C. exact C.
  - cbn [joins] in NJ. apply N.eqb_neq in NJ. unfold coming. cbn [members open_ cur held seen queue_of job_of]. rewrite !upd_other by congruence. auto.
  - discriminate NR.
Qed.
Lemma coming_steps serial j n es : forall s s', inv s -> In n (members s) -> open_ s n = true -> existsb is_change es = false -> existsb is_restart es = false -> existsb (joins n) es = false -> all_works serial n s es ->
  coming j n s -> steps serial s es = Some s' -> coming j n s' /\ members s' = members s /\ cur s' = cur s.
Proof.
  induction es as [|e es IH]; intros s s' I M O NC NR NJ Wk C E; cbn [steps] in E; [injection E as <-; auto|].
  cbn [existsb all_works] in *. apply orb_false_iff in NC as (NC1 & NC2). apply orb_false_iff in NR as (NR1 & NR2). apply orb_false_iff in NJ as (NJ1 & NJ2). destruct Wk as (Wk1 & Wk2).
  destruct (step serial s e) as [s1|] eqn:S1; [|discriminate E]. destruct (coming_step _ _ _ _ _ _ I M O NC1 NR1 NJ1 Wk1 C S1) as (M1 & O1 & C1 & K1).
  rewrite <- M1 in M. destruct (IH s1 s' (inv_step _ _ _ _ I S1) M O1 NC2 NR2 NJ2 Wk2 K1 E) as (A & B & D). split; [exact A|]. split; congruence.
Qed.
Lemma newest serial ms0 t e1 j prior excl ms ds e2 s1 s n :
  steps serial (st0 ms0 t) e1 = Some s1 -> steps serial s1 (Change j prior excl ms ds :: e2) = Some s -> existsb is_change e2 = false -> existsb is_restart e2 = false -> quiet s ->
  In n (members s) -> excluded excl n = false -> open_ s1 n = true -> existsb (joins n) e2 = false -> all_works serial n s1 (Change j prior excl ms ds :: e2) -> held s n = cur s.
Proof.
  intros E1 E NC NR (Q1 & Q2) M X O NJ Wk. pose proof (inv_steps _ _ _ _ (inv0 ms0 t) E1) as I1. cbn [steps] in E. destruct (step serial s1 _) as [s2|] eqn:S1; [|discriminate E].
  pose proof (inv_step _ _ _ _ I1 S1) as I2. cbn [all_works] in Wk. rewrite S1 in Wk. destruct Wk as (_ & Wk).
  pose proof (step_does _ _ _ _ S1) as D. inversion D as [? ? ? ? ? J F G| | | | | | | | | | | |]; subst.
  assert (ME : forall es s s', existsb is_change es = false -> steps serial s es = Some s' -> members s' = members s).
  { clear. induction es as [|e es IH]; intros s s' NC E; cbn [steps] in E; [now injection E as <-|]. cbn [existsb] in NC. apply orb_false_iff in NC as (N1 & N2).
    destruct (step serial s e) as [s1|] eqn:S1; [|discriminate E]. rewrite (IH s1 s' N2 E). apply step_does in S1.
    destruct S1 as [| | | | | | | |m i v q s'' Q O' L W|m ok i v q o s'' Q O' W|m ok s'' Q W| |]; try reflexivity; [discriminate N1|fields W; exact Hmem..]. }
  pose proof (ME _ _ _ NC E) as Hm. cbn [members] in Hm.
  destruct (coming_steps serial j n e2 _ s I2) as (C & _ & _); auto; [cbn [members]; congruence| |].
  - right. right. cbn [job_of]. rewrite upd_same. exact X.
  - destruct C as [(C & _)|[(k & C)|C]]; [exact C|rewrite Q2 in C; destruct C|specialize (Q1 j); destruct (job_of s j); try discriminate Q1; destruct C].
Qed.
