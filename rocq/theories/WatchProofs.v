From Coq Require Import List Bool NArith ZArith Lia Permutation.
From Coq Require Import ZifyBool ZifyNat ZifyN.
From Verif Require Import WatchModel WatchSpec.
Import ListNotations.
Local Open Scope Z_scope.
Ltac Zify.zify_post_hook ::= Z.div_mod_to_equations.

Lemma ts_ok s n : - 2 ^ 63 <= s < 2 ^ 63 -> - 2 ^ 63 <= n < 2 ^ 63 -> ts s n = Some (mkTs s n).
Proof. unfold ts, fits. intros. replace (_ && _) with true by lia. reflexivity. Qed.
Lemma ts_some s n r : ts s n = Some r -> r = mkTs s n.
Proof. unfold ts. destruct (_ && _); congruence. Qed.

(** Times that a sum may have without overflow. *)
Lemma ts_add_ok a b : reading a -> reading b ->
  exists r, ts_add a b = Some r /\ normal r /\ ns r = ns a + ns b.
Proof.
  destruct a as [s n], b as [s' n']; unfold reading, normal, ts_add, ns; cbn. intros (A & B) (C & D).
  rewrite ts_ok by lia. cbn. unfold billion. destruct (Z.leb_spec 1000000000 (n + n')).
  - rewrite ts_ok by lia. eexists; split; [reflexivity|]. cbn. lia.
  - eexists; split; [reflexivity|]. cbn. lia.
Qed.
Lemma ts_sub_ok a b : reading a -> reading b ->
  exists r, ts_sub a b = Some r /\ normal r /\ ns r = ns a - ns b.
Proof.
  destruct a as [s n], b as [s' n']; unfold reading, normal, ts_sub, ns; cbn. intros (A & B) (C & D).
  rewrite ts_ok by lia. cbn. unfold billion. destruct (Z.ltb_spec (n - n') 0).
  - rewrite ts_ok by lia. eexists; split; [reflexivity|]. cbn. lia.
  - eexists; split; [reflexivity|]. cbn. lia.
Qed.
Lemma is_bigger_ns a b : normal a -> normal b -> is_bigger a b = (ns b <? ns a).
Proof. destruct a as [s n], b as [s' n']; unfold normal, is_bigger, ns; cbn. intros. destruct (Z.eqb_spec s s'); lia. Qed.
Lemma msec_ns m : normal (msec_to_timespec m) /\ ns (msec_to_timespec m) = msec m.
Proof. unfold normal, ns, msec, msec_to_timespec; cbn. lia. Qed.
Lemma timeval_ns s u : - 2 ^ 63 <= s < 2 ^ 63 -> 0 <= u < 1000000 ->
  exists r, timeval_to_timespec s u = Some r /\ normal r /\ ns r = (s * 1000000 + u) * 1000.
Proof. intros. unfold timeval_to_timespec. rewrite ts_ok by lia. eexists; split; [reflexivity|]. unfold normal, ns; cbn. lia. Qed.

(** ** The map *)
Lemma mem_in id m : mem id m = true <-> In id (map fst m).
Proof. unfold mem. rewrite existsb_exists, in_map_iff. split; intros (p & A & B); exists p; split; auto; now apply N.eqb_eq. Qed.
Lemma insert_perm id t m : mem id m = false -> Permutation (insert id t m) ((id, t) :: m).
Proof.
  induction m as [|p m IH]; cbn; [auto|]. intros H. apply orb_false_iff in H as (H1 & H2).
  destruct (N.ltb_spec id (fst p)); [auto|]. destruct (N.eqb_spec id (fst p)); [rewrite N.eqb_neq in H1; congruence|].
  rewrite IH by auto. apply perm_swap.
Qed.

Fixpoint tries (k : nat) (next : N) : list N :=
  match k with O => [] | S k => next :: tries k ((next + 1) mod 2 ^ 64)%N end.
Lemma tries_in k : forall next x, (next < 2 ^ 64)%N -> In x (tries k next) -> exists i, (i < N.of_nat k)%N /\ x = ((next + i) mod 2 ^ 64)%N.
Proof.
  induction k as [|k IH]; intros next x L; cbn [tries In]; [tauto|]. intros [<-|I].
  - exists 0%N. split; [lia|]. rewrite N.add_0_r, N.mod_small; auto.
  - apply IH in I as (i & A & ->); [|apply N.mod_lt; lia]. exists (i + 1)%N. split; [lia|].
    rewrite N.add_mod_idemp_l by lia. f_equal. lia.
Qed.
Lemma tries_nodup k : forall next, (next < 2 ^ 64)%N -> (N.of_nat k <= 2 ^ 64)%N -> NoDup (tries k next).
Proof.
  induction k as [|k IH]; intros next L K; cbn [tries]; constructor; [|apply IH; [apply N.mod_lt|]; lia].
  intros I. apply tries_in in I as (i & A & B); [|apply N.mod_lt; lia].
  rewrite N.add_mod_idemp_l in B by lia. lia.
Qed.
Lemma generate_none m : forall k next, generate_id k next m = None -> incl (tries k next) (map fst m).
Proof.
  induction k as [|k IH]; cbn [generate_id tries]; intros next; [intros _ x []|].
  destruct (mem next m) eqn:E; [|discriminate]. intros H x [<-|I]; [now apply mem_in|]. now apply (IH _ H).
Qed.
Lemma generate_some m : forall k next id next', (next < 2 ^ 64)%N -> generate_id k next m = Some (id, next') ->
  mem id m = false /\ (id < 2 ^ 64)%N /\ (next' < 2 ^ 64)%N.
Proof.
  induction k as [|k IH]; cbn [generate_id]; intros next id next' L; [discriminate|].
  destruct (mem next m) eqn:E; [apply IH, N.mod_lt; lia|]. intros H. injection H as <- <-. repeat split; auto. apply N.mod_lt; lia.
Qed.
Lemma generate_ok m next : (next < 2 ^ 64)%N -> (N.of_nat (length m) < 2 ^ 64)%N ->
  exists id next', generate_id (S (length m)) next m = Some (id, next').
Proof.
  intros L K. destruct (generate_id (S (length m)) next m) as [(id & nx)|] eqn:E; [eauto|].
  apply generate_none in E. pose proof (NoDup_incl_length (tries_nodup (S (length m)) next L ltac:(lia)) E) as H.
  rewrite map_length in H. assert (X : forall k x, length (tries k x) = k) by (induction k; cbn; auto).
  rewrite X in H. lia.
Qed.

(** ** State and view *)
Definition abs1 (p : N * target) : N * (Z * Z) := (t_thread (snd p), (ns (t_stamp (snd p)), ns (t_threshold (snd p)))).
Record ok (w : watcher) (v : view) : Prop := mkOk {
  ok_perm : Permutation (map abs1 (w_map w)) (under_way v);
  ok_ids : NoDup (map fst (w_map w));
  ok_threads : NoDup (map fst (under_way v));
  ok_small : forall a, busy v a -> (a < 2 ^ 64)%N;
  ok_held : forall id t, In (id, t) (w_map w) -> held w (t_thread t) = Some id;
  ok_targets : forall id t, In (id, t) (w_map w) -> reading (t_stamp t) /\ normal (t_threshold t);
  ok_next : (w_next w < 2 ^ 64)%N;
  ok_warn : normal (w_warn w) /\ ns (w_warn w) = v_warn v;
  ok_ng : normal (w_ng w) /\ ns (w_ng w) = v_ng v }.

Lemma ok0 warn ng : ok (watcher0 warn ng) (view0 warn ng).
Proof. constructor; cbn; try tauto; try constructor; try lia; apply msec_ns. Qed.

Lemma threads_length l : NoDup l -> (forall a, In a l -> (a < 2 ^ 64)%N) -> (N.of_nat (length l) <= 2 ^ 64)%N.
Proof.
  generalize (2 ^ 64)%N. intros M ND L. assert (H : incl (map N.to_nat l) (seq 0 (N.to_nat M))).
  { intros x I. apply in_map_iff in I as (a & <- & I). apply L in I. apply in_seq. lia. }
  assert (ND' : NoDup (map N.to_nat l)).
  { apply FinFun.Injective_map_NoDup; auto. intros x y E. now apply N2Nat.inj. }
  apply NoDup_incl_length in H; auto. rewrite map_length, seq_length in H. lia.
Qed.

Lemma filter_perm {A} (f : A -> bool) l l' : Permutation l l' -> Permutation (filter f l) (filter f l').
Proof. induction 1; cbn; auto; [destruct (f x); auto|destruct (f x), (f y); auto; apply perm_swap|eapply perm_trans; eauto]. Qed.
Lemma nodup_map_filter {A B} (g : A -> B) (f : A -> bool) l : NoDup (map g l) -> NoDup (map g (filter f l)).
Proof.
  induction l as [|x l IH]; cbn; auto. intros ND. inversion ND; subst. destruct (f x); cbn; auto. constructor; auto.
  intros I. apply H1. apply in_map_iff in I as (y & <- & I). apply filter_In in I. now apply in_map.
Qed.
Lemma filter_map_abs (id a : N) (m : list (N * target)) : (forall i t, In (i, t) m -> (N.eqb i id) = (N.eqb (t_thread t) a)) ->
  map abs1 (erase id m) = filter (fun p => negb (N.eqb (fst p) a)) (map abs1 m).
Proof.
  unfold erase. induction m as [|[i t] m IH]; cbn [map filter fst]; [auto|]. intros H. rewrite (H i t) by (left; auto).
  change (fst (abs1 (i, t))) with (t_thread t). destruct (N.eqb (t_thread t) a); cbn [negb map]; rewrite IH; auto; intros; apply H; now right.
Qed.

Lemma checks_spec ng g clk : normal ng -> ns ng = g -> (forall a, reading (clk a)) ->
  forall m, (forall id t, In (id, t) m -> reading (t_stamp t) /\ normal (t_threshold t)) ->
  exists rs, checks ng clk m = Some rs /\ forall v, under_way v = map abs1 m -> v_ng v = g -> map seen rs = due v clk.
Proof.
  intros NG <- C m. induction m as [|[id t] m IH]; intros T; cbn [checks].
  - exists []. split; auto. unfold due. intros v -> _. reflexivity.
  - destruct IH as (rs & E & S); [intros; apply (T id0); now right|]. destruct (T id t (or_introl eq_refl)) as (R & N).
    unfold check1. destruct (ts_sub_ok (clk (t_thread t)) (t_stamp t) (C _) R) as (d & -> & ND & D). rewrite E.
    eexists; split; [reflexivity|]. intros v U V. unfold due. rewrite U. cbn [map flat_map abs1 snd]. unfold abs1 at 1. cbn [snd].
    rewrite map_app. f_equal.
    + rewrite is_bigger_ns by auto. rewrite <- D. destruct (ns (t_threshold t) <? ns d); [|reflexivity].
      rewrite is_bigger_ns by auto. rewrite V. cbn [map seen]. destruct (ns ng <? ns d); reflexivity.
    + specialize (S (mkView (map abs1 m) (v_warn v) (v_ng v)) eq_refl V). exact S.
Qed.

Lemma flat_map_perm {A B} (f : A -> list B) l l' : Permutation l l' -> Permutation (flat_map f l) (flat_map f l').
Proof. induction 1; cbn; auto; [now apply Permutation_app_head|rewrite !app_assoc; apply Permutation_app_tail, Permutation_app_comm|eapply perm_trans; eauto]. Qed.

Lemma poll_ok w v clk : ok w v -> (forall a, reading (clk a)) ->
  exists rs, checks (w_ng w) clk (w_map w) = Some rs /\ Permutation (map seen rs) (due v clk).
Proof.
  intros O C. destruct (ok_ng _ _ O) as (NG & G). destruct (checks_spec (w_ng w) _ clk NG G C (w_map w) (ok_targets _ _ O)) as (rs & E & S).
  exists rs. split; auto. rewrite (S (mkView (map abs1 (w_map w)) (v_warn v) (v_ng v)) eq_refl eq_refl).
  unfold due. cbn [under_way v_ng]. apply flat_map_perm, (ok_perm _ _ O).
Qed.

Lemma step_ok w v e : ok w v -> fair v e ->
  exists w' rs, step w e = Some (w', rs) /\ ok w' (after v e) /\
    match e with Poll clk => Permutation (map seen rs) (due v clk) /\ healthy w' = healthy w && negb (existsb is_failed rs)
    | _ => rs = [] /\ healthy w' = healthy w end.
Proof.
  intros O F. destruct e as [a now|a|clk|warn ng]; cbn [step fair after] in *.
  - destruct F as (NB & RD & SM).
    assert (LEN : (N.of_nat (length (w_map w)) < 2 ^ 64)%N).
    { assert (X : NoDup (a :: map fst (under_way v))) by (constructor; [exact NB|exact (ok_threads _ _ O)]).
      apply threads_length in X; [|intros b [<-|I]; [auto|now apply (ok_small _ _ O)]].
      cbn [length] in X. rewrite map_length, <- (Permutation_length (ok_perm _ _ O)), map_length in X. lia. }
    destruct (generate_ok (w_map w) (w_next w) (ok_next _ _ O) LEN) as (id & nx & E). rewrite E.
    apply generate_some in E as (NM & LI & LN); [|exact (ok_next _ _ O)].
    pose proof (insert_perm id (mkTarget now (w_warn w) a) (w_map w) NM) as IP.
    eexists _, _. split; [reflexivity|]. split; [|auto]. constructor; cbn [w_map w_next w_warn w_ng held under_way v_warn v_ng].
    + rewrite (Permutation_map abs1 IP). cbn [map]. unfold abs1 at 1. cbn. rewrite (proj2 (ok_warn _ _ O)). apply perm_skip, (ok_perm _ _ O).
    + eapply Permutation_NoDup; [symmetry; apply (Permutation_map fst IP)|]. cbn. constructor; [|exact (ok_ids _ _ O)].
      intros I. apply mem_in in I. congruence.
    + cbn. constructor; [exact NB|exact (ok_threads _ _ O)].
    + intros b [<-|I]; auto. now apply (ok_small _ _ O).
    + intros i t I. apply (Permutation_in _ IP) in I as [[= <- <-]|I]; cbn [t_thread]; unfold upd.
      * now rewrite N.eqb_refl.
      * destruct (N.eqb_spec (t_thread t) a) as [EQ|NE]; [|now apply (ok_held _ _ O)].
        exfalso. apply NB. unfold busy. rewrite <- EQ. apply (Permutation_in _ (Permutation_map fst (ok_perm _ _ O))).
        rewrite map_map. apply in_map_iff. now exists (i, t).
    + intros i t I. apply (Permutation_in _ IP) in I as [[= <- <-]|I]; cbn; [split; [auto|exact (proj1 (ok_warn _ _ O))]|now apply (ok_targets _ _ O i)].
    + exact LN.
    + exact (ok_warn _ _ O).
    + exact (ok_ng _ _ O).
  - assert (H : exists id t, In (id, t) (w_map w) /\ t_thread t = a).
    { unfold busy in F. apply (Permutation_in _ (Permutation_sym (Permutation_map fst (ok_perm _ _ O)))) in F.
      rewrite map_map in F. apply in_map_iff in F as ((id & t) & A & B). now exists id, t. }
    destruct H as (id & t & I & TA). pose proof (ok_held _ _ O id t I) as HE. rewrite TA in HE. rewrite HE.
    eexists _, _. split; [reflexivity|]. split; [|auto].
    assert (EQV : forall i t', In (i, t') (w_map w) -> N.eqb i id = N.eqb (t_thread t') a).
    { intros i t' I'. destruct (N.eqb_spec (t_thread t') a) as [EQ|NE].
      - apply N.eqb_eq. pose proof (ok_held _ _ O i t' I') as HE'. rewrite EQ in HE'. congruence.
      - apply N.eqb_neq. intros ->. apply NE. rewrite <- TA. f_equal.
        assert (X : (id, t') = (id, t)); [|congruence].
        pose proof (ok_ids _ _ O) as ND. clear -ND I I'. induction (w_map w) as [|p m IH]; [destruct I|]. cbn in ND. inversion ND; subst.
        destruct I as [->|I], I' as [I'|I']; auto.
        { exfalso. apply H1. apply in_map_iff. now exists (id, t'). }
        { subst p. exfalso. apply H1. apply in_map_iff. now exists (id, t). } }
    constructor; cbn [w_map w_next w_warn w_ng held under_way v_warn v_ng].
    + rewrite (filter_map_abs id a _ EQV). apply filter_perm, (ok_perm _ _ O).
    + apply nodup_map_filter, (ok_ids _ _ O).
    + apply nodup_map_filter, (ok_threads _ _ O).
    + intros b B. apply (ok_small _ _ O). unfold busy in *. cbn in B. apply in_map_iff in B as (p & <- & B). apply filter_In in B. now apply in_map.
    + intros i t' I'. apply filter_In in I' as (I' & NE). unfold upd. rewrite <- (EQV i t') by auto. cbn [fst] in NE.
      destruct (N.eqb i id); [discriminate NE|now apply (ok_held _ _ O)].
    + intros i t' I'. apply filter_In in I' as (I' & _). now apply (ok_targets _ _ O i).
    + exact (ok_next _ _ O).
    + exact (ok_warn _ _ O).
    + exact (ok_ng _ _ O).
  - destruct (poll_ok w v clk O F) as (rs & E & P). rewrite E. eexists _, _. split; [reflexivity|]. split; [|auto].
    destruct O. constructor; auto.
  - eexists _, _. split; [reflexivity|]. split; [|auto]. destruct O. constructor; auto; apply msec_ns.
Qed.

Lemma run_ok : forall es w v, ok w v -> fairs v es ->
  exists w' rs, run w es = Some (w', rs) /\ ok w' (fold_left after es v).
Proof.
  induction es as [|e es IH]; intros w v O F; cbn [run fold_left].
  - eauto.
  - destruct F as (F & FS). destruct (step_ok w v e O F) as (w1 & r & -> & O1 & _).
    destruct (IH w1 _ O1 FS) as (w2 & rs & -> & O2). eauto.
Qed.

Lemma failed_in rs : existsb is_failed rs = true <-> exists a d, In (a, d, true) (map seen rs).
Proof.
  rewrite existsb_exists. split.
  - intros ([a d|a d] & I & E); [discriminate E|]. exists a, (ns d). apply in_map_iff. now exists (Failed a d).
  - intros (a & d & I). apply in_map_iff in I as ([b t|b t] & E & I); cbn in E; [congruence|]. now exists (Failed b t).
Qed.

Lemma run_health : forall es w v w' rs, ok w v -> fairs v es -> run w es = Some (w', rs) ->
  healthy w' = true <-> (healthy w = true /\ forall es1 clk es2 a age, es = es1 ++ Poll clk :: es2 -> ~ In (a, age, true) (due (fold_left after es1 v) clk)).
Proof.
  induction es as [|e es IH]; intros w v w' rs O F; cbn [run].
  - intros [= <- <-]. split; [intros H; split; [exact H|]|tauto]. intros [|] clk es2 a age E; discriminate E.
  - destruct F as (F & FS). destruct (step_ok w v e O F) as (w1 & r & -> & O1 & HE).
    destruct (run w1 es) as [(w2 & rs2)|] eqn:R; [|discriminate]. intros [= <- _]. rewrite (IH _ _ _ _ O1 FS R).
    assert (X : healthy w1 = true <-> healthy w = true /\ forall clk a age, e = Poll clk -> ~ In (a, age, true) (due v clk)).
    { destruct e as [| |clk|]; [destruct HE as (_ & ->); split; [intros H; split; [exact H|discriminate]|tauto].. | |destruct HE as (_ & ->); split; [intros H; split; [exact H|discriminate]|tauto]].
      destruct HE as (P & ->). rewrite andb_true_iff, negb_true_iff. split.
      - intros (A & B). split; auto. intros clk' a age [= <-] I. apply (Permutation_in _ (Permutation_sym P)) in I.
        assert (Y : existsb is_failed r = true) by (apply failed_in; eauto). congruence.
      - intros (A & B). split; auto. destruct (existsb is_failed r) eqn:Y; auto. apply failed_in in Y as (a & d & Y).
        exfalso. apply (B clk a d eq_refl). now apply (Permutation_in _ P). }
    rewrite X. split.
    + intros ((A & B) & C). split; auto. intros [|e1 es1] clk es2 a age E; cbn in E; injection E as E1 E2.
      * cbn. now apply B.
      * subst e1. cbn [fold_left]. now apply (C es1 clk es2).
    + intros (A & B). repeat split; auto.
      * intros clk a age ->. apply (B [] clk es a age eq_refl).
      * intros es1 clk es2 a age ->. apply (B (e :: es1) clk es2 a age eq_refl).
Qed.
