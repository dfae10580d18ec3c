(** Proofs for the model of several index servers: they act as one. *)
From Coq Require Import NArith ZArith List Bool Lia ZifyBool ZifyNat ZifyN.
From Verif Require Import Base BaseLemmas TextModel ClusterModel ClusterSpec ClusterProofs3 ClusterProofs8.
From Verif Require Import LockModel LockSpec LockProofs3 IndexesModel IndexesSpec IndexesProofs IndexesProofs2.
Import ListNotations.
Local Open Scope N_scope.
Local Open Scope list_scope.

Section Proofs.
Context (uuid : N -> N -> bytes) (U : good_uuid uuid) (home : N -> N).
Notation linv2 := (linv2 uuid). Notation istep := (istep uuid home). Notation irun := (irun uuid home).

Definition qshape (c : bool) (f : option N) : list delivery :=
  (if c then [Changed] else []) ++ (match f with Some i => [Flush i] | None => [] end).
Record sinv (n : nat) (hs : nat -> index) (ph : N -> phase) (j : N) (v : server) : Prop := mkSinv {
  s_view : (view v <= n)%nat;
  s_queue : exists c f, queue v = qshape c f /\
    (c = true -> watch v = false /\ handler v = None /\ (1 <= view v)%nat) /\
    (c = false -> watch v = true \/ handler v <> None) /\
    match f with Some i => home i = j /\ ph i = OAnswered | None => forall i, home i = j -> ph i <> OAnswered end;
  s_watch : watch v = true -> handler v = None /\ (busy v = false -> matches (mem v) (hs (view v)));
  s_handler : forall k, handler v = Some k -> watch v = false /\ (1 <= k <= view v)%nat /\ (busy v = false -> matches (mem v) (hs k));
  s_busy : busy v = true -> exists i e r w, home i = j /\ ph i = OStore e r w;
  s_fresh : n = O -> busy v = false -> mem v = fresh_index None }.
Definition pinv (n : nat) (hs : nat -> index) (l : LockModel.st) (i : N) (p : phase) (v : server) : Prop :=
  match p with
  | OIdle => True
  | OSync k => holds l i /\ k = n
  | OAnswered => holds l i /\ view v = n
  | OSynced => holds l i /\ view v = n /\ watch v = true
  | OStore e r w => holds l i /\ view v = n /\ watch v = true /\ busy v = true /\
      exists t', (exists P, inv P t') /\ ~ abandons (hs n) e /\ mem v = forget t' /\ i_disk t' = Some w /\ i_disk (hs n) <> Some w /\ handle (mkIo true true SaveOk) (hs n) e = Ok (r, t')
  | OEnd => holds l i
  end.
Record J (s : ist) (hs : nat -> index) : Prop := mkJ {
  j_lock : linv2 (lk s);
  j_zero : hs O = fresh_index None;
  j_inv : forall k, (k <= List.length (log s))%nat -> exists P, inv P (hs k);
  j_disk : forall k, (k <= List.length (log s))%nat -> i_disk (hs k) = stored (log s) k;
  j_one : one_server (map request (ops s)) (log s) (hs (List.length (log s)));
  j_late : late s = [];
  j_srv : forall j, sinv (List.length (log s)) hs (op s) j (srv s j);
  j_op : forall i, pinv (List.length (log s)) hs (lk s) i (op s i) (srv s (home i)) }.

Lemma pinv_holds n hs l i p v : pinv n hs l i p v -> p <> OIdle -> holds l i.
Proof. destruct p; cbn; tauto. Qed.
Lemma others_idle s hs i i' : J s hs -> op s i <> OIdle -> op s i' <> OIdle -> i' = i.
Proof. intros V A B. refine (held_one uuid (lk s) i' i (j_lock _ _ V) _ _); eapply pinv_holds; eauto using j_op. Qed.
Lemma qshape_app c i : qshape c None ++ [Flush i] = qshape c (Some i). Proof. now destruct c. Qed.

(** ** Frames *)
Lemma sinv_ph n hs ph ph' j v : sinv n hs ph j v ->
  (forall i, ph' i = OAnswered <-> ph i = OAnswered) -> (forall i e r w, ph i = OStore e r w -> ph' i = OStore e r w) -> sinv n hs ph' j v.
Proof.
  intros [A (c & f & Q1 & Q2 & Q3 & Q4) B C D E] Ha Hs. constructor; auto.
  - exists c, f. repeat split; auto; try (now apply Q2). destruct f as [i|]; [destruct Q4 as (Q4 & Q5); split; auto; now apply Ha|]. intros i Hi. rewrite Ha. auto.
  - intros Hb. destruct (D Hb) as (i & e & r & w & D1 & D2). exists i, e, r, w. auto.
Qed.
Lemma op_set s i p x : op (set_op s i p) x = if x =? i then p else op s x. Proof. reflexivity. Qed.
Lemma srv_set s j v x : srv (set_srv s j v) x = if x =? j then v else srv s x. Proof. reflexivity. Qed.
(** A phase changes to one of no interest to the servers. *)
Lemma sinv_set n hs s i p j v : sinv n hs (op s) j v -> op s i <> OAnswered -> (forall e r w, op s i <> OStore e r w) -> p <> OAnswered -> sinv n hs (op (set_op s i p)) j v.
Proof.
  intros H N1 N2 N3. refine (sinv_ph _ _ _ _ _ _ H _ _).
  - intros x. rewrite op_set. destruct (x =? i) eqn:E; [|tauto]. apply N.eqb_eq in E as ->. split; congruence.
  - intros x e r w Hx. rewrite op_set. destruct (x =? i) eqn:E; [|auto]. apply N.eqb_eq in E as ->. now apply N2 in Hx.
Qed.

(** ** Each event *)
Lemma lock_J s hs e l : J s hs -> linv2 l -> step uuid (lk s) e = Ok l -> (forall i, e = Release i -> op s i = OIdle) -> J (set_lk s l) hs.
Proof.
  intros [A B C D E F G H] L St N. constructor; auto. cbn [set_lk lk log op srv]. intros i. specialize (H i).
  assert (K : op s i <> OIdle -> holds (lk s) i -> holds l i).
  { intros Np Hh. refine (held_stays uuid (lk s) e l i St _ Hh). intros Ee. exact (Np (N i Ee)). }
  destruct (op s i) eqn:Ep; cbn [pinv] in *; auto; try (destruct H as (H1 & H2); split; [apply K; [discriminate|auto]|auto]; fail).
Qed.
Lemma idle_J s hs i p : J s hs -> op s i = OEnd \/ op s i = OIdle -> p = OIdle \/ (p = OSync (List.length (log s)) /\ holds (lk s) i) -> J (set_op s i p) hs.
Proof.
  intros [A B C D E F G H] Ep Hp. constructor; auto.
  - intros j. refine (sinv_set _ _ s i p j _ (G j) _ _ _).
    + destruct Ep as [-> | ->]; discriminate.
    + intros; destruct Ep as [-> | ->]; discriminate.
    + destruct Hp as [->|(-> & _)]; discriminate.
  - intros x. rewrite op_set. destruct (x =? i) eqn:X; [|apply H]. apply N.eqb_eq in X as ->. destruct Hp as [->|(-> & Hh)]; cbn [pinv]; auto.
Qed.
Lemma answer_J s hs i : J s hs -> op s i = OSync (List.length (log s)) -> (List.length (log s) <= view (srv s (home i)))%nat ->
  J (set_op (set_srv s (home i) (deliver (srv s (home i)) (Flush i))) i OAnswered) hs.
Proof.
  intros V Ep Hv. pose proof (others_idle s hs i) as Oi. pose proof V as [A B C D E F G H]. 
  assert (Un : forall x, op s x <> OIdle -> x = i) by (intros x Hx; apply (Oi x V); auto; rewrite Ep; discriminate).
  constructor; auto.
  - intros j. cbn [answer_op set_op set_srv srv op log]. destruct (j =? home i) eqn:X.
    + apply N.eqb_eq in X as ->. destruct (G (home i)) as [S1 (c & f & Q1 & Q2 & Q3 & Q4) S3 S4 S5 S6].
      assert (f = None) as ->. { destruct f as [x|]; auto. destruct Q4 as (_ & Q4). assert (x = i) as -> by (apply Un; rewrite Q4; discriminate). congruence. }
      constructor; auto.
      * exists c, (Some i). split; [cbn [deliver queue]; now rewrite Q1, qshape_app|]. split; [exact Q2|]. split; [exact Q3|]. split; auto. now rewrite N.eqb_refl.
      * intros Hb. destruct (S5 Hb) as (x & e & r & w & X1 & X2). assert (x = i) as -> by (apply Un; rewrite X2; discriminate). congruence.
    + destruct (G j) as [S1 (c & f & Q1 & Q2 & Q3 & Q4) S3 S4 S5 S6]. constructor; auto.
      * exists c, f. split; auto. split; auto. split; auto. destruct f as [x|]; [destruct Q4 as (Q4 & Q5); assert (x = i) as -> by (apply Un; rewrite Q5; discriminate); congruence|].
        intros x Hx. destruct (x =? i) eqn:Y; [|apply Q4; auto]. apply N.eqb_eq in Y as ->. apply N.eqb_neq in X. congruence.
      * intros Hb. destruct (S5 Hb) as (x & e & r & w & X1 & X2). assert (x = i) as -> by (apply Un; rewrite X2; discriminate). congruence.
  - intros x. cbn [set_op set_srv srv op log lk]. destruct (x =? i) eqn:X.
    + apply N.eqb_eq in X as ->. rewrite N.eqb_refl. cbn [pinv deliver view]. specialize (H i). rewrite Ep in H. cbn [pinv] in H. split; [apply H|]. pose proof (s_view _ _ _ _ _ (G (home i))). cbn [set_op set_srv log] in *. lia.
    + assert (op s x = OIdle) as ->; [|exact Logic.I]. destruct (op s x) eqn:Y; auto; exfalso; apply N.eqb_neq in X; apply X, Un; rewrite Y; discriminate.
Qed.
Lemma see_J s hs j : J s hs -> (view (srv s j) < List.length (log s))%nat -> J (set_srv s j (sees (srv s j) (S (view (srv s j))))) hs.
Proof.
  intros V Hv. pose proof V as [A B C D E F G H]. constructor; auto.
  - intros x. cbn [answer_op set_op set_srv srv op log]. destruct (x =? j) eqn:X; [|apply G]. apply N.eqb_eq in X as ->.
    destruct (G j) as [S1 (c & f & Q1 & Q2 & Q3 & Q4) S3 S4 S5 S6]. unfold sees. replace (view (srv s j) <? S (view (srv s j)))%nat with true by lia.
    destruct (watch (srv s j)) eqn:W.
    + assert (c = false) as -> by (destruct c; auto; destruct (Q2 eq_refl); discriminate).
      assert (f = None) as ->. { destruct f as [i|]; auto. destruct Q4 as (Q4 & Q5). specialize (H i). rewrite Q5, Q4 in H. cbn [pinv] in H. lia. }
      destruct (S3 eq_refl) as (S3a & S3b). constructor; cbn [view queue watch handler busy mem]; auto; try lia; try discriminate; try congruence.
      * exists true, None. split; [now rewrite Q1|]. split; [intros _; split; auto; split; auto; lia|]. split; [discriminate|exact Q4].
    + constructor; cbn [view queue watch handler busy mem]; auto; try lia; try discriminate.
      * exists c, f. split; auto. split; [intros Hc; destruct (Q2 Hc) as (_ & Q & ?); split; auto; split; auto; lia|]. split; auto.
      * intros k Hk. destruct (S4 k Hk) as (? & ? & ?). split; auto. split; auto; lia.
  - intros i. cbn [answer_op set_op set_srv srv op log lk]. specialize (H i). destruct (home i =? j) eqn:X; auto. apply N.eqb_eq in X as <-.
    destruct (op s i); cbn [pinv] in *; auto; exfalso; lia.
Qed.
Lemma notice_J s hs j q : J s hs -> queue (srv s j) = Changed :: q -> handler (srv s j) = None -> busy (srv s j) = false ->
  J (set_srv s j (mkServer (update true (mem (srv s j)) (stored (log s) (view (srv s j)))) (view (srv s j)) (watch (srv s j)) q (Some (view (srv s j))) false)) hs.
Proof.
  intros V Hq Hh Hb. pose proof V as [A B C D E F G H].
  destruct (G j) as [S1 (c & f & Q1 & Q2 & Q3 & Q4) S3 S4 S5 S6]. assert (c = true) as -> by (destruct c; auto; rewrite Hq in Q1; destruct f; discriminate).
  destruct (Q2 eq_refl) as (W & _ & Vp). assert (q = qshape false f) as -> by (rewrite Hq in Q1; cbn in Q1; injection Q1 as ->; reflexivity).
  constructor; auto.
  - intros x. cbn [answer_op set_op set_srv srv op log]. destruct (x =? j) eqn:X; [|apply G]. apply N.eqb_eq in X as ->.
    constructor; cbn [view queue watch handler busy mem]; auto; try congruence.
    + exists false, f. split; auto. split; [discriminate|]. split; [intros _; right; discriminate|exact Q4].
    + intros k Hk. injection Hk as <-. split; auto. split; [lia|]. intros _. destruct (C _ S1) as (P & I0). rewrite <- (D _ S1). eapply update_tuned; eauto.
      rewrite (D _ S1). destruct (view (srv s j)) as [|k]; [lia|]. cbn [stored]. apply nth_error_Some. lia.
    + intros; lia.
  - intros i. cbn [answer_op set_op set_srv srv op log lk]. specialize (H i). destruct (home i =? j) eqn:X; auto. apply N.eqb_eq in X as <-.
    destruct (op s i); cbn [pinv] in *; auto; exfalso; rewrite W in H; destruct H as (_ & _ & H); try discriminate. now destruct H.
Qed.
Lemma rearm_J s hs j : J s hs -> handler (srv s j) = Some (view (srv s j)) ->
  J (set_srv s j (mkServer (mem (srv s j)) (view (srv s j)) true (queue (srv s j)) None (busy (srv s j)))) hs.
Proof.
  intros V Hh. pose proof V as [A B C D E F G H].
  destruct (G j) as [S1 (c & f & Q1 & Q2 & Q3 & Q4) S3 S4 S5 S6]. assert (c = false) as -> by (destruct c; auto; destruct (Q2 eq_refl) as (_ & Q & _); congruence).
  destruct (S4 _ Hh) as (W & Vp & M). constructor; auto.
  - intros x. cbn [answer_op set_op set_srv srv op log]. destruct (x =? j) eqn:X; [|apply G]. apply N.eqb_eq in X as ->.
    constructor; cbn [view queue watch handler busy mem]; auto; try congruence.
    exists false, f. split; auto. split; [discriminate|]. split; auto.
  - intros i. cbn [answer_op set_op set_srv srv op log lk]. specialize (H i). destruct (home i =? j) eqn:X; auto. apply N.eqb_eq in X as <-.
    destruct (op s i); cbn [pinv] in *; auto; exfalso; rewrite W in H; destruct H as (_ & _ & H); try discriminate. now destruct H.
Qed.
Lemma not_idle_other s hs i : J s hs -> op s i <> OIdle -> forall x, x <> i -> op s x = OIdle.
Proof. intros V N x Nx. destruct (op s x) eqn:E; auto; exfalso; apply Nx; apply (others_idle s hs i x V N); rewrite E; discriminate. Qed.
Lemma flushed_J s hs j i q : J s hs -> queue (srv s j) = Flush i :: q -> handler (srv s j) = None ->
  J (set_op (set_srv s j (mkServer (mem (srv s j)) (view (srv s j)) (watch (srv s j)) q None (busy (srv s j)))) i OSynced) hs.
Proof.
  intros V Hq Hh. pose proof V as [A B C D E F G H].
  destruct (G j) as [S1 (c & f & Q1 & Q2 & Q3 & Q4) S3 S4 S5 S6]. assert (c = false) as -> by (destruct c; auto; rewrite Hq in Q1; discriminate).
  assert (f = Some i /\ q = []) as (-> & ->) by (rewrite Hq in Q1; destruct f; [injection Q1 as -> ->; auto|discriminate]).
  destruct Q4 as (Hj & Ep). assert (W : watch (srv s j) = true) by (destruct (Q3 eq_refl); [auto|congruence]).
  pose proof (not_idle_other s hs i V ltac:(rewrite Ep; discriminate)) as Un.
  assert (Nb : busy (srv s j) = false).
  { destruct (busy (srv s j)) eqn:Hb; auto. destruct (S5 eq_refl) as (x & e & r & w & X1 & X2). destruct (N.eq_dec x i) as [->|Nx]; [congruence|]. rewrite (Un x Nx) in X2. discriminate. }
  constructor; auto.
  - intros x. cbn [answer_op set_op set_srv srv op log]. destruct (x =? j) eqn:X.
    + apply N.eqb_eq in X as ->. constructor; cbn [view queue watch handler busy mem]; auto; try congruence.
      2: (intros Wt; split; auto; now apply S3).
      exists false, None. split; auto. split; [discriminate|]. split; auto. intros y Hy. destruct (y =? i) eqn:Y; [discriminate|]. rewrite (Un y) by lia. discriminate.
    + destruct (G x) as [R1 (c & f & P1 & P2 & P3 & P4) R3 R4 R5 R6]. constructor; auto.
      * exists c, f. split; auto. split; auto. split; auto. destruct f as [y|].
        -- destruct P4 as (P4 & P5). exfalso. destruct (N.eq_dec y i) as [->|Ny]; [lia|]. rewrite (Un y Ny) in P5. discriminate.
        -- intros y Hy. destruct (y =? i) eqn:Y; [discriminate|]. rewrite (Un y) by lia. discriminate.
      * intros Hb. destruct (R5 Hb) as (y & e & r & w & X1 & X2). destruct (N.eq_dec y i) as [->|Ny]; [congruence|]. rewrite (Un y Ny) in X2. discriminate.
  - intros x. cbn [set_op set_srv srv op log lk]. destruct (x =? i) eqn:X.
    + apply N.eqb_eq in X as ->. rewrite Hj, N.eqb_refl. cbn [pinv view watch]. specialize (H i). rewrite Ep, Hj in H. cbn [pinv] in H. split; [apply H|]. split; [apply H|exact W].
    + rewrite (Un x) by lia. exact Logic.I.
Qed.
Lemma stored_some s k : (k <= List.length (log s))%nat -> stored (log s) k = None -> k = O.
Proof. destruct k; auto. cbn [stored]. intros Hk Hn. apply nth_error_None in Hn. lia. Qed.
Lemma synced_tuned s hs i : J s hs -> op s i = OSynced -> busy (srv s (home i)) = false /\ view (srv s (home i)) = List.length (log s) /\ tuned (mem (srv s (home i))) (hs (List.length (log s))).
Proof.
  intros V Ep. pose proof V as [A B C D E F G H]. pose proof (not_idle_other s hs i V ltac:(rewrite Ep; discriminate)) as Un.
  destruct (G (home i)) as [S1 _ S3 S4 S5 S6]. pose proof (H i) as Hi. rewrite Ep in Hi. cbn [pinv] in Hi. destruct Hi as (_ & Hv & W).
  assert (Nb : busy (srv s (home i)) = false).
  { destruct (busy (srv s (home i))) eqn:Hb; auto. destruct (S5 eq_refl) as (x & e & r & w & X1 & X2). destruct (N.eq_dec x i) as [->|Nx]; [congruence|]. rewrite (Un x Nx) in X2. discriminate. }
  split; auto. split; auto. destruct (S3 W) as (_ & M). split; [rewrite <- Hv; now apply M|]. intros Dn. apply S6; auto. rewrite D in Dn by lia. apply stored_some in Dn; auto.
Qed.
Lemma load_J s hs i e ok r m w : J s hs -> op s i = OSynced -> is_operation e = true ->
  ~ abandons (hs (List.length (log s))) e ->
  body ok (mem (srv s (home i))) (stored (log s) (view (srv s (home i)))) e = Ok (r, m, w) ->
  J (match w with
     | Some w => set_op (set_srv s (home i) (with_busy (with_mem (srv s (home i)) m) true)) i (OStore e r w)
     | None => answer_op (set_op (set_srv s (home i) (with_mem (srv s (home i)) m)) i OEnd) (mkAnswered i e ok r)
     end) hs.
Proof.
  intros V Ep O NA Hb. destruct (synced_tuned s hs i V Ep) as (Nb & Hv & Tu). pose proof V as [A B C D E F G H]. pose proof (not_idle_other s hs i V ltac:(rewrite Ep; discriminate)) as Un.
  destruct (C _ (le_n _)) as (P & I0). rewrite Hv, <- (D _ (le_n _)) in Hb. destruct (body_tuned P ok _ _ e r m w I0 Tu O NA Hb) as (t' & Ht & Hw).
  pose proof (H i) as Hi. rewrite Ep in Hi. cbn [pinv] in Hi. destruct Hi as (Hh & _ & W).
  destruct (G (home i)) as [S1 (c & f & Q1 & Q2 & Q3 & Q4) S3 S4 S5 S6]. destruct (S3 W) as (Hn & _).
  assert (c = false) as -> by (destruct c; auto; destruct (Q2 eq_refl); congruence).
  assert (f = None) as ->. { destruct f as [x|]; auto. destruct Q4 as (_ & Q4). destruct (N.eq_dec x i) as [->|Nx]; [congruence|]. rewrite (Un x Nx) in Q4. discriminate. }
  assert (Oth : forall p y, p <> OAnswered -> y <> home i -> sinv (List.length (log s)) hs (fun x => if x =? i then p else op s x) y (srv s y)).
  { intros p y Np Hy. apply (sinv_set _ _ s i p); auto; rewrite Ep; discriminate. }
  destruct w as [d|].
  - destruct Hw as ((P' & I') & -> & Dd & Nd). constructor; auto.
    + intros x. cbn [answer_op set_op set_srv srv op log]. destruct (x =? home i) eqn:X; [|apply Oth; [discriminate|lia]]. apply N.eqb_eq in X as ->.
      constructor; cbn [with_busy with_mem view queue watch handler busy mem]; auto; try congruence.
      * exists false, None. split; auto. split; [discriminate|]. split; auto. intros y Hy. destruct (y =? i) eqn:Y; [discriminate|]. rewrite (Un y) by lia. discriminate.
      * split; auto. discriminate.
      * intros _. exists i, e, r, d. split; auto. now rewrite N.eqb_refl.
    + intros x. cbn [set_op set_srv srv op log lk]. destruct (x =? i) eqn:X; [|rewrite (Un x) by lia; exact Logic.I].
      apply N.eqb_eq in X as ->. rewrite N.eqb_refl. cbn [pinv with_busy with_mem view watch busy mem]. split; auto. split; auto. split; auto. split; auto.
      exists t'. split; [eauto|]. split; [exact NA|]. split; auto. split; auto. split; auto. 
      assert (ok = true) as ->; [|exact Ht]. destruct ok; auto. exfalso. destruct (handle_unloaded (mkIo true false SaveOk) _ e r t' eq_refl eq_refl O Ht) as (_ & ->). congruence.
  - destruct Hw as (-> & Tm). destruct Tm as (Mm & Fm). constructor; auto.
    + cbn [answer_op ops log set_op set_srv]. rewrite map_app. cbn [map]. unfold request at 2. cbn [a_event a_loaded a_ret].
      eapply one_same; [exact E|exact NA|exact Ht|reflexivity].
    + intros x. cbn [answer_op set_op set_srv srv op log]. destruct (x =? home i) eqn:X; [|apply Oth; [discriminate|lia]]. apply N.eqb_eq in X as ->.
      constructor; cbn [with_busy with_mem view queue watch handler busy mem]; auto; try congruence.
      * exists false, None. split; auto. split; [discriminate|]. split; auto. intros y Hy. destruct (y =? i) eqn:Y; [discriminate|]. rewrite (Un y) by lia. discriminate.
      * intros _. split; auto. intros _. now rewrite Hv.
      * intros N0 _. apply Fm. rewrite D by lia. now rewrite N0.
    + intros x. cbn [answer_op set_op set_srv srv op log lk]. destruct (x =? i) eqn:X; [|rewrite (Un x) by lia; exact Logic.I].
      apply N.eqb_eq in X as ->. exact Hh.
Qed.
Lemma stored_app l w k : (k <= List.length l)%nat -> stored (l ++ [w]) k = stored l k.
Proof. destruct k; auto. intros Hk. cbn [stored]. apply nth_error_app1. lia. Qed.
Lemma store_J s hs i e r w : J s hs -> op s i = OStore e r w -> exists hs',
  J (answer_op (set_op (set_srv (set_log s (log s ++ [w])) (home i) (with_busy (sees (srv s (home i)) (List.length (log s ++ [w]))) false)) i OEnd) (mkAnswered i e true r)) hs'.
Proof.
  intros V Ep. pose proof V as [A B C D E F G H]. pose proof (not_idle_other s hs i V ltac:(rewrite Ep; discriminate)) as Un.
  pose proof (H i) as Hi. rewrite Ep in Hi. cbn [pinv] in Hi. destruct Hi as (Hh & Hv & W & Hb & t' & (P' & I') & NA & Hm & Dd & Nd & Ht).
  set (n := List.length (log s)) in *. exists (fun k => if (k =? S n)%nat then t' else hs k).
  assert (Ln : List.length (log s ++ [w]) = S n) by (rewrite app_length; cbn [List.length]; fold n; lia).
  destruct (G (home i)) as [S1 (c & f & Q1 & Q2 & Q3 & Q4) S3 S4 S5 S6]. destruct (S3 W) as (Hn & _).
  assert (c = false) as -> by (destruct c; auto; destruct (Q2 eq_refl); congruence).
  assert (f = None) as ->. { destruct f as [x|]; auto. destruct Q4 as (_ & Q4). destruct (N.eq_dec x i) as [->|Nx]; [congruence|]. rewrite (Un x Nx) in Q4. discriminate. }
  constructor; cbn [answer_op set_op set_srv set_log lk log late]; auto.
  - intros k Hk. rewrite Ln in Hk. destruct (k =? S n)%nat eqn:K; [eauto|]. apply C. lia.
  - intros k Hk. rewrite Ln in Hk. destruct (k =? S n)%nat eqn:K.
    + apply Nat.eqb_eq in K as ->. rewrite Dd. cbn [stored]. rewrite nth_error_app2 by (unfold n; lia). unfold n. now rewrite Nat.sub_diag.
    + rewrite stored_app by (fold n; lia). apply D. lia.
  - rewrite Ln, Nat.eqb_refl. cbn [answer_op set_op set_srv set_log ops]. rewrite map_app. cbn [map]. unfold request at 2. cbn [a_event a_loaded a_ret]. eapply one_store; eauto.
  - intros x. cbn [answer_op set_op set_srv set_log srv op]. rewrite Ln. destruct (x =? home i) eqn:X.
    + apply N.eqb_eq in X as ->. unfold sees. replace (view (srv s (home i)) <? S n)%nat with true by lia. rewrite W.
      constructor; cbn [with_busy view queue watch handler busy mem]; auto; try congruence; try discriminate.
      exists true, None. split; [now rewrite Q1|]. split; [intros _; split; auto; split; auto; lia|]. split; [discriminate|]. intros y Hy. destruct (y =? i) eqn:Y; [discriminate|]. rewrite (Un y) by lia. discriminate.
    + destruct (G x) as [R1 (c & f & P1 & P2 & P3 & P4) R3 R4 R5 R6].
      assert (Nb : busy (srv s x) = false).
      { destruct (busy (srv s x)) eqn:Hbx; auto. destruct (R5 eq_refl) as (y & e' & r' & w' & X1 & X2). destruct (N.eq_dec y i) as [->|Ny]; [lia|]. rewrite (Un y Ny) in X2. discriminate. }
      constructor; auto; try congruence; try discriminate.
      * exists c, f. split; auto. split; auto. split; auto. destruct f as [y|].
        -- destruct P4 as (P4 & P5). destruct (N.eq_dec y i) as [->|Ny]; [congruence|]. rewrite (Un y Ny) in P5. discriminate.
        -- intros y Hy. destruct (y =? i) eqn:Y; [discriminate|]. rewrite (Un y) by lia. discriminate.
      * intros Wx. destruct (R3 Wx) as (R3a & R3b). split; auto. replace (view (srv s x) =? S n)%nat with false by lia. auto.
      * intros k Hk. destruct (R4 k Hk) as (? & ? & ?). split; auto. split; auto. replace (k =? S n)%nat with false by lia. auto.
  - intros x. cbn [answer_op set_op set_srv set_log srv op]. destruct (x =? i) eqn:X; [|rewrite (Un x) by lia; exact Logic.I]. apply N.eqb_eq in X as ->. exact Hh.
Qed.

Lemma current_map s hs : J s hs -> i_map (hs (List.length (log s))) = current s.
Proof.
  intros V. unfold current. rewrite <- (j_disk _ _ V _ (le_n _)). destruct (j_inv _ _ V _ (le_n _)) as (P & [_ _ _ [D|(D & E)]]); rewrite D; [reflexivity|]. now rewrite E.
Qed.
Lemma inext s e s' : istep s e = Ok s' -> z_next (lk s) <= z_next (lk s').
Proof.
  assert (St : forall e l, step uuid (lk s) e = Ok l -> z_next (lk s) <= z_next l) by (intros; eapply next_mono; eauto).
  destruct e as [e|i|i ok|j|j ok|j ok|j|i e ok|i o|n]; cbn [IndexesModel.istep]; intros H.
  - destruct e; try (destruct (step uuid (lk s) _) as [| |l] eqn:L; try discriminate; cbn [bind] in H; injection H as <-; cbn [set_lk lk]; eauto; fail).
    destruct (op s i); try discriminate; (destruct (step uuid (lk s) _) as [| |l] eqn:L; try discriminate; cbn [bind] in H; injection H as <-; cbn [set_lk set_op lk]; eauto).
  - destruct (op s i); try discriminate. destruct (is_held s i); try discriminate. injection H as <-. cbn. lia.
  - destruct (op s i); try discriminate. destruct (_ || _); try discriminate. injection H as <-. cbn. lia.
  - destruct (_ <? _)%nat; try discriminate. injection H as <-. cbn. lia.
  - destruct (queue (srv s j)) as [|[|] q]; try discriminate. destruct (handler (srv s j)); try discriminate. destruct (busy (srv s j)); try discriminate. injection H as <-. cbn. lia.
  - destruct (handler (srv s j)); try discriminate. injection H as <-. cbn. lia.
  - destruct (queue (srv s j)) as [|[|] q]; try discriminate. destruct (handler (srv s j)); try discriminate. injection H as <-. cbn. lia.
  - destruct (op s i); try discriminate. destruct (_ || _); try discriminate. destruct (body _ _ _ _) as [| |[[r m] [w|]]]; try discriminate; cbn [bind] in H; injection H as <-; cbn; lia.
  - destruct (op s i); try discriminate. destruct o; injection H as <-; cbn; lia.
  - destruct (nth_error (late s) n); try discriminate. injection H as <-. cbn. lia.
Qed.
Lemma istep_J s hs e s' : J s hs -> fine s e -> istep s e = Ok s' -> z_next (lk s') <= 2 ^ 31 -> exists hs', J s' hs'.
Proof.
  intros V Fi H Hn. pose proof (j_lock _ _ V) as Lk.
  destruct e as [e|i|i ok|j|j ok|j ok|j|i e ok|i o|n]; cbn [IndexesModel.istep] in H.
  - assert (W : watches e) by (destruct e; cbn in Fi |- *; auto; try exact Logic.I).
    assert (X : match e with Expire i => ~ first (lk s) i | _ => True end) by (destruct e; auto).
    assert (R : (exists i, e = Release i) \/ forall i, e <> Release i) by (destruct e; eauto; right; discriminate).
    destruct R as [(i & ->)|R].
    + assert (Ho : (op s i = OEnd \/ op s i = OIdle) /\ (let* l := step uuid (lk s) (Release i) in Ok (set_op (set_lk s l) i OIdle)) = Ok s').
      { destruct (op s i); try discriminate; auto. }
      destruct Ho as (Ho & H'). destruct (step uuid (lk s) (Release i)) as [| |l] eqn:L; try discriminate. cbn [bind] in H'. injection H' as <-.
      assert (L2 : linv2 l) by (eapply linv2_step; eauto).
      pose proof (idle_J s hs i OIdle V Ho (or_introl eq_refl)) as V1. exists hs. 
      change (set_op (set_lk s l) i OIdle) with (set_lk (set_op s i OIdle) l). eapply lock_J; [exact V1|exact L2|exact L|]. intros i' Ei. injection Ei as <-. rewrite op_set. now rewrite N.eqb_refl.
    + assert (H' : (let* l := step uuid (lk s) e in Ok (set_lk s l)) = Ok s') by (destruct e; auto; destruct (R i eq_refl)).
      destruct (step uuid (lk s) e) as [| |l] eqn:L; try discriminate. cbn [bind] in H'. injection H' as <-. exists hs. eapply lock_J; eauto.
      * eapply linv2_step; eauto.
      * intros i ->. destruct (R i eq_refl).
  - destruct (op s i) eqn:Ep; try discriminate. destruct (is_held s i) eqn:Hd; try discriminate. injection H as <-. exists hs. apply idle_J; auto. right. split; auto.
    unfold is_held in Hd. unfold holds. destruct (l_main (locks (lk s) i)); try discriminate; auto.
  - cbn [fine] in Fi. subst ok. destruct (op s i) eqn:Ep; try discriminate. cbn [negb orb] in H. destruct (n <=? view (srv s (home i)))%nat eqn:Hv; try discriminate. injection H as <-.
    pose proof (j_op _ _ V i) as Hi. rewrite Ep in Hi. cbn [pinv] in Hi. destruct Hi as (_ & ->). exists hs. apply answer_J; auto. lia.
  - destruct (view (srv s j) <? List.length (log s))%nat eqn:Hv; try discriminate. injection H as <-. exists hs. apply see_J; auto. lia.
  - cbn [fine] in Fi. subst ok. destruct (queue (srv s j)) as [|[|] q] eqn:Hq; try discriminate. destruct (handler (srv s j)) eqn:Hh; try discriminate. destruct (busy (srv s j)) eqn:Hb; try discriminate. injection H as <-.
    exists hs. now apply notice_J.
  - cbn [fine] in Fi. destruct Fi as (-> & Fi). rewrite Fi in H. injection H as <-. exists hs. now apply rearm_J.
  - destruct (queue (srv s j)) as [|[|i] q] eqn:Hq; try discriminate. destruct (handler (srv s j)) eqn:Hh; try discriminate. injection H as <-. exists hs. now apply flushed_J.
  - destruct (op s i) eqn:Ep; try discriminate. destruct (busy (srv s (home i)) || negb (is_operation e)) eqn:Hb; try discriminate. apply orb_false_iff in Hb as (Hb & Ho). apply negb_false_iff in Ho.
    destruct (body ok (mem (srv s (home i))) (stored (log s) (view (srv s (home i)))) e) as [| |[[r m] w]] eqn:Hbd; try discriminate. cbn [bind] in H.
    assert (NA : ~ abandons (hs (List.length (log s))) e).
    { intros Ab. apply Fi. unfold abandons in *. cbn [with_map i_map]. rewrite (current_map s hs V) in Ab. exact Ab. }
    pose proof (load_J s hs i e ok r m w V Ep Ho NA Hbd) as V'. exists hs. destruct w; injection H as <-; exact V'.
  - cbn [fine] in Fi. subst o. destruct (op s i) eqn:Ep; try discriminate. injection H as <-. eapply store_J; eauto.
  - rewrite (j_late _ _ V) in H. destruct n; discriminate.
Qed.
Lemma J0 : exists hs, J ist0 hs.
Proof.
  exists (fun _ => fresh_index None). constructor; cbn [ist0 lk log srv op late ops List.length]; auto.
  - now apply linv2_st0.
  - intros. exists 0%Z. apply inv_fresh.
  - intros k Hk. destruct k; [reflexivity|lia].
  - constructor.
  - intros j. constructor; cbn [view queue watch handler busy mem]; auto; try discriminate.
    + exists false, None. split; auto. split; [discriminate|]. split; auto.
    + intros _. split; auto. intros _. now split.
  - intros i. exact Logic.I.
Qed.
Lemma irun_next s es s' : irun s es = Ok s' -> z_next (lk s) <= z_next (lk s').
Proof.
  revert s. induction es as [|e es IH]; intros s H; cbn [IndexesModel.irun] in H; [injection H as <-; lia|].
  destruct (istep s e) as [| |s1] eqn:E; try discriminate. cbn [bind] in H. apply inext in E. apply IH in H. lia.
Qed.
Lemma irun_J s hs es s' : J s hs -> orderly uuid home s es -> irun s es = Ok s' -> z_next (lk s') <= 2 ^ 31 -> exists hs', J s' hs'.
Proof.
  revert s hs. induction es as [|e es IH]; intros s hs V O H Hn; cbn [IndexesModel.irun orderly] in *; [injection H as <-; eauto|].
  destruct (istep s e) as [| |s1] eqn:E; try discriminate. cbn [bind] in H. destruct O as (Fi & O). pose proof (irun_next _ _ _ H).
  destruct (istep_J s hs e s1 V Fi E ltac:(lia)) as (hs1 & V1). exact (IH s1 hs1 V1 (O s1 eq_refl) H Hn).
Qed.
End Proofs.
