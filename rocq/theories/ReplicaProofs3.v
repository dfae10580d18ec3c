From Coq Require Import String.
From stdpp Require Import gmap.
From Coq Require Import ZifyBool ZifyNat ZifyN.
From Verif Require Import Base BaseLemmas StorageModel StorageSpec StorageProofs StorageProofs2 StorageProofs3 StorageProofs4
  TextModel TextSpec TextProofs3 SessionModel SessionProofs ServerModel ServerProofs ServerProofs2 ReplicaModel ReplicaSpec
  ReplicaProofs ReplicaProofs2.
Local Open Scope N_scope.
Local Open Scope list_scope.

(** [i] is the position in the history of the master at which the view was the first one of the chain. *)
Inductive chain (T : Z) (P : nat -> option rec -> Prop) : nat -> option rec -> list (bytes * entry) -> option rec -> Prop :=
| chain_nil i v : P i v -> chain T P i v [] v
| chain_cons i v f j v1 q v' : P i v -> (i <= j)%nat -> link T v f v1 -> chain T P j v1 q v' -> chain T P i v (f :: q) v'.
Lemma chain_mono T T' (P P' : nat -> option rec -> Prop) i v q v' : (T <= T')%Z -> (forall i v, P i v -> P' i v) -> chain T P i v q v' -> chain T' P' i v q v'.
Proof. intros HT HP. induction 1; econstructor; eauto using link_mono. Qed.
Lemma chain_snoc T (P : nat -> option rec -> Prop) i v q v' f j v2 : chain T P i v q v' -> (forall i v, P i v -> (i <= j)%nat) -> link T v' f v2 -> P j v2 -> chain T P i v (q ++ [f]) v2.
Proof.
  induction 1 as [i v H|i v g k v1 q v' H Hik L C IH]; intros HB HL HP; cbn.
  - econstructor; [exact H|exact (HB _ _ H)|exact HL|now constructor].
  - econstructor; eauto.
Qed.
Lemma chain_first T P i v q v' : chain T P i v q v' -> P i v.
Proof. destruct 1; auto. Qed.

Definition on_key (k : bytes) (q : list (bytes * entry)) : list (bytes * entry) := List.filter (fun f => beq (e_key (snd f)) k) q.
Lemma on_key_app k q1 q2 : on_key k (q1 ++ q2) = on_key k q1 ++ on_key k q2.
Proof. apply List.filter_app. Qed.
Lemma on_key_same k f : e_key (snd f) = k -> on_key k [f] = [f].
Proof. intros <-. cbn. now rewrite beq_refl. Qed.
Lemma on_key_other k f : e_key (snd f) <> k -> on_key k [f] = [].
Proof. intros H. cbn. destruct (beq (e_key (snd f)) k) eqn:E; auto. apply beq_eq in E. contradiction. Qed.
Lemma on_key_remove_other k q i f : nth_error q i = Some f -> e_key (snd f) <> k -> on_key k (remove_nth i q) = on_key k q.
Proof.
  revert i. induction q as [|g q IH]; intros [|i] H Hk; cbn in H; try discriminate.
  - injection H as ->. cbn [remove_nth]. change (f :: q) with ([f] ++ q). rewrite on_key_app, on_key_other; auto.
  - cbn [remove_nth]. change (g :: remove_nth i q) with ([g] ++ remove_nth i q). change (g :: q) with ([g] ++ q).
    rewrite !on_key_app. f_equal. now apply IH.
Qed.
Lemma on_key_first q i f : nth_error q i = Some f -> in_order q i ->
  on_key (e_key (snd f)) q = f :: on_key (e_key (snd f)) (remove_nth i q).
Proof.
  revert i. induction q as [|g q IH]; intros [|i] H Ho; cbn in H; try discriminate.
  - injection H as ->. cbn [remove_nth]. change (f :: q) with ([f] ++ q). now rewrite on_key_app, on_key_same.
  - assert (Hg : e_key (snd g) <> e_key (snd f)) by (apply (Ho 0%nat g f); [lia|reflexivity|exact H]).
    cbn [remove_nth]. change (g :: remove_nth i q) with ([g] ++ remove_nth i q). change (g :: q) with ([g] ++ q).
    rewrite !on_key_app, (on_key_other _ g) by auto. cbn [app]. apply IH; auto.
    intros j a b Hj Ha Hb. apply (Ho (S j) a b); [lia|exact Ha|exact Hb].
Qed.

(** * The invariant *)
Definition shown (past : nat -> store -> Prop) (T : Z) (k : bytes) (i : nat) (v : option rec) : Prop := exists s, past i s /\ sees T s k v.
Definition inv_key (past : nat -> store -> Prop) (T : Z) (m r : store) (q : list (bytes * entry)) (k : bytes) (p : nat) : Prop :=
  exists i v0 vn, chain T (shown past T k) i v0 q vn
    /\ sees T m k vn /\ (forall x, vn = Some x -> absolute_expire (r_expire x))
    /\ ((p = i /\ sees T r k v0) \/ exists f q' v1, q = f :: q' /\ (i <= p)%nat /\ link T v0 f v1 /\ chain T (shown past T k) p v1 q' vn /\ sees T r k v1).
Record inv0 (past : nat -> store -> Prop) (T : Z) (st : pair) : Prop := {
  i_time : sane_clock T;
  i_master : wf_store (master st);
  i_replica : wf_store (replica st);
}.
Definition keys_at (past : nat -> store -> Prop) (T : Z) (st : pair) (k : bytes) (p : nat) : Prop :=
  inv_key past T (master st) (replica st) (on_key k (pending st)) k p.
Definition inv (past : nat -> store -> Prop) (T : Z) (st : pair) : Prop := inv0 past T st /\ forall k, exists p, keys_at past T st k p.
(** The invariant goes on, and no key goes back in the history. *)
Definition goes_on (past past' : nat -> store -> Prop) (T T' : Z) (st st' : pair) : Prop :=
  inv0 past' T' st' /\ forall k p, keys_at past T st k p -> exists p', (p <= p')%nat /\ keys_at past' T' st' k p'.

Lemma shown_mono (past past' : nat -> store -> Prop) T T' k i v : (forall i s, past i s -> past' i s) -> (T <= T')%Z -> shown past T k i v -> shown past' T' k i v.
Proof. intros Hp HT (s & H1 & H2). exists s. split; auto. eapply sees_mono; eauto. Qed.
Lemma inv_key_mono (past past' : nat -> store -> Prop) T T' m r q k p : (forall i s, past i s -> past' i s) -> (T <= T')%Z ->
  inv_key past T m r q k p -> inv_key past' T' m r q k p.
Proof.
  intros Hp HT (i & v0 & vn & H1 & H2 & H3 & H4).
  assert (C : forall i v q v', chain T (shown past T k) i v q v' -> chain T' (shown past' T' k) i v q v').
  { intros ? ? ? ?. apply chain_mono; auto. intros j u Hu. eapply shown_mono; eauto. }
  exists i, v0, vn. split; [auto|]. split; [eapply sees_mono; eauto|]. split; [auto|].
  destruct H4 as [[Hpi H4]|(f & q' & v1 & H5 & H5' & H6 & H7 & H8)]; [left; split; [auto|eapply sees_mono; eauto]|right].
  exists f, q', v1. split; [auto|]. split; [auto|]. split; [eapply link_mono; eauto|]. split; [auto|eapply sees_mono; eauto].
Qed.
(** The stores may be replaced by ones that look the same under [k] from [T] on. *)
Definition same_from (T : Z) (k : bytes) (s s' : store) : Prop := forall v, sees T s k v -> sees T s' k v.
Lemma inv_key_same past T m m' r r' q k p : same_from T k m m' -> same_from T k r r' ->
  inv_key past T m r q k p -> inv_key past T m' r' q k p.
Proof.
  intros Hm Hr (i & v0 & vn & H1 & H2 & H3 & H4). exists i, v0, vn. split; [auto|]. split; [auto|]. split; [auto|].
  destruct H4 as [[-> H4]|(f & q' & v1 & H5 & H5' & H6 & H7 & H8)]; [auto|right]. exists f, q', v1. auto 10.
Qed.
Lemma same_unchanged T k s s' : unchanged_from T s s' -> same_from T k s s'.
Proof. intros H v Hv. eapply sees_unchanged; eauto. lia. Qed.
Lemma same_touches T k k' s s' : touches_only k' s s' -> k <> k' -> same_from T k s s'.
Proof. intros (_ & _ & H) Hk v. apply sees_frame. now apply H. Qed.
Lemma same_refl T k s : same_from T k s s. Proof. intros v; auto. Qed.

Lemma inv_client trail (past past' : nat -> store -> Prop) n T st now stream st2 out :
  inv past T st -> (forall i s, past i s -> past' i s) -> past' n (master st2) -> (forall i s, past' i s -> (i <= n)%nat) ->
  (T <= now)%Z -> sane_clock now -> admissible st (Client now stream) -> step trail st (Client now stream) = Ok (st2, out) -> goes_on past past' T now st st2.
Proof.
  intros [I _] Hp Hm Hbound HT Hn [Hb Hflush]. cbn [step]. unfold run_line.
  destruct (serve_next now stream) as [| |[v rest]] eqn:S; cbn [bind]; try discriminate.
  assert (IK : forall k p, keys_at past T st k p -> inv_key past' now (master st) (replica st) (on_key k (pending st)) k p).
  { intros k p. apply inv_key_mono; auto. }
  destruct v as [c r|]; cbn [bind].
  2:{ intros [= <- <-]. split; [split; try apply I; auto|]. intros k p K. exists p. split; [lia|].
      unfold keys_at. cbn [pending p_forward p_store master replica] in *. rewrite app_nil_r. now apply IK. }
  assert (Hnf : forall nr, r <> RFlush nr) by (intros nr ->; eapply Hflush; reflexivity). clear Hflush.
  apply next_accepted in S. apply serve_request_ok in S as [Hok _]; auto.
  destruct (run_request now (master st) r) as [| |pr] eqn:R; cbn [bind]; try discriminate. intros [= <- <-].
  cbn [master] in Hm.
  assert (Hw : is_write r \/ (exists ident keys, r = RGet ident keys) \/ p_store pr = master st /\ p_forward pr = None).
  { destruct r; cbn [is_write]; eauto; try (cbn [run_request] in R; injection R as <-; now auto); [|discriminate R]. exfalso; now apply (Hnf noreply). }
  destruct Hw as [Hw|[(ident & keys & ->)|(Q1 & Q2)]].
  3:{ rewrite Q1, Q2. split; [split; try apply I; auto|]. intros k p K. exists p. split; [lia|].
      unfold keys_at. cbn [pending p_forward p_store master replica] in *. rewrite app_nil_r. now apply IK. }
  - destruct (write_effect now (master st) r pr (i_master _ _ _ I) Hok Hw Hn R) as (HO & HF).
    split; [split; cbn [master replica pending]; auto; try apply I; apply HO|].
    intros k p K. exists p. split; [lia|]. apply IK in K. unfold keys_at. cbn [master replica pending]. destruct (p_forward pr) as [f|] eqn:F.
    + destruct HF as (Hk & HE). rewrite on_key_app. destruct (List.list_eq_dec N.eq_dec (request_key r) k) as [E|E].
      * rewrite on_key_same by congruence. destruct K as (i & v0 & vn & H1 & H2 & H3 & H4).
        destruct (effect_link now (master st) (p_store pr) f now vn) as (v' & L1 & L2 & L3);
          [apply I|apply HO| |lia|rewrite Hk, E; exact H2|exact H3|exact HE|].
        { rewrite Hk. destruct r; cbn in Hok, Hw |- *; try contradiction; apply Hok. }
        rewrite Hk, E in L2. assert (P : shown past' now k n v') by (exists (p_store pr); auto).
        assert (B : forall i v, shown past' now k i v -> (i <= n)%nat) by (intros i' v (x & Hx & _); eauto).
        exists i, v0, v'. split; [eapply chain_snoc; eauto|]. split; [exact L2|]. split; [exact L3|].
        destruct H4 as [H4|(g & q' & v1 & H5 & H5' & H6 & H7 & H8)]; [auto|right].
        exists g, (q' ++ [f]), v1. rewrite H5. split; [reflexivity|]. split; [auto|]. split; [auto|]. split; [|auto]. eapply chain_snoc; eauto.
      * rewrite on_key_other by congruence. rewrite app_nil_r.
        eapply inv_key_same; [eapply same_touches; [exact HO|congruence]|apply same_refl|exact K].
    + rewrite app_nil_r. eapply inv_key_same; [apply same_unchanged; exact HF|apply same_refl|exact K].
  - cbn [run_request] in R.
    destruct (run_get_unchanged now (if beq ident (s2b "gets"%string) then response_gets else response_get) keys (master st) (i_master _ _ _ I) (sane_i64 _ Hn)) as [G1 G2].
    destruct (run_get now (master st) _ keys) as [s' o']. injection R as <-. cbn [fst p_store p_forward] in *.
    split; [split; cbn [master replica pending]; auto; try apply I|].
    intros k p K. exists p. split; [lia|]. apply IK in K. unfold keys_at. cbn [master replica pending].
    rewrite app_nil_r. eapply inv_key_same; [apply same_unchanged; exact G2|apply same_refl|exact K].
Qed.

Lemma inv_read trail (past past' : nat -> store -> Prop) T st now t keys st2 out :
  inv past T st -> (forall i s, past i s -> past' i s) ->
  (T <= now)%Z -> sane_clock now -> step trail st (Read now t keys) = Ok (st2, out) -> goes_on past past' T now st st2.
Proof.
  intros [I _] Hp HT Hn. cbn [step].
  destruct (run_get_unchanged now t keys (replica st) (i_replica _ _ _ I) (sane_i64 _ Hn)) as [G1 G2].
  destruct (run_get now (replica st) t keys) as [s' o']. intros [= <- <-]. cbn [fst] in *.
  split; [split; cbn [master replica pending]; auto; try apply I|].
  intros k p K. exists p. split; [lia|]. unfold keys_at. cbn [master replica pending].
  eapply inv_key_same; [apply same_refl|apply same_unchanged; exact G2|].
  eapply inv_key_mono; [exact Hp|exact HT|exact K].
Qed.

Lemma kind_touch ident : kind_of ident = KTouch -> ident = s2b "touch"%string \/ ident = s2b "gat"%string.
Proof.
  unfold kind_of. destruct (beq ident (s2b "delete"%string)); [discriminate|].
  destruct (mem ident _) eqn:E; [|discriminate]. intros _. apply mem_inv in E. destruct E as [E|[E|[]]]; auto.
Qed.
Lemma kind_store ident : kind_of ident = KStore -> ident <> s2b "touch"%string /\ ident <> s2b "gat"%string /\ ident <> s2b "delete"%string.
Proof. intros H. split; [|split]; intros ->; discriminate H. Qed.

(** The state of the replica after a forwarded operation has been run there. *)
Lemma inv_apply past T st now i f p : inv0 past T st -> keys_at past T st (e_key (snd f)) p -> (T <= now)%Z -> sane_clock now ->
  admissible st (Attempt now i) -> nth_error (pending st) i = Some f ->
  exists pr, run_request now (replica st) (received f) = Ok pr /\ touches_only (e_key (snd f)) (replica st) (p_store pr)
  /\ exists a v0 b v1 vn, (p <= b)%nat /\ (a <= b)%nat /\ chain now (shown past now (e_key (snd f))) b v1 (on_key (e_key (snd f)) (remove_nth i (pending st))) vn
     /\ shown past now (e_key (snd f)) a v0 /\ link now v0 f v1 /\ sees now (master st) (e_key (snd f)) vn
     /\ (forall x, vn = Some x -> absolute_expire (r_expire x)) /\ sees now (p_store pr) (e_key (snd f)) v1
     /\ exists trailless, forall trail, Forall legal_node_name trail -> serve_request now (forward_request trail f) = Ok (trailless trail, received f, []).
Proof.
  intros I K HT Hn (Hord & Hadm) Hnth. set (k := e_key (snd f)) in *.
  assert (IK : inv_key past now (master st) (replica st) (on_key k (pending st)) k p).
  { eapply inv_key_mono; [|exact HT|exact K]. auto. }
  destruct IK as (a & v0 & vn & H1 & H2 & H3 & H4). pose proof (on_key_first _ _ _ Hnth Hord) as EQ. fold k in EQ. rewrite EQ in *.
  assert (exists b v1, link now v0 f v1 /\ chain now (shown past now k) b v1 (on_key k (remove_nth i (pending st))) vn
    /\ (p <= b)%nat /\ (a <= b)%nat /\ (sees now (replica st) k v0 \/ sees now (replica st) k v1)) as (b & v1 & L & C & B1 & B2 & S).
  { destruct H4 as [[-> H4]|(g & q' & v1 & H5 & H5' & H6 & H7 & H8)].
    - inversion H1 as [|? ? ? b v1 ? ? ? Hab L C]; subst. exists b, v1. auto 10.
    - injection H5 as <- <-. exists p, v1. auto 10. }
  destruct (apply_forward now (replica st) now v0 f v1) as (pr & P1 & P2 & P3); auto; try lia; try apply I.
  { intros KT. destruct f as [ident e]. destruct (Hadm _ _ Hnth) as [A _]. apply A. now apply kind_touch. }
  { intros KT. destruct f as [ident e]. destruct (Hadm _ _ Hnth) as [_ A]. apply kind_store in KT. now apply A. }
  exists pr. split; [auto|]. split; [auto|]. exists a, v0, b, v1, vn. split; [auto|]. split; [auto|]. split; [auto|]. split; [exact (chain_first _ _ _ _ _ _ H1)|].
  split; [auto|]. split; [auto|]. split; [auto|]. split; [auto|].
  exists (fun trail => match serve_request now (forward_request trail f) with Ok (c, _, _) => c | _ => mkCommand false [] [] end).
  intros trail Ht. destruct (forward_received now trail now v0 f v1 Ht L) as [c ->]. reflexivity.
Qed.

Lemma inv_deliver trail (past past' : nat -> store -> Prop) T st now i (d : bool) st2 out : Forall legal_node_name trail ->
  inv past T st -> (forall i s, past i s -> past' i s) ->
  (T <= now)%Z -> sane_clock now -> admissible st (Attempt now i) ->
  step trail st (if d then Deliver now i else Attempt now i) = Ok (st2, out) -> goes_on past past' T now st st2.
Proof.
  intros Ht [I IK] Hp HT Hn Hadm Hstep.
  destruct (nth_error (pending st) i) as [f|] eqn:Hnth.
  2:{ destruct d; cbn [step] in Hstep; rewrite Hnth in Hstep; discriminate. }
  assert (E : forall pr c, run_request now (replica st) (received f) = Ok pr -> serve_request now (forward_request trail f) = Ok (c, received f, []) ->
    st2 = mkPair (master st) (p_store pr) (if d then remove_nth i (pending st) else pending st)).
  { intros pr c P1 P2. destruct d; cbn [step] in Hstep; rewrite Hnth, (run_line_request _ _ _ _ _ _ P2), P1 in Hstep; cbn [bind] in Hstep;
      now injection Hstep as <- <-. }
  destruct (IK (e_key (snd f))) as [p0 K0].
  destruct (inv_apply _ _ _ _ _ _ _ I K0 HT Hn Hadm Hnth) as (pr & P1 & P2 & _ & _ & _ & _ & _ & _ & _ & _ & _ & _ & _ & _ & _ & cmd & Hser).
  rewrite (E pr _ P1 (Hser trail Ht)) in *. clear E.
  split; [split; cbn [master replica pending]; auto; try apply I; apply P2|].
  intros k p K. unfold keys_at. cbn [master replica pending]. destruct (List.list_eq_dec N.eq_dec (e_key (snd f)) k) as [<-|Hne].
  - destruct (inv_apply _ _ _ _ _ _ _ I K HT Hn Hadm Hnth) as (pr' & P1' & _ & a & v0 & b & v1 & vn & B1 & B2 & C & Sh & L & Sm & Ab & Sr & _).
    assert (pr' = pr) by congruence. subst pr'.
    assert (Hs : forall i v, shown past now (e_key (snd f)) i v -> shown past' now (e_key (snd f)) i v) by (intros j v; exact (shown_mono _ _ _ _ _ _ _ Hp (Z.le_refl now))).
    assert (C' : chain now (shown past' now (e_key (snd f))) b v1 (on_key (e_key (snd f)) (remove_nth i (pending st))) vn) by (exact (chain_mono now now _ _ _ _ _ _ (Z.le_refl now) Hs C)).
    exists b. split; [auto|]. destruct d.
    + exists b, v1, vn. split; [exact C'|]. split; [auto|]. split; auto.
    + rewrite (on_key_first _ _ _ Hnth (proj1 Hadm)). exists a, v0, vn.
      split; [econstructor; eauto|]. split; [auto|]. split; [auto|]. right. exists f, (on_key (e_key (snd f)) (remove_nth i (pending st))), v1. auto 10.
  - exists p. split; [lia|]. replace (on_key k (if d then remove_nth i (pending st) else pending st)) with (on_key k (pending st)).
    2:{ destruct d; auto. symmetry. eapply on_key_remove_other; eauto. }
    eapply inv_key_same; [apply same_refl|eapply same_touches; [exact P2|congruence]|].
    eapply inv_key_mono; [exact Hp|exact HT|exact K].
Qed.

(** * Executions *)
Section Exec.
Context (trail : list bytes) (Ht : Forall legal_node_name trail) (T0 : Z) (st0 : pair) (Hsync : synchronized T0 st0).
(** The store of the master after the first [i] events. *)
Definition past_of (l : list event) (i : nat) (s : store) : Prop :=
  (i <= length l)%nat /\ exists T1 st1, execution trail T0 st0 (firstn i l) T1 st1 /\ s = master st1.

Lemma execution_last l ev T st : execution trail T0 st0 (l ++ [ev]) T st ->
  exists T1 st1 out, execution trail T0 st0 l T1 st1 /\ (T1 <= event_time ev)%Z /\ (event_time ev < 2 ^ 62)%Z /\ admissible st1 ev
    /\ step trail st1 ev = Ok (st, out) /\ T = event_time ev.
Proof.
  intros H. remember (l ++ [ev]) as l0 eqn:E. destruct H as [|T1' st1' l' T1 st1 ev' st2 out H1 H2 H3 H4 H5].
  - now apply app_cons_not_nil in E.
  - apply app_inj_tail in E as [-> ->]. exists T1, st1, out. auto 10.
Qed.
Lemma execution_det l : forall T st T' st', execution trail T0 st0 l T st -> execution trail T0 st0 l T' st' -> T = T' /\ st = st'.
Proof.
  induction l as [|ev l IH] using rev_ind; intros T st T' st' H H'.
  - assert (N : forall T st, execution trail T0 st0 [] T st -> T = T0 /\ st = st0).
    { intros T1 st1 X. remember [] as l0 eqn:E. destruct X as [|? ? l']; auto. symmetry in E. now apply app_cons_not_nil in E. }
    apply N in H as [-> ->]. apply N in H' as [-> ->]. auto.
  - apply execution_last in H as (T1 & s1 & o1 & A1 & A2 & A3 & A4 & A5 & ->).
    apply execution_last in H' as (T2 & s2 & o2 & B1 & B2 & B3 & B4 & B5 & ->).
    destruct (IH _ _ _ _ A1 B1) as [-> ->]. split; [auto|]. rewrite A5 in B5. congruence.
Qed.

Lemma goes_on_inv past past' T T' st st' : inv past T st -> goes_on past past' T T' st st' -> inv past' T' st'.
Proof. intros [_ K] [H1 H2]. split; auto. intros k. destruct (K k) as [p Kp]. destruct (H2 k p Kp) as (p' & _ & Kp'). eauto. Qed.

Lemma past_snoc l ev i s : past_of l i s -> past_of (l ++ [ev]) i s.
Proof.
  intros (Hi & T1 & st1 & A & B). split; [rewrite app_length; lia|]. exists T1, st1. split; [|exact B].
  rewrite firstn_app. replace (i - length l)%nat with 0%nat by lia. cbn [firstn]. now rewrite app_nil_r.
Qed.
Lemma execution_start : inv (past_of []) T0 st0 /\ forall k, keys_at (past_of []) T0 st0 k 0.
Proof.
  assert (K : forall k, keys_at (past_of []) T0 st0 k 0).
  { destruct Hsync as [Y1 Y2 Y3 Y4 Y5 Y6]. intros k. unfold keys_at. rewrite Y6. destruct (sees_total T0 (master st0) k Y2) as (v & Hv & Hh & Hw).
    exists 0%nat, v, v. split. { constructor. exists (master st0). split; auto. split; [reflexivity|]. exists T0, st0. split; [constructor|reflexivity]. }
    split; [auto|]. split. { intros x ->. apply (Y4 k); auto. }
    left. split; [reflexivity|]. intros now Hnow. apply (Y5 k); auto. }
  split; [|exact K]. split; [|eauto]. destruct Hsync as [Y1 Y2 Y3 Y4 Y5 Y6]. split; auto.
Qed.
Lemma execution_step l T1 st1 ev st2 out : execution trail T0 st0 l T1 st1 -> inv (past_of l) T1 st1 ->
  (T1 <= event_time ev)%Z -> (event_time ev < 2 ^ 62)%Z -> admissible st1 ev -> step trail st1 ev = Ok (st2, out) ->
  goes_on (past_of l) (past_of (l ++ [ev])) T1 (event_time ev) st1 st2.
Proof.
  intros H IH Hle Hlt Hadm Hstep.
  assert (HP : forall i s, past_of l i s -> past_of (l ++ [ev]) i s) by (intros; now apply past_snoc).
  assert (HM : past_of (l ++ [ev]) (length (l ++ [ev])) (master st2)).
  { split; [lia|]. exists (event_time ev), st2. rewrite firstn_all. split; [|reflexivity]. econstructor; eauto. }
  assert (HB : forall i s, past_of (l ++ [ev]) i s -> (i <= length (l ++ [ev]))%nat) by (intros i s []; auto).
  pose proof (i_time _ _ _ (proj1 IH)) as Hc. assert (Hn : sane_clock (event_time ev)) by (unfold sane_clock in *; lia).
  destruct ev as [now stream|now t keys|now i|now i]; cbn [event_time] in *.
  - eapply inv_client; eauto.
  - eapply inv_read; eauto.
  - exact (inv_deliver trail _ _ _ _ _ _ false _ _ Ht IH HP Hle Hn Hadm Hstep).
  - exact (inv_deliver trail _ _ _ _ _ _ true _ _ Ht IH HP Hle Hn Hadm Hstep).
Qed.
Lemma execution_inv l T st : execution trail T0 st0 l T st -> inv (past_of l) T st.
Proof.
  revert T st. induction l as [|ev l IH] using rev_ind; intros T st H.
  - destruct (execution_det [] T st T0 st0 H) as [-> ->]; [constructor|]. apply execution_start.
  - apply execution_last in H as (T1 & s1 & o1 & A1 & A2 & A3 & A4 & A5 & ->).
    eapply goes_on_inv; [exact (IH _ _ A1)|eapply execution_step; eauto].
Qed.

Lemma catches_up l T st : execution trail T0 st0 l T st -> pending st = [] ->
  (forall k, agree_from T k (master st) (replica st))
  /\ forall now t keys, (T <= now < 2 ^ 62)%Z -> snd (run_get now (replica st) t keys) = snd (run_get now (master st) t keys).
Proof.
  intros H Hp. pose proof (execution_inv _ _ _ H) as [I K].
  assert (A : forall k, agree_from T k (master st) (replica st)).
  { intros k. destruct (K k) as (p & i & v0 & vn & H1 & H2 & H3 & H4). rewrite Hp in *.
    inversion H1; subst. destruct H4 as [[_ H4]|(f & q' & v1 & H5 & _)]; [|discriminate H5]. eapply sees_agree; eauto. }
  split; [auto|]. intros now t keys Hn. symmetry. apply run_get_agree; try apply I.
  - pose proof (i_time _ _ _ I) as C. unfold sane_clock in C. unfold is_i64. lia.
  - intros k _ n o Hno. apply A. lia.
Qed.

Lemma keys_at_agree l T st k p : execution trail T0 st0 l T st -> keys_at (past_of l) T st k p ->
  (p <= length l)%nat /\ exists T1 st1, execution trail T0 st0 (firstn p l) T1 st1 /\ agree_from T k (master st1) (replica st).
Proof.
  intros H (i & v0 & vn & H1 & H2 & H3 & H4).
  assert (exists v, shown (past_of l) T k p v /\ sees T (replica st) k v) as (v & (s & (Hi & T1 & st1 & E & ->) & Hs) & Hr).
  { destruct H4 as [[-> H4]|(f & q' & v1 & H5 & H5' & H6 & H7 & H8)]; [exists v0; exact (conj (chain_first _ _ _ _ _ _ H1) H4)|exists v1; exact (conj (chain_first _ _ _ _ _ _ H7) H8)]. }
  split; [auto|]. exists T1, st1. split; [exact E|]. eapply sees_agree; eauto.
Qed.

(** The positions of a key, one per event. *)
Lemma positions l T st k : execution trail T0 st0 l T st ->
  exists pos : nat -> nat, (forall n, (n < length l)%nat -> (pos n <= pos (S n))%nat)
    /\ keys_at (past_of l) T st k (pos (length l))
    /\ forall n, (n <= length l)%nat -> exists Tn stn, execution trail T0 st0 (firstn n l) Tn stn /\ keys_at (past_of (firstn n l)) Tn stn k (pos n).
Proof.
  revert T st. induction l as [|ev l IH] using rev_ind; intros T st H.
  - exists (fun _ => 0%nat). destruct (execution_det [] T st T0 st0 H) as [-> ->]; [constructor|].
    split; [cbn; lia|]. split; [apply execution_start|]. intros n Hn. cbn in Hn. replace n with 0%nat by lia. exists T0, st0.
    split; [constructor|]. apply execution_start.
  - pose proof H as H'. apply execution_last in H' as (T1 & s1 & o1 & A1 & A2 & A3 & A4 & A5 & ->).
    destruct (IH _ _ A1) as (pos & M & K & Q).
    destruct (execution_step _ _ _ _ _ _ A1 (execution_inv _ _ _ A1) A2 A3 A4 A5) as [_ G].
    destruct (G k _ K) as (p' & Hp' & K').
    exists (fun n => if (n <=? length l)%nat then pos n else p'). rewrite app_length. cbn [length].
    split; [|split].
    + intros n Hn. destruct (Nat.leb_spec n (length l)); [|lia]. destruct (Nat.leb_spec (S n) (length l)); [apply M; lia|].
      replace n with (length l) by lia. exact Hp'.
    + destruct (Nat.leb_spec (length l + 1) (length l)); [lia|]. exact K'.
    + intros n Hn. destruct (Nat.leb_spec n (length l)) as [Hle|Hgt].
      * destruct (Q n Hle) as (Tn & stn & Q1 & Q2). exists Tn, stn.
        replace (firstn n (l ++ [ev])) with (firstn n l); [auto|].
        rewrite firstn_app. replace (n - length l)%nat with 0%nat by lia. cbn [firstn]. now rewrite app_nil_r.
      * assert (firstn n (l ++ [ev]) = l ++ [ev]) as -> by (apply firstn_all2; rewrite app_length; cbn; lia).
        exists (event_time ev), st. auto.
Qed.
Lemma reads_forward l T st k : execution trail T0 st0 l T st ->
  exists pos : nat -> nat, (forall n, (n < length l)%nat -> (pos n <= pos (S n))%nat)
    /\ forall n Tn stn Tm stm, (n <= length l)%nat ->
         execution trail T0 st0 (firstn n l) Tn stn -> execution trail T0 st0 (firstn (pos n) l) Tm stm ->
         (pos n <= n)%nat /\ agree_from Tn k (master stm) (replica stn).
Proof.
  intros H. destruct (positions l T st k H) as (pos & M & _ & Q). exists pos. split; [exact M|].
  intros n Tn stn Tm stm Hn E1 E2. destruct (Q n Hn) as (Tn' & stn' & Q1 & Q2).
  destruct (execution_det _ _ _ _ _ E1 Q1) as [<- <-].
  destruct (keys_at_agree _ _ _ _ _ E1 Q2) as (B & T1 & st1 & X & Y).
  rewrite firstn_length_le in B by auto. split; [auto|].
  rewrite firstn_firstn in X. replace (Nat.min (pos n) n) with (pos n) in X by lia.
  destruct (execution_det _ _ _ _ _ E2 X) as [_ ->]. exact Y.
Qed.

Lemma deliverable l T st now i f : execution trail T0 st0 l T st -> nth_error (pending st) i = Some f ->
  (T <= now)%Z -> (now < 2 ^ 62)%Z -> admissible st (Deliver now i) ->
  exists st2 out, step trail st (Deliver now i) = Ok (st2, out).
Proof.
  intros H Hnth Hle Hlt Hadm. pose proof (execution_inv _ _ _ H) as [I K].
  assert (Hn : sane_clock now) by (pose proof (i_time _ _ _ I); unfold sane_clock in *; lia).
  destruct (K (e_key (snd f))) as [p Kp].
  destruct (inv_apply _ _ _ _ _ _ _ I Kp Hle Hn Hadm Hnth) as (pr & P1 & P2 & _ & _ & _ & _ & _ & _ & _ & _ & _ & _ & _ & _ & _ & cmd & Hser).
  cbn [step]. rewrite Hnth, (run_line_request _ _ _ _ _ _ (Hser trail Ht)), P1. cbn [bind]. eauto.
Qed.
End Exec.
