From Coq Require Import List Arith Lia Bool.
From Verif Require Import ThreadModel ThreadSpec ThreadProofs.
Import ListNotations.

(** A thread that waits for work: it is about to wait, or waits, and nothing
    is pending on it. *)
Definition waiting (w : wk) : Prop :=
  trig w = false /\ req w = false /\
  match at_ w with Top | Asleep | After _ true => True | _ => False end.

(** A thread that was given work, up to the point where it is idle again. *)
Definition working (w : wk) : Prop :=
  match at_ w with
  | Top | Awake | After _ true =>
      trig w = true /\ req w = false /\ (exists j, handler w = Some j) /\ id w <> 0
  | Asleep => False
  | Check1 | Enter => trig w = false /\ req w = false /\ (exists j, handler w = Some j) /\ id w <> 0
  | Inside j _ | Leave j => handler w = Some j /\ id w <> 0
  | Check2 | CleanTrig _ => handler w = None /\ id w <> 0
  | CleanReq _ => handler w = None /\ id w <> 0 /\ trig w = false
  | CleanMap _ => handler w = None /\ id w <> 0 /\ trig w = false /\ req w = false
  | CleanPool _ => handler w = None /\ id w = 0 /\ trig w = false /\ req w = false
  | After _ false | Exited => handler w = None /\ id w = 0
  end.

Definition given (j : nat) (g : gstage) (w : wk) : Prop :=
  waiting w /\
  match g with
  | Got => handler w = None /\ id w = 0
  | Registered => handler w = None /\ id w <> 0
  | Handed => handler w = Some j /\ id w <> 0
  end.

Definition idle (w : wk) : Prop := waiting w /\ handler w = None /\ id w = 0.

Record tinv (s : st) : Prop := mkTinv {
  t_nd : NoDup (stack s);
  t_giv : forall j t g, giving s = Some (j, t, g) ->
            ~ In t (stack s) /\ t < fresh s /\ given j g (wk_of s t);
  t_pool : forall t, In t (stack s) -> t < fresh s /\ idle (wk_of s t);
  t_work : forall t, t < fresh s -> ~ In t (stack s) -> (forall j g, giving s <> Some (j, t, g)) ->
            working (wk_of s t);
  t_far : forall t, fresh s <= t -> at_ (wk_of s t) = Top;
  t_all : forall j, In j (accepted s) ->
            In j (map fst (ran s)) \/ (exists t g, giving s = Some (j, t, g)) \/
            exists t, t < fresh s /\ handler (wk_of s t) = Some j
}.

Lemma tinv_start : forall p c, tinv (start p c).
Proof.
  intros. constructor; cbn; try discriminate; try contradiction; try (constructor; fail); auto; try lia.
Qed.

(** A step of one thread that works, and still works afterwards. *)
Lemma tinv_working : forall s t w s',
  tinv s -> t < fresh s -> ~ In t (stack s) -> (forall j g, giving s <> Some (j, t, g)) ->
  working w ->
  wk_of s' = upd (wk_of s) t w -> fresh s' = fresh s -> stack s' = stack s -> giving s' = giving s ->
  accepted s' = accepted s ->
  (forall j, In j (map fst (ran s)) -> In j (map fst (ran s'))) ->
  (forall j, handler (wk_of s t) = Some j -> handler w = Some j \/ In j (map fst (ran s'))) ->
  tinv s'.
Proof.
  intros s t w s' V Lt Ns Ng W Ew Ef Es Eg Ea Er Eh.
  destruct V as [V1 V2 V3 V4 V5 V6].
  constructor; rewrite ?Ew, ?Ef, ?Es, ?Eg, ?Ea; auto.
  - intros j t' g H. destruct (V2 _ _ _ H) as (A1 & A2 & A3).
    rewrite upd_other by congruence. auto.
  - intros t' H. destruct (V3 _ H) as [A1 A2]. rewrite upd_other by congruence. auto.
  - intros t' L N G. destruct (Nat.eq_dec t' t) as [->|D].
    + rewrite upd_same. exact W.
    + rewrite upd_other by exact D. auto.
  - intros t' L. rewrite upd_other by lia. auto.
  - intros j H. destruct (V6 _ H) as [X|[X|[t' [L X]]]].
    + left. auto.
    + right. left. exact X.
    + destruct (Nat.eq_dec t' t) as [->|D].
      * destruct (Eh _ X) as [Y|Y]; [|left; exact Y].
        right. right. exists t. rewrite upd_same. auto.
      * right. right. exists t'. rewrite upd_other by exact D. auto.
Qed.

(** A step of a thread that waits, and still waits afterwards. *)
Lemma tinv_waiting : forall s t w s',
  tinv s -> t < fresh s -> (In t (stack s) \/ exists j g, giving s = Some (j, t, g)) ->
  waiting w -> handler w = handler (wk_of s t) -> id w = id (wk_of s t) ->
  s' = set_wk s t w -> tinv s'.
Proof.
  intros s t w s' V Lt O W Hh Hi ->. destruct V as [V1 V2 V3 V4 V5 V6].
  constructor; cbn; auto.
  - intros j t' g H. destruct (V2 _ _ _ H) as (A1 & A2 & A3). split; [exact A1|]. split; [exact A2|].
    destruct (Nat.eq_dec t' t) as [->|D]; [rewrite upd_same | rewrite upd_other by exact D; exact A3].
    split; [exact W|]. rewrite Hh, Hi. apply A3.
  - intros t' H. destruct (V3 _ H) as [A1 A2]. split; [exact A1|].
    destruct (Nat.eq_dec t' t) as [->|D]; [rewrite upd_same | rewrite upd_other by exact D; exact A2].
    split; [exact W|]. rewrite Hh, Hi. apply A2.
  - intros t' L N G. destruct (Nat.eq_dec t' t) as [->|D].
    + exfalso. destruct O as [O|(j & g & O)]; [contradiction | exact (G _ _ O)].
    + rewrite upd_other by exact D. auto.
  - intros t' L. rewrite upd_other by lia. auto.
  - intros j H. destruct (V6 _ H) as [X|[X|[t' [L X]]]]; [auto | auto|].
    right. right. exists t'. split; [exact L|].
    destruct (Nat.eq_dec t' t) as [->|D]; [rewrite upd_same, Hh | rewrite upd_other by exact D]; exact X.
Qed.

Lemma owner_dec : forall s t, tinv s ->
  {In t (stack s) \/ exists j g, giving s = Some (j, t, g)} +
  {~ In t (stack s) /\ forall j g, giving s <> Some (j, t, g)}.
Proof.
  intros s t _. destruct (in_dec Nat.eq_dec t (stack s)) as [I1|N]; [left; auto|].
  destruct (giving s) as [[[j t'] g]|] eqn:G.
  - destruct (Nat.eq_dec t' t) as [->|D].
    + left. right. eauto.
    + right. split; [exact N|]. intros j' g' C. congruence.
  - right. split; [exact N|]. intros j' g' C. discriminate C.
Qed.

Lemma waiting_of : forall s t, tinv s -> In t (stack s) \/ (exists j g, giving s = Some (j, t, g)) ->
  waiting (wk_of s t) /\ t < fresh s.
Proof.
  intros s t V [H|(j & g & H)].
  - destruct (t_pool _ V _ H) as (L & W & _). auto.
  - destruct (t_giv _ V _ _ _ H) as (_ & L & W & _). auto.
Qed.

Lemma tinv_go : forall s t s', inv s -> tinv s -> t < fresh s -> go s t = Some s' -> tinv s'.
Proof.
  intros s t s' V0 V L E. destruct (owner_dec s t V) as [O|[Ns Ng]].
  - destruct (waiting_of s t V O) as [W _]. unfold go in E.
    destruct W as (W1 & W2 & W3).
    destruct (at_ (wk_of s t)) as [| | | | |j h|j| |b|b|b|b|b [|]|] eqn:Ea; try contradiction; try discriminate.
    + rewrite W1 in E. injection E as <-.
      eapply (tinv_waiting s t (goto (wk_of s t) Asleep)); eauto. repeat split; assumption.
    + rewrite W2, andb_false_r in E. injection E as <-.
      eapply (tinv_waiting s t (goto (wk_of s t) Top)); eauto. repeat split; assumption.
  - pose proof (t_work _ V _ L Ns Ng) as W. unfold go in E. unfold working in W.
    destruct (at_ (wk_of s t)) as [| | | | |j h|j| |b|b|b|b|b p|] eqn:Ea; try contradiction; try discriminate.
    + destruct W as (W1 & W2 & W3 & W4). rewrite W1 in E. injection E as <-.
      eapply (tinv_working s t); try reflexivity; eauto. repeat split; assumption.
    + injection E as <-. eapply (tinv_working s t); try reflexivity; eauto.
      destruct W as (W1 & W2 & W3 & W4). repeat split; assumption.
    + destruct W as (W1 & W2 & W3 & W4). rewrite W2 in E. injection E as <-.
      eapply (tinv_working s t); try reflexivity; eauto. repeat split; assumption.
    + destruct W as (W1 & W2 & [j W3] & W4). rewrite W3 in E. injection E as <-.
      eapply (tinv_working s t); try reflexivity; eauto.
      * split; assumption.
      * cbn. auto.
    + destruct h; try discriminate; injection E as <-.
      * eapply (tinv_working s t); try reflexivity; eauto. 
      * eapply (tinv_working s t); try reflexivity; eauto. unfold working. destruct (req (wk_of s t)); exact W.
    + (* Leave: the session's connection was served *)
      injection E as <-. eapply (tinv_working s t); try reflexivity; eauto.
      * split; [reflexivity | apply W].
      * intros i H. right. cbn. destruct W as [W _]. rewrite W in H. injection H as <-.
        change j with (fst (j, t)). apply in_map. apply (i_in _ V0). left. exact Ea.
    + injection E as <-. eapply (tinv_working s t); try reflexivity; eauto.
    + injection E as <-. eapply (tinv_working s t); try reflexivity; eauto.
      destruct W. repeat split; assumption.
    + injection E as <-. eapply (tinv_working s t); try reflexivity; eauto.
      destruct W as (W1 & W2 & W3). repeat split; assumption.
    + destruct W as (W1 & W2 & W3 & W4). destruct (Nat.eqb_spec (id (wk_of s t)) 0); [contradiction|].
      injection E as <-. eapply (tinv_working s t); try reflexivity; eauto. repeat split; assumption.
    + destruct W as (W1 & W2 & W3 & W4). destruct (length (stack s) <? pool_max s); injection E as <-.
      * destruct V as [V1 V2 V3 V4 V5 V6]. constructor; cbn; auto.
        -- constructor; assumption.
        -- intros j t' g H. destruct (V2 _ _ _ H) as (A1 & A2 & A3).
           assert (t' <> t) as D by (intros ->; exact (Ng _ _ H)).
           rewrite upd_other by exact D. split; [|auto]. intros [C|C]; [congruence | contradiction].
        -- intros t' [<-|H].
           ++ rewrite upd_same. split; [exact L|]. split; [|split; assumption]. repeat split; assumption.
           ++ destruct (V3 _ H). rewrite upd_other by congruence. auto.
        -- intros t' L' N G. rewrite upd_other by (intros ->; apply N; left; reflexivity).
           apply V4; auto.
        -- intros t' L'. rewrite upd_other by lia. auto.
        -- intros j H. destruct (V6 _ H) as [X|[X|[t' [L' X]]]]; [auto | auto|].
           right. right. exists t'. split; [exact L'|].
           destruct (Nat.eq_dec t' t) as [->|D]; [rewrite upd_same | rewrite upd_other by exact D]; exact X.
      * eapply (tinv_working s t); try reflexivity; eauto. split; assumption.
    + injection E as <-. eapply (tinv_working s t); try reflexivity; eauto.
      destruct p.
      * destruct W as (W1 & W2 & W3 & W4). unfold working. cbn. rewrite W2, andb_false_r. cbn. auto.
      * unfold working. cbn. destruct (negb b && req (wk_of s t)); exact W.
Qed.

Lemma tinv_accept : forall s j, tinv s -> giving s = None -> tinv (accept s j).
Proof.
  intros s j V G. destruct V as [V1 V2 V3 V4 V5 V6]. unfold accept.
  destruct (conn_max s <=? active_count s).
  - constructor; cbn; auto.
  - destruct (stack s) as [|t l] eqn:Es.
    + constructor; cbn; auto.
      * intros i t g [= <- <- <-]. rewrite upd_same. split; [auto|]. split; [lia|].
        split; [|split; reflexivity]. repeat split.
      * contradiction.
      * intros t L N C. destruct (Nat.eq_dec t (fresh s)) as [->|D]; [exfalso; exact (C _ _ eq_refl)|].
        rewrite upd_other by exact D. apply V4; [lia | exact N|]. intros i g. rewrite G. discriminate.
      * intros t L. rewrite upd_other by lia. apply V5. lia.
      * intros i [<-|H]; [right; left; eauto|].
        destruct (V6 _ H) as [X|[(t' & g & X)|(t' & L & X)]]; [auto | congruence|].
        right. right. exists t'. rewrite upd_other by lia. auto.
    + inversion V1 as [|? ? N1 N2]; subst. constructor; cbn; auto.
      * intros i t' g [= <- <- <-]. destruct (V3 t ltac:(left; reflexivity)) as (L & W & H & Hi).
        split; [exact N1|]. split; [exact L|]. split; [exact W | auto].
      * intros t' H. apply V3. right. exact H.
      * intros t' L N C. apply V4; [exact L | | intros i g; rewrite G; discriminate].
        intros [<-|C']; [exact (C _ _ eq_refl) | contradiction].
      * intros i [<-|H]; [right; left; eauto|].
        destruct (V6 _ H) as [X|[(t' & g & X)|X]]; [auto | congruence | auto].
Qed.

(** The accept loop's steps with the thread it has taken. *)
Lemma tinv_hand : forall s e s', tinv s -> e = Hand -> step s e = Some s' -> tinv s'.
Proof.
  intros s e s' V -> E. cbn [step] in E. destruct (giving s) as [[[j t] g]|] eqn:G; [|discriminate].
  destruct V as [V1 V2 V3 V4 V5 V6]. destruct (V2 _ _ _ G) as (N & L & W & X).
  destruct g; injection E as <-.
  - constructor; unfold register; cbn; auto.
    + intros i t' g [= <- <- <-]. rewrite upd_same. split; [exact N|]. split; [exact L|].
      split; [exact W|]. cbn. destruct X. auto.
    + intros t' H. rewrite upd_other by congruence. auto.
    + intros t' L' N' C. rewrite upd_other by (intros ->; exact (C _ _ eq_refl)).
      apply V4; auto. intros i g C'. eapply C. rewrite G in C'. injection C' as _ <- _. reflexivity.
    + intros t' L'. rewrite upd_other by lia. auto.
    + intros i H. destruct (V6 _ H) as [Y|[(t' & g & Y)|(t' & L' & Y)]]; [auto| |].
      * rewrite G in Y. injection Y as -> -> <-. right. left. eauto.
      * right. right. exists t'. split; [exact L'|].
        destruct (Nat.eq_dec t' t) as [->|D]; [rewrite upd_same | rewrite upd_other by exact D]; exact Y.
  - constructor; cbn; auto.
    + intros i t' g [= <- <- <-]. rewrite upd_same. split; [exact N|]. split; [exact L|].
      split; [exact W|]. cbn. destruct X. auto.
    + intros t' H. rewrite upd_other by congruence. auto.
    + intros t' L' N' C. rewrite upd_other by (intros ->; exact (C _ _ eq_refl)).
      apply V4; auto. intros i g C'. eapply C. rewrite G in C'. injection C' as _ <- _. reflexivity.
    + intros t' L'. rewrite upd_other by lia. auto.
    + intros i H. destruct (V6 _ H) as [Y|[(t' & g & Y)|(t' & L' & Y)]]; [auto| |].
      * rewrite G in Y. injection Y as -> -> <-. right. left. eauto.
      * right. right. exists t'. split; [exact L'|].
        destruct (Nat.eq_dec t' t) as [->|D]; [|rewrite upd_other by exact D; exact Y].
        destruct X as [X _]. rewrite X in Y. discriminate Y.
  - destruct W as (W1 & W2 & W3). destruct X as [X1 X2].
    constructor; cbn; auto.
    + intros; discriminate.
    + intros t' H. rewrite upd_other by congruence. auto.
    + intros t' L' N' _. destruct (Nat.eq_dec t' t) as [->|D].
      * rewrite upd_same. unfold working, trigger. cbn.
        destruct (at_ (wk_of s t)) as [| | | | |? h|?| |b|b|b|b|b [|]|]; try contradiction; cbn; eauto 6.
      * rewrite upd_other by exact D. apply V4; auto. intros i g C. rewrite G in C. congruence.
    + intros t' L'. rewrite upd_other by lia. auto.
    + intros i H. destruct (V6 _ H) as [Y|[(t' & g & Y)|(t' & L' & Y)]]; [auto| |].
      * rewrite G in Y. injection Y as -> -> <-. right. right. exists t'. rewrite upd_same. auto.
      * right. right. exists t'. split; [exact L'|].
        destruct (Nat.eq_dec t' t) as [->|D]; [rewrite upd_same | rewrite upd_other by exact D]; exact Y.
Qed.

(** A thread in a session is one that works. *)
Lemma session_working : forall s t j h, tinv s -> at_ (wk_of s t) = Inside j h ->
  t < fresh s /\ ~ In t (stack s) /\ (forall i g, giving s <> Some (i, t, g)) /\ working (wk_of s t).
Proof.
  intros s t j h V E.
  assert (t < fresh s) as L.
  { destruct (le_lt_dec (fresh s) t) as [C|C]; [|exact C].
    rewrite (t_far _ V _ C) in E. discriminate E. }
  destruct (owner_dec s t V) as [O|[Ns Ng]].
  - destruct (waiting_of s t V O) as [(_ & _ & W) _]. rewrite E in W. contradiction.
  - split; [exact L|]. split; [exact Ns|]. split; [exact Ng|]. apply t_work; assumption.
Qed.

Lemma tinv_step : forall s e s', inv s -> tinv s -> timely s e -> step s e = Some s' -> tinv s'.
Proof.
  intros s e s' V0 V T E. destruct e as [j| |t|t|t|t|i|t].
  - cbn [step] in E. destruct (giving s) eqn:G; [discriminate|]. destruct (known s j); [discriminate|].
    injection E as <-. apply tinv_accept; assumption.
  - eapply tinv_hand; [exact V | reflexivity | exact E].
  - cbn [step] in E. destruct (Nat.ltb_spec t (fresh s)); [|discriminate]. eapply tinv_go; eassumption.
  - cbn [step] in E.
    destruct (at_ (wk_of s t)) as [| | | | |j h|j| |b|b|b|b|b p|] eqn:Ea; try discriminate.
    destruct h; try discriminate. injection E as <-.
    destruct (session_working _ _ _ _ V Ea) as (L & Ns & Ng & W). unfold working in W. rewrite Ea in W.
    eapply (tinv_working s t); try reflexivity; eauto.
  - cbn [step] in E.
    destruct (at_ (wk_of s t)) as [| | | | |j h|j| |b|b|b|b|b p|] eqn:Ea; try discriminate.
    destruct h; try discriminate. injection E as <-.
    destruct (session_working _ _ _ _ V Ea) as (L & Ns & Ng & W). unfold working in W. rewrite Ea in W.
    eapply (tinv_working s t); try reflexivity; eauto.
  - contradiction.
  - cbn [step] in E. destruct (find_id s i); [|discriminate]. injection E as <-.
    destruct V as [V1 V2 V3 V4 V5 V6]. constructor; cbn; auto.
  - cbn [step] in E. cbn [timely] in T.
    destruct (kill_of t (kills s)) as [[| |]|]; try discriminate; injection E as <-.
    + destruct T as (j & h & Ea).
      destruct (session_working _ _ _ _ V Ea) as (L & Ns & Ng & W). unfold working in W. rewrite Ea in W.
      eapply (tinv_working s t); try reflexivity; eauto. unfold working. cbn. rewrite Ea. exact W.
    + destruct T as (j & h & Ea).
      destruct (session_working _ _ _ _ V Ea) as (L & Ns & Ng & W). unfold working in W. rewrite Ea in W.
      eapply (tinv_working s t); try reflexivity; eauto. unfold working, trigger. cbn. rewrite Ea. exact W.
    + assert (forall s1, wk_of s1 = upd (wk_of s) t (wk_of s t) -> fresh s1 = fresh s -> stack s1 = stack s ->
                giving s1 = giving s -> accepted s1 = accepted s -> ran s1 = ran s -> tinv s1) as Same.
      { intros s1 E1 E2 E3 E4 E5 E6. destruct V as [V1 V2 V3 V4 V5 V6].
        assert (forall t', wk_of s1 t' = wk_of s t') as U.
        { intro t'. rewrite E1. destruct (Nat.eq_dec t' t) as [->|D];
            [apply upd_same | apply upd_other; exact D]. }
        constructor; rewrite ?E2, ?E3, ?E4, ?E5, ?E6; auto.
        - intros j t' g H. rewrite U. auto.
        - intros t' H. rewrite U. auto.
        - intros t' L N G. rewrite U. auto.
        - intros t' L. rewrite U. auto.
        - intros j H. destruct (V6 _ H) as [Y|[Y|(t' & L' & Y)]]; [auto | auto|].
          right. right. exists t'. rewrite U. auto. }
      unfold interrupt.
      destruct (at_ (wk_of s t)) as [| | | | |j [| |]|j| |b|b|b|b|b p|] eqn:Ea;
        try (apply Same; reflexivity).
      destruct (session_working _ _ _ _ V Ea) as (L & Ns & Ng & W). unfold working in W. rewrite Ea in W.
      eapply (tinv_working s t); try reflexivity; eauto.
Qed.

Lemma timely_tinv : forall es s s', inv s -> tinv s -> timely_run s es -> steps s es = Some s' ->
  inv s' /\ tinv s'.
Proof.
  induction es as [|e r IH]; intros s s' V0 V T E; cbn in E, T.
  - injection E as <-. auto.
  - destruct T as [T1 T2]. destruct (step s e) as [s1|] eqn:E1; [|discriminate].
    eapply IH; [eapply inv_step; eassumption | eapply tinv_step; eassumption | exact T2 | exact E].
Qed.

Lemma reached_tinv : forall p c s, reached_timely p c s -> inv s /\ tinv s.
Proof.
  intros p c s (es & T & E). eapply timely_tinv; [apply inv_start | apply tinv_start | exact T | exact E].
Qed.

(** What is still to do for a connection that was handed over. *)
Definition away (w : wk) : nat :=
  match at_ w with
  | After _ _ => 4 | Top => 3 | Awake => 3 | Check1 => 2 | Enter => 1 | _ => 0
  end.

Lemma began_go : forall n s t j, inv s -> tinv s -> t < fresh s -> ~ In t (stack s) ->
  (forall i g, giving s <> Some (i, t, g)) ->
  handler (wk_of s t) = Some j -> away (wk_of s t) <= n ->
  exists es s', Forall (unaided t) es /\ length es <= n /\ steps s es = Some s' /\ In j (map fst (ran s')).
Proof.
  induction n as [|n IH]; intros s t j V0 V L Ns Ng H A.
  - pose proof (t_work _ V _ L Ns Ng) as W. exists [], s. cbn. repeat split; auto.
    unfold working in W. unfold away in A.
    destruct (at_ (wk_of s t)) as [| | | | |i h|i| |b|b|b|b|b p|] eqn:Ea; try lia; try contradiction;
      try (destruct W as [W _]; congruence).
    + destruct W as [W _]. assert (i = j) as -> by congruence.
      change j with (fst (j, t)). apply in_map. apply (i_in _ V0). right. eauto.
    + destruct W as [W _]. assert (i = j) as -> by congruence.
      change j with (fst (j, t)). apply in_map. apply (i_in _ V0). left. eauto.
  - pose proof (t_work _ V _ L Ns Ng) as W.
    destruct (le_lt_dec (away (wk_of s t)) n) as [C|C].
    { destruct (IH s t j V0 V L Ns Ng H C) as (es & s' & A1 & A2 & A3 & A4). exists es, s'. auto. }
    assert (forall s1 : st, step s (Go t) = Some s1 -> fresh s1 = fresh s -> stack s1 = stack s ->
              giving s1 = giving s -> handler (wk_of s1 t) = Some j -> away (wk_of s1 t) <= n ->
              exists (es : list event) (s' : st), Forall (unaided t) es /\ length es <= S n /\ steps s es = Some s' /\ In j (map fst (ran s'))) as Next.
    { intros s1 E E1 E2 E3 E4 E5.
      destruct (IH s1 t j) as (es & s' & A1 & A2 & A3 & A4); auto.
      - eapply inv_step; eassumption.
      - eapply (tinv_step s (Go t)); [assumption | assumption | exact Logic.I | exact E].
      - rewrite E1. exact L.
      - rewrite E2. exact Ns.
      - rewrite E3. exact Ng.
      - exists (Go t :: es), s'. split; [constructor; [right; reflexivity | exact A1]|].
        split; [cbn; lia|]. split; [cbn [steps]; rewrite E; exact A3 | exact A4]. }
    assert ((t <? fresh s) = true) as Lb by (apply Nat.ltb_lt; exact L).
    unfold working in W. unfold away in A, C.
    destruct (at_ (wk_of s t)) as [| | | | |i h|i| |b|b|b|b|b [|]|] eqn:Ea; try lia; try contradiction.
    + destruct W as (W1 & _). eapply Next;
        [cbn [step]; rewrite Lb; unfold go; rewrite Ea, W1; reflexivity | reflexivity.. | |];
        cbn; rewrite upd_same; [exact H | cbn; lia].
    + eapply Next; [cbn [step]; rewrite Lb; unfold go; rewrite Ea; reflexivity | reflexivity.. | |];
        cbn; rewrite upd_same; [exact H | cbn; lia].
    + destruct W as (_ & W2 & _). eapply Next;
        [cbn [step]; rewrite Lb; unfold go; rewrite Ea, W2; reflexivity | reflexivity.. | |];
        cbn; rewrite upd_same; [exact H | cbn; lia].
    + exists [Go t]. eexists. split; [constructor; [right; reflexivity | constructor]|].
      split; [cbn; lia|]. cbn [steps step]. rewrite Lb. unfold go. rewrite Ea, H.
      split; [reflexivity|]. cbn. left. reflexivity.
    + destruct W as (W1 & W2 & _). eapply Next;
        [cbn [step]; rewrite Lb; unfold go; rewrite Ea, W2, andb_false_r; reflexivity | reflexivity.. | |];
        cbn; rewrite upd_same; [exact H | cbn; lia].
    + destruct W as [W _]. congruence.
Qed.

Lemma away_4 : forall w, away w <= 4.
Proof. intro w. unfold away. destruct (at_ w); lia. Qed.

(** The accept loop completes the handing over in at most three steps. *)
Lemma began_hand : forall n s j t g, inv s -> tinv s -> giving s = Some (j, t, g) ->
  n = match g with Got => 3 | Registered => 2 | Handed => 1 end ->
  exists s', steps s (repeat Hand n) = Some s' /\ inv s' /\ tinv s' /\ t < fresh s' /\ ~ In t (stack s') /\
    giving s' = None /\ handler (wk_of s' t) = Some j.
Proof.
  induction n as [|n IH]; intros s j t g V0 V G En; [destruct g; discriminate|].
  destruct (t_giv _ V _ _ _ G) as (N & L & W & X).
  assert (exists s1, step s Hand = Some s1 /\
     (match g with Got => giving s1 = Some (j, t, Registered) | Registered => giving s1 = Some (j, t, Handed)
                 | Handed => giving s1 = None /\ handler (wk_of s1 t) = Some j /\
                             fresh s1 = fresh s /\ stack s1 = stack s end)) as (s1 & E & Y).
  { cbn [step]. rewrite G. destruct g; eexists; (split; [reflexivity|]); try reflexivity.
    cbn. rewrite upd_same. cbn. destruct X. auto. }
  assert (inv s1) as V01 by (eapply inv_step; eassumption).
  assert (tinv s1) as V1 by (eapply (tinv_step s Hand); [assumption | assumption | exact Logic.I | exact E]).
  cbn [repeat steps]. rewrite E. destruct g.
  - eapply IH; [assumption | assumption | exact Y | cbn; lia].
  - eapply IH; [assumption | assumption | exact Y | cbn; lia].
  - injection En as ->. cbn. exists s1. destruct Y as (Y1 & Y2 & Y3 & Y4).
    split; [reflexivity|]. split; [assumption|]. split; [assumption|].
    rewrite Y3, Y4. auto.
Qed.

Lemma began_iff : forall s j, In j (map fst (ran s)) -> serving_began s j.
Proof.
  intros s j H. apply in_map_iff in H. destruct H as [[i t] [<- H]]. exists t. exact H.
Qed.

Lemma served_soon : forall s j, inv s -> tinv s -> In j (accepted s) ->
  serving_began s j \/
  exists t es s', Forall (unaided t) es /\ length es <= 7 /\ steps s es = Some s' /\ serving_began s' j.
Proof.
  intros s j V0 V H.
  assert (forall s j t g, inv s -> tinv s -> giving s = Some (j, t, g) ->
    exists t es s', Forall (unaided t) es /\ length es <= 7 /\ steps s es = Some s' /\ serving_began s' j) as Giv.
  { clear. intros s j t g V0 V G.
    destruct (began_hand _ s j t g V0 V G eq_refl) as (s1 & E & V01 & V1 & L & N & G1 & H1).
    set (n := match g with Got => 3 | Registered => 2 | Handed => 1 end) in *.
    assert (n <= 3) by (unfold n; destruct g; lia).
    destruct (began_go 4 s1 t j V01 V1 L N ltac:(intros; rewrite G1; discriminate) H1 (away_4 _))
      as (es & s' & A1 & A2 & A3 & A4).
    exists t, (repeat Hand n ++ es), s'. split.
    { apply Forall_app. split; [|exact A1]. clear. induction n; cbn; constructor; [left; reflexivity | assumption]. }
    split; [rewrite app_length, repeat_length; lia|].
    split; [rewrite steps_app, E; exact A3 | apply began_iff; exact A4]. }
  destruct (t_all _ V _ H) as [X|[(t & g & X)|(t & L & X)]].
  - left. apply began_iff. exact X.
  - right. eapply Giv; eassumption.
  - right. destruct (owner_dec s t V) as [[O|(i & g & O)]|[Ns Ng]].
    + destruct (t_pool _ V _ O) as (_ & _ & C & _). congruence.
    + destruct (t_giv _ V _ _ _ O) as (_ & _ & _ & C).
      assert (i = j) as -> by (destruct g; destruct C; congruence). eapply Giv; eassumption.
    + destruct (began_go 4 s t j V0 V L Ns Ng X (away_4 _)) as (es & s' & A1 & A2 & A3 & A4).
      exists t, es, s'. split; [exact A1|]. split; [lia|]. split; [exact A3 | apply began_iff; exact A4].
Qed.
