(** Lemmas on the delivery of forwarded requests. *)
From Coq Require Import List Bool Arith Lia.
From Verif Require Import ProxyModel ProxySpec.
Import ListNotations.

Section Proxy.
  Variables (St Q A : Type) (exec : St -> Q -> St * A) (silent : Q -> bool) (accepts : Q -> A -> bool).
  Notation serve1 := (serve1 St Q A exec silent).
  Notation serves := (serves St Q A exec silent).
  Notation attempt := (attempt St Q A exec silent accepts).
  Notation tries := (tries St Q A exec silent accepts).
  Notation deliver := (deliver St Q A exec silent accepts).
  Notation link := (link St Q A).

  Lemma serve1_queue l : map fst (log (serve1 l)) ++ inbox (serve1 l) = map fst (log l) ++ inbox l.
  Proof. unfold ProxyModel.serve1. destruct (inbox l) as [|q qs] eqn:E; [now rewrite E|]. destruct (exec (node l) q). cbn [log inbox]. rewrite map_app, <- app_assoc. reflexivity. Qed.
  Lemma serves_queue n : forall l, map fst (log (serves n l)) ++ inbox (serves n l) = map fst (log l) ++ inbox l.
  Proof. induction n as [|n IH]; intros l; cbn [ProxyModel.serves]; auto. now rewrite IH, serve1_queue. Qed.
  Lemma serve1_up l : up (serve1 l) = up l.
  Proof. unfold ProxyModel.serve1. destruct (inbox l); auto. destruct (exec (node l) q). reflexivity. Qed.
  Lemma serves_up n : forall l, up (serves n l) = up l.
  Proof. induction n as [|n IH]; intros l; cbn [ProxyModel.serves]; auto. now rewrite IH, serve1_up. Qed.

  (** The number of copies of a request never exceeds the number of attempts. *)
  Definition copies (base : list Q) (q : Q) (k : nat) (l : link) : Prop :=
    exists i j, map fst (log l) = base ++ repeat q i /\ inbox l = repeat q j /\ i + j <= k.
  Lemma copies_prefix base q k d : forall a b : list Q, a ++ b = base ++ repeat q d -> d <= k -> (exists i, a = base ++ repeat q i) ->
    exists i j, a = base ++ repeat q i /\ b = repeat q j /\ i + j <= k.
  Proof.
    intros a b E L (i & ->). rewrite <- app_assoc in E. apply app_inv_head in E. exists i, (d - i). split; auto.
    assert (i <= d). { apply (f_equal (@List.length Q)) in E. rewrite app_length, !repeat_length in E. lia. }
    split; [|lia]. replace d with (i + (d - i)) in E by lia. rewrite repeat_app in E. now apply app_inv_head in E.
  Qed.
  Lemma serve1_ext base q l : (exists i, map fst (log l) = base ++ repeat q i) -> (exists j, inbox l = repeat q j) -> exists i, map fst (log (serve1 l)) = base ++ repeat q i.
  Proof.
    intros (i & H) (j & J). unfold ProxyModel.serve1. destruct (inbox l) as [|x qs] eqn:E; [eauto|]. destruct (exec (node l) x). cbn [log]. rewrite map_app, H. exists (i + 1).
    destruct j as [|j]; [discriminate J|]. injection J as -> _. rewrite repeat_app, <- app_assoc. reflexivity.
  Qed.
  Lemma serve1_inbox q l : (exists j, inbox l = repeat q j) -> exists j, inbox (serve1 l) = repeat q j.
  Proof.
    intros (j & J). unfold ProxyModel.serve1. destruct (inbox l) as [|x qs] eqn:E; [exists 0; auto|]. destruct (exec (node l) x). cbn [inbox]. destruct j as [|j]; [discriminate J|]. injection J as _ ->. eauto.
  Qed.
  Lemma copies_serves base q k n : forall l, copies base q k l -> copies base q k (serves n l).
  Proof.
    induction n as [|n IH]; intros l C; cbn [ProxyModel.serves]; auto. apply IH. destruct C as (i & j & H & J & L).
    pose proof (serve1_queue l) as Q0. rewrite H, J, <- app_assoc, <- repeat_app in Q0.
    destruct (copies_prefix base q k _ _ _ Q0 L) as (i' & j' & C'); [apply serve1_ext; eauto|exists i', j'; exact C'].
  Qed.
  Lemma copies_closed base q k l b : copies base q k l -> copies base q k (mkLink b [] [] (node l) (log l)).
  Proof. intros (i & j & H & J & L). exists i, 0. cbn [log inbox]. repeat split; auto; lia. Qed.
  Lemma copies_send base q k l : copies base q k l -> copies base q (S k) (send St Q A q l).
  Proof. intros (i & j & H & J & L). exists i, (S j). unfold send. cbn [log inbox]. rewrite J. split; auto. split; [|lia]. clear. induction j as [|j IH]; cbn [repeat app] in *; congruence. Qed.
  Lemma copies_mono base q k k' l : k <= k' -> copies base q k l -> copies base q k' l.
  Proof. intros L (i & j & H & J & M). exists i, j. repeat split; auto; lia. Qed.
  Lemma copies_attempt base q k f l : copies base q k l -> copies base q (S k) (fst (attempt q f l)).
  Proof.
    intros C. unfold ProxyModel.attempt. destruct (negb (up l)); cbn [fst]; [apply (copies_mono _ _ k); auto|]. 
    assert (SC : forall n, copies base q (S k) (serves n (send St Q A q l))) by (intros; now apply copies_serves, copies_send).
    destruct f as [n|n|n|n].
    - cbn [fst]. apply copies_closed, (copies_mono _ _ k); auto. now apply copies_serves.
    - destruct (silent q); cbn [fst]; apply copies_closed; auto.
    - destruct (silent q); cbn [fst]; auto. destruct (back _); cbn [fst]; auto. destruct (SC n) as (i & j & H & J & L). exists i, j. auto.
    - cbn [fst]. auto.
  Qed.
  Lemma copies_tries base q : forall fs k l, copies base q k l -> copies base q (k + List.length fs) (fst (tries q fs l)).
  Proof.
    induction fs as [|(f, ok) fs IH]; intros k l C; cbn [ProxyModel.tries fst List.length]; [apply (copies_mono _ _ k); auto; lia|].
    pose proof (copies_attempt base q k f l C) as CA. destruct (attempt q f l) as (l1, [a|]); cbn [fst] in CA |- *; [apply (copies_mono _ _ (S k)); auto; lia|].
    replace (k + S (List.length fs)) with (S k + List.length fs) by lia. apply IH. destruct (up l1); auto. now apply copies_closed.
  Qed.
  Lemma deliver_bound q fs l l' r : inbox l = [] -> deliver q fs l = (l', r) ->
    exists i j, map fst (log l') = map fst (log l) ++ repeat q i /\ inbox l' = repeat q j /\ i + j <= max_retry.
  Proof.
    intros I D. pose proof (copies_tries (map fst (log l)) q (firstn max_retry fs) 0 l) as C. unfold ProxyModel.deliver in D. rewrite D in C. cbn [fst plus] in C.
    destruct C as (i & j & H & J & L); [exists 0, 0; cbn [repeat]; rewrite app_nil_r; auto|]. exists i, j. split; auto. split; auto. pose proof (firstn_le_length max_retry fs). lia.
  Qed.

  (** Calm connections. *)
  Lemma serves_all : forall n l, List.length (inbox l) <= n -> inbox (serves n l) = [] /\
    (Forall (fun q => silent q = true) (inbox l) -> back (serves n l) = back l).
  Proof.
    induction n as [|n IH]; intros l L; cbn [ProxyModel.serves]; [destruct (inbox l); [auto|cbn in L; lia]|].
    destruct (IH (serve1 l)) as (I & B).
    - unfold ProxyModel.serve1. destruct (inbox l) as [|q qs] eqn:E; [rewrite E; cbn; lia|]. destruct (exec (node l) q). cbn [inbox]. cbn in L. lia.
    - split; auto. intros F. rewrite B.
      + unfold ProxyModel.serve1. destruct (inbox l) as [|q qs] eqn:E; auto. inversion F as [|? ? Sq F']; subst. destruct (exec (node l) q). cbn [back]. now rewrite Sq.
      + unfold ProxyModel.serve1. destruct (inbox l) as [|q qs] eqn:E; [now rewrite E|]. inversion F; subst. destruct (exec (node l) q). exact H2.
  Qed.
  Lemma serves_answer q : silent q = false -> forall n l, back l = [] -> Forall (fun x => silent x = true) (inbox l) -> List.length (inbox l) < n ->
    exists s a, inbox (serves n (send St Q A q l)) = [] /\ back (serves n (send St Q A q l)) = [a] /\ a = snd (exec s q) /\
      exists pre, Forall (fun x => silent (fst x) = true) pre /\ log (serves n (send St Q A q l)) = log l ++ pre ++ [(q, a)].
  Proof.
    intros NS. induction n as [|n IH]; intros l B F L; [lia|]. cbn [ProxyModel.serves]. unfold send in *. destruct (inbox l) as [|x xs] eqn:E.
    - cbn [app]. unfold ProxyModel.serve1. cbn [inbox node up back log]. destruct (exec (node l) q) as (s, a) eqn:EX. rewrite NS, B. cbn [app].
      set (l1 := mkLink (up l) [] [a] s (log l ++ [(q, a)])). assert (SE : forall m, serves m l1 = l1) by (induction m; cbn [ProxyModel.serves]; auto). rewrite SE.
      exists (node l), a. rewrite EX. split; auto. split; auto. split; auto. exists []. auto.
    - inversion F as [|? ? Sx F']; subst. cbn [List.length] in L. cbn [app]. unfold ProxyModel.serve1. cbn [inbox node up back log]. destruct (exec (node l) x) as (s, a). rewrite Sx, B.
      destruct (IH (mkLink (up l) xs [] s (log l ++ [(x, a)]))) as (s' & a' & H1 & H2 & H3 & pre & H4 & H5); cbn [back inbox]; auto; [lia|]. cbn [up inbox back node log] in *.
      exists s', a'. split; auto. split; auto. split; auto. exists ((x, a) :: pre). split; [constructor; auto|]. rewrite H5, <- app_assoc. reflexivity.
  Qed.
  Lemma serves_calm n : forall l, calm silent l -> calm silent (serves n l) /\ List.length (inbox (serves n l)) <= List.length (inbox l) /\ exists pre, Forall (fun x => silent (fst x) = true) pre /\ log (serves n l) = log l ++ pre.
  Proof.
    induction n as [|n IH]; intros l C; cbn [ProxyModel.serves]; [split; auto; split; auto; exists []; now rewrite app_nil_r|].
    assert (C1 : calm silent (serve1 l) /\ List.length (inbox (serve1 l)) <= List.length (inbox l) /\ exists pre, Forall (fun x => silent (fst x) = true) pre /\ log (serve1 l) = log l ++ pre).
    { destruct C as (B & F). unfold ProxyModel.serve1. destruct (inbox l) as [|x xs] eqn:E; [split; [split; auto; now rewrite E|]; split; [rewrite E; auto|exists []; now rewrite app_nil_r]|].
      inversion F as [|? ? Sx F']; subst. destruct (exec (node l) x) as (s, a). unfold calm. cbn [inbox back log]. rewrite Sx. split; auto. split; [cbn; lia|exists [(x, a)]; auto]. }
    destruct C1 as (C1 & L1 & pre1 & P1 & E1). destruct (IH _ C1) as (C2 & L2 & pre2 & P2 & E2). split; auto. split; [lia|]. exists (pre1 ++ pre2). split; [apply Forall_app; auto|]. rewrite E2, E1. now rewrite app_assoc.
  Qed.
  Definition quiet (x : Q * A) : Prop := silent (fst x) = true.

  (** What is served besides the copies of [q]: silent requests sent before. *)
  Definition others (q : Q) (x : Q * A) : Prop := silent (fst x) = true \/ fst x = q.
  Lemma serves_others q n : forall l, Forall (fun x => silent x = true \/ x = q) (inbox l) -> exists pre, Forall (others q) pre /\ log (serves n l) = log l ++ pre.
  Proof.
    induction n as [|n IH]; intros l F; cbn [ProxyModel.serves]; [exists []; now rewrite app_nil_r|].
    assert (H : Forall (fun x => silent x = true \/ x = q) (inbox (serve1 l)) /\ exists pre, Forall (others q) pre /\ log (serve1 l) = log l ++ pre).
    { unfold ProxyModel.serve1. destruct (inbox l) as [|x xs] eqn:E; [rewrite E; split; auto; exists []; now rewrite app_nil_r|]. inversion F; subst. destruct (exec (node l) x) as (s, a). cbn [inbox log]. split; auto. exists [(x, a)]. split; auto. }
    destruct H as (F1 & pre1 & P1 & E1). destruct (IH _ F1) as (pre2 & P2 & E2). exists (pre1 ++ pre2). split; [apply Forall_app; auto|]. now rewrite E2, E1, app_assoc.
  Qed.
  Lemma timely_tries q (NS : silent q = false) (FIT : fits exec accepts q) : forall fs l, calm silent l -> (forall f ok, In (f, ok) fs -> timely l f) ->
    calm silent (fst (tries q fs l)) /\
    (forall r, snd (tries q fs l) = Some r -> exists a pre, r = Some a /\ Forall (others q) pre /\ log (fst (tries q fs l)) = log l ++ pre ++ [(q, a)]) /\
    (snd (tries q fs l) = None -> exists pre, Forall (others q) pre /\ log (fst (tries q fs l)) = log l ++ pre).
  Proof.
    induction fs as [|(f, ok) fs IH]; intros l C T; cbn [ProxyModel.tries fst snd].
    - split; auto. split; [discriminate|]. intros _. exists []. now rewrite app_nil_r.
    - assert (TF := T f ok (or_introl eq_refl)). assert (CL : forall b l0, calm silent (@mkLink St Q A b [] [] (node l0) (log l0))) by (split; cbn; auto).
      assert (AGAIN : forall l0, calm silent l0 -> List.length (inbox l0) <= List.length (inbox l) -> (exists pre, Forall (others q) pre /\ log l0 = log l ++ pre) ->
        let l2 := if up l0 then l0 else reopen St Q A ok l0 in
        calm silent (fst (tries q fs l2)) /\
        (forall r, snd (tries q fs l2) = Some r -> exists a pre, r = Some a /\ Forall (others q) pre /\ log (fst (tries q fs l2)) = log l ++ pre ++ [(q, a)]) /\
        (snd (tries q fs l2) = None -> exists pre, Forall (others q) pre /\ log (fst (tries q fs l2)) = log l ++ pre)).
      { intros l0 C0 L0 (pre & P0 & E0) l2. assert (C2 : calm silent l2) by (unfold l2; destruct (up l0); [auto|apply CL]).
        assert (E2 : log l2 = log l ++ pre) by (unfold l2; destruct (up l0); auto). assert (L2 : List.length (inbox l2) <= List.length (inbox l)) by (unfold l2; destruct (up l0); cbn; lia).
        destruct (IH l2 C2) as (X & Y & Z).
        - intros f' ok' I. specialize (T f' ok' (or_intror I)). unfold timely in *. destruct f'; auto. lia.
        - split; auto. split.
          + intros r R. destruct (Y r R) as (a & p & -> & P & E). exists a, (pre ++ p). split; auto. split; [apply Forall_app; auto|]. now rewrite E, E2, <- !app_assoc.
          + intros R. destruct (Z R) as (p & P & E). exists (pre ++ p). split; [apply Forall_app; auto|]. now rewrite E, E2, <- !app_assoc. }
      unfold ProxyModel.attempt. destruct (up l) eqn:U; cbn [negb]; [|apply AGAIN; auto; exists []; now rewrite app_nil_r].
      pose proof (serves_calm) as SC. destruct C as (B & F).
      assert (SF : Forall (fun x => silent x = true \/ x = q) (inbox (send St Q A q l))). { unfold send. cbn [inbox]. apply Forall_app. split; [eapply Forall_impl; [|exact F]; auto|constructor; auto]. }
      destruct f as [n|n|n|n]; cbn [timely] in TF.
      + destruct (SC n l (conj B F)) as (_ & _ & pre & P & E). apply AGAIN; [apply CL|cbn; lia|]. exists pre. split; [eapply Forall_impl; [|exact P]; intros; now left|exact E].
      + rewrite NS. destruct (serves_others q n (send St Q A q l) SF) as (pre & P & E). apply AGAIN; [apply CL|cbn; lia|]. exists pre. auto.
      + rewrite NS. destruct (serves_answer q NS n l B F TF) as (s & a & I1 & B1 & E1 & pre & P1 & L1). rewrite B1.
        assert (AC : accepts q a = true) by (rewrite E1; apply FIT). rewrite AC. cbn [fst snd]. split; [split; cbn [back inbox]; [auto|rewrite I1; constructor]|]. split; [|discriminate].
        intros r [= <-]. exists a, pre. split; auto. split; [eapply Forall_impl; [|exact P1]; intros; now left|exact L1].
      + destruct TF.
  Qed.
  Lemma sure_tries q (NS : silent q = false) (FIT : fits exec accepts q) : forall fs l, inbox l = [] -> back l = [] -> (forall f ok, In (f, ok) fs -> sure l f) ->
    inbox (fst (tries q fs l)) = [] /\ back (fst (tries q fs l)) = [] /\
    ((snd (tries q fs l) = None /\ log (fst (tries q fs l)) = log l) \/ exists a, snd (tries q fs l) = Some (Some a) /\ log (fst (tries q fs l)) = log l ++ [(q, a)]).
  Proof.
    induction fs as [|(f, ok) fs IH]; intros l I B T; cbn [ProxyModel.tries fst snd]; [auto|].
    assert (TF := T f ok (or_introl eq_refl)). assert (AGAIN : forall b, 
        inbox (fst (tries q fs (mkLink b [] [] (node l) (log l)))) = [] /\ back (fst (tries q fs (mkLink b [] [] (node l) (log l)))) = [] /\
        ((snd (tries q fs (mkLink b [] [] (node l) (log l))) = None /\ log (fst (tries q fs (mkLink b [] [] (node l) (log l)))) = log l) \/
         exists a, snd (tries q fs (mkLink b [] [] (node l) (log l))) = Some (Some a) /\ log (fst (tries q fs (mkLink b [] [] (node l) (log l)))) = log l ++ [(q, a)])).
    { intros b. apply (IH (mkLink b [] [] (node l) (log l))); auto. intros f' ok' J. specialize (T f' ok' (or_intror J)). unfold sure in *. destruct f'; auto. rewrite I in T. exact T. }
    unfold ProxyModel.attempt. destruct (up l) eqn:U; cbn [negb]; [|rewrite U; apply AGAIN].
    destruct f as [n|n|n|n]; cbn [sure] in TF; [| |rewrite NS|destruct TF].
    - cbn [closed up]. assert (SE : forall m, serves m l = l). { induction m as [|m IHm]; cbn [ProxyModel.serves]; auto. unfold ProxyModel.serve1. now rewrite I. } rewrite SE. apply AGAIN.
    - destruct TF.
    - destruct (serves_answer q NS n l B) as (s & a & I1 & B1 & E1 & pre & P1 & L1); [rewrite I; constructor|auto|]. rewrite B1.
      assert (AC : accepts q a = true) by (rewrite E1; apply FIT). rewrite AC. cbn [fst snd inbox back log]. split; auto. split; auto. right. exists a. split; auto.
      pose proof (serves_queue n (send St Q A q l)) as SQ. rewrite I1, app_nil_r, L1 in SQ. unfold send in SQ. cbn [log inbox] in SQ. rewrite I in SQ. cbn [app] in SQ. rewrite !map_app in SQ. apply app_inv_head in SQ.
      destruct pre as [|x pre]; [exact L1|]. apply (f_equal (@List.length Q)) in SQ. cbn [map app List.length] in SQ. rewrite app_length in SQ. cbn in SQ. lia.
  Qed.
End Proxy.
