(** Whole sessions in both protocols (C58). *)
From Coq Require Import String.
From stdpp Require Import gmap.
From Coq Require Import ZifyBool ZifyNat ZifyN.
From Verif Require Import Base BaseLemmas StorageModel StorageSpec StorageProofs StorageProofs2 StorageProofs3 StorageProofs4
  TextModel TextSpec TextProofs TextProofs2 TextProofs3 TextProofs4 ClientSpec SessionModel SessionProofs ServerModel ServerProofs ServerProofs2 ReplicaProofs ReplicaProofs2
  MemcachedSpec MemcachedProofs OtherProofs StorageProofs6 MemcachedProofs2 StreamModel BinaryModel BinarySpec BinaryProofs BinaryProofs2 BinaryServerModel BinaryServerSpec BinaryServerProofs.
Local Open Scope N_scope.
Local Open Scope list_scope.

Lemma binary_first a rest : is_binary (bwire a ++ rest) = true.
Proof. reflexivity. Qed.
Lemma text_first c rest : legal_call c -> is_binary (wire c ++ rest) = false.
Proof.
  intros H. destruct c as [[] k f x d nr|k f x d t nr|k x nr|k x nr|k nr|[] k v nr|[] ks|nr|v nr| | |w r|]; try reflexivity.
  cbn [wire legal_call] in *. destruct H as ((Hne & _) & _ & _ & _ & H & _). destruct w as [|b w]; [congruence|]. cbn [app is_binary hd] in *.
  unfold magic_request. now apply N.eqb_neq.
Qed.
Lemma unfit_dec now m q : {unfit now m q} + {~ unfit now m q}.
Proof.
  destruct q as [c|a]; cbn [unfit]; [apply too_long_dec|].
  destruct (N.ltb 2147483647 (blen (extras_of (a_call a)) + blen (key_of (a_call a)) + blen (value_of (a_call a)))) eqn:H;
    [apply N.ltb_lt in H; left; now left|apply N.ltb_ge, N.le_ngt in H].
  assert (D1 : {exists t, counterpart (a_call a) = Some t /\ too_long now m t} + {~ exists t, counterpart (a_call a) = Some t /\ too_long now m t}).
  { destruct (counterpart (a_call a)) as [t|]; [|right; intros (t & E & _); discriminate]. destruct (too_long_dec now m t) as [L|L]; [left; eauto|right].
    intros (t' & [= <-] & L'). contradiction. }
  assert (D2 : {exists up k v i, a_call a = QCount up k v (Some i) /\ look m now k = None} + {~ exists up k v i, a_call a = QCount up k v (Some i) /\ look m now k = None}).
  { destruct (a_call a) as [| | | | |up k v [i|]| | | | |]; try (right; intros (? & ? & ? & ? & E & _); discriminate).
    destruct (look m now k) as [r|] eqn:L; [right|left; eauto 8]. intros (? & ? & ? & ? & [= <- <- <- <-] & E). congruence. }
  destruct D1, D2; try (right; tauto); left; tauto.
Qed.
Lemma ask_step T M s m now q : quiet T M s -> shows (fun _ => True) T m s -> (T <= now)%Z -> sane_clock now -> M + 1 < 2 ^ 64 ->
  ask_legal q -> ~ unfit now m q ->
  exists s1 m1 out, (forall rest, run_any now s (ask_wire q ++ rest) = Ok (s1, out, rest) /\ quits_any now (ask_wire q ++ rest) = ask_quits q)
  /\ ask_does plain_answer now m q m1 out /\ quiet now (M + 1) s1 /\ shows (fun _ => True) now m1 s1.
Proof.
  intros Q Sh HT Hn HM Hl Hu. destruct q as [c|a]; cbn [ask_legal ask_wire unfit] in *.
  - destruct (line_call (fun _ => True) T M s m now c Q Sh HT Hn HM Hl (fun _ _ => I) Hu) as (p & m1 & Hrun & Hdo & Q1 & Sh1).
    exists (p_store p), m1, (p_answer p). split; [|split; [exact Hdo|split; [exact Q1|exact Sh1]]]. intros rest.
    unfold run_any, quits_any. rewrite (text_first c rest Hl), Hrun. cbn [bind]. split; [reflexivity|].
    rewrite (quits_call now c rest m Hl Hu). destruct c; reflexivity.
  - assert (Hf : fits a) by (unfold fits; apply N.nlt_ge; intros H; apply Hu; left; exact H).
    destruct (bfine_ask (fun _ => True) T M s m now now Q Sh HT Hn Hn HM a ltac:(destruct (a_call a); exact I) Hl Hu) as (s1 & m1 & y & Hrun & Hdo & Q1 & Sh1).
    exists s1, m1, (plain_answer a y). split; [|split; [exists y; split; [exact Hdo|reflexivity]|split; [exact Q1|exact Sh1]]]. intros rest.
    unfold run_any, quits_any. rewrite (binary_first a rest), (bserved now a rest Hl Hf). cbn [bind]. rewrite Hrun. split; [reflexivity|].
    cbn [ask_quits]. destruct a as [q op c]. destruct c as [[]| | | | |? ? ? [[]|]| | | | |], q; reflexivity.
Qed.
Lemma quit_keeps answer now m q m1 out : ask_quits q = true -> ask_does answer now m q m1 out -> m1 = m.
Proof.
  destruct q as [c|a]; cbn [ask_quits ask_does].
  - destruct c; try discriminate. intros _ H. inversion H. reflexivity.
  - destruct a as [qq op c]. cbn [a_call]. destruct c; try discriminate. intros _ (y & H & _).
    inversion H as [c t m' w st msg Hc Hd| | | | | |]; subst. cbn [counterpart] in Hc. injection Hc as <-. inversion Hd. reflexivity.
Qed.
Lemma mixed_spec l : forall T M s m rest, quiet T M s -> shows (fun _ => True) T m s -> sane_clock T -> rising_asks T l ->
  Forall (fun p => ask_legal (snd p)) l -> M + N.of_nat (length l) < 2 ^ 64 ->
  exists l1 l2 s' m' out, l = l1 ++ l2
    /\ run_mixed (map fst l1) s (sent_asks l1 ++ rest) = Ok (s', out)
    /\ mixed plain_answer m l1 m' out
    /\ match l2 with [] => exists T', shows (fun _ => True) T' m' s' | (now, q) :: _ => unfit now m' q end.
Proof.
  induction l as [|[now q] l IH]; intros T M s m rest Q Sh HT Hr Hl HM.
  - exists [], [], s, m, []. split; [reflexivity|]. split; [reflexivity|]. split; [constructor|eauto].
  - destruct (unfit_dec now m q) as [Hlong|Hshort].
    { exists [], ((now, q) :: l), s, m, []. split; [reflexivity|]. split; [reflexivity|]. split; [constructor|exact Hlong]. }
    destruct Hr as (Hnow & Hr). inversion Hl as [|? ? Hc Hl']; subst. cbn [snd] in Hc.
    assert (HM1 : M + 1 < 2 ^ 64). { cbn [length] in HM. clear - HM. change (2 ^ 64) with 18446744073709551616 in *. lia. }
    assert (Hsn : sane_clock now) by (unfold sane_clock in *; lia).
    destruct (ask_step T M s m now q Q Sh (proj1 Hnow) Hsn HM1 Hc Hshort) as (s1 & m1 & out1 & Hrun & Hdo & Q1 & Sh1).
    destruct (ask_quits q) eqn:Eq.
    { exists ((now, q) :: l), [], s1, m1, out1. split; [now rewrite app_nil_r|].
      assert (m1 = m) as -> by exact (quit_keeps _ _ _ _ _ _ Eq Hdo).
      split; [|split; [apply mix_quit; [exact Eq|exact Hdo]|eauto]].
      cbn [map fst sent_asks flat_map snd]. rewrite <- app_assoc. cbn [run_mixed].
      change (flat_map (fun p0 => ask_wire (snd p0)) l) with (sent_asks l).
      destruct (Hrun (sent_asks l ++ rest)) as (-> & ->). reflexivity. }
    destruct (IH now (M + 1) s1 m1 rest Q1 Sh1 Hsn Hr Hl') as (l1 & l2 & s' & m' & out & -> & Hses & Hcon & Hend).
    { cbn [length] in HM. clear - HM. change (2 ^ 64) with 18446744073709551616 in *. lia. }
    exists ((now, q) :: l1), l2, s', m', (out1 ++ out). split; [reflexivity|].
    split; [|split; [econstructor; eauto|exact Hend]].
    cbn [map fst sent_asks flat_map snd]. rewrite <- app_assoc. cbn [run_mixed].
    change (flat_map (fun p0 => ask_wire (snd p0)) l1) with (sent_asks l1).
    destruct (Hrun (sent_asks l1 ++ rest)) as (-> & ->). cbn [bind]. rewrite Hses. reflexivity.
Qed.
Lemma mixed_init n l rest : rising_asks 2592000 l -> Forall (fun p => ask_legal (snd p)) l -> N.of_nat (length l) < 2 ^ 64 ->
  exists l1 l2 s' m' out, l = l1 ++ l2
    /\ run_mixed (map fst l1) (init_store n) (sent_asks l1 ++ rest) = Ok (s', out)
    /\ mixed plain_answer (fun _ => None) l1 m' out
    /\ match l2 with [] => exists T', shows (fun _ => True) T' m' s' | (now, q) :: _ => unfit now m' q end.
Proof.
  intros Hr Hl Hn. apply (mixed_spec l 2592000 0 (init_store n) (fun _ => None) rest (quiet_init _ _) (shows_init _ _)); auto.
  unfold sane_clock. change (2 ^ 62)%Z with 4611686018427387904%Z. lia.
Qed.
