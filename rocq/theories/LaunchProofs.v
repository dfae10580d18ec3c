From Coq Require Import NArith ZArith List Bool String Lia.
From Coq Require Import ZifyBool ZifyNat ZifyN.
From Verif Require Import Base BaseLemmas TextModel LaunchModel LaunchSpec.
Import ListNotations.
Local Open Scope N_scope.
Local Open Scope list_scope.

Lemma launch_spec works plan : forall l ok, launch works plan = (l, ok) ->
  Forall (fun d => works d = true) l /\ (if ok then l = plan else exists d rest, plan = l ++ d :: rest /\ works d = false).
Proof.
  induction plan as [|d plan IH]; intros l ok E; cbn [launch] in E; [injection E as <- <-; split; [constructor|reflexivity]|].
  destruct (works d) eqn:W; [|injection E as <- <-; split; [constructor|]; exists d, plan; auto].
  destruct (launch works plan) as [l0 ok0]. injection E as <- <-. destruct (IH _ _ eq_refl) as [A B]. split; [now constructor|].
  destruct ok0; [now f_equal|]. destruct B as (x & rest & -> & X). exists x, rest. auto.
Qed.
Lemma launch_all works plan : forall l, launch works plan = (l, true) <-> l = plan /\ forall d, In d plan -> works d = true.
Proof.
  induction plan as [|d plan IH]; intros l; cbn [launch In]; [split; [intros [= <-]; split; [reflexivity|intros d []]|intros [-> _]; reflexivity]|].
  destruct (works d) eqn:W; [|split; [discriminate|intros [_ H]; rewrite (H d (or_introl eq_refl)) in W; discriminate W]].
  destruct (launch works plan) as [l0 ok0]. split.
  - intros [= <- ->]. destruct (proj1 (IH l0) eq_refl) as [-> B]. split; [reflexivity|]. intros d' [<-|H]; auto.
  - intros [-> B]. assert (X : (l0, ok0) = (plan, true)) by (apply IH; auto). now injection X as -> ->.
Qed.
Lemma cstr_plain p q : Forall (fun c => c <> 0) p -> cstr (p ++ 0 :: q) = p.
Proof. induction 1 as [|c p Hc Hp IH]; [reflexivity|]. cbn [app cstr]. replace (c =? 0) with false by lia. now rewrite IH. Qed.
Lemma cstr_app p q : Forall (fun c => c <> 0) p -> cstr (p ++ q) = p ++ cstr q.
Proof. induction 1 as [|c p Hc Hp IH]; [reflexivity|]. cbn [app cstr]. replace (c =? 0) with false by lia. now rewrite IH. Qed.
Lemma cstr_id p : Forall (fun c => c <> 0) p -> cstr p = p.
Proof. intros H. rewrite <- (app_nil_r p) at 1. rewrite cstr_app by exact H. cbn. apply app_nil_r. Qed.
Lemma reported_short p mem : Forall (fun c => c <> 0) p -> (List.length p <= 13)%nat -> reported p mem = p.
Proof.
  intros H L. unfold reported. rewrite firstn_all2 by (rewrite app_length; cbn; lia). rewrite <- app_assoc. now apply cstr_plain.
Qed.
Lemma reported_long p mem : Forall (fun c => c <> 0) p -> (14 <= List.length p)%nat -> reported p mem = firstn 14 p ++ cstr mem.
Proof.
  intros H L. unfold reported. rewrite firstn_app. replace (14 - List.length p)%nat with 0%nat by lia. cbn [firstn]. rewrite app_nil_r. apply cstr_app.
  rewrite <- (firstn_skipn 14 p) in H. apply Forall_app in H. tauto.
Qed.
Lemma bound_plain p : Forall (fun c => c <> 0) p -> bound_path p = firstn 107 p.
Proof. intros H. unfold bound_path. now rewrite cstr_id. Qed.
Lemma set_path_same ps p b : set_path ps p b p = b.
Proof. unfold set_path. now rewrite (proj2 (beq_eq p p) eq_refl). Qed.
Lemma set_path_other ps p b q : q <> p -> set_path ps p b q = ps q.
Proof. intros N0. unfold set_path. destruct (beq q p) eqn:E; [|reflexivity]. apply beq_eq in E. congruence. Qed.

Lemma lives_inv p : plain_name p -> (List.length p <= 13)%nat -> forall es m m' dirty, m_paths m p = (m_up m || dirty)%bool -> (m_up m = true -> dirty = false) ->
  live p m es = Some m' -> m_paths m' p = (m_up m' || left_behind dirty es)%bool /\ (m_up m' = true -> left_behind dirty es = false) /\ (forall q, q <> p -> m_paths m' q = m_paths m q).
Proof.
  intros [_ P] L. assert (B : bound_path p = p) by (rewrite bound_plain by exact P; apply firstn_all2; lia).
  induction es as [|e es IH]; intros m m' dirty I1 I2 E; cbn [live left_behind] in *; [injection E as <-; auto|].
  destruct (live_step p m e) as [m1|] eqn:S1; [|discriminate E]. destruct m as [ps up]. cbn [m_paths m_up] in *.
  assert (G : forall d, m_paths m1 p = (m_up m1 || d)%bool -> (m_up m1 = true -> d = false) -> (forall q, q <> p -> m_paths m1 q = ps q) -> left_behind d es = left_behind dirty (e :: es) ->
    m_paths m' p = (m_up m' || left_behind dirty (e :: es))%bool /\ (m_up m' = true -> left_behind dirty (e :: es) = false) /\ (forall q, q <> p -> m_paths m' q = ps q)).
  { intros d A1 A2 A3 <-. destruct (IH _ _ d A1 A2 E) as (X & Y & Z). split; [exact X|]. split; [exact Y|]. intros q Q. rewrite Z by exact Q. now apply A3. }
  cbn [left_behind] in G. destruct e as [|mem|mem| |], up; cbn [live_step m_up m_paths] in S1; try discriminate S1.
  - unfold listen_unix in S1. rewrite B, I1 in S1. cbn [orb] in S1. destruct dirty; injection S1 as <-; cbn [m_up m_paths] in *.
    + apply (G true); auto.
    + apply (G false); auto; [now rewrite set_path_same|intros q Q; now apply set_path_other].
  - unfold listen_unix in S1. rewrite B, I1 in S1. cbn [orb] in S1. destruct dirty; injection S1 as <-; cbn [m_up m_paths] in *; [apply (G true); auto|].
    unfold close_unix in *. rewrite (reported_short p mem P L) in *. apply (G false); auto; [now rewrite set_path_same|intros q Q; now rewrite !set_path_other].
  - injection S1 as <-. cbn [m_up m_paths] in *. unfold close_unix in *. rewrite B, (reported_short p mem P L) in *. apply (G false); auto; [now rewrite set_path_same|intros q Q; now apply set_path_other].
  - injection S1 as <-. cbn [m_up m_paths] in *. apply (G true); auto.
  - injection S1 as <-. cbn [m_up m_paths] in *. rewrite B in *. apply (G false); auto; [now rewrite set_path_same|intros q Q; now apply set_path_other].
Qed.
