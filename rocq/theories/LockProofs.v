(** Proofs for the lock model: names of lock nodes and their order. *)
From Coq Require Import String.
From Coq Require Import NArith ZArith List Bool Lia ZifyBool ZifyNat ZifyN Permutation Sorting.Sorted.
From Verif Require Import Base BaseLemmas TextModel ClusterModel ClusterProofs MemcachedProofs3 LockModel.
Import ListNotations.
Local Open Scope N_scope.
Local Open Scope list_scope.

(** ** Ten digits are ordered as the numbers *)
Notation digits := (Forall (fun c => is_digit c = true)).
Notation dv := (fold_left (fun n d => n * 10 + (d - 48))).
Lemma dv_lt l x : digits l -> dv l x < (x + 1) * 10 ^ N.of_nat (length l).
Proof.
  revert x. induction l as [|d l IH]; intros x H; cbn [length fold_left]; [change (10 ^ N.of_nat 0) with 1; lia|].
  inversion H as [|? ? Hd Hl]; subst. apply is_digit_range in Hd. specialize (IH (x * 10 + (d - 48)) Hl).
  rewrite Nat2N.inj_succ, N.pow_succ_r'. eapply N.lt_le_trans; [exact IH|]. rewrite N.mul_assoc. apply N.mul_le_mono_r. lia.
Qed.
Lemma blt_digits a b x : digits a -> digits b -> length a = length b -> blt a b = (dv a x <? dv b x).
Proof.
  revert b x. induction a as [|c a IH]; intros [|d b] x Ha Hb E; try discriminate; cbn [blt fold_left].
  - symmetry. apply N.ltb_ge. lia.
  - inversion Ha as [|? ? Hc Ha']; subst. inversion Hb as [|? ? Hd Hb']; subst. injection E as E.
    apply is_digit_range in Hc, Hd.
    assert (G : forall u v a b, digits a -> length a = length b -> u < v -> dv a u < dv b v).
    { clear. intros u v a b Ha E L. pose proof (dv_lt a u Ha) as H1. pose proof (dec_val_grows b v) as H2. rewrite <- E in H2.
      assert ((u + 1) * 10 ^ N.of_nat (length a) <= v * 10 ^ N.of_nat (length a)) by (apply N.mul_le_mono_r; lia). lia. }
    destruct (c <? d) eqn:L1.
    + symmetry. apply N.ltb_lt. apply G; auto. lia.
    + destruct (d <? c) eqn:L2.
      * symmetry. apply N.ltb_ge. apply N.lt_le_incl. apply G; auto. lia.
      * assert (c = d) as -> by lia. now apply IH.
Qed.
Lemma pad_digits k l : digits l -> digits (pad k l).
Proof. intros H. unfold pad. apply Forall_app. split; auto. apply Forall_forall. intros c I. apply repeat_spec in I as ->. reflexivity. Qed.
Lemma pad_length k l : (length l <= k)%nat -> length (pad k l) = k.
Proof. intros H. unfold pad. rewrite app_length, repeat_length. lia. Qed.
Lemma pad_val k l : dec_val (pad k l) = dec_val l.
Proof.
  unfold pad, dec_val. rewrite fold_left_app. f_equal. generalize (k - length l)%nat as n.
  assert (forall n, dv (repeat 48 n) 0 = 0) as H; [|auto]. induction n; cbn; auto.
Qed.
Lemma small_counter n : n < 2 ^ 31 -> u32_to_i32 (u32 n) = Z.of_N n.
Proof. intros H. rewrite u32_small by (change (2 ^ 31) with 2147483648 in H; change (2 ^ 32) with 4294967296; lia). unfold u32_to_i32. destruct (n <? 2 ^ 31) eqn:E; auto. lia. Qed.
Lemma fmt10_small n : n < 2 ^ 31 -> fmt10 (u32_to_i32 (u32 n)) = pad 10 (dec n).
Proof. intros H. rewrite small_counter by auto. unfold fmt10. destruct (Z.of_N n <? 0)%Z eqn:E; [lia|]. now rewrite N2Z.id. Qed.
Lemma small_length n : n < 2 ^ 31 -> length (pad 10 (dec n)) = 10%nat.
Proof.
  intros H. apply pad_length. apply dec_length; [lia|]. change (10 ^ N.of_nat 10) with 10000000000. change (2 ^ 31) with 2147483648 in H. lia.
Qed.
Lemma fmt_order a b : a < 2 ^ 31 -> b < 2 ^ 31 -> blt (pad 10 (dec a)) (pad 10 (dec b)) = (a <? b).
Proof.
  intros A B. rewrite (blt_digits _ _ 0) by (rewrite ?small_length by auto; auto using pad_digits, dec_digits).
  change (dv (pad 10 (dec a)) 0) with (dec_val (pad 10 (dec a))). change (dv (pad 10 (dec b)) 0) with (dec_val (pad 10 (dec b))).
  now rewrite !pad_val, !dec_val_dec.
Qed.

(** ** Suffixes *)
Lemma suffix_plain l : Forall (fun c => c <> 45) l -> suffix l = l.
Proof.
  intros H. destruct l as [|c t]; auto. cbn [suffix]. inversion H as [|? ? Hc Ht]; subst.
  assert (existsb (N.eqb 45) t = false) as ->.
  { apply not_true_is_false. intros E. apply existsb_exists in E as (x & I & E). apply N.eqb_eq in E. rewrite Forall_forall in Ht. now apply (Ht x I). }
  destruct (c =? 45) eqn:E; auto. apply N.eqb_eq in E. contradiction.
Qed.
Lemma suffix_app p l : Forall (fun c => c <> 45) l -> suffix (p ++ 45 :: l) = l.
Proof.
  intros H. assert (E : existsb (N.eqb 45) l = false).
  { apply not_true_is_false. intros E. apply existsb_exists in E as (x & I & E). apply N.eqb_eq in E. rewrite Forall_forall in H. now apply (H x I). }
  induction p as [|c p IH]; cbn [app suffix].
  - now rewrite E.
  - assert (existsb (N.eqb 45) (p ++ 45 :: l) = true) as ->; auto. apply existsb_exists. exists 45. split; auto. apply in_or_app. right. now left.
Qed.
Lemma suffix_name u n : n < 2 ^ 31 -> suffix (node_name (lock_prefix u) n) = pad 10 (dec n).
Proof.
  intros H. unfold node_name, lock_prefix. rewrite fmt10_small by auto.
  change (s2b "-lock-") with ([45; 108; 111; 99; 107] ++ [45]). rewrite app_assoc, <- app_assoc. cbn [app]. rewrite suffix_app; auto.
  eapply Forall_impl; [|apply pad_digits, dec_digits]. cbv beta. intros c D. apply is_digit_range in D. lia.
Qed.
Lemma name_order u v a b : a < 2 ^ 31 -> b < 2 ^ 31 -> suffix_lt (node_name (lock_prefix u) a) (node_name (lock_prefix v) b) = (a <? b).
Proof. intros A B. unfold suffix_lt. rewrite !suffix_name by auto. now apply fmt_order. Qed.

(** ** Sorting *)
Lemma suffix_lt_irrefl a : suffix_lt a a = false. Proof. apply blt_irrefl. Qed.
Lemma suffix_lt_trans a b c : suffix_lt a b = true -> suffix_lt b c = true -> suffix_lt a c = true. Proof. apply blt_trans. Qed.
Lemma suffix_lt_asym a b : suffix_lt a b = true -> suffix_lt b a = false.
Proof. intros H. destruct (suffix_lt b a) eqn:E; auto. pose proof (suffix_lt_trans _ _ _ H E) as X. now rewrite suffix_lt_irrefl in X. Qed.
Lemma suffix_lt_total a b : suffix_lt a b = false -> suffix_lt b a = false -> suffix a = suffix b.
Proof.
  unfold suffix_lt. intros A B. destruct (beq (suffix a) (suffix b)) eqn:E; [now apply beq_eq|].
  pose proof (blt_total _ _ A E) as X. congruence.
Qed.
Definition distinct (l : list bytes) : Prop := forall a b, In a l -> In b l -> suffix a = suffix b -> a = b.
Lemma insert_in x l y : In y (insert x l) <-> y = x \/ In y l.
Proof. induction l as [|z l IH]; cbn [insert In]; [intuition|]. destruct (suffix_lt z x); cbn [In]; rewrite ?IH; intuition. Qed.
Lemma sort_in l y : In y (sort l) <-> In y l.
Proof. induction l as [|z l IH]; cbn [sort fold_right In]; [reflexivity|]. fold (sort l). rewrite insert_in, IH. intuition. Qed.
Lemma insert_comm x y l : (suffix x = suffix y -> x = y) -> insert x (insert y l) = insert y (insert x l).
Proof.
  intros D. induction l as [|z l IH]; cbn [insert].
  - destruct (suffix_lt y x) eqn:A, (suffix_lt x y) eqn:B; auto.
    + apply suffix_lt_asym in A. congruence.
    + rewrite D; auto. now apply suffix_lt_total.
  - destruct (suffix_lt z y) eqn:A, (suffix_lt z x) eqn:B; cbn [insert]; rewrite ?A, ?B; try (now rewrite IH); auto.
    + destruct (suffix_lt x y) eqn:C; auto. exfalso. 
      destruct (suffix_lt y x) eqn:E.
      * pose proof (suffix_lt_trans _ _ _ A E). congruence.
      * rewrite (D (suffix_lt_total _ _ C E)) in B. congruence.
    + destruct (suffix_lt y x) eqn:C; auto. exfalso. 
      destruct (suffix_lt x y) eqn:E.
      * pose proof (suffix_lt_trans _ _ _ B E). congruence.
      * rewrite (D (suffix_lt_total _ _ E C)) in B. congruence.
    + destruct (suffix_lt y x) eqn:C, (suffix_lt x y) eqn:E; rewrite ?A, ?B; auto.
      * apply suffix_lt_asym in C. congruence.
      * rewrite D; auto. now apply suffix_lt_total.
Qed.
Lemma sort_perm l m : Permutation l m -> distinct l -> sort l = sort m.
Proof.
  intros P. induction P; intros D; cbn [sort fold_right].
  - reflexivity.
  - fold (sort l) (sort l'). rewrite IHP; auto. intros a b A B. apply D; now right.
  - fold (sort l). apply insert_comm. intros E. apply D; cbn; auto.
  - rewrite IHP1 by auto. apply IHP2. intros a b A B. apply D; eapply Permutation_in; try apply Permutation_sym; eauto.
Qed.
Notation ascending := (StronglySorted (fun a b => suffix_lt a b = true)).
Lemma insert_head x l : Forall (fun b => suffix_lt x b = true) l -> insert x l = x :: l.
Proof. intros H. destruct l as [|y l]; auto. inversion H as [|? ? Hy _]; subst. cbn [insert]. now rewrite (suffix_lt_asym _ _ Hy). Qed.
Lemma sort_id l : ascending l -> sort l = l.
Proof. intros H. induction H as [|x l S IH F]; auto. cbn [sort fold_right]. fold (sort l). rewrite IH. now apply insert_head. Qed.
Lemma ascending_distinct l : ascending l -> distinct l.
Proof.
  intros H. induction H as [|x l S IH F]; intros a b A B E; [destruct A|]. rewrite Forall_forall in F.
  destruct A as [<-|A], B as [<-|B]; auto.
  - specialize (F _ B). unfold suffix_lt in F. rewrite E in F. now rewrite blt_irrefl in F.
  - specialize (F _ A). unfold suffix_lt in F. rewrite E in F. now rewrite blt_irrefl in F.
Qed.
Lemma remove1_perm x m : has x m = true -> Permutation (x :: remove1 x m) m.
Proof.
  unfold has. induction m as [|y m IH]; cbn [existsb remove1]; [discriminate|]. intros H. destruct (beq x y) eqn:E.
  - apply beq_eq in E as ->. reflexivity.
  - cbn [orb] in H. rewrite perm_swap. now apply perm_skip, IH.
Qed.
Lemma same_names_perm l m : same_names l m = true -> Permutation l m.
Proof.
  revert m. induction l as [|x l IH]; intros m H; cbn [same_names] in H.
  - now destruct m.
  - apply andb_true_iff in H as (A & B). rewrite <- (remove1_perm x m A). apply perm_skip. now apply IH.
Qed.
Lemma remove1_self x m : remove1 x (x :: m) = m. Proof. cbn [remove1]. now rewrite beq_refl. Qed.
Lemma same_names_refl l : same_names l l = true.
Proof. induction l as [|x l IH]; auto. cbn [same_names]. unfold has. cbn [existsb]. rewrite beq_refl, remove1_self. exact IH. Qed.

(** ** Choosing the node to wait for *)
Lemma floor_none l x acc : (forall y, In y l -> suffix_lt y x = false) ->
  fold_left (fun acc n => if suffix_lt n x then Some n else acc) l acc = acc.
Proof. revert acc. induction l as [|y l IH]; intros acc H; auto. cbn [fold_left]. rewrite (H y (or_introl eq_refl)). apply IH. intros z I. apply H. now right. Qed.
Lemma decide_spec v l id : ascending l -> Permutation v l -> In id l ->
  exists f t, l = f :: t /\
  ((id = f /\ decide v id = Ok RWin) \/ (id <> f /\ exists p, In p l /\ suffix_lt p id = true /\ decide v id = Ok (RWatch p))).
Proof.
  intros A P I. unfold decide. rewrite (sort_perm v l P) by (intros a b Ha Hb; apply (ascending_distinct l A); eapply Permutation_in; eauto).
  rewrite (sort_id l A). destruct l as [|f t]; [destruct I|]. exists f, t. split; auto.
  inversion A as [|? ? A' F]; subst. rewrite Forall_forall in F. unfold child_floor.
  destruct (beq id f) eqn:E.
  - apply beq_eq in E as ->. left. split; auto. rewrite floor_none; auto.
    intros y [<-|Y]; [apply suffix_lt_irrefl|]. now apply suffix_lt_asym, F.
  - right. assert (N : id <> f) by (intros ->; now rewrite beq_refl in E). split; auto.
    destruct I as [->|I]; [contradiction|]. cbn [fold_left]. rewrite (F _ I).
    assert (G : forall l p, suffix_lt p id = true -> exists q, (In q l \/ q = p) /\ suffix_lt q id = true /\
      fold_left (fun acc n => if suffix_lt n id then Some n else acc) l (Some p) = Some q).
    { clear. induction l as [|y l IH]; intros p Hp; cbn [fold_left]; [exists p; auto|].
      destruct (suffix_lt y id) eqn:Y.
      - destruct (IH y Y) as (q & Q & Hq & Eq). exists q. split; [|auto]. destruct Q as [Q| ->]; cbn; auto.
      - destruct (IH p Hp) as (q & Q & Hq & Eq). exists q. split; [|auto]. destruct Q as [Q| ->]; cbn; auto. }
    destruct (G t f (F _ I)) as (q & Q & Hq & Eq). exists q. rewrite Eq. split; [|split; auto]. destruct Q as [Q| ->]; cbn; auto.
Qed.
