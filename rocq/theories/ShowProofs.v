(** Proofs for C80: which threads are collected. *)
From Coq Require Import NArith ZArith List Bool Lia Permutation Sorting.Sorted.
From Coq Require Import ZifyBool ZifyNat ZifyN.
From Verif Require Import PoolModel PoolSpec PoolProofs ShowModel ShowSpec.
Import ListNotations.
Local Open Scope N_scope.
Local Open Scope list_scope.
Local Notation entry := (Z * N * N)%type.

(** ** Ids over time *)
Lemma trace_step n s e s' : early n s -> 1 + n < 2 ^ 32 \/ is_draw e = false -> step s e = Some s' ->
  forall w x, In x (actives (pools s' w)) -> In x (actives (pools s w)) \/ id_of x = counter s.
Proof.
  intros V LT E. assert (K : forall w p, (forall x, In x (actives p) -> In x (actives (pools s w)) \/ id_of x = counter s) ->
    forall v x, In x (actives (set_pool s w p v)) -> In x (actives (pools s v)) \/ id_of x = counter s).
  { intros w p H v x. unfold set_pool. destruct (which_eqb v w) eqn:W; [apply which_eq in W as ->; auto|auto]. }
  destruct e as [w ty|w ty t|w|w t|w t|w m|id|id t]; cbn [step is_draw] in *.
  - injection E as <-. destruct (stack _); cbn [pools]; [auto|apply K; auto].
  - destruct (registering _); [discriminate E|]. destruct (existsb _ _); [|discriminate E]. injection E as <-. cbn [pools]. apply K. auto.
  - destruct (registering _) as [[ty t]|]; [|discriminate E]. destruct LT as [LT|LT]; [|discriminate LT]. destruct V as [A _ _].
    assert (C0 : counter s mod 2 ^ 32 = counter s) by (apply N.mod_small; lia). rewrite C0 in E.
    destruct (_ || _); injection E as <-; cbn [pools]; [auto|]. apply K. cbn [actives]. intros x [<-|H]; auto.
  - destruct (registering _); [discriminate E|]. destruct (find _ _) as [[[ty id] t']|]; [|discriminate E]. injection E as <-. cbn [pools]. apply K.
    cbn [actives]. intros x H. apply filter_In in H as (H & _). auto.
  - destruct (existsb _ _); [|discriminate E]. injection E as <-. cbn [pools]. apply K. auto.
  - injection E as <-. cbn [pools]. apply K. auto.
  - destruct (lookup s id); injection E as <-; cbn [pools]; auto.
  - destruct (existsb _ _); [|discriminate E]. injection E as <-. cbn [pools]. auto.
Qed.
Lemma draws_cons e es : draws (e :: es) = (if is_draw e then 1 else 0) + draws es.
Proof. unfold draws. cbn [filter]. destruct e; cbn [List.length is_draw]; lia. Qed.
Lemma draws_app a b : draws (a ++ b) = draws a + draws b.
Proof. unfold draws. rewrite filter_app, app_length. lia. Qed.
Lemma trace_steps : forall es n s s', early n s -> n + draws es < 2 ^ 32 -> steps s es = Some s' ->
  forall w x, In x (actives (pools s' w)) -> In x (actives (pools s w)) \/ counter s <= id_of x.
Proof.
  induction es as [|e es IH]; cbn [steps]; intros n s s' V L E w x H.
  - injection E as <-. auto.
  - destruct (step s e) as [s1|] eqn:S1; [|discriminate E]. rewrite draws_cons in L.
    assert (LT : 1 + n < 2 ^ 32 \/ is_draw e = false) by (destruct (is_draw e); [left|auto]; lia).
    pose proof (early_step n s e s1 V LT S1) as V1. destruct (IH _ s1 s' V1 ltac:(lia) E w x H) as [H1|H1].
    + destruct (trace_step n s e s1 V LT S1 w x H1) as [H2|H2]; [auto|right; lia].
    + right. rewrite (e_counter _ _ V1) in H1. rewrite (e_counter _ _ V). lia.
Qed.
Lemma same_id n s w v x y : early n s -> inv s -> In x (actives (pools s w)) -> In y (actives (pools s v)) -> id_of x = id_of y -> w = v /\ x = y.
Proof.
  intros V I X Y E. assert (W : w = v).
  { destruct w, v; auto; exfalso; apply (e_apart _ _ V (id_of x)); [exact (in_map id_of _ _ X)|rewrite E; exact (in_map id_of _ _ Y)|rewrite E; exact (in_map id_of _ _ Y)|exact (in_map id_of _ _ X)]. }
  split; [exact W|]. subst v. destruct (v_good s I w) as (ND & _). pose proof (nodup_ids_find _ _ ND X) as A. pose proof (nodup_ids_find _ _ ND Y) as B. rewrite E in A. congruence.
Qed.
(** An id means the same thread at all times. *)
Lemma same_later n s es s' w v x y : early n s -> inv s -> n + draws es < 2 ^ 32 -> steps s es = Some s' ->
  In x (actives (pools s w)) -> In y (actives (pools s' v)) -> id_of x = id_of y -> w = v /\ x = y.
Proof.
  intros V I L E X Y H. destruct (trace_steps es n s s' V L E v y Y) as [Y1|Y1]; [eapply same_id; eauto|]. exfalso.
  pose proof (e_below _ _ V w) as B. rewrite Forall_forall in B. specialize (B _ (in_map id_of _ _ X)). lia.
Qed.

(** ** The order *)
Lemma put_perm a l : Permutation (put a l) (a :: l).
Proof.
  induction l as [|b l IH]; cbn [put]; [reflexivity|]. destruct (before a b); [reflexivity|]. rewrite IH. apply perm_swap.
Qed.
Lemma in_order_perm l : Permutation (in_order l) l.
Proof. induction l as [|a l IH]; [reflexivity|]. cbn [in_order fold_right]. fold (in_order l). rewrite put_perm. now constructor. Qed.
Definition fits (ty : option Z) (e : entry) : Prop := match ty with Some ty => fst (fst e) = ty | None => True end.
Lemma info_in ty p e : In e (get_thread_info ty p) <-> In e (actives p) /\ fits ty e.
Proof.
  unfold get_thread_info, fits. transitivity (In e match ty with None => actives p | Some ty => filter (fun e => (fst (fst e) =? ty)%Z) (actives p) end).
  { split; apply Permutation_in; [apply in_order_perm|symmetry; apply in_order_perm]. }
  destruct ty as [ty|]; [rewrite filter_In, Z.eqb_eq; tauto|tauto].
Qed.
Lemma nodup_filter {A B} (f : A -> B) g l : NoDup (map f l) -> NoDup (map f (filter g l)).
Proof.
  induction l as [|a l IH]; cbn [map filter]; intros H; [exact H|]. inversion H; subst. destruct (g a); [cbn [map]; constructor; [|auto]|auto].
  intros X. apply H2. apply in_map_iff in X as (b & <- & X). apply filter_In in X as (X & _). now apply in_map.
Qed.
Lemma info_nodup ty p : NoDup (ids p) -> NoDup (map id_of (get_thread_info ty p)).
Proof.
  intros H. unfold get_thread_info. eapply Permutation_NoDup; [apply Permutation_map; symmetry; apply in_order_perm|]. destruct ty; [now apply nodup_filter|exact H].
Qed.

Lemma put_sorted a l : StronglySorted in_turn l -> ~ In (id_of a) (map id_of l) -> StronglySorted in_turn (put a l).
Proof.
  intros H. induction H as [|b l H IH F]; cbn [put map In]; intros NI; [repeat constructor|].
  assert (B : before a b = true \/ (before a b = false /\ in_turn b a)).
  { destruct (before a b) eqn:E; [auto|]. right. split; [reflexivity|]. unfold before, in_turn in *. fold (id_of a) (id_of b). assert (id_of b <> id_of a) by tauto. lia. }
  destruct B as [B|(B & T)]; rewrite B.
  - assert (T : in_turn a b) by (unfold before, in_turn in *; fold (id_of a) (id_of b); lia).
    constructor; [constructor; auto|]. constructor; [exact T|]. eapply Forall_impl; [|exact F]. intros c. unfold in_turn in *. lia.
  - constructor; [apply IH; tauto|]. apply Forall_forall. intros c C. apply (Permutation_in _ (put_perm a l)) in C as [<-|C]; [exact T|]. rewrite Forall_forall in F. auto.
Qed.
Lemma order_sorted l : NoDup (map id_of l) -> StronglySorted in_turn (in_order l).
Proof.
  induction l as [|a l IH]; cbn [map in_order fold_right]; intros H; [constructor|]. inversion H; subst. apply put_sorted; [now apply IH|].
  intros X. apply in_map_iff in X as (b & E & X). apply (Permutation_in _ (in_order_perm l)) in X. apply H2. rewrite <- E. now apply in_map.
Qed.
Lemma info_sorted ty p : NoDup (ids p) -> StronglySorted in_turn (get_thread_info ty p).
Proof. intros H. unfold get_thread_info. apply order_sorted. destruct ty; [now apply nodup_filter|exact H]. Qed.

(** ** The lists *)
Definition there (s : st) (gaps : list (list event)) (qs : list (option Z * which)) (e : entry) : Prop :=
  exists i ty w s', nth_error qs i = Some (ty, w) /\ steps s (List.concat (firstn (S i) gaps)) = Some s' /\ In e (actives (pools s' w)) /\ fits ty e.
Lemma collect_in : forall qs gaps s l, collect s gaps qs = Some l -> forall e, In e l <-> there s gaps qs e.
Proof.
  induction qs as [|[ty w] qs IH]; intros gaps s l E e.
  - injection E as <-. split; [intros []|]. intros (i & ty & w & s' & H & _). destruct i; discriminate H.
  - destruct gaps as [|g gaps]; [discriminate E|]. cbn [collect] in E. destruct (steps s g) as [s1|] eqn:S1; [|discriminate E].
    destruct (collect s1 gaps qs) as [l1|] eqn:C; [|discriminate E]. injection E as <-. rewrite in_app_iff, info_in, (IH gaps s1 l1 C e). split.
    + intros [(H & F)|(i & ty' & w' & s' & A & B & H & F)].
      * exists O, ty, w, s1. cbn [firstn List.concat nth_error]. rewrite app_nil_r. auto.
      * exists (S i), ty', w', s'. split; [exact A|]. split; [|auto]. change (List.concat (firstn (S (S i)) (g :: gaps))) with (g ++ List.concat (firstn (S i) gaps)). now rewrite (steps_app g _ s s1 S1).
    + intros (i & ty' & w' & s' & A & B & H & F). destruct i as [|i].
      * cbn [nth_error] in A. injection A as <- <-. cbn [firstn List.concat] in B. rewrite app_nil_r, S1 in B. injection B as <-. auto.
      * right. exists i, ty', w', s'. split; [exact A|]. split; [|auto]. change (List.concat (firstn (S (S i)) (g :: gaps))) with (g ++ List.concat (firstn (S i) gaps)) in B. now rewrite (steps_app g _ s s1 S1) in B.
Qed.
Lemma draws_firstn i gaps : draws (List.concat (firstn i gaps)) <= draws (List.concat gaps).
Proof. rewrite <- (firstn_skipn i gaps) at 2. rewrite concat_app, draws_app. lia. Qed.
Definition differ (a b : option Z * which) : Prop := snd a <> snd b \/ exists x y, fst a = Some x /\ fst b = Some y /\ x <> y.
Lemma collect_nodup : forall qs gaps n s l, early n s -> inv s -> n + draws (List.concat gaps) < 2 ^ 32 -> ForallOrdPairs differ qs ->
  collect s gaps qs = Some l -> NoDup (map id_of l).
Proof.
  induction qs as [|[ty w] qs IH]; intros gaps n s l V I L D E.
  - injection E as <-. constructor.
  - destruct gaps as [|g gaps]; [discriminate E|]. cbn [collect] in E. destruct (steps s g) as [s1|] eqn:S1; [|discriminate E].
    destruct (collect s1 gaps qs) as [l1|] eqn:C; [|discriminate E]. injection E as <-. cbn [List.concat] in L. rewrite draws_app in L.
    inversion D as [|? ? D1 D2]; subst. pose proof (early_steps g n s s1 V ltac:(lia) S1) as V1. pose proof (inv_steps g s s1 I S1) as I1.
    rewrite map_app.
    assert (N1 : NoDup (map id_of (get_thread_info ty (pools s1 w)))) by (apply info_nodup, (v_good s1 I1 w)).
    assert (N2 : NoDup (map id_of l1)) by (apply (IH gaps (n + draws g) s1); auto; lia).
    assert (X : forall i, In i (map id_of (get_thread_info ty (pools s1 w))) -> ~ In i (map id_of l1)).
    { intros i A B. apply in_map_iff in A as (x & <- & A). apply in_map_iff in B as (y & E & B). apply info_in in A as (A & F).
      apply (collect_in _ _ _ _ C) in B as (j & ty' & w' & s' & Q & R & B & G).
      pose proof (draws_firstn (S j) gaps) as LF.
      destruct (same_later (n + draws g) s1 (List.concat (firstn (S j) gaps)) s' w w' x y V1 I1 ltac:(change (2 ^ 32) with 4294967296 in *; lia) R A B (eq_sym E)) as (-> & ->).
      rewrite Forall_forall in D1. destruct (D1 _ (nth_error_In _ _ Q)) as [P|(a & b & P & P' & P'')]; cbn [fst snd] in *; [congruence|]. subst. cbn [fits] in *. congruence. }
    revert N1 X. generalize (map id_of (get_thread_info ty (pools s1 w))). intros k. induction k as [|i k IHk]; cbn [app]; intros N1 X; [exact N2|].
    inversion N1; subst. constructor; [|apply IHk; auto; intros j Hj; apply X; now right]. rewrite in_app_iff. intros [H|H]; [auto|]. exact (X i (or_introl eq_refl) H).
Qed.
Lemma taken_differ k : sensible k -> ForallOrdPairs differ (lists_taken k).
Proof.
  assert (D : forall ty, differ (ty, Req) (ty, Other)) by (left; discriminate).
  destruct k as [| |tys]; cbn [sensible lists_taken]; intros H; [constructor; [constructor; [apply D|constructor]|constructor; [constructor|constructor]]..|].
  induction H as [|ty tys NI _ IH]; cbn [flat_map app]; [constructor|].
  assert (F : forall w, Forall (differ (Some ty, w)) (flat_map (fun ty => [(Some ty, Req); (Some ty, Other)]) tys)).
  { intros w. apply Forall_forall. intros [o v] X. apply in_flat_map in X as (ty' & X & Y). right. exists ty, ty'. cbn [fst].
    split; [reflexivity|]. split; [destruct Y as [Y|[Y|[]]]; congruence|]. intros ->. contradiction. }
  constructor; [constructor; [apply D|apply F]|]. constructor; [apply F|exact IH].
Qed.
Lemma early0 limits : early 0 (st0 limits).
Proof. constructor; cbn; [lia|constructor|auto]. Qed.
Lemma ids_nodup k limits gaps l : sensible k -> draws (List.concat gaps) < 2 ^ 32 -> collect (st0 limits) gaps (lists_taken k) = Some l -> NoDup (map id_of l).
Proof. intros K L E. apply (collect_nodup (lists_taken k) gaps 0 (st0 limits) l (early0 limits) (inv0 limits)); [rewrite N.add_0_l; exact L|exact (taken_differ k K)|exact E]. Qed.
Lemma ids_small limits gaps qs l e : collect (st0 limits) gaps qs = Some l -> In e l -> 0 < id_of e < 2 ^ 32.
Proof.
  intros E H. apply (collect_in _ _ _ _ E) in H as (i & ty & w & s & _ & R & H & _). pose proof (inv_steps _ _ _ (inv0 limits) R) as V.
  destruct (v_good s V w) as (_ & B). rewrite Forall_forall in B. exact (B _ (in_map id_of _ _ H)).
Qed.
(** kill, later. *)
Lemma kill_later k limits gaps es l s ty id t : draws (List.concat gaps ++ es) < 2 ^ 32 -> collect (st0 limits) gaps (lists_taken k) = Some l ->
  steps (st0 limits) (List.concat gaps ++ es) = Some s -> In (ty, id, t) l ->
  (forall t', lookup s id = Some t' -> t' = t) /\ (forall w t', runs s w t' id -> lookup s id = Some t).
Proof.
  intros L C E H. apply (collect_in _ _ _ _ C) in H as (i & o & w & s1 & _ & R & H & _).
  assert (EQ : List.concat gaps ++ es = List.concat (firstn (S i) gaps) ++ (List.concat (skipn (S i) gaps) ++ es)).
  { rewrite app_assoc, <- concat_app, firstn_skipn. reflexivity. }
  rewrite EQ in L, E. rewrite (steps_app _ _ _ s1 R) in E. rewrite draws_app in L.
  pose proof (early_steps (List.concat (firstn (S i) gaps)) 0 _ s1 (early0 limits) ltac:(lia) R) as V1. pose proof (inv_steps _ _ _ (inv0 limits) R) as I1. rewrite N.add_0_l in V1.
  pose proof (inv_steps _ _ _ I1 E) as I2.
  assert (U : forall w' t', runs s w' t' id -> t' = t /\ w' = w).
  { intros w' t' (ty' & X). destruct (same_later _ s1 _ s w w' (ty, id, t) (ty', id, t') V1 I1 L E H X eq_refl) as (A & B). injection B as _ B. auto. }
  split.
  - intros t' F. apply (lookup_spec s id t' I2) in F as [F|(F & _)]; apply U in F; tauto.
  - intros w' t' F. destruct (U w' t' F) as (-> & ->). apply (lookup_spec s id t I2). destruct w; [auto|]. right. split; [exact F|]. intros u X. apply U in X as (_ & X). discriminate X.
Qed.

(** ** The map under its lock *)
Lemma quiet_map : forall es s s', (forall ty, In ty (asks es) -> In ty (entries s)) -> Forall (fun p => snd p = None) (inside s) ->
  touch_steps s es = Some s' -> Forall (fun p => snd p = None) (inside s').
Proof.
  induction es as [|e es IH]; cbn [touch_steps]; intros s s' A F E; [now injection E as <-|].
  destruct (touch_step s e) as [s1|] eqn:T; [|discriminate E]. apply (IH s1 s'); [| |exact E].
  - intros ty H. assert (X : In ty (entries s)) by (apply A; unfold asks; cbn [flat_map]; apply in_or_app; auto).
    destruct e; cbn [touch_step] in T; [injection T as <-; exact X..| |destruct (inside s); [injection T as <-; now right|discriminate T]].
    destruct (find _ _) as [[x [y|]]|]; [injection T as <-; now right|injection T as <-; exact X|discriminate T].
  - destruct e as [r ty|r ty|r|ty]; cbn [touch_step] in T; [| | |destruct (inside s); [injection T as <-; constructor|discriminate T]].
    + assert (X : zmem ty (entries s) = true). { apply existsb_exists. exists ty. split; [|apply Z.eqb_refl]. apply A. now left. }
      rewrite X in T. injection T as <-. constructor; auto.
    + injection T as <-. constructor; auto.
    + destruct (find _ _) as [[x y]|]; [injection T as <-|discriminate T]. cbn [inside]. rewrite Forall_forall in *. intros p H. apply filter_In in H as (H & _). auto.
Qed.
