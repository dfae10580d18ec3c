From Coq Require Import List Bool NArith ZArith Lia.
From Coq Require Import ZifyBool ZifyNat ZifyN.
From Verif Require Import PoolModel PoolSpec.
Import ListNotations.
Local Open Scope N_scope.

Definition cnt (l : list N) (x : N) : nat := count_occ N.eq_dec l x.
Definition one (t x : N) : nat := if N.eq_dec t x then 1 else 0.
Lemma cnt_cons t l x : cnt (t :: l) x = (one t x + cnt l x)%nat.
Proof. unfold cnt, one. cbn. destruct (N.eq_dec t x); lia. Qed.
Lemma cnt_app l m x : cnt (l ++ m) x = (cnt l x + cnt m x)%nat.
Proof. apply count_occ_app. Qed.
Lemma cnt_nil x : cnt [] x = 0%nat. Proof. reflexivity. Qed.
Lemma nodup_cnt l : NoDup l <-> forall x, (cnt l x <= 1)%nat.
Proof. apply (NoDup_count_occ N.eq_dec). Qed.
Lemma in_cnt l x : In x l <-> (1 <= cnt l x)%nat.
Proof. rewrite (count_occ_In N.eq_dec). unfold cnt. lia. Qed.
Lemma which_refl w : which_eqb w w = true. Proof. now destruct w. Qed.
Lemma which_eq v w : which_eqb v w = true -> v = w. Proof. now destruct v, w. Qed.

(** The part of [everywhere] that belongs to one pool. *)
Definition part (p : pool) : list N := threads p ++ stack p ++ match registering p with Some (_, t) => [t] | None => [] end.
Lemma cnt_everywhere s x : cnt (everywhere s) x = (cnt (part (pools s Req)) x + cnt (part (pools s Other)) x + cnt (map snd (got s)) x + cnt (map snd (cleaning s)) x)%nat.
Proof. unfold everywhere. rewrite !cnt_app. unfold part. rewrite !cnt_app. lia. Qed.
Lemma set_pool_sum s w p x : (cnt (part (set_pool s w p Req)) x + cnt (part (set_pool s w p Other)) x + cnt (part (pools s w)) x =
  cnt (part (pools s Req)) x + cnt (part (pools s Other)) x + cnt (part p) x)%nat.
Proof. unfold set_pool. destruct w; cbn [which_eqb]; lia. Qed.
Lemma remove1_cnt {A} (eqb : A -> A -> bool) (f : A -> N) a l x :
  (forall y, eqb a y = true -> f y = f a) -> existsb (eqb a) l = true -> (cnt (map f (remove1 eqb a l)) x + one (f a) x = cnt (map f l) x)%nat.
Proof.
  intros H. induction l as [|y l IH]; cbn [existsb remove1 map]; intros E; [discriminate E|]. destruct (eqb a y) eqn:Y.
  - rewrite cnt_cons, (H y Y). lia.
  - cbn [map]. rewrite !cnt_cons. specialize (IH E). lia.
Qed.
Lemma got_snd a y : got_eqb a y = true -> snd y = snd a.
Proof. unfold got_eqb. lia. Qed.
Lemma cleaning_snd a y : cleaning_eqb a y = true -> snd y = snd a.
Proof. unfold cleaning_eqb. lia. Qed.
Lemma filter_le (f : Z * N * N -> N) g l x : (cnt (map f (filter g l)) x <= cnt (map f l) x)%nat.
Proof. induction l as [|a l IH]; cbn [filter map]; [lia|]. destruct (g a); cbn [map]; rewrite !cnt_cons; lia. Qed.
Lemma filter_less (f : Z * N * N -> N) g l e x : In e l -> g e = false -> (cnt (map f (filter g l)) x + one (f e) x <= cnt (map f l) x)%nat.
Proof.
  intros I G. induction l as [|a l IH]; [destruct I|]. cbn [filter map]. pose proof (filter_le f g l x). destruct I as [->|I].
  - rewrite G, cnt_cons. lia.
  - specialize (IH I). destruct (g a); cbn [map]; rewrite !cnt_cons; lia.
Qed.
Lemma erase_found p t ty id t' : find (fun e => thread_of e =? t) (actives p) = Some (ty, id, t') -> In (ty, id, t) (actives p) /\ t' = t.
Proof. intros F. apply find_some in F as (I & E). cbn in E. apply N.eqb_eq in E. subst. auto. Qed.

(** Everything that holds in every state. *)
Definition good (p : pool) : Prop := NoDup (ids p) /\ Forall (fun i => 0 < i < 2 ^ 32) (ids p).
Record inv (s : st) : Prop := mkInv {
  v_once : NoDup (everywhere s);
  v_fresh : Forall (fun t => t < fresh s) (everywhere s);
  v_good : forall w, good (pools s w) }.
Lemma good_filter a g l b c l' : good (mkPool a l b c) -> good (mkPool (filter g a) l' b c).
Proof.
  intros (A & B). unfold good, ids in *. cbn [actives] in *. split.
  - apply nodup_cnt. intros x. pose proof (filter_le id_of g a x). apply nodup_cnt with (x := x) in A. lia.
  - rewrite Forall_forall in *. intros i I. apply B. apply in_map_iff in I as (e & <- & I). apply in_map. now apply filter_In in I.
Qed.
Lemma good_set s w p : (forall v, good (pools s v)) -> good p -> forall v, good (set_pool s w p v).
Proof. intros A B v. unfold set_pool. destruct (which_eqb v w); auto. Qed.

(** A step adds no thread object but a fresh one. *)
Lemma step_cnt s e s' x : step s e = Some s' ->
  (cnt (everywhere s') x <= cnt (everywhere s) x + if (fresh s' =? fresh s)%N then 0 else one (fresh s) x)%nat.
Proof.
  intros E. rewrite !cnt_everywhere. destruct e as [w ty|w ty t|w|w t|w t|w n|id|id t]; cbn [step] in E.
  - injection E as <-. destruct (stack (pools s w)) as [|t r] eqn:T; cbn [pools got cleaning fresh].
    + replace (fresh s + 1 =? fresh s) with false by lia. cbn [map snd]. rewrite cnt_cons. lia.
    + rewrite N.eqb_refl. match goal with |- context [set_pool s w ?p] => pose proof (set_pool_sum s w p x) as H; set (q := p) in * end.
      assert (P : (cnt (part q) x + one t x = cnt (part (pools s w)) x)%nat).
      { unfold q, part. cbn [threads actives stack registering]. rewrite T. unfold threads. cbn [actives]. rewrite !cnt_app, !cnt_cons. lia. }
      cbn [map snd]. rewrite cnt_cons. lia.
  - destruct (registering (pools s w)) as [[]|] eqn:G; [discriminate E|]. destruct (existsb _ _) eqn:X; [|discriminate E]. injection E as <-. cbn [pools got cleaning fresh].
    rewrite N.eqb_refl. match goal with |- context [set_pool s w ?p] => pose proof (set_pool_sum s w p x) as H; set (q := p) in * end.
    assert (P : cnt (part q) x = (cnt (part (pools s w)) x + one t x)%nat).
    { unfold q, part. cbn [actives stack registering]. rewrite G. unfold threads. cbn [actives]. rewrite !cnt_app, !cnt_cons, !cnt_nil. lia. }
    pose proof (remove1_cnt got_eqb snd (w, ty, t) (got s) x (got_snd _) X) as R. cbn [snd] in R. lia.
  - destruct (registering (pools s w)) as [[ty t]|] eqn:G; [|discriminate E].
    destruct (_ || _); injection E as <-; cbn [pools got cleaning fresh]; rewrite N.eqb_refl; [lia|].
    match goal with |- context [set_pool s w ?p] => pose proof (set_pool_sum s w p x) as H; set (q := p) in * end.
    assert (P : cnt (part q) x = cnt (part (pools s w)) x).
    { unfold q, part, threads. cbn [actives stack registering map]. rewrite G. rewrite !cnt_app, !cnt_cons, !cnt_nil. unfold thread_of at 1. cbn [snd]. lia. }
    lia.
  - destruct (registering (pools s w)) as [[]|] eqn:G; [discriminate E|]. destruct (find _ _) as [[[ty id] t']|] eqn:F; [|discriminate E]. injection E as <-. cbn [pools got cleaning fresh].
    rewrite N.eqb_refl. match goal with |- context [set_pool s w ?p] => pose proof (set_pool_sum s w p x) as H; set (q := p) in * end.
    apply erase_found in F as (I & ->).
    assert (P : (cnt (part q) x + one t x <= cnt (part (pools s w)) x)%nat).
    { unfold q, part, threads. cbn [actives stack registering map]. rewrite G. rewrite !cnt_app.
      assert (G0 : (fun e : Z * N * N => negb (Z.eqb (fst (fst e)) ty && (id_of e =? id))) (ty, id, t) = false) by (cbn; now rewrite Z.eqb_refl, N.eqb_refl).
      pose proof (filter_less thread_of _ _ _ x I G0) as L. change (thread_of (ty, id, t)) with t in L. lia. }
    cbn [map snd]. rewrite cnt_cons. lia.
  - destruct (existsb _ _) eqn:X; [|discriminate E]. injection E as <-. cbn [pools got cleaning fresh].
    rewrite N.eqb_refl. match goal with |- context [set_pool s w ?p] => pose proof (set_pool_sum s w p x) as H; set (q := p) in * end.
    pose proof (remove1_cnt cleaning_eqb snd (w, t) (cleaning s) x (cleaning_snd _) X) as R. cbn [snd] in R.
    assert (P : (cnt (part q) x <= cnt (part (pools s w)) x + one t x)%nat).
    { unfold q, part. cbn [actives stack registering]. unfold threads. cbn [actives]. rewrite !cnt_app. destruct (_ <? _); rewrite ?cnt_cons; lia. }
    lia.
  - injection E as <-. cbn [pools got cleaning fresh]. rewrite N.eqb_refl.
    match goal with |- context [set_pool s w ?p] => pose proof (set_pool_sum s w p x) as H; set (q := p) in * end.
    assert (P : cnt (part q) x = cnt (part (pools s w)) x) by reflexivity. lia.
  - destruct (lookup s id); injection E as <-; cbn [pools got cleaning fresh]; lia.
  - destruct (existsb _ _); [|discriminate E]. injection E as <-. cbn [pools got cleaning fresh]. lia.
Qed.
Lemma step_fresh s e s' : step s e = Some s' -> fresh s' = fresh s \/ fresh s' = fresh s + 1.
Proof.
  intros E. destruct e as [w ty|w ty t|w|w t|w t|w n|id|id t]; cbn [step] in E.
  - injection E as <-. destruct (stack _); auto.
  - destruct (registering _); [discriminate E|]. destruct (existsb _ _); [|discriminate E]. injection E as <-. auto.
  - destruct (registering _) as [[]|]; [|discriminate E]. destruct (_ || _); injection E as <-; auto.
  - destruct (registering _); [discriminate E|]. destruct (find _ _) as [[[]]|]; [|discriminate E]. injection E as <-. auto.
  - destruct (existsb _ _); [|discriminate E]. injection E as <-. auto.
  - injection E as <-. auto.
  - destruct (lookup s id); injection E as <-; auto.
  - destruct (existsb _ _); [|discriminate E]. injection E as <-. auto.
Qed.
Lemma step_good s e s' : (forall w, good (pools s w)) -> step s e = Some s' -> forall w, good (pools s' w).
Proof.
  intros V E. destruct e as [w ty|w ty t|w|w t|w t|w n|id|id t]; cbn [step] in E.
  - injection E as <-. destruct (stack _); [exact V|]. cbn [pools]. apply good_set; auto. exact (V w).
  - destruct (registering _); [discriminate E|]. destruct (existsb _ _); [|discriminate E]. injection E as <-. cbn [pools]. apply good_set; auto. exact (V w).
  - destruct (registering _) as [[ty t]|]; [|discriminate E]. destruct (_ || _) eqn:O; injection E as <-; [exact V|]. cbn [pools]. apply good_set; auto.
    destruct (V w) as (A & B). apply orb_false_elim in O as (O1 & O2). unfold good, ids. cbn [actives map id_of fst snd]. split; constructor; auto.
    + intros I. assert (existsb (N.eqb (counter s mod 2 ^ 32)) (ids (pools s w)) = true); [|congruence]. apply existsb_exists. exists (counter s mod 2 ^ 32). split; [exact I|apply N.eqb_refl].
    + pose proof (N.mod_upper_bound (counter s) (2 ^ 32)). lia.
  - destruct (registering _); [discriminate E|]. destruct (find _ _) as [[[ty id] t']|]; [|discriminate E]. injection E as <-. cbn [pools]. apply good_set; auto.
    apply (good_filter _ _ (stack (pools s w))). exact (V w).
  - destruct (existsb _ _); [|discriminate E]. injection E as <-. cbn [pools]. apply good_set; auto. exact (V w).
  - injection E as <-. cbn [pools]. apply good_set; auto. exact (V w).
  - destruct (lookup s id); injection E as <-; exact V.
  - destruct (existsb _ _); [|discriminate E]. injection E as <-. exact V.
Qed.
Lemma inv_step s e s' : inv s -> step s e = Some s' -> inv s'.
Proof.
  intros [A B C] E. rewrite Forall_forall in B.
  assert (F : forall x, (1 <= cnt (everywhere s) x)%nat -> x < fresh s) by (intros x H; apply B, in_cnt, H).
  pose proof (step_fresh s e s' E) as FR. pose proof (step_cnt s e s') as SC. constructor.
  - apply nodup_cnt. intros x. specialize (SC x E). pose proof (proj1 (nodup_cnt _) A x) as A'.
    destruct (fresh s' =? fresh s); [lia|]. unfold one in SC. destruct (N.eq_dec (fresh s) x) as [<-|]; [|lia].
    destruct (cnt (everywhere s) (fresh s)) eqn:Z; [lia|]. specialize (F (fresh s)). lia.
  - apply Forall_forall. intros x I. apply in_cnt in I. specialize (SC x E). destruct (fresh s' =? fresh s) eqn:Q.
    + specialize (F x). lia.
    + unfold one in SC. destruct (N.eq_dec (fresh s) x) as [<-|]; [lia|]. specialize (F x). lia.
  - eapply step_good; eauto.
Qed.
Lemma inv0 limits : inv (st0 limits).
Proof. constructor; cbn; [constructor|constructor|]. intros w. split; constructor. Qed.
Lemma inv_steps : forall es s s', inv s -> steps s es = Some s' -> inv s'.
Proof.
  induction es as [|e es IH]; cbn [steps]; intros s s' V E; [now injection E as <-|].
  destruct (step s e) as [s1|] eqn:S1; [|discriminate E]. apply (IH s1); auto. eapply inv_step; eauto.
Qed.
Lemma reachable_inv limits s : reachable limits s -> inv s.
Proof. intros (es & E). eapply inv_steps; [apply (inv0 limits)|exact E]. Qed.

(** ** Finding a thread *)
Lemma nodup_ids_find l e : NoDup (map id_of l) -> In e l -> find (fun e' => id_of e' =? id_of e) l = Some e.
Proof.
  induction l as [|a l IH]; intros ND I; [destruct I|]. inversion ND as [|? ? NI ND']; subst. cbn [find]. destruct I as [->|I].
  - now rewrite N.eqb_refl.
  - destruct (N.eqb_spec (id_of a) (id_of e)) as [Q|Q]; [|auto]. exfalso. apply NI. rewrite Q. now apply in_map.
Qed.
Lemma nodup_threads_find l e : NoDup (map thread_of l) -> In e l -> find (fun e' => thread_of e' =? thread_of e) l = Some e.
Proof.
  induction l as [|a l IH]; intros ND I; [destruct I|]. inversion ND as [|? ? NI ND']; subst. cbn [find]. destruct I as [->|I].
  - now rewrite N.eqb_refl.
  - destruct (N.eqb_spec (thread_of a) (thread_of e)) as [Q|Q]; [|auto]. exfalso. apply NI. rewrite Q. now apply in_map.
Qed.
Lemma get_active_spec s w id t : inv s -> get_active (pools s w) id = Some t <-> runs s w t id.
Proof.
  intros V. destruct (v_good s V w) as (ND & _). unfold get_active, runs. split.
  - destruct (find _ _) as [[[ty i] t']|] eqn:F; [|discriminate]. cbn. intros [= <-]. apply find_some in F as (I & E). cbn in E. apply N.eqb_eq in E. subst i. eauto.
  - intros (ty & I). pose proof (nodup_ids_find _ _ ND I) as F. change (id_of (ty, id, t)) with id in F. now rewrite F.
Qed.
Lemma get_active_none s w id : inv s -> get_active (pools s w) id = None <-> forall t, ~ runs s w t id.
Proof.
  intros V. split.
  - intros N t R. apply (get_active_spec s w id t V) in R. congruence.
  - intros H. destruct (get_active (pools s w) id) as [t|] eqn:G; [|auto]. apply (get_active_spec s w id t V) in G. now elim (H t).
Qed.
Lemma lookup_spec s id t : inv s -> lookup s id = Some t <-> runs s Req t id \/ (runs s Other t id /\ forall u, ~ runs s Req u id).
Proof.
  intros V. unfold lookup. destruct (get_active (pools s Req) id) as [u|] eqn:G.
  - pose proof (proj1 (get_active_spec s Req id u V) G) as R. split.
    + intros [= <-]. auto.
    + intros [H|(_ & H)]; [|now elim (H u)]. apply (get_active_spec s Req id t V) in H. congruence.
  - rewrite (get_active_spec s Other id t V). pose proof (proj1 (get_active_none s Req id V) G) as N. split; [auto|]. intros [H|(H & _)]; [now elim (N t)|auto].
Qed.
Lemma current_id_spec s w t id : inv s -> runs s w t id -> current_id s t = id.
Proof.
  intros V (ty & I). assert (ND : NoDup (map thread_of (actives (pools s Req) ++ actives (pools s Other)))).
  { apply nodup_cnt. intros x. pose proof (proj1 (nodup_cnt _) (v_once s V) x) as H. rewrite cnt_everywhere in H. unfold part, threads in H. rewrite !cnt_app in H. rewrite map_app, cnt_app. lia. }
  unfold current_id. assert (I' : In (ty, id, t) (actives (pools s Req) ++ actives (pools s Other))) by (apply in_or_app; destruct w; auto).
  pose proof (nodup_threads_find _ _ ND I') as F. change (thread_of (ty, id, t)) with t in F. now rewrite F.
Qed.
Lemma runs_one s w v t id id' : inv s -> runs s w t id -> runs s v t id' -> id = id'.
Proof. intros V A B. rewrite <- (current_id_spec s w t id V A). exact (current_id_spec s v t id' V B). Qed.
Lemma runs_pool s t id id' : inv s -> runs s Req t id -> runs s Other t id' -> False.
Proof.
  intros V (ty & A) (ty' & B). pose proof (proj1 (nodup_cnt _) (v_once s V) t) as H. rewrite cnt_everywhere in H. unfold part, threads in H. rewrite !cnt_app in H.
  assert (X : (1 <= cnt (map thread_of (actives (pools s Req))) t)%nat) by (apply in_cnt; exact (in_map thread_of _ _ A)).
  assert (Y : (1 <= cnt (map thread_of (actives (pools s Other))) t)%nat) by (apply in_cnt; exact (in_map thread_of _ _ B)). lia.
Qed.

(** ** Before the counter wraps *)
Record early (n : N) (s : st) : Prop := mkEarly {
  e_counter : counter s = 1 + n;
  e_below : forall w, Forall (fun i => i < counter s) (ids (pools s w));
  e_apart : forall i, In i (ids (pools s Req)) -> In i (ids (pools s Other)) -> False }.
Definition is_draw (e : event) : bool := match e with Draw _ => true | _ => false end.
Lemma early_ids n s c p : early n s -> c = counter s -> (forall w i, In i (ids (p w)) -> In i (ids (pools s w))) ->
  forall f g h a b, early n (mkSt c p f g h a b).
Proof.
  intros [A B C] -> H f g h a b. constructor; cbn [counter pools]; auto.
  - intros w. rewrite Forall_forall. intros i I. specialize (B w). rewrite Forall_forall in B. auto.
  - intros i I J. eauto.
Qed.
Lemma set_pool_ids s w p : (forall i, In i (ids p) -> In i (ids (pools s w))) -> forall v i, In i (ids (set_pool s w p v)) -> In i (ids (pools s v)).
Proof. intros H v i. unfold set_pool. destruct (which_eqb v w) eqn:E; [apply which_eq in E as ->; auto|auto]. Qed.
Lemma early_step n s e s' : early n s -> 1 + n < 2 ^ 32 \/ is_draw e = false -> step s e = Some s' -> early (n + if is_draw e then 1 else 0) s'.
Proof.
  intros V LT E. destruct e as [w ty|w ty t|w|w t|w t|w m|id|id t]; cbn [step is_draw] in *; rewrite ?N.add_0_r.
  - injection E as <-. destruct (stack _); apply (early_ids n s); auto. apply set_pool_ids. auto.
  - destruct (registering _); [discriminate E|]. destruct (existsb _ _); [|discriminate E]. injection E as <-. apply (early_ids n s); auto. apply set_pool_ids. auto.
  - destruct (registering _) as [[ty t]|]; [|discriminate E]. destruct LT as [LT|LT]; [|discriminate LT]. destruct V as [A B C].
    assert (C0 : counter s mod 2 ^ 32 = counter s) by (apply N.mod_small; lia).
    assert (C1 : (counter s + 1) mod 2 ^ 64 = counter s + 1) by (apply N.mod_small; lia). rewrite C0, C1 in E.
    destruct (_ || _) eqn:O; injection E as <-.
    + constructor; cbn [counter pools]; auto; [lia|]. intros v. eapply Forall_impl; [|apply B]. cbn. intros; lia.
    + assert (NI : forall v, ~ In (counter s) (ids (pools s v))) by (intros v I; specialize (B v); rewrite Forall_forall in B; specialize (B _ I); lia).
      constructor; cbn [counter pools]; [lia| |].
      * intros v. unfold set_pool. destruct (which_eqb v w) eqn:W; [apply which_eq in W as ->|]; [unfold ids; cbn [actives map id_of fst snd]; constructor; [lia|]|]; (eapply Forall_impl; [|apply B]; cbn; intros; lia).
      * intros i. unfold set_pool. destruct w; cbn [which_eqb]; unfold ids; cbn [actives map id_of fst snd]; intros [I|I] J || intros I [J|J]; subst; try (eapply NI; eassumption); eauto.
  - destruct (registering _); [discriminate E|]. destruct (find _ _) as [[[ty id] t']|]; [|discriminate E]. injection E as <-. apply (early_ids n s); auto. apply set_pool_ids.
    unfold ids. cbn [actives]. intros i I. apply in_map_iff in I as (x & <- & I). apply in_map. now apply filter_In in I.
  - destruct (existsb _ _); [|discriminate E]. injection E as <-. apply (early_ids n s); auto. apply set_pool_ids. auto.
  - injection E as <-. apply (early_ids n s); auto. apply set_pool_ids. auto.
  - destruct (lookup s id); injection E as <-; [|auto]. apply (early_ids n s); auto.
  - destruct (existsb _ _); [|discriminate E]. injection E as <-. apply (early_ids n s); auto.
Qed.
Lemma early_steps : forall es n s s', early n s -> n + draws es < 2 ^ 32 -> steps s es = Some s' -> early (n + draws es) s'.
Proof.
  induction es as [|e es IH]; cbn [steps]; intros n s s' V L E.
  - injection E as <-. unfold draws. cbn. now rewrite N.add_0_r.
  - destruct (step s e) as [s1|] eqn:S1; [|discriminate E].
    assert (D : draws (e :: es) = (if is_draw e then 1 else 0) + draws es) by (unfold draws; cbn; destruct e; cbn [length is_draw]; lia).
    rewrite D in *. rewrite N.add_assoc. apply (IH _ s1); [|lia|exact E]. apply (early_step n s e s1); auto. destruct (is_draw e); [left|auto]. lia.
Qed.

(** ** The size of the pool *)
Lemma highest_le w : forall es n, n <= highest w n es.
Proof. induction es as [|e es IH]; intros n; cbn [highest]; [lia|]. destruct e as [| | | | |v m| |]; auto. destruct (which_eqb v w); [lia|auto]. Qed.
Lemma stack_bound w : forall es s s' m, steps s es = Some s' -> N.of_nat (length (stack (pools s w))) <= m -> highest w (limit (pools s w)) es <= m ->
  N.of_nat (length (stack (pools s' w))) <= m.
Proof.
  induction es as [|e es IH]; cbn [steps]; intros s s' m E L H; [now injection E as <-|]. destruct (step s e) as [s1|] eqn:S1; [|discriminate E].
  pose proof (highest_le w es) as HL.
  assert (SAME : forall v, pools s1 = pools s \/ (forall u, which_eqb u v = false -> pools s1 u = pools s u) -> which_eqb w v = false -> highest w (limit (pools s w)) es <= m -> N.of_nat (length (stack (pools s' w))) <= m).
  { intros v D W H'. apply (IH s1); auto; destruct D as [D|D]; rewrite D; auto. }
  assert (OTHER : forall v p u, which_eqb u v = false -> set_pool s v p u = pools s u) by (intros v p u U; unfold set_pool; now rewrite U).
  assert (MINE : forall v p, which_eqb w v = true -> set_pool s v p w = p) by (intros v p U; unfold set_pool; now rewrite U).
  destruct e as [v ty|v ty t|v|v t|v t|v n|id|id t]; cbn [step highest] in *.
  - injection S1 as <-. apply (IH _ s' m E); destruct (stack (pools s v)) as [|t r] eqn:T; cbn [pools] in *; auto; (destruct (which_eqb w v) eqn:W; [rewrite MINE by auto; apply which_eq in W as <-|rewrite OTHER by auto; auto]); cbn [stack limit]; auto.
    rewrite T in L. cbn [length] in L. lia.
  - destruct (registering _); [discriminate S1|]. destruct (existsb _ _); [|discriminate S1]. injection S1 as <-.
    apply (IH _ s' m E); cbn [pools] in *; (destruct (which_eqb w v) eqn:W; [rewrite MINE by auto; apply which_eq in W as <-|rewrite OTHER by auto; auto]); cbn [stack limit]; auto.
  - destruct (registering _) as [[ty t]|]; [|discriminate S1]. destruct (_ || _) eqn:O; injection S1 as <-; [apply (IH _ s' m E); auto|].
    apply (IH _ s' m E); cbn [pools] in *; (destruct (which_eqb w v) eqn:W; [rewrite MINE by auto; apply which_eq in W as <-|rewrite OTHER by auto; auto]); cbn [stack limit]; auto.
  - destruct (registering _); [discriminate S1|]. destruct (find _ _) as [[[ty id] t']|]; [|discriminate S1]. injection S1 as <-.
    apply (IH _ s' m E); cbn [pools] in *; (destruct (which_eqb w v) eqn:W; [rewrite MINE by auto; apply which_eq in W as <-|rewrite OTHER by auto; auto]); cbn [stack limit]; auto.
  - destruct (existsb _ _); [|discriminate S1]. injection S1 as <-.
    apply (IH _ s' m E); cbn [pools] in *; (destruct (which_eqb w v) eqn:W; [rewrite MINE by auto; apply which_eq in W as <-|rewrite OTHER by auto; auto]); cbn [stack limit]; auto.
    specialize (HL (limit (pools s w))). destruct (N.ltb_spec (N.of_nat (length (stack (pools s w)))) (limit (pools s w))); [cbn [length]; lia|auto].
  - injection S1 as <-. assert (H' : highest w (if which_eqb w v then n else limit (pools s w)) es <= m).
    { replace (which_eqb w v) with (which_eqb v w) by (destruct v, w; reflexivity). destruct (which_eqb v w); lia. }
    apply (IH _ s' m E); cbn [pools] in *; (destruct (which_eqb w v) eqn:W; [rewrite MINE by auto; apply which_eq in W as <-|rewrite OTHER by auto; auto]); cbn [stack limit]; auto.
  - destruct (lookup s id); injection S1 as <-; apply (IH _ s' m E); auto.
  - destruct (existsb _ _); [|discriminate S1]. injection S1 as <-. apply (IH _ s' m E); auto.
Qed.

(** ** When the counter wraps *)
Record like (c : N) (s : st) : Prop := mkLike {
  l_counter : counter s = c;
  l_req : pools s Req = mkPool [] [1] 1 None;
  l_other : pools s Other = mkPool [(2%Z, 1, 0)] [] 1 None;
  l_got : got s = []; l_clean : cleaning s = [] }.
Definition cycle : list event := [Take Req 1; Lock Req 1 1; Draw Req; Erase Req 1; Push Req 1].
Lemma cycle_like c s : like c s -> 2 <= c < 2 ^ 32 -> exists s', steps s cycle = Some s' /\ like (c + 1) s'.
Proof.
  intros [A B C D F] R. destruct s as [k p f g cl fo ki]. cbn [counter pools got cleaning] in *. subst k g cl.
  unfold cycle. cbn [steps step pools]. rewrite B. cbn [stack actives limit registering]. unfold set_pool at 1. cbn [pools which_eqb registering got existsb].
  assert (G : got_eqb (Req, 1%Z, 1) (Req, 1%Z, 1) = true) by reflexivity. rewrite G. cbn [orb]. cbn [remove1]. rewrite G.
  unfold set_pool at 1. cbn [pools which_eqb registering counter]. rewrite (N.mod_small c (2 ^ 32)) by lia. rewrite (N.mod_small (c + 1) (2 ^ 64)) by lia.
  replace (c =? 0) with false by lia. cbn [ids actives map existsb orb].
  unfold set_pool at 1. cbn [pools which_eqb registering actives existsb orb map fst snd set_pool].
  unfold ids. cbn [actives map existsb orb]. cbn [set_pool which_eqb pools].
  cbn [registering]. cbn [actives find thread_of snd]. cbn [N.eqb Pos.eqb]. cbn [filter fst snd id_of].
  rewrite Z.eqb_refl, N.eqb_refl. cbn [andb negb filter].
  cbn [cleaning existsb]. assert (K : cleaning_eqb (Req, 1) (Req, 1) = true) by reflexivity. rewrite K. cbn [orb remove1]. rewrite K.
  eexists. split; [reflexivity|]. constructor; cbn [counter pools got cleaning]; auto.
Qed.
Definition first : list event := [Take Other 2; Lock Other 2 0; Draw Other; Take Req 1; Lock Req 1 1; Draw Req; Erase Req 1; Push Req 1].
Lemma steps_app : forall es es' s s1, steps s es = Some s1 -> steps s (es ++ es') = steps s1 es'.
Proof. induction es as [|e es IH]; cbn [steps app]; intros es' s s1 E; [now injection E as ->|]. destruct (step s e); [auto|discriminate E]. Qed.
Lemma first_like : exists s, steps (st0 (fun _ => 1)) first = Some s /\ like 3 s.
Proof. eexists. split; [vm_compute; reflexivity|]. constructor; reflexivity. Qed.
Lemma many_cycles : forall n, 3 + n <= 2 ^ 32 -> exists es s, steps (st0 (fun _ => 1)) es = Some s /\ like (3 + n) s.
Proof.
  apply (N.peano_ind (fun n => 3 + n <= 2 ^ 32 -> exists es s, steps (st0 (fun _ => 1)) es = Some s /\ like (3 + n) s)).
  - intros _. destruct first_like as (s & E & L). exists first, s. auto.
  - intros n IH H. destruct IH as (es & s & E & L); [lia|]. destruct (cycle_like (3 + n) s L) as (s' & E' & L'); [lia|].
    exists (es ++ cycle), s'. split; [rewrite (steps_app es cycle _ s E); exact E'|]. replace (3 + N.succ n) with (3 + n + 1) by lia. exact L'.
Qed.
Lemma wrap_last s : like (2 ^ 32) s -> exists s', steps s [Take Req 1; Lock Req 1 1; Draw Req; Draw Req] = Some s' /\
  actives (pools s' Req) = [(1%Z, 1, 1)] /\ actives (pools s' Other) = [(2%Z, 1, 0)].
Proof.
  intros [A B C D F]. destruct s as [k p f g cl fo ki]. cbn [counter pools got cleaning] in *. subst k g cl.
  cbn [steps step pools]. rewrite B. cbn [stack actives limit registering]. unfold set_pool at 1. cbn [pools which_eqb registering got existsb].
  assert (G : got_eqb (Req, 1%Z, 1) (Req, 1%Z, 1) = true) by reflexivity. rewrite G. cbn [orb]. cbn [remove1]. rewrite G.
  unfold set_pool at 1. cbn [pools which_eqb registering counter].
  replace (2 ^ 32 mod 2 ^ 32 =? 0) with true by reflexivity. cbn [orb]. cbn [steps step pools counter].
  unfold set_pool at 1. cbn [pools which_eqb registering counter].
  replace ((2 ^ 32 + 1) mod 2 ^ 64 mod 2 ^ 32) with 1 by reflexivity. cbn [N.eqb orb]. unfold ids. cbn [actives set_pool which_eqb pools map existsb].
  eexists. split; [reflexivity|]. cbn [pools set_pool which_eqb actives]. rewrite C. auto.
Qed.
