(** Proofs about requests that are passed on: right node, once, nothing lost. *)
From Coq Require Import List Bool NArith Arith Lia ZifyBool ZifyNat ZifyN.
From Verif Require Import RelayModel RelaySpec.
Import ListNotations.
Local Open Scope N_scope.

Lemma upd_eq {A} (f : N -> A) i v : upd f i v i = v.
Proof. unfold upd. now rewrite N.eqb_refl. Qed.
Lemma upd_ne {A} (f : N -> A) i v j : j <> i -> upd f i v j = f j.
Proof. intros H. unfold upd. destruct (N.eqb_spec j i); congruence. Qed.
Ltac upds := repeat match goal with
  | H : context [upd _ ?i _ ?j] |- _ => unfold upd in H; destruct (N.eqb_spec j i); [first [subst j|subst i]|]
  | |- context [upd _ ?i _ ?j] => unfold upd; destruct (N.eqb_spec j i); [first [subst j|subst i]|]
  end.
Lemma use_eqb_eq a b : use_eqb a b = true <-> a = b.
Proof. destruct a as [x|], b as [y|]; cbn; split; intros H; try congruence; [apply N.eqb_eq in H; congruence|injection H as ->; apply N.eqb_refl]. Qed.

Lemma steps_app c : forall es1 es2 s s', steps c s (es1 ++ es2) = Some s' <-> exists m, steps c s es1 = Some m /\ steps c m es2 = Some s'.
Proof.
  induction es1 as [|e es IH]; intros es2 s s'; cbn.
  - split; [intros H; exists s; auto|intros (m & [= <-] & H); exact H].
  - destruct (step c s e) as [x|] eqn:E; [apply IH|]. split; [discriminate|intros (m & H & _); discriminate].
Qed.

(** Cases of a step. *)
Ltac open E := unfold step in E; destruct (dead _) eqn:ED in E; [discriminate E|];
  match type of E with context [match ?e with Look _ => _ | _ => _ end] => destruct e as [r|r|r|r|r room|t|t proxy|t|t|t|t|t room|t|] end;
  repeat match type of E with
  | context [match stage_of ?s ?r with _ => _ end] => let G := fresh "G" in destruct (stage_of s r) as [|[|n]|t n|t|t| |] eqn:G; try discriminate E
  | context [match place_of ?s ?t with _ => _ end] => let P := fresh "P" in destruct (place_of s t) as [|u|u h|u|u| |] eqn:P; try discriminate E
  | context [match ?u with Some _ => _ | None => _ end] => is_var u; destruct u; try discriminate E
  | context [match queue_of ?s ?t with _ => _ end] => let Q := fresh "Q" in destruct (queue_of s t) as [|r q] eqn:Q; try discriminate E
  | context [if Nat.ltb ?a ?b then _ else _] => let L := fresh "L" in destruct (Nat.ltb a b) eqn:L; try discriminate E
  | context [if existsb ?a ?b then _ else _] => let L := fresh "L" in destruct (existsb a b) eqn:L; try discriminate E
  | context [if ?b then Some _ else _] => let B := fresh "B" in destruct b eqn:B; try discriminate E
  end; injection E as E; subst.

Definition lives (p : place) (u : option N) : Prop := match p with Ready v | Runs v _ | Left v | Swept v => v = u | _ => False end.
Record inv (s : st) : Prop := {
  i_map : forall u t, In (u, t) (active s) <-> lives (place_of s t) u;
  i_nodup : NoDup (pool s);
  i_pool : forall t, In t (pool s) -> t < fresh s /\ place_of s t = Idle;
  i_fresh : forall t, fresh s <= t -> place_of s t = Idle /\ queue_of s t = [];
  i_has : forall r t, has (stage_of s r) t = true -> t < fresh s }.
Lemma inv0 : inv st0.
Proof. constructor; cbn; try (intuition; fail); [constructor|discriminate]. Qed.

Lemma get_idle s : inv s -> place_of s (get_thread s) = Idle.
Proof. intros I. unfold get_thread. destruct (pool s) as [|t l] eqn:P; [apply (i_fresh s I); lia|apply (i_pool s I t); rewrite P; now left]. Qed.
Lemma get_fresh s u p : inv s -> get_thread s < fresh (get s u p) /\ fresh s <= fresh (get s u p) /\ ~ In (get_thread s) (pool (get s u p)) /\ NoDup (pool (get s u p)) /\ incl (pool (get s u p)) (pool s).
Proof.
  intros I. unfold get, get_thread; cbn. pose proof (i_nodup s I) as ND. pose proof (i_pool s I) as IP. destruct (pool s) as [|t l] eqn:P; cbn.
  - split; [lia|]. split; [lia|]. split; [tauto|]. split; [constructor|]. intros x [].
  - apply NoDup_cons_iff in ND. destruct ND as (NI & ND). split; [apply IP; now left|]. split; [lia|]. split; [exact NI|]. split; [exact ND|]. intros x H. now right.
Qed.
Lemma inv_get s u p : inv s -> lives p u -> (forall v, lives p v -> v = u) -> inv (get s u p).
Proof.
  intros I L LU. pose proof (get_idle s I) as GI. destruct (get_fresh s u p I) as (F1 & F2 & F3 & F4 & F5). constructor.
  - intros v t. unfold get; cbn. rewrite in_app_iff. cbn. upds.
    + split; [|intros H; right; left; now rewrite (LU v H)]. intros [H|[H|[]]]; [|injection H as <-; exact L].
      apply (i_map s I) in H. rewrite GI in H. destruct H.
    + rewrite (i_map s I). split; [intros [H|[H|[]]]; [exact H|injection H as _ <-; congruence]|tauto].
  - exact F4.
  - intros t H. destruct (i_pool s I t (F5 t H)) as (A & B). split; [lia|]. unfold get; cbn. rewrite upd_ne; [exact B|]. intros ->. contradiction.
  - intros t H. destruct (i_fresh s I t ltac:(lia)) as (A & B). split; [|exact B]. unfold get; cbn. rewrite upd_ne; [exact A|]. intros ->. lia.
  - intros r t H. apply (i_has s I) in H. lia.
Qed.
Lemma inv_stage s r g : inv s -> (forall t, has g t = true -> t < fresh s) -> inv (set_stage s r g).
Proof. intros I H. destruct I. constructor; cbn; auto. intros q t H'. upds; eauto. Qed.
Lemma lives_lt s t u : inv s -> lives (place_of s t) u -> t < fresh s.
Proof. intros I L. destruct (N.lt_ge_cases t (fresh s)) as [H|H]; [exact H|]. rewrite (proj1 (i_fresh s I t H)) in L. destruct L. Qed.
Lemma inv_place s t p u : inv s -> lives (place_of s t) u -> lives p u -> inv (set_place s t p).
Proof.
  intros I L L'. pose proof (lives_lt s t u I L) as LT. constructor; cbn.
  - intros v x. upds; [|apply I]. rewrite (i_map s I). destruct (place_of s t), p; cbn in *; try tauto; subst; tauto.
  - apply I.
  - intros x H. destruct (i_pool s I x H) as (A & B). split; [exact A|]. upds; [rewrite B in L; destruct L|exact B].
  - intros x H. destruct (i_fresh s I x H) as (A & B). split; [|exact B]. upds; [lia|exact A].
  - apply I.
Qed.
Lemma inv_queue s t q : inv s -> t < fresh s -> inv (set_queue s t q).
Proof.
  intros I LT. destruct I as [A B C D H]. constructor; cbn; auto. intros x X. destruct (D x X) as (D1 & D2). split; [exact D1|]. upds; [lia|exact D2].
Qed.
Lemma inv_note s l : inv s -> inv (note s l).
Proof. intros []. constructor; cbn; auto. Qed.
Lemma inv_stop s t b : inv s -> inv (set_stop s t b).
Proof. intros []. constructor; cbn; auto. Qed.
Lemma inv_ask s r : inv s -> inv (ask s r).
Proof. intros []. constructor; cbn; auto. Qed.
Lemma inv_die s : inv s -> inv (die s).
Proof. intros []. constructor; cbn; auto. Qed.
Lemma threads_in s d t : In t (threads_of s d) <-> In (Some d, t) (active s).
Proof.
  unfold threads_of. rewrite in_map_iff. split.
  - intros ((u & x) & <- & H). apply filter_In in H. destruct H as (H & E). apply use_eqb_eq in E. cbn in E. now subst u.
  - intros H. exists (Some d, t). split; [reflexivity|]. apply filter_In. split; [exact H|]. apply use_eqb_eq. reflexivity.
Qed.
Lemma nth_hash c r (m : list N) : m <> [] -> In (nth (N.to_nat (hash c r mod N.of_nat (length m))) m 0) m.
Proof.
  intros H. apply nth_In. assert (N.of_nat (length m) <> 0) by (destruct m; [congruence|cbn; lia]).
  pose proof (N.mod_lt (hash c r) (N.of_nat (length m)) ltac:(assumption)). lia.
Qed.
Lemma pick_cases c s r m : (m = [] /\ pick c s r m = die s) \/ (exists t, In t m /\ t = nth (N.to_nat (hash c r mod N.of_nat (length m))) m 0 /\ pick c s r m = set_stage s r (Found t)).
Proof.
  destruct m as [|x l]; [left; auto|right]. eexists. split; [|split; [reflexivity|reflexivity]]. apply nth_hash. discriminate.
Qed.
Lemma inv_pick c s r m : inv s -> (forall t, In t m -> t < fresh s) -> inv (pick c s r m).
Proof.
  intros I H. destruct (pick_cases c s r m) as [(-> & ->)|(t & T & _ & ->)]; [now apply inv_die|].
  apply inv_stage; [exact I|]. cbn. intros x E. apply N.eqb_eq in E. subst x. auto.
Qed.
Lemma threads_lt s d t : inv s -> In t (threads_of s d) -> t < fresh s.
Proof. intros I H. apply threads_in in H. apply (i_map s I) in H. eapply lives_lt; eauto. Qed.

Lemma inv_step c s e s' : inv s -> step c s e = Some s' -> inv s'.
Proof.
  intros I E. open E.
  - apply inv_stage; [now apply inv_ask|discriminate].
  - apply inv_pick; [now apply inv_ask|]. intros t. now apply threads_lt.
  - apply inv_pick; [exact I|]. intros t. now apply threads_lt.
  - apply inv_stage; [|discriminate]. apply inv_get; cbn; auto.
  - apply inv_stage; [|discriminate]. eapply inv_place; [exact I|rewrite P; reflexivity|reflexivity].
  - apply inv_stage; [exact I|]. intros x H. apply (i_has s I r). rewrite G. destruct (running _); [exact H|discriminate].
  - apply inv_stage; [|discriminate]. apply inv_queue; [exact I|]. apply (i_has s I r). rewrite G. apply N.eqb_refl.
  - apply inv_stage; [exact I|discriminate].
  - eapply inv_place; [apply inv_queue; [exact I|eapply lives_lt; [exact I|rewrite P; reflexivity]]|cbn; rewrite P; reflexivity|reflexivity].
  - eapply inv_place; [apply inv_note; exact I|cbn; rewrite P; reflexivity|reflexivity].
  - now apply inv_stop.
  - eapply inv_place; [exact I|rewrite P; reflexivity|reflexivity].
  - eapply inv_place; [exact I|rewrite P; reflexivity|reflexivity].
  - apply inv_stop. eapply inv_place; [apply inv_note, inv_queue; [exact I|eapply lives_lt; [exact I|rewrite P; reflexivity]]|cbn; rewrite P; reflexivity|reflexivity].
  - assert (LT : t < fresh s) by (eapply lives_lt; [exact I|rewrite P; reflexivity]). constructor; cbn.
    + intros v x. rewrite filter_In. cbn. unfold upd. destruct (N.eqb_spec x t) as [->|NE]; cbn; [intuition discriminate|]. rewrite (i_map s I). tauto.
    + apply I.
    + intros x H. destruct (i_pool s I x H) as (A & B). split; [exact A|]. upds; congruence.
    + intros x H. destruct (i_fresh s I x H) as (A & B). split; [|exact B]. upds; [lia|exact A].
    + apply I.
  - assert (LT : t < fresh s). { destruct (N.lt_ge_cases t (fresh s)) as [H|H]; [exact H|]. rewrite (proj1 (i_fresh s I t H)) in P. discriminate. }
    assert (NI : ~ In t (pool s)). { intros H. apply (i_pool s I) in H. destruct H. congruence. }
    constructor; cbn.
    + intros v x. rewrite (i_map s I). upds; [|tauto]. rewrite P. destruct room; cbn; tauto.
    + destruct room; [constructor; [exact NI|]|]; apply I.
    + intros x H. destruct room.
      * destruct H as [<-|H]; [split; [exact LT|apply upd_eq]|]. destruct (i_pool s I x H) as (A & B). split; [exact A|]. upds; congruence.
      * destruct (i_pool s I x H) as (A & B). split; [exact A|]. upds; congruence.
    + intros x H. destruct (i_fresh s I x H) as (A & B). split; [|exact B]. upds; [lia|exact A].
    + apply I.
  - apply inv_note, inv_queue; [exact I|]. destruct (N.lt_ge_cases t (fresh s)) as [H|H]; [exact H|]. rewrite (proj1 (i_fresh s I t H)) in P. discriminate.
  - apply inv_get; cbn; auto.
Qed.
Lemma inv_steps c : forall es s s', inv s -> steps c s es = Some s' -> inv s'.
Proof.
  induction es as [|e es IH]; intros s s' I E; cbn in E; [injection E as <-; exact I|].
  destruct (step c s e) as [x|] eqn:X; [|discriminate]. eapply IH; [|exact E]. eapply inv_step; eauto.
Qed.
Lemma reachable_inv c s : reachable c s -> inv s.
Proof. intros (es & E). eapply inv_steps; [apply inv0|exact E]. Qed.

(** ** The right node *)
Record right (c : setup) (s : st) : Prop := {
  g_queue : forall t r, In r (queue_of s t) -> (exists h, place_of s t = Runs (Some (to c r)) h) \/ place_of s t = Left (Some (to c r));
  g_held : forall t u r, place_of s t = Runs u (Some r) -> u = Some (to c r);
  g_found : forall r t, stage_of s r = Found t -> lives (place_of s t) (Some (to c r));
  g_checked : forall r t, stage_of s r = Checked t -> (exists h, place_of s t = Runs (Some (to c r)) h) \/ place_of s t = Left (Some (to c r));
  g_sent : right_node c s }.
Lemma right0 c : right c st0.
Proof. constructor; cbn; try discriminate; try contradiction. intros r d []. Qed.
Lemma right_stage c s r g : right c s -> (forall t, g = Found t -> lives (place_of s t) (Some (to c r))) ->
  (forall t, g = Checked t -> (exists h, place_of s t = Runs (Some (to c r)) h) \/ place_of s t = Left (Some (to c r))) -> right c (set_stage s r g).
Proof. intros [] A B. constructor; cbn; auto; intros q t E; upds; auto. Qed.
Lemma right_ask c s r : right c s -> right c (ask s r).
Proof. intros []. constructor; cbn; auto. Qed.
Lemma right_pick c s r m : right c s -> (forall t, In t m -> lives (place_of s t) (Some (to c r))) -> right c (pick c s r m).
Proof.
  intros R H. destruct (pick_cases c s r m) as [(-> & ->)|(t & T & _ & ->)]; [destruct R; constructor; cbn; auto|].
  apply right_stage; [exact R| |discriminate]. intros x [= <-]. auto.
Qed.
Lemma right_get c s u p : inv s -> right c s -> (forall v r, p <> Runs v (Some r)) -> right c (get s u p).
Proof.
  intros I R NP. pose proof (get_idle s I) as GI. destruct R as [A B C D F]. constructor; unfold get; cbn.
  - intros t r H. upds; [|auto]. apply A in H. rewrite GI in H. destruct H as [(h & H)|H]; discriminate.
  - intros t v r H. upds; [destruct (NP v r H)|eauto].
  - intros r t H. upds; [|auto]. apply C in H. rewrite GI in H. destruct H.
  - intros r t H. upds; [|auto]. apply D in H. rewrite GI in H. destruct H as [(h & H)|H]; discriminate.
  - exact F.
Qed.
(** A thread moves on. *)
Lemma right_place c s t p u : right c s -> lives (place_of s t) u -> lives p u ->
  (forall v r, p = Runs v (Some r) -> v = Some (to c r)) ->
  (running (place_of s t) = true \/ (exists v, place_of s t = Ready v) -> p = Left u \/ exists h, p = Runs u h) ->
  (forall v, place_of s t = Left v -> queue_of s t = [] /\ forall r, stage_of s r <> Checked t) -> right c (set_place s t p).
Proof.
  intros R L L' H1 H2 H3. destruct R as [A B C D F]. constructor; cbn.
  - intros x r H. upds; [|auto]. destruct (A t r H) as [(h & E)|E].
    + rewrite E in H2, L. cbn in L. subst u. destruct (H2 ltac:(now left)) as [->|(h' & ->)]; [now right|left; eauto].
    + destruct (H3 _ E) as (Q & _). rewrite Q in H. destruct H.
  - intros x v r H. upds; [apply H1, H|eauto].
  - intros r x H. upds; [|auto]. pose proof (C r t H) as E. destruct (place_of s t), p; cbn in *; try tauto; congruence.
  - intros r x H. upds; [|auto]. destruct (D r t H) as [(h & E)|E].
    + rewrite E in H2, L. cbn in L. subst u. destruct (H2 ltac:(now left)) as [->|(h' & ->)]; [now right|left; eauto].
    + destruct (H3 _ E) as (_ & Q). destruct (Q r H).
  - exact F.
Qed.
Lemma right_note c s l : right c s -> (forall r d, In (Sent r d) l -> d = to c r) -> right c (note s l).
Proof. intros [A B C D F] H. constructor; cbn; auto. intros r d X. cbn in X. apply in_app_iff in X. destruct X; auto. Qed.
Lemma right_queue_less c s t q : right c s -> incl q (queue_of s t) -> right c (set_queue s t q).
Proof. intros [A B C D F] H. constructor; cbn; auto. intros x r X. upds; auto. Qed.
Lemma right_stop c s t b : right c s -> right c (set_stop s t b).
Proof. intros []. constructor; cbn; auto. Qed.
Lemma released_sent l r d : ~ In (Sent r d) (map Released l).
Proof. intros H. apply in_map_iff in H. destruct H as (x & E & _). discriminate. Qed.

Lemma right_step c s e s' : inv s -> right c s -> in_time s e -> step c s e = Some s' -> right c s'.
Proof.
  intros I R IT E. open E; cbn in IT.
  - apply right_stage; [now apply right_ask|discriminate|discriminate].
  - apply right_pick; [now apply right_ask|]. intros t H. cbn. apply (i_map s I). now apply threads_in.
  - apply right_pick; [exact R|]. intros t H. apply (i_map s I). now apply threads_in.
  - apply right_stage; [|discriminate|discriminate]. apply right_get; auto. discriminate.
  - apply right_stage; [|discriminate|discriminate]. eapply right_place; [exact R|rewrite P; reflexivity|reflexivity|discriminate|right; eauto|congruence].
  - apply right_stage; [exact R| |]; destruct (running _) eqn:B; try discriminate. intros x [= <-].
    pose proof (g_found c s R r t G) as L. destruct (place_of s t); try discriminate B. cbn in L. subst u. left. eauto.
  - apply right_stage; [|discriminate|discriminate]. pose proof (g_checked c s R r t G) as CH. destruct R as [A B C D F]. constructor; cbn; auto.
    intros x q H. upds; [|auto]. apply in_app_iff in H. destruct H as [H|[<-|[]]]; [auto|exact CH].
  - apply right_stage; [exact R|discriminate|discriminate].
  - eapply right_place; [apply right_queue_less; [exact R|rewrite Q; intros x H; now right]|cbn; rewrite P; reflexivity|reflexivity| |right; eauto|cbn; congruence].
    intros v x [= <- <-]. destruct (g_queue c s R t r) as [(h & X)|X]; [rewrite Q; now left| |]; rewrite P in X; congruence.
  - eapply right_place; [apply right_note; [exact R|]|cbn; rewrite P; reflexivity|reflexivity|discriminate|right; eauto|cbn; congruence].
    intros x d [H|[]]. pose proof (g_held c s R t _ _ P) as X. destruct (stop s t), proxy; try discriminate. injection H as -> ->. congruence.
  - now apply right_stop.
  - eapply right_place; [exact R|rewrite P; reflexivity|reflexivity|discriminate|now left|congruence].
  - eapply right_place; [exact R|rewrite P; reflexivity|reflexivity|discriminate|now left|congruence].
  - apply right_stop. eapply right_place; [apply right_note; [apply right_queue_less; [exact R|intros x []]|]|cbn; rewrite P; reflexivity|reflexivity|discriminate| |].
    + intros r d H. destruct (released_sent _ _ _ H).
    + cbn. rewrite P. cbn. intros [H|(v & H)]; discriminate.
    + cbn. intros v H. split; [apply upd_eq|exact IT].
  - destruct R as [A B C D F]. constructor; cbn; auto.
    + intros x r H. upds; [|auto]. apply A in H. rewrite P in H. destruct H as [(h & H)|H]; discriminate.
    + intros x v r H. upds; [discriminate|eauto].
    + intros r x H. upds; [destruct (IT r H)|auto].
    + intros r x H. upds; [|auto]. apply D in H. rewrite P in H. destruct H as [(h & H)|H]; discriminate.
  - destruct R as [A B C D F]. constructor; cbn; auto.
    + intros x r H. upds; [|auto]. apply A in H. rewrite P in H. destruct H as [(h & H)|H]; discriminate.
    + intros x v r H. upds; [destruct room; discriminate|eauto].
    + intros r x H. upds; [|auto]. apply C in H. rewrite P in H. destruct H.
    + intros r x H. upds; [|auto]. apply D in H. rewrite P in H. destruct H as [(h & H)|H]; discriminate.
  - apply right_note; [apply right_queue_less; [exact R|intros x []]|]. intros r d H. destruct (released_sent _ _ _ H).
  - apply right_get; auto. discriminate.
Qed.
Lemma right_steps c : forall es s s', inv s -> right c s -> all_in_time c s es -> steps c s es = Some s' -> right c s'.
Proof.
  induction es as [|e es IH]; intros s s' I R T E; cbn in E; [injection E as <-; exact R|]. destruct T as (T & TS).
  destruct (step c s e) as [x|] eqn:X; [|discriminate]. eapply IH; [eapply inv_step; eauto|eapply right_step; eauto|apply TS; auto|exact E].
Qed.

(** Nobody is stopped: nobody is late. *)
Definition going (s : st) : Prop := (forall t, stop s t = false) /\ forall t d, place_of s t <> Left (Some d) /\ place_of s t <> Swept (Some d).
Lemma going0 : going st0.
Proof. split; [reflexivity|split; discriminate]. Qed.
Lemma going_step c s e s' : going s -> (forall t, e <> Stop t) -> step c s e = Some s' -> going s'.
Proof.
  intros (A & B) NS E. assert (PK : forall s r m, going s -> going (pick c s r m)). { intros x r m H. destruct m; exact H. }
  open E; try (exfalso; eapply NS; reflexivity).
  all: try (apply PK; split; [exact A|exact B]).
  all: try (rewrite A in *; discriminate).
  all: split; [try exact A|]; try (intros x d; cbn; first [exact (B x d)|upds; first [exact (B x d)|destruct room; split; discriminate|split; discriminate]]).
  - intros x. cbn. upds; [reflexivity|apply A].
  - intros x d. cbn. upds; [|exact (B x d)]. destruct u; [|split; discriminate]. destruct (B t n). congruence.
Qed.
Lemma going_in_time c s e s' : right c s -> going s -> step c s e = Some s' -> in_time s e.
Proof.
  intros R (A & B) E. open E; cbn; auto; intros r H.
  - pose proof (g_checked c s R r t H) as X. rewrite P in X. destruct X as [(h & X)|X]; [discriminate|]. destruct (B t (to c r)). congruence.
  - pose proof (g_found c s R r t H) as X. rewrite P in X. cbn in X. subst u. destruct (B t (to c r)). congruence.
Qed.
Lemma undisturbed_right c : forall es s s', inv s -> right c s -> going s -> undisturbed es -> steps c s es = Some s' -> right c s' /\ going s'.
Proof.
  induction es as [|e es IH]; intros s s' I R K U E; cbn in E; [injection E as <-; auto|].
  destruct (step c s e) as [x|] eqn:X; [|discriminate]. eapply IH; [| | | |exact E].
  - eapply inv_step; eauto.
  - eapply right_step; eauto. eapply going_in_time; eauto.
  - eapply going_step; [exact K| |exact X]. intros t ->. apply (U t). now left.
  - intros t H. apply (U t). now right.
Qed.
