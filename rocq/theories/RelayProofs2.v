(** Proofs about requests that are passed on: each once, and in order. *)
From Coq Require Import List Bool NArith Arith Lia ZifyBool ZifyNat ZifyN.
From Verif Require Import RelayModel RelaySpec RelayProofs.
Import ListNotations.
Local Open Scope N_scope.

(** ** Every request that was put into a queue is in one place *)
Definition held (p : place) : list N := match p with Runs _ (Some r) => [r] | _ => [] end.
Definition hq (s : st) (t : N) : list N := held (place_of s t) ++ queue_of s t.
Lemma with_hq s t r : with_ s t r <-> In r (hq s t).
Proof.
  unfold with_, hq. rewrite in_app_iff. split.
  - intros [H|(u & H)]; [now right|left; rewrite H; now left].
  - intros [H|H]; [|now left]. right. destruct (place_of s t) as [|u|u h|u|u| |]; try contradiction. destruct h; [|contradiction]. destruct H as [<-|[]]. eauto.
Qed.
Record once (s : st) : Prop := {
  o_log : NoDup (map who (log s));
  o_hq : forall t, NoDup (hq s t);
  o_not : forall t r, In r (hq s t) -> ~ done s r;
  o_one : forall t u r, In r (hq s t) -> In r (hq s u) -> t = u;
  o_pushed : forall r, stage_of s r = Pushed <-> done s r \/ exists t, In r (hq s t) }.
Lemma once0 : once st0.
Proof. constructor; cbn; try (constructor; fail); try contradiction. intros r. split; [discriminate|]. intros [[]|(t & [])]. Qed.
Lemma once_same s s' : once s -> (forall t, hq s' t = hq s t) -> log s' = log s -> (forall r, stage_of s' r = Pushed <-> stage_of s r = Pushed) -> once s'.
Proof.
  intros [A B C D F] H L G. constructor.
  - now rewrite L.
  - intros t. now rewrite H.
  - intros t r. rewrite H. unfold done. rewrite L. apply C.
  - intros t u r. rewrite !H. apply D.
  - intros r. rewrite G, F. unfold done. rewrite L. split; (intros [X|(t & X)]; [now left|right; exists t]); [now rewrite H|now rewrite <- H].
Qed.
Lemma in_nodup_app {A} (l m : list A) : NoDup (l ++ m) <-> NoDup l /\ NoDup m /\ forall x, In x l -> ~ In x m.
Proof.
  induction l as [|a l IH]; cbn.
  - split; [intros H; split; [constructor|split; [exact H|tauto]]|tauto].
  - rewrite !NoDup_cons_iff, in_app_iff, IH. split.
    + intros (H & X & Y & Z). split; [tauto|]. split; [exact Y|]. intros x [<-|I]; [tauto|auto].
    + intros ((H & X) & Y & Z). split; [|split; [exact X|split; [exact Y|auto]]]. intros [I|I]; [tauto|]. exact (Z a (or_introl eq_refl) I).
Qed.
(** The first of the requests of a thread are dealt with. *)
Lemma once_move s s' t l : once s -> hq s t = l ++ hq s' t -> (forall u, u <> t -> hq s' u = hq s u) ->
  map who (log s') = map who (log s) ++ l -> (forall r, stage_of s' r = stage_of s r) -> once s'.
Proof.
  intros [A B C D F] H U L G. pose proof (B t) as BT. rewrite H in BT. apply in_nodup_app in BT. destruct BT as (B1 & B2 & B3).
  assert (IN : forall u r, In r (hq s' u) -> In r (hq s u)).
  { intros u r X. destruct (N.eq_dec u t) as [->|NE]; [rewrite H; apply in_app_iff; now right|now rewrite <- U]. }
  constructor.
  - rewrite L. apply in_nodup_app. split; [exact A|]. split; [exact B1|]. intros r X Y. apply (C t r); [rewrite H; apply in_app_iff; now left|exact X].
  - intros u. destruct (N.eq_dec u t) as [->|NE]; [exact B2|rewrite U by exact NE; apply B].
  - intros u r X. unfold done. rewrite L, in_app_iff. intros [Y|Y]; [exact (C u r (IN u r X) Y)|].
    assert (E : u = t) by (apply (D u t r); [auto|rewrite H; apply in_app_iff; now left]). subst u. exact (B3 r Y X).
  - intros u v r X Y. apply (D u v r); auto.
  - intros r. rewrite G, F. unfold done. rewrite L, in_app_iff. split.
    + intros [X|(u & X)]; [tauto|]. destruct (N.eq_dec u t) as [->|NE]; [|right; exists u; now rewrite U].
      rewrite H in X. apply in_app_iff in X. destruct X; [tauto|right; eauto].
    + intros [[X|X]|(u & X)]; [tauto| |right; exists u; auto]. right. exists t. rewrite H. apply in_app_iff. now left.
Qed.
Lemma hq_place s t p u : held p = held (place_of s t) -> hq (set_place s t p) u = hq s u.
Proof. intros H. unfold hq; cbn. upds; [now rewrite H|reflexivity]. Qed.
Lemma once_pick c s r m : once s -> stage_of s r <> Pushed -> once (pick c s r m).
Proof.
  intros O NP. destruct (pick_cases c s r m) as [(-> & ->)|(t & _ & _ & ->)]; (eapply once_same; [exact O|reflexivity|reflexivity|]); cbn; [tauto|].
  intros q. upds; [|tauto]. split; [discriminate|contradiction].
Qed.
Lemma who_released l : map who (map Released l) = l.
Proof. rewrite map_map. apply map_id. Qed.
Ltac stages := let q := fresh "q" in intros q; cbn; upds; [split; intros ?X; congruence|tauto].
Lemma once_step c s e s' : inv s -> once s -> step c s e = Some s' -> once s'.
Proof.
  intros I O E. open E.
  - eapply once_same; [exact O|reflexivity|reflexivity|stages].
  - apply once_pick; [|cbn; congruence]. eapply once_same; [exact O|reflexivity|reflexivity|cbn; tauto].
  - apply once_pick; [exact O|congruence].
  - eapply once_same; [exact O| |reflexivity|stages]. intros t. unfold hq, get; cbn. upds; [now rewrite (get_idle s I)|reflexivity].
  - eapply once_same; [exact O| |reflexivity|stages]. intros x. change (hq (set_place s t (Runs u None)) x = hq s x). apply hq_place. now rewrite P.
  - eapply once_same; [exact O|reflexivity|reflexivity|]. intros q; cbn. upds; [|tauto]. destruct (running _); split; congruence.
  - assert (NR : forall u, ~ In r (hq s u) /\ ~ done s r).
    { intros u. split; intros X; assert (stage_of s r = Pushed) by (apply (o_pushed s O); eauto); congruence. }
    destruct O as [A B C D F].
    assert (HT : hq (set_stage (set_queue s t (queue_of s t ++ [r])) r Pushed) t = hq s t ++ [r]) by (unfold hq; cbn; now rewrite upd_eq, app_assoc).
    assert (HU : forall u, u <> t -> hq (set_stage (set_queue s t (queue_of s t ++ [r])) r Pushed) u = hq s u) by (intros u NE; unfold hq; cbn; now rewrite upd_ne).
    assert (HI : forall u q, In q (hq (set_stage (set_queue s t (queue_of s t ++ [r])) r Pushed) u) <-> In q (hq s u) \/ (u = t /\ q = r)).
    { intros u q. destruct (N.eq_dec u t) as [->|NE]; [rewrite HT, in_app_iff; cbn; intuition|rewrite HU by exact NE; intuition]. }
    constructor.
    + exact A.
    + intros u. destruct (N.eq_dec u t) as [->|NE]; [|rewrite HU by exact NE; apply B]. rewrite HT. apply in_nodup_app. split; [apply B|]. split; [constructor; [tauto|constructor]|].
      intros x X [<-|[]]. exact (proj1 (NR t) X).
    + intros u q X. apply HI in X. destruct X as [X|(-> & ->)]; [exact (C u q X)|exact (proj2 (NR t))].
    + intros u v q X Y. apply HI in X, Y. destruct X as [X|(-> & ->)], Y as [Y|(-> & Y)]; eauto; [subst q; destruct (proj1 (NR u) X)|destruct (proj1 (NR v) Y)].
    + intros q. cbn. upds.
      * split; [intros _; right; exists t; apply HI; now right|reflexivity].
      * rewrite F. split; (intros [X|(u & X)]; [now left|right; exists u]); [apply HI; now left|]. apply HI in X. tauto.
  - eapply once_same; [exact O|reflexivity|reflexivity|stages].
  - eapply once_same; [exact O| |reflexivity|cbn; tauto]. intros x. unfold hq; cbn. upds; [rewrite P, Q; reflexivity|reflexivity].
  - eapply (once_move s _ t [n0]); [exact O| | |cbn; rewrite map_app; cbn; destruct (stop s t), proxy; reflexivity|reflexivity].
    + unfold hq; cbn. rewrite upd_eq, P. reflexivity.
    + intros x NE. unfold hq; cbn. now rewrite upd_ne.
  - eapply once_same; [exact O|reflexivity|reflexivity|cbn; tauto].
  - eapply once_same; [exact O| |reflexivity|cbn; tauto]. intros x. apply hq_place. now rewrite P.
  - eapply once_same; [exact O| |reflexivity|cbn; tauto]. intros x. apply hq_place. now rewrite P.
  - eapply (once_move s _ t (queue_of s t)); [exact O| | |cbn; rewrite map_app, who_released; reflexivity|reflexivity].
    + unfold hq; cbn. rewrite !upd_eq, P. cbn. now rewrite app_nil_r.
    + intros x NE. unfold hq; cbn. now rewrite !upd_ne.
  - eapply once_same; [exact O| |reflexivity|cbn; tauto]. intros x. unfold hq; cbn. upds; [now rewrite P|reflexivity].
  - eapply once_same; [exact O| |reflexivity|cbn; tauto]. intros x. unfold hq; cbn. upds; [rewrite P; now destruct room|reflexivity].
  - eapply (once_move s _ t (queue_of s t)); [exact O| | |cbn; rewrite map_app, who_released; reflexivity|reflexivity].
    + unfold hq; cbn. rewrite !upd_eq, P. cbn. now rewrite app_nil_r.
    + intros x NE. unfold hq; cbn. now rewrite !upd_ne.
  - eapply once_same; [exact O| |reflexivity|cbn; tauto]. intros t. unfold hq, get; cbn. upds; [now rewrite (get_idle s I)|reflexivity].
Qed.
Lemma once_steps c : forall es s s', inv s -> once s -> steps c s es = Some s' -> once s'.
Proof.
  induction es as [|e es IH]; intros s s' I O E; cbn in E; [injection E as <-; exact O|].
  destruct (step c s e) as [x|] eqn:X; [|discriminate]. eapply IH; [| |exact E]; [eapply inv_step|eapply once_step]; eauto.
Qed.

(** ** Order *)
Section Order.
Variables (c : setup) (d : N) (m : list N).
Definition thread_for (r : N) : N := nth (N.to_nat (hash c r mod N.of_nat (length m))) m 0.
Record stable (s : st) : Prop := {
  d_some : m <> [];
  d_conc : (concurrency c <= length m)%nat;
  d_map : threads_of s d = m;
  d_run : forall t, In t m -> stop s t = false /\ exists h, place_of s t = Runs (Some d) h;
  d_make : forall r, to c r = d -> forall n t, stage_of s r <> Making n /\ stage_of s r <> Made t n }.
Definition on_track (s : st) (r : N) : Prop :=
  (stage_of s r = NotYet \/ stage_of s r = Found (thread_for r) \/ stage_of s r = Checked (thread_for r) \/ stage_of s r = Pushed \/ stage_of s r = Refused) /\
  forall t, In r (hq s t) -> t = thread_for r.

Lemma threads_get s u p : u <> Some d -> threads_of (get s u p) d = threads_of s d.
Proof.
  intros H. unfold threads_of, get; cbn. rewrite filter_app, map_app. cbn. destruct (use_eqb u (Some d)) eqn:E; [apply use_eqb_eq in E; contradiction|].
  cbn. apply app_nil_r.
Qed.
Lemma threads_erase (l : list (option N * N)) t : ~ In (Some d, t) l ->
  filter (fun e => use_eqb (fst e) (Some d)) (filter (fun e => negb (snd e =? t)) l) = filter (fun e => use_eqb (fst e) (Some d)) l.
Proof.
  induction l as [|(u & x) l IH]; intros H; [reflexivity|]. cbn. destruct (N.eqb_spec x t) as [->|NE]; cbn.
  - destruct (use_eqb u (Some d)) eqn:E; [apply use_eqb_eq in E; subst u; exfalso; apply H; now left|]. apply IH. intros X. apply H. now right.
  - rewrite IH; [reflexivity|]. intros X. apply H. now right.
Qed.
Lemma stable_pick s r x : stable s -> stable (pick c s r x).
Proof.
  intros V. destruct (pick_cases c s r x) as [(-> & ->)|(t & _ & _ & ->)]; destruct V as [A B C D F]; constructor; cbn; auto.
  intros q H n y. upds; [split; discriminate|auto].
Qed.
Lemma stable_stage s r g : stable s -> (to c r = d -> forall n t, g <> Making n /\ g <> Made t n) -> stable (set_stage s r g).
Proof. intros [A B C D F] H. constructor; cbn; auto. intros q X n y. upds; auto. Qed.
(** Nothing about the threads of the node changes. *)
Lemma stable_other s s' : stable s -> active s' = active s -> (forall t, In t m -> stop s' t = stop s t /\ exists h, place_of s' t = Runs (Some d) h) ->
  stage_of s' = stage_of s -> stable s'.
Proof.
  intros [A B C D F] H1 H2 H3. constructor; auto.
  - unfold threads_of in *. now rewrite H1.
  - intros t T. destruct (H2 t T) as (X & Y). rewrite X. split; [apply D, T|exact Y].
  - rewrite H3. exact F.
Qed.
Lemma stable_ask s r : stable s -> stable (ask s r).
Proof. intros V. apply (stable_other s); auto. intros t T. destruct (d_run s V t T). auto. Qed.
Lemma stable_step s e s' : inv s -> stable s -> (forall t, e <> Stop t) -> step c s e = Some s' -> stable s'.
Proof.
  intros I V NS E. pose proof (d_run s V) as DR. open E; try (exfalso; eapply NS; reflexivity).
  - apply stable_stage; [now apply stable_ask|]. intros H. exfalso. rewrite H, (d_map s V) in L. pose proof (d_conc s V). apply Nat.ltb_lt in L. lia.
  - apply stable_pick. now apply stable_ask.
  - apply stable_pick, V.
  - assert (NE : to c r <> d) by (intros H; destruct (d_make s V r H (S n) 0); congruence).
    apply stable_stage; [|contradiction]. destruct V as [A B C D F]. constructor; auto.
    + rewrite threads_get; [exact C|congruence].
    + intros t T. destruct (D t T) as (X & h & Y). split; [exact X|]. exists h. unfold get; cbn. rewrite upd_ne; [exact Y|]. intros ->. rewrite (get_idle s I) in Y. discriminate.
  - assert (NE : to c r <> d) by (intros H; destruct (d_make s V r H n t); congruence).
    apply stable_stage; [|contradiction]. apply (stable_other s); auto. intros x T. destruct (DR x T) as (X & h & Y). split; [reflexivity|]. exists h. cbn. rewrite upd_ne; [exact Y|]. intros ->. congruence.
  - apply stable_stage; [exact V|]. intros _ n y. destruct (running _); split; discriminate.
  - apply stable_stage; [|split; discriminate]. apply (stable_other s); auto. intros x T. destruct (DR x T). auto.
  - apply stable_stage; [exact V|split; discriminate].
  - apply (stable_other s); auto. intros x T. destruct (DR x T) as (X & h & Y). split; [reflexivity|]. cbn. upds; [|eauto]. rewrite P in Y. injection Y as -> _. eauto.
  - apply (stable_other s); auto. intros x T. destruct (DR x T) as (X & h & Y). split; [reflexivity|]. cbn. upds; [|eauto]. rewrite P in Y. injection Y as -> _. eauto.
  - apply (stable_other s); auto. intros x T. destruct (DR x T) as (X & h & Y). split; [reflexivity|]. exists h. cbn. rewrite upd_ne; [exact Y|]. intros ->. congruence.
  - apply (stable_other s); auto. intros x T. destruct (DR x T) as (X & h & Y). split; [reflexivity|]. exists h. cbn. rewrite upd_ne; [exact Y|]. intros ->. congruence.
  - apply (stable_other s); auto. intros x T. destruct (DR x T) as (X & h & Y). assert (x <> t) by congruence. cbn. rewrite !upd_ne by assumption. eauto.
  - destruct V as [A B C D F]. constructor; auto.
    + unfold threads_of in *; cbn. rewrite threads_erase; [exact C|]. intros H. assert (T : In t m) by (rewrite <- C; apply (threads_in s d t), H).
      destruct (D t T) as (_ & h & Y). congruence.
    + intros x T. destruct (D x T) as (X & h & Y). split; [exact X|]. exists h. cbn. rewrite upd_ne; [exact Y|]. intros ->. congruence.
  - apply (stable_other s); auto. intros x T. destruct (DR x T) as (X & h & Y). split; [reflexivity|]. exists h. cbn. rewrite upd_ne; [exact Y|]. intros ->. congruence.
  - apply (stable_other s); auto. intros x T. destruct (DR x T). auto.
  - destruct V as [A B C D F]. constructor; auto.
    + rewrite threads_get; [exact C|congruence].
    + intros t T. destruct (D t T) as (X & h & Y). split; [exact X|]. exists h. unfold get; cbn. rewrite upd_ne; [exact Y|]. intros ->. rewrite (get_idle s I) in Y. discriminate.
Qed.
(** Where a request can be after a step. *)
Lemma hq_step s e s' : inv s -> step c s e = Some s' ->
  (forall t r, In r (hq s' t) -> In r (hq s t) \/ stage_of s r = Checked t) .
Proof.
  intros I E. open E; intros x z H; try (left; exact H).
  - destruct (pick_cases c (ask s r) r (threads_of s (to c r))) as [(_ & X)|(y & _ & _ & X)]; rewrite X in H; left; exact H.
  - destruct (pick_cases c s r (threads_of s (to c r))) as [(_ & X)|(y & _ & _ & X)]; rewrite X in H; left; exact H.
  - left. revert H. unfold hq, get; cbn. upds; [now rewrite (get_idle s I)|auto].
  - left. revert H. unfold hq; cbn. upds; [now rewrite P|auto].
  - revert H. unfold hq; cbn. upds; [|auto]. rewrite app_assoc, in_app_iff. cbn. intuition. subst z. auto.
  - left. revert H. unfold hq; cbn. upds; [now rewrite P, Q|auto].
  - left. revert H. unfold hq; cbn. upds; [rewrite P; cbn; tauto|auto].
  - left. revert H. unfold hq; cbn. upds; [now rewrite P|auto].
  - left. revert H. unfold hq; cbn. upds; [now rewrite P|auto].
  - left. revert H. unfold hq; cbn. upds; [contradiction|auto].
  - left. revert H. unfold hq; cbn. upds; [now rewrite P|auto].
  - left. revert H. unfold hq; cbn. upds; [rewrite P; now destruct room|auto].
  - left. revert H. unfold hq; cbn. upds; [now rewrite P|auto].
  - left. revert H. unfold hq, get; cbn. upds; [now rewrite (get_idle s I)|auto].
Qed.
Lemma track_step s e s' k : inv s -> stable s -> to c k = d -> on_track s k -> step c s e = Some s' -> on_track s' k.
Proof.
  intros I V TD (T & W) E. split.
  - assert (NM : forall n t, stage_of s k <> Making n /\ stage_of s k <> Made t n) by (intros n t; apply (d_make s V k TD)).
    open E; try exact T.
    + destruct (N.eq_dec k r) as [<-|NE]; [|cbn; now rewrite upd_ne]. exfalso. rewrite TD, (d_map s V) in L. pose proof (d_conc s V). apply Nat.ltb_lt in L. lia.
    + destruct (N.eq_dec k r) as [<-|NE].
      * rewrite TD, (d_map s V). destruct (pick_cases c (ask s k) k m) as [(X & _)|(y & _ & X & ->)]; [destruct (d_some s V X)|]. cbn. rewrite upd_eq. right; left. now rewrite X.
      * destruct (pick_cases c (ask s r) r (threads_of s (to c r))) as [(_ & ->)|(y & _ & _ & ->)]; cbn; [exact T|now rewrite upd_ne].
    + destruct (N.eq_dec k r) as [<-|NE]; [destruct (NM 0%nat 0); congruence|].
      destruct (pick_cases c s r (threads_of s (to c r))) as [(_ & ->)|(y & _ & _ & ->)]; cbn; [exact T|now rewrite upd_ne].
    + destruct (N.eq_dec k r) as [<-|NE]; [destruct (NM (S n) 0); congruence|]. cbn. now rewrite upd_ne.
    + destruct (N.eq_dec k r) as [<-|NE]; [destruct (NM n t); congruence|]. cbn. now rewrite upd_ne.
    + cbn. upds; [|exact T]. rewrite G in T. assert (X : t = thread_for r) by (destruct T as [T|[T|[T|[T|T]]]]; congruence). rewrite X. destruct (running _); tauto.
    + cbn. upds; tauto.
    + cbn. upds; tauto.
  - intros t H. destruct (hq_step s e s' I E t k H) as [X|X]; [auto|]. destruct T as [T|[T|[T|[T|T]]]]; congruence.
Qed.

(** [j] behind [k]. *)
Variables (k j : N).
Definition ahead (s : st) : Prop := after s k j /\ (done s k \/ (~ done s j /\ exists a b, hq s (thread_for k) = a ++ k :: b /\ ~ In j a)).
Lemma after_app s s' l : after s k j -> log s' = log s ++ l -> done s k \/ ~ In j (map who l) -> after s' k j.
Proof.
  intros A L H l1 o l2 E W. rewrite L in E. apply app_eq_app in E. destruct E as (x & [(E1 & E2)|(E1 & E2)]).
  - destruct x as [|o' x]; cbn in E2.
    + rewrite app_nil_r in E1. rewrite <- E1. destruct H as [H|H]; [exact H|]. exfalso. apply H. rewrite <- E2, <- W. now left.
    + injection E2 as -> E2. apply (A l1 o' x); [exact E1|exact W].
  - destruct H as [H|H]; [rewrite E1, map_app, in_app_iff; now left|]. exfalso. apply H. rewrite E2, map_app, in_app_iff. right. rewrite <- W. now left.
Qed.
Lemma done_app s s' l x : log s' = log s ++ l -> done s' x <-> done s x \/ In x (map who l).
Proof. intros L. unfold done. rewrite L, map_app, in_app_iff. tauto. Qed.
Hypothesis (Hto : to c k = d) (Hto' : to c j = d) (Hh : hash c k = hash c j) (Hne : k <> j).
Lemma same_thread : thread_for j = thread_for k.
Proof. unfold thread_for. now rewrite Hh. Qed.
Lemma thread_in s : stable s -> In (thread_for k) m.
Proof. intros V. apply nth_hash, V. Qed.
(** A step that deals with [l], which are requests of thread [t], or of none. *)
Lemma ahead_keep s s' l t : on_track s j -> ahead s -> log s' = log s ++ l ->
  (forall x, In x (map who l) -> In x (hq s t) /\ t <> thread_for k) ->
  (exists b, hq s' (thread_for k) = hq s (thread_for k) ++ b) -> ahead s'.
Proof.
  intros T (A & B) L LT (b & H). assert (NQ : ~ In j (map who l)).
  { intros X. destruct (LT j X) as (Y & Z). apply Z. rewrite (proj2 T t Y). apply same_thread. }
  split; [eapply after_app; eauto|]. destruct B as [B|(B & x & y & E & N)].
  - left. apply (done_app s s' l k L). now left.
  - right. split; [rewrite (done_app s s' l j L); tauto|]. exists x, (y ++ b). split; [|exact N]. rewrite H, E, <- app_assoc. reflexivity.
Qed.
Lemma log_pick s x y : log (pick c s x y) = log s.
Proof. now destruct y. Qed.
Lemma hq_pick s x y t : hq (pick c s x y) t = hq s t.
Proof. now destruct y. Qed.
Lemma ahead_step s e s' : inv s -> stable s -> on_track s j -> ahead s -> step c s e = Some s' -> ahead s'.
Proof.
  intros I V T A E. pose proof (thread_in s V) as TI. destruct (d_run s V _ TI) as (TS & h0 & TP).
  assert (SAME : forall s', log s' = log s -> (exists b, hq s' (thread_for k) = hq s (thread_for k) ++ b) -> ahead s').
  { intros x L H. eapply (ahead_keep s x [] 0); eauto; [now rewrite app_nil_r|intros y []]. }
  assert (SAME' : forall s', log s' = log s -> hq s' (thread_for k) = hq s (thread_for k) -> ahead s').
  { intros x L H. apply SAME; [exact L|]. exists []. now rewrite app_nil_r. }
  open E; try (apply SAME'; reflexivity).
  - apply SAME'; [now rewrite log_pick|now rewrite hq_pick].
  - apply SAME'; [now rewrite log_pick|now rewrite hq_pick].
  - apply SAME'; [reflexivity|]. unfold hq, get; cbn. rewrite upd_ne; [reflexivity|]. intros X. rewrite X, (get_idle s I) in TP. discriminate.
  - apply SAME'; [reflexivity|]. unfold hq; cbn. rewrite upd_ne; [reflexivity|congruence].
  - apply SAME; [reflexivity|]. unfold hq; cbn. unfold upd. destruct (N.eqb_spec (thread_for k) t) as [<-|NE]; [exists [r]; now rewrite app_assoc|exists []; now rewrite app_nil_r].
  - apply SAME'; [reflexivity|]. unfold hq; cbn. unfold upd. destruct (N.eqb_spec (thread_for k) t) as [<-|NE]; [|reflexivity]. rewrite P, Q. reflexivity.
  - destruct (N.eq_dec t (thread_for k)) as [->|NE].
    + destruct A as (A & B). set (o := if stop s (thread_for k) then Dropped n0 else if proxy then Skipped n0 else Sent n0 n).
      assert (WO : who o = n0) by (unfold o; destruct (stop s (thread_for k)), proxy; reflexivity).
      assert (HQ : hq s (thread_for k) = n0 :: queue_of s (thread_for k)) by (unfold hq; rewrite P; reflexivity).
      assert (L : log (set_place (note s [o]) (thread_for k) (Runs (Some n) None)) = log s ++ [o]) by reflexivity. clearbody o.
      split.
      * eapply after_app; [exact A|exact L|]. destruct B as [B|(B & a & b & E & N)]; [now left|right]. cbn. rewrite WO. rewrite HQ in E.
        intros [X|[]]. subst n0. destruct a as [|y a]; cbn in E; injection E as E1 E2; [congruence|]. apply N. rewrite <- E1. now left.
      * destruct B as [B|(B & a & b & E & N)]; [left; apply (done_app s _ _ _ L); now left|]. rewrite HQ in E. destruct a as [|y a]; cbn in E; injection E as E1 E2.
        -- left. apply (done_app s _ _ _ L). right. cbn. rewrite WO. now left.
        -- right. split.
           ++ rewrite (done_app s _ _ _ L). cbn. rewrite WO. intros [X|[X|[]]]; [tauto|]. apply N. left. congruence.
           ++ exists a, b. split; [|intros X; apply N; now right]. unfold hq; cbn. rewrite upd_eq. exact E2.
    + eapply (ahead_keep s _ _ t); [exact T|exact A|reflexivity| |exists []; unfold hq; cbn; rewrite upd_ne by congruence; now rewrite app_nil_r].
      cbn. intros x [<-|[]]. split; [|exact NE]. unfold hq. rewrite P. left. destruct (stop s t), proxy; reflexivity.
  - apply SAME'; [reflexivity|]. unfold hq; cbn. rewrite upd_ne; [reflexivity|]. intros X. subst t. rewrite TS in *. discriminate.
  - apply SAME'; [reflexivity|]. unfold hq; cbn. rewrite upd_ne; [reflexivity|congruence].
  - assert (NE : t <> thread_for k) by congruence. eapply (ahead_keep s _ _ t); [exact T|exact A|reflexivity| |exists []; unfold hq; cbn; rewrite !upd_ne by congruence; now rewrite app_nil_r].
    rewrite who_released. intros x X. split; [|exact NE]. unfold hq. apply in_app_iff. now right.
  - apply SAME'; [reflexivity|]. unfold hq; cbn. rewrite upd_ne; [reflexivity|congruence].
  - apply SAME'; [reflexivity|]. unfold hq; cbn. rewrite upd_ne; [reflexivity|congruence].
  - assert (NE : t <> thread_for k) by congruence. eapply (ahead_keep s _ _ t); [exact T|exact A|reflexivity| |exists []; unfold hq; cbn; rewrite !upd_ne by congruence; now rewrite app_nil_r].
    rewrite who_released. intros x X. split; [|exact NE]. unfold hq. apply in_app_iff. now right.
  - apply SAME'; [reflexivity|]. unfold hq, get; cbn. rewrite upd_ne; [reflexivity|]. intros X. rewrite X, (get_idle s I) in TP. discriminate.
Qed.
Lemma tracks : forall es s s', inv s -> stable s -> on_track s k -> on_track s j -> undisturbed es -> steps c s es = Some s' ->
  stable s' /\ on_track s' k /\ on_track s' j.
Proof.
  induction es as [|e es IH]; intros s s' I V A B U E; cbn in E; [injection E as <-; auto|].
  destruct (step c s e) as [x|] eqn:X; [|discriminate]. eapply IH; [| | | | |exact E].
  - eapply inv_step; eauto.
  - eapply stable_step; eauto. intros t ->. apply (U t). now left.
  - eapply track_step; eauto.
  - eapply track_step; eauto.
  - intros t H. apply (U t). now right.
Qed.
Lemma aheads : forall es s s', inv s -> stable s -> on_track s j -> ahead s -> undisturbed es -> steps c s es = Some s' -> ahead s'.
Proof.
  induction es as [|e es IH]; intros s s' I V A B U E; cbn in E; [injection E as <-; auto|].
  destruct (step c s e) as [x|] eqn:X; [|discriminate]. eapply IH; [| | | | |exact E].
  - eapply inv_step; eauto.
  - eapply stable_step; eauto. intros t ->. apply (U t). now left.
  - eapply track_step; eauto.
  - eapply ahead_step; eauto.
  - intros t H. apply (U t). now right.
Qed.
End Order.

Lemma not_yet_before c k : forall es s s', steps c s es = Some s' -> stage_of s' k = NotYet -> stage_of s k = NotYet.
Proof.
  induction es as [|e es IH]; intros s s' E H; cbn in E; [injection E as <-; exact H|]. destruct (step c s e) as [x|] eqn:X; [|discriminate].
  pose proof (IH x s' E H) as K. clear - X K. open X; auto.
  - revert K. cbn. upds; [discriminate|auto].
  - destruct (pick_cases c (ask s r) r (threads_of s (to c r))) as [(_ & Y)|(y & _ & _ & Y)]; rewrite Y in K; revert K; cbn; [auto|upds; [discriminate|auto]].
  - destruct (pick_cases c s r (threads_of s (to c r))) as [(_ & Y)|(y & _ & _ & Y)]; rewrite Y in K; revert K; cbn; [auto|upds; [discriminate|auto]].
  - revert K. cbn. upds; [discriminate|auto].
  - revert K. cbn. upds; [discriminate|auto].
  - revert K. cbn. upds; [destruct (running _); discriminate|auto].
  - revert K. cbn. upds; [discriminate|auto].
  - revert K. cbn. upds; [discriminate|auto].
Qed.
Lemma in_order c r q es0 s0 es1 s1 es2 s2 : steps c st0 es0 = Some s0 -> settled c s0 (to c r) ->
  to c q = to c r -> hash c q = hash c r -> stage_of s0 r = NotYet ->
  undisturbed es1 -> steps c s0 es1 = Some s1 -> stage_of s1 r = Pushed -> stage_of s1 q = NotYet ->
  undisturbed es2 -> steps c s1 es2 = Some s2 -> after s2 r q.
Proof.
  intros E0 (S1 & S2 & S3 & S4) HT HH N0 U1 E1 P1 N1 U2 E2.
  assert (I0 : inv s0) by (eapply inv_steps; [apply inv0|exact E0]). assert (O0 : once s0) by (eapply once_steps; [apply inv0|apply once0|exact E0]).
  pose proof (inv_steps c es1 s0 s1 I0 E1) as I1. pose proof (once_steps c es1 s0 s1 I0 O0 E1) as O1.
  assert (NE : r <> q) by congruence.
  assert (NQ : stage_of s0 q = NotYet).
  { eapply not_yet_before; eauto. }
  set (m := threads_of s0 (to c r)) in *.
  assert (V0 : stable c (to c r) m s0) by (constructor; auto).
  assert (TR : on_track c m s0 r). { split; [now left|]. intros t H. assert (stage_of s0 r = Pushed) by (apply (o_pushed s0 O0); eauto). congruence. }
  assert (TQ : on_track c m s0 q). { split; [now left|]. intros t H. assert (stage_of s0 q = Pushed) by (apply (o_pushed s0 O0); eauto). congruence. }
  destruct (tracks c (to c r) m r q eq_refl HT es1 s0 s1 I0 V0 TR TQ U1 E1) as (V1 & TR1 & TQ1).
  assert (NDQ : ~ done s1 q /\ forall t, ~ In q (hq s1 t)). { split; [intros H|intros t H]; assert (stage_of s1 q = Pushed) by (apply (o_pushed s1 O1); eauto); congruence. }
  assert (A1 : ahead c m r q s1).
  { split.
    - intros l1 o l2 E W. destruct NDQ as (X & _). exfalso. apply X. unfold done. rewrite E, map_app, in_app_iff. right. now left.
    - apply (o_pushed s1 O1) in P1. destruct P1 as [H|(t & H)]; [now left|right]. split; [apply NDQ|]. pose proof (proj2 TR1 t H) as ->.
      apply in_split in H. destruct H as (a & b & H). exists a, b. split; [exact H|]. intros X. apply (proj2 NDQ (thread_for c m r)). rewrite H, in_app_iff. now left. }
  exact (proj1 (aheads c (to c r) m r q HT (eq_sym HH) NE es2 s1 s2 I1 V1 TQ1 A1 U2 E2)).
Qed.


(** ** From a settled state a request is taken and gets done *)
Lemma accepted_steps c d m k : to c k = d -> forall es s s', inv s -> stable c d m s -> on_track c m s k -> stage_of s k <> Refused ->
  undisturbed es -> ~ In (Push k false) es -> steps c s es = Some s' -> stage_of s' k <> Refused.
Proof.
  intros TD. induction es as [|e es IH]; intros s s' I V T NR U NP E; cbn in E; [injection E as <-; exact NR|].
  destruct (step c s e) as [x|] eqn:X; [|discriminate]. eapply IH; [| | | | | |exact E].
  - eapply inv_step; eauto.
  - eapply stable_step; eauto. intros t ->. apply (U t). now left.
  - eapply track_step; eauto.
  - destruct T as (T & W). assert (NP' : e <> Push k false) by (intros ->; apply NP; now left). clear - X NR V T NP' TD. open X; auto.
    + cbn. upds; [discriminate|auto].
    + destruct (pick_cases c (ask s r) r (threads_of s (to c r))) as [(_ & Y)|(y & _ & _ & Y)]; rewrite Y; cbn; [auto|upds; [discriminate|auto]].
    + destruct (pick_cases c s r (threads_of s (to c r))) as [(_ & Y)|(y & _ & _ & Y)]; rewrite Y; cbn; [auto|upds; [discriminate|auto]].
    + cbn. upds; [discriminate|auto].
    + cbn. upds; [discriminate|auto].
    + cbn. upds; [|auto]. rewrite G in T. assert (Y : t = thread_for c m r) by (destruct T as [T|[T|[T|[T|T]]]]; congruence).
      destruct (d_run c (to c r) m s V t) as (_ & h & ->); [rewrite Y; apply nth_hash, V|]. discriminate.
    + cbn. upds; [discriminate|auto].
    + cbn. upds; [congruence|auto].
  - intros t H. apply (U t). now right.
  - intros H. apply NP. now right.
Qed.
Lemma settled_stable c s d : settled c s d -> stable c d (threads_of s d) s.
Proof. intros (A & B & C & D). constructor; auto. Qed.
Lemma fresh_track c s k m : once s -> stage_of s k = NotYet -> on_track c m s k.
Proof. intros O N. split; [now left|]. intros t H. assert (stage_of s k = Pushed) by (apply (o_pushed s O); eauto). congruence. Qed.

(** The thread works through its queue. *)
Lemma drains c t d k : forall l s, dead s = false -> stop s t = false -> place_of s t = Runs (Some d) None -> queue_of s t = l -> In k l ->
  exists es s', (forall e, In e es -> e = Dequeue t \/ e = Process t false) /\ steps c s es = Some s' /\ In (Sent k d) (log s').
Proof.
  induction l as [|x l IH]; intros s D ST P Q I; [destruct I|].
  set (s1 := set_place (set_queue s t l) t (Runs (Some d) (Some x))).
  set (s2 := set_place (note s1 [Sent x d]) t (Runs (Some d) None)).
  assert (E1 : step c s (Dequeue t) = Some s1) by (unfold step; rewrite D, P, Q; reflexivity).
  assert (E2 : step c s1 (Process t false) = Some s2).
  { unfold step. unfold s1 at 1; cbn [dead set_place set_queue]. rewrite D. unfold s1 at 1; cbn [place_of set_place set_queue]. rewrite upd_eq.
    unfold s1 at 2; cbn [stop set_place set_queue]. rewrite ST. reflexivity. }
  destruct I as [->|I].
  - exists [Dequeue t; Process t false], s2. split; [intros e [<-|[<-|[]]]; auto|]. split; [cbn; rewrite E1, E2; reflexivity|]. unfold s2; cbn. apply in_app_iff. right. now left.
  - destruct (IH s2) as (es & s' & H & E & L); auto.
    + unfold s2; cbn. apply upd_eq.
    + unfold s2; cbn. apply upd_eq.
    + exists (Dequeue t :: Process t false :: es), s'. split; [intros e [<-|[<-|X]]; auto|]. split; [cbn; rewrite E1, E2; exact E|exact L].
Qed.
Lemma drains_held c t d k s : dead s = false -> stop s t = false -> (exists h, place_of s t = Runs (Some d) h) -> In k (hq s t) ->
  exists es s', (forall e, In e es -> e = Dequeue t \/ e = Process t false) /\ steps c s es = Some s' /\ In (Sent k d) (log s').
Proof.
  intros D ST (h & P) I. unfold hq in I. rewrite P in I. destruct h as [x|]; cbn in I; [|eapply drains; eauto].
  set (s2 := set_place (note s [Sent x d]) t (Runs (Some d) None)).
  assert (E2 : step c s (Process t false) = Some s2) by (unfold step; rewrite D, P, ST; reflexivity).
  destruct I as [->|I].
  - exists [Process t false], s2. split; [intros e [<-|[]]; auto|]. split; [cbn; rewrite E2; reflexivity|]. unfold s2; cbn. apply in_app_iff. right. now left.
  - destruct (drains c t d k (queue_of s t) s2) as (es & s' & H & E & L); auto.
    + unfold s2; cbn. apply upd_eq.
    + exists (Process t false :: es), s'. split; [intros e [<-|X]; auto|]. split; [cbn; rewrite E2; exact E|exact L].
Qed.

(** ** No division by zero *)
Definition supplied (c : setup) (s : st) : Prop := dead s = false /\
  forall k, stage_of s k = Making 0 \/ (exists t n, stage_of s k = Made t n) -> threads_of s (to c k) <> [].
Lemma supplied_step c s e s' : inv s -> going s -> (0 < concurrency c)%nat -> supplied c s -> step c s e = Some s' -> supplied c s'.
Proof.
  intros I K CP (D & F) E.
  assert (PK : forall z k m, dead z = false -> active z = active s -> stage_of z = stage_of s -> m <> [] -> supplied c (pick c z k m)).
  { intros z k m DZ AZ SZ NE. destruct (pick_cases c z k m) as [(X & _)|(y & _ & _ & ->)]; [contradiction|]. split; [exact DZ|]. intros j. cbn. rewrite SZ.
    unfold upd. destruct (N.eqb_spec j k); [intros [X|(t & n & X)]; discriminate|]. unfold threads_of; cbn. rewrite AZ. apply F. }
  assert (MORE : forall l, filter (fun e => use_eqb (fst e) l) (active s) <> [] -> forall x, filter (fun e => use_eqb (fst e) l) (active s ++ x) <> []).
  { intros l H x. rewrite filter_app. intros X. apply app_eq_nil in X. tauto. }
  assert (MAP : forall (l : list (option N * N)), map snd l <> [] <-> l <> []) by (intros [|]; cbn; split; congruence).
  open E; try (split; [exact ED|exact F]); try (split; [reflexivity|exact F]).
  - split; [first [exact ED|reflexivity]|]. intros j; cbn. upds; [|apply F]. intros [X|(t & n & X)]; [|discriminate]. injection X as X. apply Nat.ltb_lt in L. lia.
  - apply PK; auto. intros X. rewrite X in L. apply Nat.ltb_ge in L. cbn in L. lia.
  - apply PK; auto.
  - split; [first [exact ED|reflexivity]|]. intros j; cbn. unfold threads_of; cbn. upds.
    + intros _. rewrite MAP, filter_app. cbn. rewrite N.eqb_refl. intros X. apply app_eq_nil in X. destruct X. discriminate.
    + intros H. apply F in H. unfold threads_of in H. rewrite MAP in *. now apply MORE.
  - split; [first [exact ED|reflexivity]|]. intros j; cbn. upds; [|apply F]. intros _. apply F. right. eauto.
  - split; [first [exact ED|reflexivity]|]. intros j; cbn. upds; [|apply F]. destruct (running _); intros [X|(y & n & X)]; discriminate.
  - split; [first [exact ED|reflexivity]|]. intros j; cbn. upds; [|apply F]. intros [X|(y & n & X)]; discriminate.
  - split; [first [exact ED|reflexivity]|]. intros j; cbn. upds; [|apply F]. intros [X|(y & n & X)]; discriminate.
  - split; [first [exact ED|reflexivity]|]. intros j H. cbn in H. apply F in H. unfold threads_of in *; cbn. rewrite threads_erase; [exact H|]. intros X. apply (i_map s I) in X. rewrite P in X. cbn in X. subst u.
    destruct (proj2 K t (to c j)). congruence.
  - split; [first [exact ED|reflexivity]|]. intros j H. cbn in H. apply F in H. unfold threads_of in *; cbn. rewrite MAP in *. now apply MORE.
Qed.
Lemma supplied_steps c : forall es s s', inv s -> going s -> (0 < concurrency c)%nat -> supplied c s -> undisturbed es -> steps c s es = Some s' -> supplied c s'.
Proof.
  induction es as [|e es IH]; intros s s' I K CP V U E; cbn in E; [injection E as <-; exact V|].
  destruct (step c s e) as [x|] eqn:X; [|discriminate]. eapply IH; [| |exact CP| | |exact E].
  - eapply inv_step; eauto.
  - eapply going_step; [exact K| |exact X]. intros t ->. apply (U t). now left.
  - eapply supplied_step; eauto.
  - intros t H. apply (U t). now right.
Qed.

(** ** A request left in the queue of an idle thread stays there until a thread is wanted *)
Definition wants (e : event) : bool := match e with Take _ | Borrow => true | _ => false end.
Lemma stays c x k : forall es s s', steps c s es = Some s' -> existsb wants es = false -> place_of s x = Idle -> In k (queue_of s x) ->
  place_of s' x = Idle /\ In k (queue_of s' x).
Proof.
  induction es as [|e es IH]; intros s s' E W P I; cbn in E; [injection E as <-; auto|].
  cbn in W. apply orb_false_iff in W. destruct W as (W & WS).
  destruct (step c s e) as [z|] eqn:X; [|discriminate].
  assert (N : place_of z x = Idle /\ In k (queue_of z x)).
  { clear - X W P I. open X; try discriminate W; auto.
    all: try (split; [exact P|exact I]).
    all: try (cbn; assert (NE : x <> t) by congruence; rewrite ?(upd_ne _ _ _ _ NE); auto; fail).
    - destruct (pick_cases c (ask s r) r (threads_of s (to c r))) as [(_ & Y)|(y & _ & _ & Y)]; rewrite Y; auto.
    - destruct (pick_cases c s r (threads_of s (to c r))) as [(_ & Y)|(y & _ & _ & Y)]; rewrite Y; auto.
    - cbn. split; [exact P|]. upds; [apply in_app_iff; now left|auto].
  }
  destruct N. eapply IH; eauto.
Qed.

(** ** For examples *)
Definition about (e : event) (k : N) : bool := match e with Look r | Take r | Go r | Check r | Push r _ => k =? r | _ => false end.
Lemma unmentioned c k : forall es s s', steps c s es = Some s' -> existsb (fun e => about e k) es = false -> stage_of s' k = stage_of s k.
Proof.
  induction es as [|e es IH]; intros s s' E W; cbn in E; [injection E as <-; auto|].
  cbn in W. apply orb_false_iff in W. destruct W as (W & WS).
  destruct (step c s e) as [z|] eqn:X; [|discriminate]. rewrite (IH z s' E WS). clear - X W. open X; auto; cbn in W; apply N.eqb_neq in W.
  - cbn. now rewrite upd_ne.
  - destruct (pick_cases c (ask s r) r (threads_of s (to c r))) as [(_ & Y)|(y & _ & _ & Y)]; rewrite Y; cbn; [|rewrite upd_ne by exact W]; reflexivity.
  - destruct (pick_cases c s r (threads_of s (to c r))) as [(_ & Y)|(y & _ & _ & Y)]; rewrite Y; cbn; [|rewrite upd_ne by exact W]; reflexivity.
  - cbn. now rewrite upd_ne.
  - cbn. now rewrite upd_ne.
  - cbn. now rewrite upd_ne.
  - cbn. now rewrite upd_ne.
  - cbn. now rewrite upd_ne.
Qed.
Lemma all_in_time_app c : forall es1 es2 s m, steps c s es1 = Some m -> all_in_time c s es1 -> all_in_time c m es2 -> all_in_time c s (es1 ++ es2).
Proof.
  induction es1 as [|e es IH]; intros es2 s m E A B; cbn in *; [now injection E as ->|].
  destruct A as (A1 & A2). split; [exact A1|]. intros s' X. rewrite X in E. eapply IH; eauto.
Qed.
Lemma all_in_time_quiet c : forall es s, forallb (fun e => match e with Sweep _ | Erase _ => false | _ => true end) es = true -> all_in_time c s es.
Proof.
  induction es as [|e es IH]; intros s H; cbn in *; [trivial|]. apply andb_true_iff in H. destruct H as (H & K). split; [now destruct e|]. intros s' _. now apply IH.
Qed.
