From Coq Require Import List Bool NArith ZArith Lia.
From Verif Require Import QueueModel QueueSpec.
Import ListNotations.

Definition inq (g : stage) : bool := match g with Pushed | Sent | Waits | Released => true | _ => false end.
Definition notyet (g : stage) : bool := match g with NotYet => true | _ => false end.
Definition cnt (l : list N) (i : N) : Z := Z.of_nat (count_occ N.eq_dec l i).

Record inv (s : st) : Prop := mkInv {
  v_split : pushed s = taken s ++ queue s;
  v_nodup : NoDup (pushed s);
  v_in : forall i, In i (pushed s) <-> inq (stage_of s i) = true;
  v_place : match at_ s with
            | Top | Enter | Asleep | Awake | Works _ | Signals _ | Crashed => taken s = handled s
            | Holds i => taken s = handled s ++ [i]
            | _ => exists d, taken s = handled s ++ d end;
  v_asleep : at_ s = Asleep -> forall j, In j (queue s) -> stage_of s j = Pushed;
  v_refs : forall i, refs s i = ((if notyet (stage_of s i) then 0 else 1) - cnt (settled s) i)%Z;
  v_once : NoDup (settled s);
  v_settled : forall i, In i (settled s) -> (stage_of s i = Failed \/ In i (taken s)) /\ at_ s <> Holds i /\ at_ s <> Works i;
  v_hand : forall i, at_ s = Holds i \/ at_ s = Works i \/ at_ s = Signals i \/ at_ s = Drops i \/ at_ s = Sweeps i -> In i (taken s);
  v_signal : forall i, at_ s = Signals i \/ at_ s = Drops i \/ at_ s = Sweeps i -> In i (settled s);
  v_waits : forall i, stage_of s i = Waits -> In i (settled s) -> at_ s = Signals i \/ at_ s = Drops i \/ at_ s = Sweeps i;
  v_done : forall i, In i (handled s) -> In i (settled s) \/ at_ s = Works i }.

Lemma upd_same {A} (f : N -> A) i v : upd f i v i = v.
Proof. unfold upd. now rewrite N.eqb_refl. Qed.
Lemma upd_other {A} (f : N -> A) i j v : j <> i -> upd f i v j = f j.
Proof. unfold upd. intros H. apply N.eqb_neq in H. now rewrite H. Qed.
Lemma cnt_app l i j : cnt (l ++ [i]) j = (cnt l j + if N.eqb j i then 1 else 0)%Z.
Proof.
  unfold cnt. rewrite count_occ_app. cbn. destruct (N.eq_dec i j) as [->|NE]; [rewrite N.eqb_refl|rewrite (proj2 (N.eqb_neq j i)) by congruence]; lia.
Qed.
Lemma cnt_in l i : NoDup l -> cnt l i = if in_dec N.eq_dec i l then 1%Z else 0%Z.
Proof.
  intros ND. unfold cnt. destruct (in_dec N.eq_dec i l) as [I|I].
  - rewrite (NoDup_count_occ' N.eq_dec) in ND. rewrite ND; auto.
  - rewrite (count_occ_not_In N.eq_dec) in I. now rewrite I.
Qed.
Lemma nodup_snoc (l : list N) i : NoDup l -> ~ In i l -> NoDup (l ++ [i]).
Proof. intros ND NI. apply (NoDup_Add (a := i) (l := l)); [|auto]. pose proof (Add_app i l []) as H. now rewrite app_nil_r in H. Qed.

Lemma inv0 : inv st0.
Proof. constructor; cbn; try tauto; try constructor; try reflexivity; try discriminate; intros; intuition discriminate. Qed.

(** A new stage for one entry, nothing else. *)
Lemma inv_stage s i g : inv s -> inq (stage_of s i) = inq g -> notyet (stage_of s i) = notyet g ->
  (at_ s = Asleep -> In i (queue s) -> g = Pushed) -> (stage_of s i = Failed -> g = Failed) ->
  (g = Waits -> In i (settled s) -> at_ s = Signals i \/ at_ s = Drops i \/ at_ s = Sweeps i) -> inv (set_stage s i g).
Proof.
  intros V Q Y A F W. destruct V. constructor; cbn; auto.
  - intros j. rewrite v_in0. destruct (N.eq_dec j i) as [->|NE]; [rewrite upd_same, Q; tauto|rewrite upd_other by auto; tauto].
  - intros AS j I. destruct (N.eq_dec j i) as [->|NE]; [rewrite upd_same; auto|rewrite upd_other by auto; auto].
  - intros j. rewrite v_refs0. destruct (N.eq_dec j i) as [->|NE]; [rewrite upd_same, Y; reflexivity|rewrite upd_other by auto; reflexivity].
  - intros j I. destruct (v_settled0 j I) as (H & H'). split; auto. destruct (N.eq_dec j i) as [->|NE]; [rewrite upd_same; destruct H; auto|rewrite upd_other by auto; auto].
  - intros j. destruct (N.eq_dec j i) as [->|NE]; [rewrite upd_same; auto|rewrite upd_other by auto; auto].
Qed.
(** A new place, no entry in hand before or after. *)
Definition free (p : place) : bool := match p with Top | Enter | Asleep | Awake | Crashed => true | _ => false end.
Definition gone (p : place) : bool := match p with Quit | Idle | Swept => true | _ => false end.
Lemma inv_place s p : inv s -> (free (at_ s) = true \/ at_ s = Asleep) -> (free p = true \/ gone p = true) -> (p = Asleep -> queue s = []) -> inv (set_place s p).
Proof.
  intros V F F' Q. destruct V. assert (X : free (at_ s) = true) by (destruct F as [F| ->]; auto).
  constructor; cbn; auto; destruct (at_ s); try discriminate X.
  all: try (destruct p; destruct F' as [F'|F']; try discriminate F'; auto; exists []; now rewrite app_nil_r).
  all: try (intros AS j I; rewrite Q in I by auto; destruct I).
  all: try (intros j I; destruct (v_settled0 j I) as (H & _); split; auto; split; intros ->; destruct F' as [F'|F']; discriminate F').
  all: try (intros j H; destruct F' as [F'|F']; destruct p; try discriminate F'; intuition discriminate).
  all: try (intros j W S; destruct (v_waits0 j W S) as [H|[H|H]]; discriminate H).
  all: try (intros j H; destruct (v_done0 j H) as [H'|H']; [auto|discriminate H']).
Qed.

Lemma in_taken s i : inv s -> In i (taken s) -> inq (stage_of s i) = true.
Proof. intros V I. apply (v_in s V). rewrite (v_split s V). apply in_or_app. auto. Qed.
Lemma head_new s i q : inv s -> queue s = i :: q -> inq (stage_of s i) = true /\ ~ In i (taken s) /\ ~ In i (settled s).
Proof.
  intros V Q. pose proof (v_split s V) as S. rewrite Q in S. assert (P : inq (stage_of s i) = true).
  { apply (v_in s V). rewrite S. apply in_or_app. right. now left. }
  assert (T : ~ In i (taken s)).
  { pose proof (v_nodup s V) as ND. rewrite S in ND. apply NoDup_remove_2 in ND. intros I. apply ND, in_or_app. auto. }
  repeat split; auto. intros I. destruct (v_settled s V i I) as ([F|F] & _); [rewrite F in P; discriminate P|auto].
Qed.

(** An entry is taken while the worker is in its loop. *)
Lemma inv_take s i q : inv s -> free (at_ s) = true -> at_ s <> Crashed -> queue s = i :: q -> inv (take s i q).
Proof.
  intros V F NC Q. destruct (head_new s i q V Q) as (P & T & S). destruct V. constructor; cbn; auto.
  - rewrite v_split0, Q, <- app_assoc. reflexivity.
  - destruct (at_ s); try discriminate F; rewrite v_place0; reflexivity.
  - discriminate.
  - intros j I. destruct (v_settled0 j I) as (H & _). repeat split; try congruence. destruct H; [auto|right; apply in_or_app; auto].
  - intros j H. apply in_or_app. right. left. intuition congruence.
  - intros j H. intuition discriminate.
  - intros j W I. destruct (v_waits0 j W I) as [H|[H|H]]; rewrite H in F; discriminate F.
  - intros j I. destruct (v_done0 j I) as [H|H]; [auto|rewrite H in F; discriminate F].
Qed.

(** The count of the entry in hand goes down. *)
Lemma inv_unref s i p : inv s -> (at_ s = Works i /\ p = Signals i \/ at_ s = Holds i /\ p = Drops i) -> inv (unref (set_place s p) i).
Proof.
  intros V C. assert (T : In i (taken s)) by (apply (v_hand s V); intuition).
  assert (NS : ~ In i (settled s)) by (intros I; destruct (v_settled s V i I); intuition).
  pose proof (in_taken s i V T) as Q.
  destruct V. constructor; cbn; auto.
  - destruct C as [(E & ->)|(E & ->)]; rewrite E in v_place0; [exact v_place0|eauto].
  - destruct C as [(_ & ->)|(_ & ->)]; discriminate.
  - intros j. rewrite cnt_app. destruct (N.eqb_spec j i) as [->|NE].
    + rewrite upd_same, v_refs0. lia.
    + rewrite upd_other, v_refs0 by auto. lia.
  - now apply nodup_snoc.
  - intros j I. apply in_app_or in I as [I|[<-|[]]].
    + destruct (v_settled0 j I) as (H & H'). split; [exact H|]. destruct C as [(_ & ->)|(_ & ->)]; split; congruence.
    + split; [auto|]. destruct C as [(_ & ->)|(_ & ->)]; split; congruence.
  - intros j H. destruct C as [(_ & ->)|(_ & ->)]; assert (j = i) by (intuition congruence); subst; exact T.
  - intros j H. apply in_or_app. right. left. destruct C as [(_ & ->)|(_ & ->)]; intuition congruence.
  - intros j W I. apply in_app_or in I as [I|[<-|[]]].
    + destruct (v_waits0 j W I) as [H|[H|H]]; destruct C as [(E & _)|(E & _)]; congruence.
    + destruct C as [(_ & ->)|(_ & ->)]; auto.
  - intros j I. destruct (v_done0 j I) as [H|H]; left; apply in_or_app; [auto|]. right. left. destruct C as [(E & _)|(E & _)]; congruence.
Qed.

(** The waiter is woken and the worker goes on. *)
Lemma inv_signal s i p : inv s -> (at_ s = Signals i /\ p = Top \/ at_ s = Drops i /\ p = Quit \/ at_ s = Sweeps i /\ p = Idle) -> inv (signal (set_place s p) i).
Proof.
  intros V C. assert (I : In i (settled s)) by (apply (v_signal s V); intuition).
  assert (T : In i (taken s)) by (apply (v_hand s V); intuition).
  pose proof (in_taken s i V T) as Q.
  assert (Z : refs s i = 0%Z).
  { rewrite (v_refs s V), cnt_in by apply V. destruct (in_dec N.eq_dec i (settled s)); [|tauto]. destruct (stage_of s i); try discriminate Q; reflexivity. }
  assert (NA : forall P : Prop, p = Asleep -> P) by (intros; destruct C as [(_ & ->)|[(_ & ->)|(_ & ->)]]; discriminate).
  unfold signal. cbn [refs set_place stage_of]. rewrite Z. cbn [Z.eqb].
  assert (V' : stage_of s i <> Waits -> inv (set_place s p)).
  { intros NW. destruct V. constructor; cbn; auto.
    - destruct C as [(E & ->)|[(E & ->)|(E & ->)]]; rewrite E in v_place0; auto.
    - intros X. now apply NA.
    - intros j J. destruct (v_settled0 j J) as (H & _). split; [exact H|]. destruct C as [(_ & ->)|[(_ & ->)|(_ & ->)]]; split; discriminate.
    - intros j H. destruct C as [(_ & ->)|[(_ & ->)|(_ & ->)]]; intuition discriminate.
    - intros j H. destruct C as [(_ & ->)|[(_ & ->)|(_ & ->)]]; intuition discriminate.
    - intros j W J. exfalso. destruct (v_waits0 j W J) as [H|[H|H]]; destruct C as [(E & _)|[(E & _)|(E & _)]]; try congruence; apply NW; congruence.
    - intros j H. destruct (v_done0 j H) as [H'|H']; auto. destruct C as [(E & _)|[(E & _)|(E & _)]]; congruence. }
  destruct (stage_of s i) eqn:G; try (apply V'; discriminate).
  (* Waits *)
  assert (V1 : inv (set_stage s i Released)).
  { apply inv_stage; auto; rewrite ?G; auto; try discriminate. intros AS _. destruct C as [(E & _)|[(E & _)|(E & _)]]; congruence. }
  assert (C1 : at_ (set_stage s i Released) = at_ s) by reflexivity.
  change (set_stage (set_place s p) i Released) with (set_place (set_stage s i Released) p).
  clear V' Z Q. destruct V1. cbn [at_ set_stage taken pushed queue handled settled refs] in *.
  constructor; cbn; auto.
  - destruct C as [(E & ->)|[(E & ->)|(E & ->)]]; rewrite E in v_place0; auto.
  - intros X. now apply NA.
  - intros j J. destruct (v_settled0 j J) as (H & _). split; [exact H|]. destruct C as [(_ & ->)|[(_ & ->)|(_ & ->)]]; split; discriminate.
  - intros j H. destruct C as [(_ & ->)|[(_ & ->)|(_ & ->)]]; intuition discriminate.
  - intros j H. destruct C as [(_ & ->)|[(_ & ->)|(_ & ->)]]; intuition discriminate.
  - intros j W J. exfalso. cbn in v_waits0. destruct (N.eq_dec j i) as [->|NE]; [rewrite upd_same in W; discriminate W|].
    destruct (v_waits0 j W J) as [H|[H|H]]; destruct C as [(E & _)|[(E & _)|(E & _)]]; congruence.
  - intros j H. destruct (v_done0 j H) as [H'|H']; auto. destruct C as [(E & _)|[(E & _)|(E & _)]]; congruence.
Qed.

Lemma wake_stage s i g : wake (set_stage s i g) = set_stage (wake s) i g.
Proof. unfold wake. cbn. destruct (at_ s); reflexivity. Qed.
Lemma inv_wake s : inv s -> inv (wake s).
Proof. intros V. unfold wake. destruct (at_ s) eqn:E; auto. apply inv_place; auto. discriminate. Qed.
Lemma wake_awake s : at_ (wake s) <> Asleep.
Proof. unfold wake. destruct (at_ s) eqn:E; cbn; congruence. Qed.

Lemma inv_step k s e s' : inv s -> step k s e = Some s' -> inv s'.
Proof.
  intros V E. destruct e as [i|i|i room|i|i|i| | | | |i]; cbn [step] in E.
  - (* Ref *) destruct (stage_of s i) eqn:G; try discriminate E. injection E as <-. destruct V. constructor; cbn; auto.
    + intros j. rewrite v_in0. destruct (N.eq_dec j i) as [->|NE]; [rewrite upd_same, G; cbn; tauto|rewrite upd_other by auto; tauto].
    + intros AS j I. destruct (N.eq_dec j i) as [->|NE]; [rewrite v_asleep0 in G by auto; discriminate G|rewrite upd_other by auto; auto].
    + intros j. destruct (N.eq_dec j i) as [->|NE]; [rewrite !upd_same, v_refs0, G; cbn [notyet]; lia|rewrite !upd_other by auto; auto].
    + intros j I. destruct (v_settled0 j I) as (H & H'). split; auto. destruct (N.eq_dec j i) as [->|NE]; [|rewrite upd_other by auto; auto].
      destruct H as [H|H]; [congruence|auto].
    + intros j. destruct (N.eq_dec j i) as [->|NE]; [rewrite upd_same; discriminate|rewrite upd_other by auto; auto].
  - (* Check *) destruct (stage_of s i) eqn:G; try discriminate E. injection E as <-.
    apply inv_stage; auto; rewrite ?G; destruct (running s); try reflexivity; try discriminate.
    all: intros AS I; rewrite (v_asleep s V AS i I) in G; discriminate G.
  - (* Push *) destruct (stage_of s i) eqn:G; try discriminate E. destruct room; injection E as <-.
    + assert (NI : ~ In i (pushed s)) by (rewrite (v_in s V), G; discriminate). destruct V. constructor; cbn; auto.
      * rewrite v_split0, app_assoc. reflexivity.
      * now apply nodup_snoc.
      * intros j. rewrite in_app_iff, v_in0. cbn [In]. destruct (N.eq_dec j i) as [->|NE]; [rewrite upd_same; cbn; tauto|rewrite upd_other by auto]. intuition congruence.
      * intros AS j I. destruct (N.eq_dec j i) as [->|NE]; [now rewrite upd_same|rewrite upd_other by auto]. apply v_asleep0; auto. apply in_app_or in I as [I|[->|[]]]; [auto|congruence].
      * intros j. rewrite v_refs0. destruct (N.eq_dec j i) as [->|NE]; [rewrite upd_same, G; reflexivity|rewrite upd_other by auto; auto].
      * intros j I. destruct (v_settled0 j I) as (H & H'). split; auto. destruct (N.eq_dec j i) as [->|NE]; [|rewrite upd_other by auto; auto].
        destruct H as [H|H]; [congruence|auto].
      * intros j. destruct (N.eq_dec j i) as [->|NE]; [rewrite upd_same; discriminate|rewrite upd_other by auto; auto].
    + apply inv_stage; auto; rewrite ?G; try reflexivity; try discriminate.
      intros AS I. rewrite (v_asleep s V AS i I) in G; discriminate G.
  - (* Send *) destruct (stage_of s i) eqn:G; try discriminate E. injection E as <-. rewrite wake_stage.
    assert (G' : stage_of (wake s) i = Pushed) by (unfold wake; destruct (at_ s); exact G).
    apply inv_stage; [now apply inv_wake|rewrite G'; reflexivity|rewrite G'; reflexivity|intros AS; now apply wake_awake in AS|rewrite G'; discriminate|discriminate].
  - (* Undo *) destruct (stage_of s i) eqn:G; try discriminate E. injection E as <-.
    assert (NP : ~ In i (taken s)) by (intros I; apply (in_taken s i V) in I; rewrite G in I; discriminate I).
    assert (NS : ~ In i (settled s)) by (intros I; destruct (v_settled s V i I) as ([H|H] & _); [congruence|auto]).
    assert (NQ : ~ In i (queue s)). { intros I. assert (In i (pushed s)) by (rewrite (v_split s V); apply in_or_app; auto). apply (v_in s V) in H. rewrite G in H. discriminate H. }
    destruct V. constructor; cbn; auto.
    + intros j. rewrite v_in0. destruct (N.eq_dec j i) as [->|NE]; [rewrite upd_same, G; tauto|rewrite upd_other by auto; tauto].
    + intros AS j I. destruct (N.eq_dec j i) as [->|NE]; [tauto|rewrite upd_other by auto; auto].
    + intros j. rewrite cnt_app. destruct (N.eqb_spec j i) as [->|NE]; [rewrite !upd_same, v_refs0, G; cbn [notyet]; lia|rewrite !upd_other, v_refs0 by auto; lia].
    + now apply nodup_snoc.
    + intros j I. destruct (N.eq_dec j i) as [->|NE].
      * rewrite upd_same. split; [auto|]. split; intros H; apply NP, v_hand0; auto.
      * rewrite upd_other by auto. apply in_app_or in I as [I|[->|[]]]; [auto|congruence].
    + intros j H. apply in_or_app. left. auto.
    + intros j. destruct (N.eq_dec j i) as [->|NE]; [rewrite upd_same; discriminate|rewrite upd_other by auto]. intros W I. apply in_app_or in I as [I|[->|[]]]; [auto|congruence].
    + intros j I. destruct (v_done0 j I); [left; apply in_or_app|]; auto.
  - (* Sync *) destruct (stage_of s i) eqn:G; try discriminate E. injection E as <-.
    apply inv_stage; auto; rewrite ?G; try discriminate.
    + destruct (Z.eqb_spec (refs s i) 0); reflexivity.
    + destruct (Z.eqb_spec (refs s i) 0); reflexivity.
    + intros AS I. rewrite (v_asleep s V AS i I) in G; discriminate G.
    + destruct (Z.eqb_spec (refs s i) 0) as [R|R]; [discriminate|]. intros _ I. exfalso. apply R. rewrite (v_refs s V), G, cnt_in by apply V.
      destruct (in_dec N.eq_dec i (settled s)); [reflexivity|tauto].
  - (* Worker *) destruct (at_ s) as [ | | | |i|i|i| |i| |i| | ] eqn:A; try discriminate E; try injection E as <-.
    + apply inv_place; auto; [rewrite A; auto|destruct (shut s); auto|destruct (shut s); discriminate].
    + destruct (queue s) as [|i q] eqn:Q; [apply inv_place; auto; rewrite A; auto|apply inv_take; auto; rewrite A; auto; discriminate].
    + destruct (queue s) as [|i q] eqn:Q; [|apply inv_take; auto; rewrite A; auto; discriminate].
      apply inv_place; auto; [rewrite A; auto|destruct (shut s), (uses_null k); auto].
    + destruct (shut s).
      * destruct (releases k); injection E as <-; [apply inv_unref; auto|].
        destruct V. rewrite A in *. constructor; cbn; auto.
        -- eauto.
        -- discriminate.
        -- intros j I. destruct (v_settled0 j I) as (H & _). repeat split; auto; discriminate.
        -- intros j H. intuition discriminate.
        -- intros j H. intuition discriminate.
        -- intros j W I. destruct (v_waits0 j W I) as [H|[H|H]]; discriminate H.
        -- intros j I. destruct (v_done0 j I) as [H|H]; [auto|discriminate H].
      * injection E as <-. pose proof (v_hand s V i (or_introl A)) as T.
        destruct V. rewrite A in *. constructor; cbn; auto.
        -- discriminate.
        -- intros j I. destruct (v_settled0 j I) as (H & H' & _). repeat split; auto; congruence.
        -- intros j H. assert (j = i) by (intuition congruence). now subst.
        -- intros j H. intuition discriminate.
        -- intros j W I. destruct (v_waits0 j W I) as [H|[H|H]]; discriminate H.
        -- intros j I. apply in_app_or in I as [I|[->|[]]]; [|auto]. destruct (v_done0 j I) as [H|H]; [auto|discriminate H].
    + apply inv_unref; auto.
    + apply inv_signal; auto.
    + destruct V. rewrite A in *. constructor; cbn; auto.
      * discriminate.
      * intros j I. destruct (v_settled0 j I) as (H & _). repeat split; auto; discriminate.
      * intros j H. intuition discriminate.
      * intros j H. intuition discriminate.
      * intros j W I. destruct (v_waits0 j W I) as [H|[H|H]]; discriminate H.
      * intros j I. destruct (v_done0 j I) as [H|H]; [auto|discriminate H].
    + apply inv_signal; auto.
    + destruct (queue s) as [|i q] eqn:Q.
      * destruct V. rewrite A in *. constructor; cbn; auto; try discriminate.
        -- intros j I. destruct (v_settled0 j I) as (H & _). repeat split; auto; discriminate.
        -- intros j H. intuition discriminate.
        -- intros j H. intuition discriminate.
        -- intros j W I. destruct (v_waits0 j W I) as [H|[H|H]]; discriminate H.
        -- intros j I. destruct (v_done0 j I) as [H|H]; [auto|discriminate H].
      * destruct (head_new s i q V Q) as (P & T & S). destruct V. rewrite A in *. constructor; cbn; auto; try discriminate.
        -- rewrite v_split0, Q, <- app_assoc. reflexivity.
        -- destruct v_place0 as (d & ->). exists (d ++ [i]). now rewrite app_assoc.
        -- intros j. rewrite cnt_app. destruct (N.eqb_spec j i) as [->|NE]; [rewrite upd_same, v_refs0; lia|rewrite upd_other, v_refs0 by auto; lia].
        -- now apply nodup_snoc.
        -- intros j I. apply in_app_or in I as [I|[->|[]]].
           ++ destruct (v_settled0 j I) as ([H|H] & _); (split; [|split; discriminate]); [auto|right; apply in_or_app; auto].
           ++ split; [|split; discriminate]. right. apply in_or_app. right. now left.
        -- intros j H. apply in_or_app. right. left. intuition congruence.
        -- intros j H. apply in_or_app. right. left. intuition congruence.
        -- intros j W I. apply in_app_or in I as [I|[->|[]]]; [|auto]. destruct (v_waits0 j W I) as [H|[H|H]]; discriminate H.
        -- intros j I. destruct (v_done0 j I) as [H|H]; [left; apply in_or_app; auto|discriminate H].
    + apply inv_signal; auto.
  - (* Timeout *) destruct (at_ s) eqn:A; try discriminate E. destruct (timed k); [|discriminate E]. injection E as <-. apply inv_place; auto. discriminate.
  - (* Shutdown *) injection E as <-. match goal with |- inv (if _ then wake ?x else _) => assert (V' : inv x) by (destruct V; constructor; auto) end.
    destruct (running s); [now apply inv_wake|auto].
  - (* SpuriousWorker *) destruct (at_ s) eqn:A; try discriminate E. injection E as <-. apply inv_place; auto. discriminate.
  - (* SpuriousWaiter *) destruct (stage_of s i) eqn:G; try discriminate E. injection E as <-.
    apply inv_stage; auto; rewrite ?G; try reflexivity; try discriminate. intros AS I. rewrite (v_asleep s V AS i I) in G; discriminate G.
Qed.

Lemma inv_steps k : forall es s s', inv s -> steps k s es = Some s' -> inv s'.
Proof.
  induction es as [|e es IH]; cbn [steps]; intros s s' V E; [now injection E as <-|].
  destruct (step k s e) as [s1|] eqn:S; [|discriminate E]. eapply IH; [eapply inv_step; eauto|exact E].
Qed.
Lemma reachable_inv a k s : reachable a k s -> inv s.
Proof. intros (es & _ & E). eapply inv_steps; [apply inv0|exact E]. Qed.
