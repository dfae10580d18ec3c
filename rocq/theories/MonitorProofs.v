From Coq Require Import List Bool ZArith Lia.
From Coq Require Import ZifyBool.
From Verif Require Import MonitorModel MonitorSpec.
Import ListNotations.
Local Open Scope Z_scope.

(** ** The closed loop *)
Definition agree (t : Z) (m : monitor) (isdown : bool) (b : belief) : Prop :=
  threshold m = t /\ (if isdown then b = Dead else b = Alive (failures m) /\ 0 <= failures m < t \/ b = Alive 0 /\ t <= failures m).

Lemma closed_spec t : 0 < t < 2 ^ 31 - 1 -> forall ws m isdown b,
  agree t m isdown b -> forallb plain ws = true ->
  exists m' d, closed m isdown ws = Some (m', d, expecteds t b ws).
Proof.
  intros T. induction ws as [|w ws IH]; intros m isdown b (TH & A) P; cbn [closed expecteds]; [eauto|].
  cbn [forallb] in P. apply andb_prop in P as (P1 & P2).
  assert (STEP : exists m' q, iterate m (if isdown then ReadsDown else ReadsOther) w = Some (m', q) /\ q = snd (expected t b w) /\
     agree t m' (fold_left obey q isdown) (fst (expected t b w))).
  { destruct m as [f th]. cbn [threshold failures] in *. subst th. destruct isdown.
    - subst b. unfold iterate. cbn [sync_map threshold failures expected].
      destruct w as [[|]|av [|]| |]; cbn [succeeds fails plain negb up down process_queue threshold failures fst snd] in *; try discriminate P1.
      + unfold up; cbn [threshold failures]. rewrite Z.leb_refl. eexists _, _. split; [reflexivity|]. split; [reflexivity|]. cbn. unfold agree; cbn. split; auto. left. split; auto. lia.
      + unfold down; cbn [threshold failures]. replace (2 ^ 31 <=? t + 1) with false by lia. replace (t + 1 =? t) with false by lia.
        eexists _, _. split; [reflexivity|]. split; [reflexivity|]. unfold agree; cbn. auto.
      + rewrite Z.leb_refl. destruct av; cbn [negb andb].
        * eexists _, _. split; [reflexivity|]. split; [reflexivity|]. unfold agree; cbn. auto.
        * unfold down; cbn [threshold failures]. replace (2 ^ 31 <=? t + 1) with false by lia. replace (t + 1 =? t) with false by lia.
          eexists _, _. split; [reflexivity|]. split; [reflexivity|]. unfold agree; cbn. auto.
      + replace (if (t <=? t) && negb av then (mkMonitor t t, false) else (mkMonitor t t, false)) with (mkMonitor t t, false) by (destruct (_ && _); auto).
        unfold down; cbn [threshold failures]. replace (2 ^ 31 <=? t + 1) with false by lia. replace (t + 1 =? t) with false by lia.
        eexists _, _. split; [reflexivity|]. split; [reflexivity|]. unfold agree; cbn. auto.
      + unfold down; cbn [threshold failures]. replace (2 ^ 31 <=? t + 1) with false by lia. replace (t + 1 =? t) with false by lia.
        eexists _, _. split; [reflexivity|]. split; [reflexivity|]. unfold agree; cbn. auto.
    - assert (X : exists n, 0 <= n < t /\ b = Alive n /\ sync_map (mkMonitor f t) ReadsOther = mkMonitor n t).
      { cbn [sync_map threshold failures]. destruct A as [(-> & A)|(-> & A)].
        - exists f. replace (t <=? f) with false by lia. auto.
        - exists 0. replace (t <=? f) with true by lia. repeat split; auto; lia. }
      destruct X as (n & N0 & -> & SY). unfold iterate. rewrite SY. cbn [expected].
      assert (DN : exists m' q, down (mkMonitor n t) = Some (m', q) /\ q = snd (if n + 1 =? t then (Dead, [RequestDown]) else (Alive (n + 1), [])) /\
         agree t m' (fold_left obey q false) (fst (if n + 1 =? t then (Dead, [RequestDown]) else (Alive (n + 1), [])))).
      { unfold down; cbn [threshold failures]. replace (2 ^ 31 <=? n + 1) with false by lia. eexists _, _. split; [reflexivity|].
        destruct (Z.eqb_spec (n + 1) t); (split; [reflexivity|]); unfold agree; cbn; split; auto. left. split; auto. lia. }
      destruct w as [[|]|av [|]| |]; cbn [succeeds fails plain negb up process_queue threshold failures fst snd] in *; try discriminate P1.
      + unfold up; cbn [threshold failures]. replace (t <=? n) with false by lia. eexists _, _. split; [reflexivity|]. split; [reflexivity|]. unfold agree; cbn. split; auto. left. split; auto. lia.
      + exact DN.
      + replace (t <=? n) with false by lia. cbn [andb]. eexists _, _. split; [reflexivity|]. split; [reflexivity|]. unfold agree; cbn. split; auto.
      + replace (t <=? n) with false by lia. cbn [andb]. exact DN.
      + exact DN. }
  destruct STEP as (m' & q & -> & -> & AG). destruct (expected t b w) as (b' & q). cbn [fst snd] in *.
  destruct (IH _ _ _ AG P2) as (m'' & d & ->). eauto.
Qed.

(** ** Any readings *)
Lemma iterate_threshold m r w m' q : plain w = true -> iterate m r w = Some (m', q) -> threshold m' = threshold m.
Proof.
  unfold iterate. assert (SY : threshold (sync_map m r) = threshold m) by (destruct r; cbn; auto; destruct (_ <=? _); auto).
  assert (DN : forall x y z, down x = Some (y, z) -> threshold y = threshold x) by (intros x y z; unfold down; destruct (_ <=? _); [discriminate|]; now intros [= <- _]).
  destruct w as [[|]|av ok| |]; cbn [process_queue plain]; intros P; try discriminate P.
  - unfold up. intros [= <- _]. exact SY.
  - intros H. apply DN in H. congruence.
  - destruct (_ && _); [intros H; apply DN in H; congruence|]. destruct ok; [intros [= <- _]; auto|intros H; apply DN in H; congruence].
  - intros H. apply DN in H. congruence.
Qed.

(** The counter is at most the length of the run of failures, unless the node was read
    as down; and a transfer that is skipped counts only then. *)
Definition counted (t : Z) (m : monitor) (hist : list work) : Prop :=
  threshold m = t /\ 0 <= failures m /\ (failures m < t -> failures m <= run_of_failures hist).

Lemma run_nonneg h : 0 <= run_of_failures h.
Proof. induction h as [|w h IH]; cbn; [lia|]. destruct (succeeds w), (fails w); lia. Qed.

Lemma down_spec m m' q : down m = Some (m', q) ->
  failures m' = failures m + 1 /\ threshold m' = threshold m /\ (In RequestDown q <-> failures m + 1 = threshold m) /\ ~ In RequestUp q /\ (q = [] \/ q = [RequestDown]).
Proof.
  unfold down. destruct (_ <=? _); [discriminate|]. intros [= <- <-]. cbn. destruct (Z.eqb_spec (failures m + 1) (threshold m)); cbn; repeat split; auto; try tauto; intros [H|[]]; discriminate H.
Qed.
Lemma sync_spec m r : threshold (sync_map m r) = threshold m /\
  match r with Missing => sync_map m r = m | ReadsDown => failures (sync_map m r) = threshold m
  | ReadsOther => failures (sync_map m r) = if threshold m <=? failures m then 0 else failures m end.
Proof. destruct r; cbn; auto. destruct (_ <=? _); auto. Qed.

Lemma iterate_counted t m hist r w m' q : 0 < t -> counted t m hist -> plain w = true -> iterate m r w = Some (m', q) ->
  counted t m' (w :: hist) /\ (In RequestDown q -> t <= run_of_failures (w :: hist)).
Proof.
  intros T (TH & NN & C) P I. pose proof (iterate_threshold m r w m' q P I) as TH'. unfold iterate in I. set (m1 := sync_map m r) in *.
  assert (TH1 : threshold m1 = t) by (unfold m1; now rewrite (proj1 (sync_spec m r))).
  assert (C1 : 0 <= failures m1 /\ (failures m1 < t -> failures m1 <= run_of_failures hist)).
  { pose proof (run_nonneg hist). unfold m1. destruct (sync_spec m r) as (_ & S). rewrite <- TH in *. destruct r.
    - rewrite S. auto.
    - rewrite S. lia.
    - rewrite S. destruct (Z.leb_spec (threshold m) (failures m)); lia. }
  assert (DN : forall m' q, down m1 = Some (m', q) -> succeeds w = false -> (fails w = true \/ t <= failures m1) ->
     counted t m' (w :: hist) /\ (In RequestDown q -> t <= run_of_failures (w :: hist))).
  { clear - TH1 C1. intros m' q D SU FW. destruct (down_spec _ _ _ D) as (A & B & EM & _). rewrite TH1 in *. cbn [run_of_failures]. rewrite SU.
    destruct C1 as (C1 & C2). unfold counted. cbn [run_of_failures]. rewrite SU. destruct FW as [->|GE].
    - split; [|intros H; apply EM in H; lia]. repeat split; auto; lia.
    - split; [|intros H; apply EM in H; lia]. repeat split; auto; lia. }
  destruct w as [[|]|av ok| |]; cbn [process_queue plain] in *; try discriminate P.
  - unfold up in I. injection I as <- <-. split; [unfold counted; cbn; repeat split; auto; lia|]. destruct (_ <=? _); cbn; intros []; [discriminate|tauto].
  - apply DN; auto.
  - destruct (Z.leb_spec (threshold m1) (failures m1)), av; cbn [andb negb] in I; try (destruct ok; [injection I as <- <-; split; [unfold counted; cbn; repeat split; tauto || lia|intros []]|apply DN; auto]).
    apply DN; auto. right. lia.
  - apply DN; auto.
Qed.

(** A request to take the node down comes after [t] failures without a success. *)
Lemma down_after_failures t : 0 < t -> forall es r w m hist m' qs q,
  counted t m hist -> forallb plain (map snd es) = true -> plain w = true ->
  iterates m (es ++ [(r, w)]) = Some (m', qs ++ [q]) -> List.length qs = List.length es -> In RequestDown q ->
  t <= run_of_failures (w :: rev (map snd es) ++ hist).
Proof.
  intros T. induction es as [|(r1 & w1) es IH]; intros r w m hist m' qs q C PS P E LE IQ; cbn [app iterates map rev snd forallb] in *.
  - destruct qs; [|discriminate LE]. destruct (iterate m r w) as [(m1 & q1)|] eqn:I; [|discriminate]. injection E as _ <-.
    apply (iterate_counted t m hist r w m1 q1); auto.
  - destruct qs as [|q1 qs]; [discriminate LE|]. apply andb_prop in PS as (P1 & PS).
    destruct (iterate m r1 w1) as [(m1 & q2)|] eqn:I; [|discriminate]. apply (iterate_counted t m hist r1 w1 m1 q2 T C P1) in I as (C1 & _).
    destruct (iterates m1 (es ++ [(r, w)])) as [(m2 & qs2)|] eqn:E2; [|discriminate]. injection E as -> _ ->.
    rewrite <- app_assoc. cbn [app]. apply (IH r w m1 (w1 :: hist) m' qs q); auto.
Qed.

(** [t] failures while the map does not say down make one. *)
Lemma failures_make_down t : 0 < t -> forall es m m' qs,
  threshold m = t -> 0 <= failures m -> (forall r w, In (r, w) es -> r = ReadsOther /\ fails w = true) ->
  iterates m es = Some (m', qs) -> (if t <=? failures m then t else t - failures m) <= Z.of_nat (List.length es) -> In [RequestDown] qs.
Proof.
  intros T. induction es as [|(r & w) es IH]; intros m m' qs TH NN F E L; cbn [iterates List.length] in *.
  - destruct (Z.leb_spec t (failures m)); lia.
  - destruct (F r w (or_introl eq_refl)) as (-> & FW). destruct (iterate m ReadsOther w) as [(m1 & q)|] eqn:I; [|discriminate].
    destruct (iterates m1 es) as [(m2 & qs')|] eqn:E2; [|discriminate]. injection E as -> <-.
    assert (D : down (sync_map m ReadsOther) = Some (m1, q)).
    { destruct w as [[|]|av [|]| |]; try discriminate FW; unfold iterate in I; cbn [process_queue] in I; auto. destruct (_ && _); auto. }
    destruct (down_spec _ _ _ D) as (A & B & EM & _ & Q). destruct (sync_spec m ReadsOther) as (S1 & S2). rewrite S1, S2, TH in *.
    set (n := if t <=? failures m then 0 else failures m) in *. assert (N0 : 0 <= n < t) by (unfold n; destruct (Z.leb_spec t (failures m)); lia).
    destruct (Z.eqb_spec (n + 1) t) as [EQ|NE].
    + left. apply EM in EQ. destruct Q as [-> | ->]; [destruct EQ|auto].
    + right. apply (IH m1 m' qs'); auto; try lia.
      * intros r w' I'. apply F. now right.
      * rewrite A. replace (t <=? n + 1) with false by lia. unfold n in *. destruct (Z.leb_spec t (failures m)); lia.
Qed.

(** A request to bring it up: a success while the map says down. *)
Lemma up_exactly m r w m' q : 0 < threshold m -> (r = Missing -> failures m < threshold m) -> iterate m r w = Some (m', q) ->
  In RequestUp q <-> r = ReadsDown /\ w = Ping true.
Proof.
  intros T MI I. unfold iterate in I. set (m1 := sync_map m r) in *.
  assert (DN : forall m' q, down m1 = Some (m', q) -> ~ In RequestUp q) by (intros x y D; apply down_spec in D; tauto).
  destruct (sync_spec m r) as (S1 & S2). fold m1 in S1, S2.
  destruct w as [[|]|av ok| |]; cbn [process_queue] in I.
  - unfold up in I. injection I as _ <-. rewrite S1. destruct r.
    + rewrite S2. specialize (MI eq_refl). replace (threshold m <=? failures m) with false by lia. split; [intros []|intros (X & _); discriminate X].
    + rewrite S2, Z.leb_refl. split; auto. intros _. now left.
    + rewrite S2. destruct (Z.leb_spec (threshold m) (failures m)).
      * replace (threshold m <=? 0) with false by lia. split; [intros []|intros (X & _); discriminate X].
      * replace (threshold m <=? failures m) with false by lia. split; [intros []|intros (X & _); discriminate X].
  - split; [intros X; now apply DN in I|intros (_ & X); discriminate X].
  - split; [|intros (_ & X); discriminate X]. destruct (_ && _); [intros X; now apply DN in I|]. destruct ok; [injection I as _ <-; intros []|intros X; now apply DN in I].
  - injection I as _ <-. split; [intros []|intros (_ & X); discriminate X].
  - split; [intros X; now apply DN in I|intros (_ & X); discriminate X].
Qed.
