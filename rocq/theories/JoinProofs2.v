(** Lemmas on a node that joins a partition: the invariant. *)
From Coq Require Import String.
From stdpp Require Import gmap.
From Coq Require Import Lia ZifyBool ZifyNat ZifyN.
From Verif Require Import Base BaseLemmas StorageModel StorageSpec StorageProofs StorageProofs2 StorageProofs3 StorageProofs4 StorageProofs5 StorageProofs6
  TextModel TextSpec TextProofs TextProofs2 TextProofs3 SessionModel SessionProofs ServerModel ServerProofs ServerProofs2 KeyResolverModel
  DumpModel DumpSpec DumpProofs DumpProofs2 ReplicaModel ReplicaSpec ReplicaProofs ReplicaProofs2 ReplicationModel ReplicationSpec ReplicationProofs2 JoinModel JoinSpec JoinProofs.
Local Open Scope N_scope.
Local Open Scope list_scope.

(** * The way of the key: the positions after the writes that are still to be sent on *)
Definition after (f : bytes * entry) : pos :=
  match kind_of (fst f) with KDelete => (None, e_version (snd f)) | _ => (Some (rec_of (snd f)), e_version (snd f)) end.
Definition follows (p : pos) (f : bytes * entry) : Prop :=
  snd p <= e_version (snd f) /\ 0 < e_version (snd f) /\
  match kind_of (fst f) with KStore => forall r, fst p = Some r -> r_version r < e_version (snd f) | KDelete => True | KTouch => False end.
Fixpoint chain (p : pos) (q : list (bytes * entry)) : Prop :=
  match q with [] => True | f :: q' => follows p f /\ chain (after f) q' end.
Definition final (p : pos) (q : list (bytes * entry)) : pos := List.last (map after q) p.
Definition on_path (p : pos) (q : list (bytes * entry)) (r : rec) : Prop := fst p = Some r \/ exists f, In f q /\ fst (after f) = Some r.

Lemma after_version f : snd (after f) = e_version (snd f).
Proof. unfold after. now destruct (kind_of (fst f)). Qed.
Lemma final_cons p f q : final p (f :: q) = final (after f) q.
Proof. unfold final. cbn [map]. destruct q as [|g q]; [reflexivity|]. cbn [map]. generalize (after g) as x, (map after q) as l. intros x l. revert x. induction l as [|y l IH]; intros x; [reflexivity|]. cbn [List.last] in *. apply IH. Qed.
Lemma final_snoc p q f : final p (q ++ [f]) = after f.
Proof. unfold final. rewrite map_app. cbn [map]. apply last_last. Qed.
Lemma chain_snoc p q f : chain p q -> follows (final p q) f -> chain p (q ++ [f]).
Proof.
  revert p. induction q as [|g q IH]; intros p C F; [split; [exact F|exact I]|]. destruct C as [C1 C2]. cbn [app chain]. split; [exact C1|].
  apply IH; [exact C2|]. now rewrite final_cons in F.
Qed.
Lemma chain_up p q f : chain p q -> In f q -> snd p <= e_version (snd f).
Proof.
  revert p. induction q as [|g q IH]; intros p C Hin; [destruct Hin|]. destruct C as [[C1 _] C2]. destruct Hin as [->|Hin]; [exact C1|].
  specialize (IH _ C2 Hin). rewrite after_version in IH. lia.
Qed.
Lemma chain_up_final p q : chain p q -> snd p <= snd (final p q).
Proof.
  revert p. induction q as [|g q IH]; intros p C; [apply N.le_refl|]. destruct C as [[C1 _] C2]. rewrite final_cons. specialize (IH _ C2). rewrite after_version in IH. lia.
Qed.
Lemma on_path_up p q r : pos_ok p -> chain p q -> on_path p q r -> snd p <= r_version r.
Proof.
  intros Hp C [H|(f & Hin & H)].
  - destruct (Hp r H) as [_ E]. lia.
  - unfold after in H. pose proof (chain_up _ _ _ C Hin). destruct (kind_of (fst f)); cbn [fst] in H; try discriminate; apply Some_inv in H; subst r; cbn [rec_of r_version]; lia.
Qed.

(** * Where the node that joins is *)
(** On the way, at the start of it or at a position further on; without a record only at the start or after the first write. *)
Definition placed (k : key) (s : store) (p : pos) (q : list (bytes * entry)) : Prop :=
  exists d, at_pos k s d /\ pos_ok d /\ (d = p \/ exists f, In f q /\ d = after f /\ (fst d = None -> exists q', q = f :: q')).
(** Before it: what it knows is older than the start of the way. *)
Definition unplaced (k : key) (s : store) (p : pos) : Prop :=
  exists v, knows s k v /\ v < snd p /\ (db s !! k <> None -> fst p <> None).

Lemma placed_snoc k s p q f : placed k s p q -> placed k s p (q ++ [f]).
Proof.
  intros (d & A & P & [E|(g & B & C & D)]); exists d; (split; [exact A|]); (split; [exact P|]); [now left|]. right. exists g. split; [apply in_or_app; now left|]. split; [exact C|].
  intros E. destruct (D E) as (q' & ->). cbn. eauto.
Qed.
Lemma placed_store k s s' p q : (forall d, pos_ok d -> at_pos k s d -> at_pos k s' d) -> placed k s p q -> placed k s' p q.
Proof. intros H (d & A & P & B). exists d. auto. Qed.
Lemma after_ok f T v v' : link T v f v' -> kind_of (fst f) <> KTouch -> pos_ok (after f).
Proof.
  unfold link, after. destruct (kind_of (fst f)); [|intros _ _ r; discriminate|congruence]. intros (_ & _ & W & _) _ r E. cbn in E. apply Some_inv in E. subst r. split; [exact W|reflexivity].
Qed.

(** ** A write sent on arrives *)
Lemma arrives k now s p q f T v v' : wf_store s -> sane_clock now -> 1 <= hcache_size s -> e_key (snd f) = k -> link T v f v' ->
  pos_ok p -> chain p (f :: q) -> placed k s p (f :: q) \/ unplaced k s p ->
  exists pr, run_request now s (received f) = Ok pr /\ touches_only k s (p_store pr) /\
    (at_pos k (p_store pr) (after f) \/
     (p_store pr = s /\ exists d g, at_pos k s d /\ pos_ok d /\ In g (f :: q) /\ d = after g /\ fst d <> None)).
Proof.
  intros W Hn Hs Hk HL Hp (C & Cq) Hpl. pose proof (sane_i64 _ Hn) as Hi. destruct C as (C1 & C2 & C3).
  destruct (received_ok _ _ _ _ HL) as (Q1 & Q2 & Q3). rewrite Hk in Q3.
  assert (Loc : forall pr, run_request now s (received f) = Ok pr -> touches_only k s (p_store pr)).
  { intros pr R. destruct (write_effect now s _ pr W Q1 Q2 Hn R) as (HO & _). now rewrite Q3 in HO. }
  unfold received in *. unfold link in HL. destruct (kind_of (fst f)) eqn:Kd; [| |contradiction].
  - destruct HL as (Hlk & -> & Wf & Hsd & _). assert (Sz : e_size (snd f) = blen (e_data (snd f))) by apply Hsd.
    destruct (set_plain s now (snd f) W Wf Sz C2) as (o & E1 & E2 & E3 & E4).
    destruct (finish_ok o is_stored (s2b "set"%string) answer_line E2 E3) as [pr Hpr]. exists pr.
    assert (R : run_request now s (RStore (s2b "set") (snd f)) = Ok pr).
    { cbn [run_request]. unfold run_store. change (store_behavior (s2b "set")) with (cmd_behavior CmdSet). now rewrite E1. }
    split; [exact R|]. split; [now apply Loc|]. apply finish_inv in Hpr; auto. destruct Hpr as (x & _ & ->). cbn [p_store]. rewrite Hk in E4.
    destruct E4 as [(E4 & E5)|(E4 & r & L & Lv)].
    + left. rewrite E4. unfold after. rewrite Kd. now apply (at_pos_insert k s (rec_of (snd f))).
    + right. split; [exact E4|]. destruct L as (L1 & L2 & L3). destruct Hpl as [(d & A & P & [->|(g & B & D & G)])|(v0 & A & B & _)].
      * exfalso. pose proof (at_pos_version _ _ _ _ P A L1 L2). destruct p as [[r'|] vp]; cbn [fst snd] in *.
        { specialize (C3 r' eq_refl). destruct (Hp r' eq_refl). cbn [snd] in *. lia. } { destruct A as [A _]. unfold holds in *. cbn in *. congruence. }
      * exists d, g. split; [exact A|]. split; [exact P|]. split; [exact B|]. split; [exact D|]. intros N. destruct A as [A _]. rewrite N in A. unfold holds in *. cbn in *. congruence.
      * exfalso. assert (v0 = r_version r) by (eapply knows_fun; [exact A|]; left; eauto). lia.
  - destruct HL as (Hlk & -> & Hv & Hx & Ho & _). set (e' := mkEntry (e_key (snd f)) 0 (e_expire (snd f)) 0 (e_version (snd f)) (e_option (snd f)) []) in *.
    destruct (remove_plain s now e' W Hi (absolute_i64 _ Hx) Hv Hs C2) as (E2 & E3 & E4).
    destruct (finish_ok (remove s now e' 0) is_deleted (s2b "delete"%string) answer_line E2 E3) as [pr Hpr]. exists pr.
    assert (R : run_request now s (RDelete e') = Ok pr) by exact Hpr.
    split; [exact R|]. split; [now apply Loc|]. apply finish_inv in Hpr; auto. destruct Hpr as (x & _ & ->). cbn [p_store].
    change (e_key e') with (e_key (snd f)) in E4. change (e_version e') with (e_version (snd f)) in E4. rewrite Hk in E4.
    destruct E4 as [E4|(E4 & v0 & K0 & L)].
    + left. unfold after. now rewrite Kd.
    + right. split; [exact E4|]. destruct Hpl as [(d & A & P & [->|(g & B & D & G)])|(v1 & A & B & _)].
      * exfalso. destruct A as [_ A]. assert (v0 = snd p) by exact (knows_fun _ _ _ _ K0 A). lia.
      * exists d, g. split; [exact A|]. split; [exact P|]. split; [exact B|]. split; [exact D|]. intros N. destruct (G N) as (q' & E). injection E as <- _.
        destruct A as [_ A]. assert (v0 = snd d) by exact (knows_fun _ _ _ _ K0 A). rewrite D, after_version in *. lia.
      * exfalso. assert (v0 = v1) by exact (knows_fun _ _ _ _ K0 A). lia.
Qed.

(** * The invariant *)
Definition on_key (k : key) (x : list bytes * (bytes * entry)) : bool := beq (e_key (snd (snd x))) k.
Definition mine (k : key) (st : joining) : list (bytes * entry) := map snd (List.filter (on_key k) (j_pending st)).

Lemma mine_other k q i x : nth_error q i = Some x -> e_key (snd (snd x)) <> k ->
  List.filter (on_key k) (firstn i q ++ skipn (S i) q) = List.filter (on_key k) q.
Proof.
  intros H N. rewrite (nth_split _ _ _ H) at 3. rewrite !List.filter_app. cbn [List.filter]. unfold on_key at 4.
  destruct (beq (e_key (snd (snd x))) k) eqn:E; [apply beq_eq in E; contradiction|reflexivity].
Qed.
Lemma mine_first k q i x : nth_error q i = Some x -> e_key (snd (snd x)) = k -> oldest k q i ->
  List.filter (on_key k) q = x :: List.filter (on_key k) (firstn i q ++ skipn (S i) q).
Proof.
  intros H N O. rewrite (nth_split _ _ _ H) at 1. rewrite !List.filter_app. cbn [List.filter]. unfold on_key at 2. replace (beq (e_key (snd (snd x))) k) with true by (symmetry; apply beq_eq; exact N).
  replace (List.filter (on_key k) (firstn i q)) with (@nil (list bytes * (bytes * entry))); [reflexivity|]. symmetry.
  assert (F : forall y, In y (firstn i q) -> on_key k y = false).
  { intros y Hin. apply In_nth_error in Hin as (j & Hj). assert (Hji : (j < i)%nat). { assert (L : nth_error (firstn i q) j <> None) by congruence. apply nth_error_Some in L. rewrite firstn_length in L. lia. }
    unfold on_key. destruct (beq (e_key (snd (snd y))) k) eqn:E; [|reflexivity]. apply beq_eq in E. exfalso. eapply (O x H N j y Hji); [|exact E].
    rewrite <- Hj. rewrite <- (firstn_skipn i q) at 1. apply nth_error_app1. apply nth_error_Some. congruence. }
  induction (firstn i q) as [|y l IH]; [reflexivity|]. cbn [List.filter]. rewrite F by now left. apply IH. intros z Hz. apply F. now right.
Qed.
Section Key.
Context (cfg : config) (ext : hash_algorithm -> bytes -> Z) (alg : hash_algorithm) (part : Z) (psize : nat).
Context (k : key) (Hask : asked cfg ext alg part psize k) (st0 : joining).
Notation sel := (selected cfg ext alg part psize).
Notation jstep := (join_step cfg ext alg part psize).

Record wire_ok (st : joining) (sent : list (key * rec)) : Prop := {
  w_bytes : j_wire st = record_blocks sent ++ (if j_ended st && negb (j_whole st) then last_line Ended else []);
  w_whole : j_whole st = true -> sent = [] /\ j_ended st = true;
  w_recs : forall k' r, In (k', r) sent -> portable k' r /\ wf_rec r }.
Record key_ok (l : list event) (T : Z) (st : joining) (sent : list (key * rec)) (p : pos) : Prop := {
  k_pos : pos_ok p;
  k_chain : chain p (mine k st);
  k_source : at_source k T (j_master st) (fst (final p (mine k st)));
  k_version : exists v, knows (j_master st) k v /\ snd (final p (mine k st)) <= v;
  k_place : (placed k (j_replica st) p (mine k st) /\ forall r, In (k, r) sent -> on_path p (mine k st) r \/ r_version r <= snd p)
    \/ (unplaced k (j_replica st) p /\ (forall r, In (k, r) sent -> on_path p (mine k st) r) /\
        holds (j_master st0) k (fst p) /\
        (fst p = None \/ ~ seen_by k l \/ (exists r, In (k, r) sent) \/ mine k st <> [])) }.
Record jinv (l : list event) (T : Z) (st : joining) : Prop := {
  ji_time : sane_clock T;
  ji_master : wf_store (j_master st);
  ji_replica : wf_store (j_replica st);
  ji_cache : 1 <= hcache_size (j_replica st);
  ji_abs : forall k', exists v, sees T (j_master st) k' v /\ forall r, v = Some r -> absolute_expire (r_expire r);
  ji_unwrapped : unwrapped k (j_master st);
  ji_option : e_option (j_entry st) = 0;
  ji_way : forall x, In x (j_pending st) -> Forall legal_node_name (fst x) /\ linked (snd x);
  ji_key : exists sent p, wire_ok st sent /\ key_ok l T st sent p }.

Lemma jinv_start T : beginning k T st0 -> jinv [] T st0.
Proof.
  intros [B1 B2 B3 B4 B5 B6 B7 B8 B9 B10 B11 B12 B13]. split; auto.
  - intros k'. destruct (sees_total T (j_master st0) k' B2) as (v & Hv & Hh & Hw). exists v. split; [auto|]. intros r ->. apply (B5 k'); auto.
  - now rewrite B10.
  - rewrite B9. intros x [].
  - destruct (sees_total T (j_master st0) k B2) as (cur & Hv & Hh & Hw). destruct (knows_total (j_master st0) k B2) as (v & Kv & _).
    destruct (knows_total (j_replica st0) k B3) as (vr & Kr & _).
    assert (Em : mine k st0 = []) by (unfold mine; now rewrite B9).
    exists [], (cur, v). split; [split|split]; rewrite ?Em.
    + now rewrite B11, B12.
    + rewrite B13. discriminate.
    + intros k' r [].
    + intros r E. cbn [fst snd] in *. subst cur. split; [auto|]. eapply knows_fun; [|exact Kv]. left. eauto.
    + exact I.
    + change (final (cur, v) []) with (cur, v). cbn [fst]. split; [exact Hv|]. intros r E. subst cur. split; [auto|]. split; [auto|]. split; [apply (B5 k); auto|]. apply B6; auto.
    + exists v. split; [exact Kv|]. cbn. lia.
    + destruct (B7 _ _ Kr Kv) as [Lt|(<- & Ed)].
      * right. split; [|split; [intros r []|split; [exact Hh|]]].
        { exists vr. split; [exact Kr|]. split; [exact Lt|]. cbn [fst]. intros N E. subst cur. apply N, B8. exact Hh. }
        right. left. intros (n & []).
      * left. split; [|intros r []]. exists (cur, vr). split; [split; [unfold holds; cbn [fst]; rewrite Ed; exact Hh|exact Kr]|]. split; [|now left].
        intros r E. cbn [fst snd] in *. subst cur. split; [auto|]. eapply knows_fun; [|exact Kv]. left. eauto.
Qed.

(** ** Events that do not concern the key *)
Lemma seen_app l h : seen_by k l -> seen_by k (l ++ [h]).
Proof. intros (n & H). exists n. apply in_or_app. now left. Qed.
Lemma seen_other l h : (forall now, h <> Visit now k) -> ~ seen_by k l -> ~ seen_by k (l ++ [h]).
Proof. intros Hh N (n & H). apply in_app_or in H as [H|[H|[]]]; [apply N; now exists n|]. now destruct (Hh n). Qed.
Lemma abs_mono T now s : (T <= now)%Z -> (forall k', exists v, sees T s k' v /\ forall r, v = Some r -> absolute_expire (r_expire r)) ->
  forall k', exists v, sees now s k' v /\ forall r, v = Some r -> absolute_expire (r_expire r).
Proof. intros HT H k'. destruct (H k') as (v & A & B). exists v. split; [eapply sees_mono; eauto|auto]. Qed.
Lemma version_on s s' p : wf_store s' -> steady k s s' -> (exists v, knows s k v /\ snd p <= v) -> exists v, knows s' k v /\ snd (p : pos) <= v.
Proof. intros W S (v & A & B). destruct (knows_total s' k W) as (v' & A' & _). exists v'. split; [exact A'|]. specialize (S _ _ A A'). lia. Qed.
(** the way, with a position of the replica that is kept *)
Lemma place_keep l l' st st' sent p : mine k st' = mine k st -> (seen_by k l' -> seen_by k l) ->
  (forall d, pos_ok d -> at_pos k (j_replica st) d -> at_pos k (j_replica st') d) ->
  (forall v, knows (j_replica st) k v -> knows (j_replica st') k v) -> db (j_replica st') !! k = db (j_replica st) !! k ->
  ((placed k (j_replica st) p (mine k st) /\ forall r, In (k, r) sent -> on_path p (mine k st) r \/ r_version r <= snd p)
    \/ (unplaced k (j_replica st) p /\ (forall r, In (k, r) sent -> on_path p (mine k st) r) /\ holds (j_master st0) k (fst p) /\
        (fst p = None \/ ~ seen_by k l \/ (exists r, In (k, r) sent) \/ mine k st <> []))) ->
  ((placed k (j_replica st') p (mine k st') /\ forall r, In (k, r) sent -> on_path p (mine k st') r \/ r_version r <= snd p)
    \/ (unplaced k (j_replica st') p /\ (forall r, In (k, r) sent -> on_path p (mine k st') r) /\ holds (j_master st0) k (fst p) /\
        (fst p = None \/ ~ seen_by k l' \/ (exists r, In (k, r) sent) \/ mine k st' <> []))).
Proof.
  intros -> Hs Ha Hk Hd [(A & B)|((v & A1 & A2 & A3) & B & C & D)]; [left|right].
  - split; [|exact B]. eapply placed_store; eauto.
  - split; [exists v; rewrite Hd; auto|]. split; [exact B|]. split; [exact C|]. destruct D as [D|[D|D]]; [now left| |now right; right]. right. left. tauto.
Qed.
Lemma nothing_seen l h : (forall now, h <> Visit now k) -> seen_by k (l ++ [h]) -> seen_by k l.
Proof. intros Hh (n & H). apply in_app_or in H as [H|[H|[]]]; [now exists n|]. now destruct (Hh n). Qed.

Lemma jinv_finish l T st now st2 : jinv l T st -> (T <= now)%Z -> sane_clock now -> sound k st (Finish now) -> jstep st (Finish now) = Ok st2 -> jinv (l ++ [Finish now]) now st2.
Proof.
  intros [I1 I2 I3 I4 I5 I6 I7 I8 (sent & p & [W1 W2 W3] & [K1 K2 K3 K4 K5])] HT Hn (Hx & _) H. cbn [join_step event_time] in *.
  destruct (j_ended st) eqn:E; [discriminate|]. injection H as <-. split; cbn [j_master j_replica j_pending j_entry]; auto; [eapply abs_mono; eauto|].
  exists sent, p. split.
  - split; cbn [j_wire j_ended j_whole]; [|intros Hw; destruct (W2 Hw); discriminate|exact W3]. rewrite W1. cbn [andb]. rewrite app_nil_r.
    destruct (j_whole st) eqn:Ew; [destruct (W2 eq_refl); discriminate|reflexivity].
  - split; auto; [eapply at_source_frame; eauto|]. eapply place_keep; [reflexivity| | | | |exact K5]; auto. apply nothing_seen. discriminate.
Qed.

Lemma jinv_land l T st now st2 : jinv l T st -> (T <= now)%Z -> sane_clock now -> sound k st (Land now) -> jstep st (Land now) = Ok st2 ->
  keeps k (j_replica st) (j_replica st2) -> jinv (l ++ [Land now]) now st2.
Proof.
  intros [I1 I2 I3 I4 I5 I6 I7 I8 (sent & p & [W1 W2 W3] & [K1 K2 K3 K4 K5])] HT Hn (Hx & _) H Hkeep. cbn [join_step event_time] in *.
  destruct (j_whole st) eqn:Ew; [discriminate|]. rewrite W1 in H. assert (S0 : seen_by k (l ++ [Land now]) -> seen_by k l) by (apply nothing_seen; discriminate).
  assert (K3' : at_source k now (j_master st) (fst (final p (mine k st)))) by (eapply at_source_frame; eauto).
  destruct sent as [|[k' r] sent].
  - cbn [record_blocks map List.concat app] in H. destruct (j_ended st) eqn:Ee; cbn [andb negb] in H; [|discriminate].
    rewrite round_end in H. injection H as <-. split; cbn [j_master j_replica j_pending j_entry]; auto; [eapply abs_mono; eauto|].
    exists [], p. split; [split; cbn [j_wire j_ended j_whole]; auto; intros ? ? []|]. split; auto. eapply place_keep; [reflexivity|exact S0| | | |exact K5]; auto.
  - destruct (W3 k' r (or_introl eq_refl)) as (Hp & Hw). unfold record_blocks in H. cbn [map List.concat fst snd] in H. rewrite <- app_assoc in H. rewrite (round_block now _ k' r _ Hp Hw) in H.
    destruct (set_dump (j_replica st) now k' r I3 Hw (proj2 (proj2 Hp))) as (o & v & E1 & E2 & E3 & E4). rewrite E1 in H. injection H as <-. cbn [j_replica] in Hkeep.
    assert (Hc : hcache_size (o_store o) = hcache_size (j_replica st)) by (rewrite E4; destruct (v <? r_version r); reflexivity).
    split; cbn [j_master j_replica j_pending j_entry]; auto; [now rewrite Hc|eapply abs_mono; eauto|].
    exists sent, p. split.
    { split; cbn [j_wire j_ended j_whole]; [reflexivity|discriminate|]. intros ? ? Hin. apply W3. now right. }
    destruct (List.list_eq_dec N.eq_dec k' k) as [->|Hne].
    + split; auto. match goal with |- context [mine k ?s] => change (mine k s) with (mine k st) end. cbn [j_replica].
      destruct (v <? r_version r) eqn:L.
      * (* taken *)
        assert (Hpos : at_pos k (o_store o) (Some r, r_version r)) by (rewrite E4; now apply at_pos_insert).
        assert (Hok : pos_ok (Some r, r_version r)) by (intros r' E; apply Some_inv in E; now subst r').
        left. assert (Hpath : on_path p (mine k st) r).
        { destruct K5 as [((d & (_ & A) & _ & B) & C)|(_ & C & _)]; [|apply C; now left]. destruct (C r (or_introl eq_refl)) as [D|D]; [exact D|]. exfalso.
          assert (v = snd d) by exact (knows_fun _ _ _ _ E3 A). destruct B as [->|(f & B1 & -> & _)]; [lia|]. pose proof (chain_up _ _ _ K2 B1). rewrite after_version in *. lia. }
        split.
        { exists (Some r, r_version r). split; [exact Hpos|]. split; [exact Hok|]. destruct Hpath as [Ep|(f & Hin & Ef)].
          - left. destruct p as [o0 v0]. cbn [fst] in Ep. subst o0. destruct (K1 r eq_refl) as [_ E]. cbn [snd] in E. now rewrite E.
          - right. exists f. split; [exact Hin|]. split; [|discriminate]. unfold after in *. destruct (kind_of (fst f)); cbn [fst] in Ef; try discriminate; apply Some_inv in Ef; subst r; reflexivity. }
        intros r' Hin. destruct K5 as [(_ & C)|(_ & C & _)]; [apply C; now right|left; apply C; now right].
      * (* refused *)
        rewrite E4 in *. destruct K5 as [(A & C)|((v1 & A1 & A2 & A3) & C & D)].
        { left. split; [exact A|]. intros r' Hin. apply C. now right. }
        { exfalso. assert (v = v1) by exact (knows_fun _ _ _ _ E3 A1). pose proof (on_path_up _ _ _ K1 K2 (C r (or_introl eq_refl))). lia. }
    + assert (HO : db (o_store o) !! k = db (j_replica st) !! k) by (rewrite E4; destruct (v <? r_version r); [cbn; now rewrite lookup_insert_ne by congruence|reflexivity]).
      assert (HK : forall v0, knows (j_replica st) k v0 -> knows (o_store o) k v0) by (intros v0 Kv; rewrite E4; destruct (v <? r_version r); [apply knows_frame; congruence|exact Kv]).
      split; auto.
      eapply (place_keep l _ st); [reflexivity|exact S0| |exact HK|exact HO|].
      * intros d _ [A B]. split; [unfold holds in *; cbn [j_replica]; congruence|now apply HK].
      * destruct K5 as [(A & C)|(A & C & D & E)]; [left|right].
        { split; [exact A|]. intros r' Hin. apply C. now right. }
        { split; [exact A|]. split; [intros r' Hin; apply C; now right|]. split; [exact D|]. destruct E as [E|[E|[(r' & [E|E])|E]]]; auto; [congruence|]. right. right. left. eauto. }
Qed.

Lemma turn_cases s e now k' s' e' out : wf_store s -> sane_clock now -> legal_key k' -> e_option e = 0 ->
  dump_turn cfg ext alg part psize s e now k' = Ok (s', e', out) ->
  wf_store s' /\ unchanged_from now s s' /\ e_option e' = 0 /\
  ((out = [] /\ (~ asked cfg ext alg part psize k' \/ forall r, ~ live s now k' r)) \/ exists r, live s now k' r /\ out = record_block k' r).
Proof.
  intros W Hn Hk He H. unfold dump_turn in H. rewrite (legal_cstr _ Hk) in H. cbn [with_key e_key] in H. set (e0 := with_key e k') in H.
  pose proof (sane_i64 _ Hn) as Hi.
  destruct (sel k') as [[]|] eqn:S; [| |discriminate].
  - destruct (get_unchanged now s e0 W Hi) as [G1 G2]. destruct (get_dump s now e0 W Hi He) as [(r & L & E1 & E2 & E3 & E4)|(L & E2 & E3 & E4 & _)]; rewrite E2, E3 in H; cbn [Z.ltb Z.compare orb] in H; injection H as <- <- <-.
    + split; [exact G1|]. split; [exact G2|]. rewrite E4. split; [reflexivity|]. right. exists r. split; [exact L|]. apply print_sent. now apply legal_cstr.
    + split; [exact G1|]. split; [exact G2|]. split; [exact E4|]. left. split; [reflexivity|]. right. exact L.
  - injection H as <- <- <-. split; [exact W|]. split; [apply unchanged_refl|]. split; [exact He|]. left. split; [reflexivity|]. left. intros A. apply selected_asked in A. congruence.
Qed.

Lemma jinv_visit l T st now k' st2 : jinv l T st -> (T <= now)%Z -> sane_clock now -> sound k st (Visit now k') -> jstep st (Visit now k') = Ok st2 ->
  unwrapped k (j_master st2) -> steady k (j_master st) (j_master st2) -> jinv (l ++ [Visit now k']) now st2.
Proof.
  intros [I1 I2 I3 I4 I5 I6 I7 I8 (sent & p & [W1 W2 W3] & [K1 K2 K3 K4 K5])] HT Hn (Hx & Hk' & Hu) H Hunw Hst. cbn [join_step event_time] in *.
  destruct (j_ended st) eqn:Ee; [discriminate|]. destruct (dump_turn cfg ext alg part psize (j_master st) (j_entry st) now k') as [| |[[s' e'] out]] eqn:D; cbn [bind] in H; try discriminate.
  injection H as <-. cbn [fst snd j_master] in *. destruct (turn_cases _ _ _ _ _ _ _ I2 Hn Hk' I7 D) as (T1 & T2 & T3 & T4).
  assert (K3' : at_source k now s' (fst (final p (mine k st)))) by (eapply at_source_unchanged; eauto).
  assert (I5' : forall k2, exists v, sees now s' k2 v /\ forall r, v = Some r -> absolute_expire (r_expire r)).
  { intros k2. destruct (I5 k2) as (v & A & B). exists v. split; [eapply sees_unchanged; eauto|auto]. }
  assert (Ew : j_whole st = false) by (destruct (j_whole st); [destruct (W2 eq_refl); discriminate|reflexivity]). cbn [andb] in W1. rewrite app_nil_r in W1.
  destruct T4 as [(-> & T4)|(r & L & ->)].
  - split; cbn [j_master j_replica j_pending j_entry]; auto. exists sent, p. split.
    { split; cbn [j_wire j_ended j_whole]; [now rewrite W1, Ew|rewrite Ew; discriminate|exact W3]. }
    split; cbn [j_master]; auto; [now apply (version_on (j_master st))|]. change (mine k _) with (mine k st). cbn [j_replica].
    destruct K5 as [K5|(A & B & C & E)]; [left; exact K5|right]. split; [exact A|]. split; [exact B|]. split; [exact C|].
    destruct (List.list_eq_dec N.eq_dec k' k) as [->|Hne].
    + destruct T4 as [T4|T4]; [contradiction|]. destruct (mine k st) as [|f q] eqn:M; [|right; right; right; discriminate].
      left. destruct p as [[r|] v]; [|reflexivity]. exfalso. apply (T4 r). eapply at_source_live; [exact K3|exact Hx|reflexivity].
    + destruct E as [E|[E|E]]; auto. right. left. apply seen_other; [|exact E]. intros n. congruence.
  - assert (Hr : wf_rec r) by apply L.
    assert (Hp : portable k' r).
    { split; [exact Hk'|]. destruct (I5 k') as (v & A & B). destruct (sees_live _ _ _ _ _ _ A HT L) as [E _]. split; [now apply B|]. destruct L as (L1 & _). specialize (Hu r L1 Hr). lia. }
    split; cbn [j_master j_replica j_pending j_entry]; auto. exists (sent ++ [(k', r)]), p. split.
    { split; cbn [j_wire j_ended j_whole]; [|rewrite Ew; discriminate|].
      - rewrite record_blocks_app, W1, Ew. unfold record_blocks at 3. cbn [map List.concat fst snd]. cbn [andb]. now rewrite !app_nil_r.
      - intros k2 r2 Hin. apply in_app_or in Hin as [Hin|[Hin|[]]]; [now apply W3|]. injection Hin as <- <-. auto. }
    split; cbn [j_master]; auto; [now apply (version_on (j_master st))|]. change (mine k _) with (mine k st). cbn [j_replica].
    assert (Hon : k' = k -> on_path p (mine k st) r).
    { intros ->. destruct (sees_live _ _ _ _ _ _ (as_sees _ _ _ _ K3) HT L) as [E _]. unfold final in E. destruct (mine k st) as [|f q] eqn:M; [left; exact E|]. right.
      destruct (@exists_last _ (f :: q)) as (q0 & g & Eq); [discriminate|]. rewrite Eq in *. rewrite map_app in E. cbn [map] in E. rewrite last_last in E. exists g. split; [apply in_or_app; right; now left|exact E]. }
    destruct K5 as [(A & B)|(A & B & C & E)]; [left|right].
    + split; [exact A|]. intros r2 Hin. apply in_app_or in Hin as [Hin|[Hin|[]]]; [now apply B|]. injection Hin as E2 <-. left. now apply Hon.
    + split; [exact A|]. split. { intros r2 Hin. apply in_app_or in Hin as [Hin|[Hin|[]]]; [now apply B|]. injection Hin as E2 <-. now apply Hon. }
      split; [exact C|]. destruct (List.list_eq_dec N.eq_dec k' k) as [->|Hne].
      * right. right. left. exists r. apply in_or_app. right. now left.
      * destruct E as [E|[E|[(r2 & E)|E]]]; auto; [right; left; apply seen_other; [intros n; congruence|exact E]|]. right. right. left. exists r2. apply in_or_app. now left.
Qed.

Lemma jinv_deliver l T st now i (done : bool) st2 (h := if done then Deliver now i else Attempt now i) : jinv l T st -> (T <= now)%Z -> sane_clock now -> sound k st h ->
  jstep st h = Ok st2 -> keeps k (j_replica st) (j_replica st2) -> jinv (l ++ [h]) now st2.
Proof.
  intros [I1 I2 I3 I4 I5 I6 I7 I8 (sent & p & [W1 W2 W3] & [K1 K2 K3 K4 K5])] HT Hn (_ & Hold) Hstep Hkeep.
  assert (Hold' : oldest k (j_pending st) i) by (unfold h in Hold; destruct done; exact Hold). clear Hold. rename Hold' into Hold.
  destruct (nth_error (j_pending st) i) as [[trail f]|] eqn:Hnth.
  2:{ unfold h in Hstep. destruct done; cbn [join_step] in Hstep; rewrite Hnth in Hstep; discriminate. }
  pose proof (nth_error_In _ _ Hnth) as Hin. destruct (I8 _ Hin) as [Y1 (T1 & v & v' & L)]. cbn [fst snd] in *.
  destruct (forward_received now trail T1 v f v' Y1 L) as (c & Hrec).
  set (q' := if done then firstn i (j_pending st) ++ skipn (S i) (j_pending st) else j_pending st).
  assert (exists pr, run_request now (j_replica st) (received f) = Ok pr /\
    st2 = mkJoining (j_master st) (p_store pr) q' (j_entry st) (j_wire st) (j_ended st) (j_whole st)) as (pr & R & ->).
  { unfold h, q' in *. destruct done; cbn [join_step] in Hstep; rewrite Hnth, (run_line_request _ _ _ _ _ _ Hrec) in Hstep;
      (destruct (run_request now (j_replica st) (received f)) as [| |pr]; cbn [bind] in Hstep; try discriminate; exists pr; split; [reflexivity|congruence]). }
  clear Hstep. destruct (received_ok _ _ _ _ L) as (Q1 & Q2 & Q3). destruct (write_effect now (j_replica st) _ pr I3 Q1 Q2 Hn R) as (HO & _). rewrite Q3 in HO.
  cbn [j_replica] in Hkeep.
  assert (S0 : seen_by k (l ++ [h]) -> seen_by k l) by (apply nothing_seen; unfold h; destruct done; discriminate).
  assert (K3' : at_source k now (j_master st) (fst (final p (mine k st)))) by (eapply at_source_frame; eauto).
  assert (Sub : forall x, In x q' -> In x (j_pending st)).
  { intros x Hi. unfold q' in Hi. destruct done; [|exact Hi]. apply in_app_or in Hi as [Hi|Hi]; [rewrite <- (firstn_skipn i (j_pending st))|rewrite <- (firstn_skipn (S i) (j_pending st))]; apply in_or_app; auto. }
  split; cbn [j_master j_replica j_pending j_entry]; auto; [apply HO|destruct HO as (_ & E & _); now rewrite E|eapply abs_mono; eauto|].
  set (st2 := mkJoining _ _ _ _ _ _ _) in *.
  destruct (List.list_eq_dec N.eq_dec (e_key (snd f)) k) as [Ek|Ek].
  - pose proof (mine_first k _ _ _ Hnth Ek Hold) as HM.
    set (q1 := map snd (List.filter (on_key k) (firstn i (j_pending st) ++ skipn (S i) (j_pending st)))).
    assert (EM : mine k st = f :: q1) by (unfold mine, q1; rewrite HM; reflexivity).
    assert (EM2 : mine k st2 = if done then q1 else mine k st) by (unfold mine, st2, q', q1; cbn [j_pending]; destruct done; reflexivity).
    rewrite EM in *. destruct (arrives k now (j_replica st) p q1 f T1 v v' I3 Hn I4 Ek L K1 K2) as (pr' & R' & _ & HA); [destruct K5 as [(A & _)|(A & _)]; auto|].
    rewrite R in R'. assert (pr' = pr) by congruence. subst pr'. clear R'.
    assert (Hnt : kind_of (fst f) <> KTouch) by (destruct K2 as ((_ & _ & F) & _); intros E; rewrite E in F; exact F).
    pose proof (after_ok _ _ _ _ L Hnt) as Hok.
    assert (Hwire : forall r, In (k, r) sent -> on_path p (f :: q1) r \/ r_version r <= snd p) by (intros r Hr; destruct K5 as [(_ & B)|(_ & B & _)]; auto).
    destruct K2 as (F1 & F2).
    exists sent. destruct done.
    + exists (after f). split; [split; auto|]. rewrite final_cons in K3', K4. split; rewrite ?EM2; auto.
      left. split.
      * destruct HA as [A|(E & d & g & A & P & [<-|B] & D & N)]; [exists (after f); auto|subst d; exists (after f); cbn [j_replica st2]; rewrite E; auto|].
        exists d. cbn [j_replica st2]. rewrite E. split; [exact A|]. split; [exact P|]. right. exists g. split; [exact B|]. split; [exact D|]. intros X. contradiction.
      * intros r Hr. destruct (Hwire r Hr) as [[O|(g & [<-|O] & O2)]|O].
        { right. destruct (K1 r O) as [_ X]. rewrite after_version. destruct F1 as (F1 & _). lia. }
        { left. left. exact O2. } { left. right. eauto. }
        { right. rewrite after_version. destruct F1 as (F1 & _). lia. }
    + exists p. split; [split; auto|]. split; rewrite ?EM2, ?EM; auto; [split; auto|]. left. split; [|exact Hwire].
      destruct HA as [A|(E & d & g & A & P & B & D & N)].
      * exists (after f). split; [exact A|]. split; [exact Hok|]. right. exists f. split; [now left|]. split; [reflexivity|]. intros _. eauto.
      * exists d. cbn [j_replica st2]. rewrite E. split; [exact A|]. split; [exact P|]. right. exists g. split; [exact B|]. split; [exact D|]. intros X. contradiction.
  - assert (EM2 : mine k st2 = mine k st) by (unfold mine, st2, q'; cbn [j_pending]; destruct done; [now rewrite (mine_other k _ _ _ Hnth Ek)|reflexivity]).
    exists sent, p. split; [split; auto|]. split; rewrite ?EM2; auto.
    rewrite <- EM2. eapply (place_keep l _ st); [exact EM2|exact S0| | | |exact K5].
    + intros d _ A. eapply at_pos_other; eauto.
    + intros v0 A. eapply knows_other; eauto.
    + apply HO. congruence.
Qed.

Lemma jinv_client l T st now stream st2 : jinv l T st -> (T <= now)%Z -> sane_clock now -> sound k st (Client now stream) -> jstep st (Client now stream) = Ok st2 ->
  unwrapped k (j_master st2) -> steady k (j_master st) (j_master st2) -> jinv (l ++ [Client now stream]) now st2.
Proof.
  intros [I1 I2 I3 I4 I5 I6 I7 I8 (sent & p & [W1 W2 W3] & [K1 K2 K3 K4 K5])] HT Hn (Hx & Hb & Hreq) Hstep Hunw Hst. cbn [event_time] in Hx. cbn [join_step] in Hstep.
  assert (S0 : seen_by k (l ++ [Client now stream]) -> seen_by k l) by (apply nothing_seen; discriminate).
  pose proof (abs_mono T now _ HT I5) as I5'.
  destruct (serve_next now stream) as [| |[v rest]] eqn:S; cbn [bind] in Hstep; try discriminate. unfold run_line in Hstep. rewrite S in Hstep. cbn [bind] in Hstep.
  destruct v as [c r|]; cbn [bind] in Hstep.
  2:{ injection Hstep as <-. cbn [p_store p_forward] in *. rewrite app_nil_r. split; cbn [j_master j_replica j_pending j_entry]; auto.
      exists sent, p. split; [split; auto|]. split; auto; [eapply at_source_frame; eauto|]. eapply place_keep; [reflexivity|exact S0| | | |exact K5]; auto. }
  destruct (Hreq c r rest eq_refl) as (Htrail & Hsp). apply next_accepted in S. apply serve_request_ok in S as [Hok _]; auto.
  destruct (run_request now (j_master st) r) as [| |pr] eqn:R; cbn [bind] in Hstep; try discriminate. injection Hstep as <-. cbn [j_master] in *.
  assert (Hw : is_write r \/ (exists ident keys, r = RGet ident keys) \/ p_store pr = j_master st /\ p_forward pr = None).
  { destruct r; cbn [is_write]; eauto; try (cbn [run_request] in R; injection R as <-; now auto); first [discriminate R|destruct Hsp]. }
  (* nothing visible changed *)
  assert (Same : p_forward pr = None -> wf_store (p_store pr) -> unchanged_from now (j_master st) (p_store pr) ->
    jinv (l ++ [Client now stream]) now (mkJoining (p_store pr) (j_replica st) (j_pending st ++ match p_forward pr with Some f => [(c_trail c, f)] | None => [] end) (j_entry st) (j_wire st) (j_ended st) (j_whole st))).
  { intros -> W' U. rewrite app_nil_r. split; cbn [j_master j_replica j_pending j_entry]; auto.
    - intros k'. destruct (I5 k') as (v & A & B). exists v. split; [eapply sees_unchanged; eauto|auto].
    - exists sent, p. split; [split; auto|]. split; auto; [eapply at_source_unchanged; eauto|now apply (version_on (j_master st))|]. eapply place_keep; [reflexivity|exact S0| | | |exact K5]; auto. }
  destruct Hw as [Hw|[(ident & keys & ->)|(Q1 & Q2)]].
  3:{ apply Same; [exact Q2|now rewrite Q1|rewrite Q1; apply unchanged_refl]. }
  2:{ cbn [run_request] in R.
      destruct (run_get_unchanged now (if beq ident (s2b "gets"%string) then response_gets else response_get) keys (j_master st) I2 (sane_i64 _ Hn)) as [G1 G2].
      destruct (run_get now (j_master st) _ keys) as [s' o']. injection R as <-. cbn [fst p_store p_forward] in *. now apply Same. }
  destruct (write_effect now (j_master st) r pr I2 Hok Hw Hn R) as (HO & HF).
  destruct (p_forward pr) as [f|] eqn:F; [|apply Same; [reflexivity|apply HO|exact HF]]. clear Same.
  destruct HF as (Hk & HE).
  assert (Hlk : legal_key (e_key (snd f))) by (rewrite Hk; destruct r; cbn in Hok, Hw |- *; try contradiction; apply Hok).
  destruct (I5' (e_key (snd f))) as (v & Sv & Av).
  destruct (effect_link now (j_master st) (p_store pr) f now v I2 (proj1 HO) Hlk ltac:(lia) Sv Av HE) as (v' & L1 & L2 & L3).
  assert (I5'' : forall k', exists v, sees now (p_store pr) k' v /\ forall r, v = Some r -> absolute_expire (r_expire r)).
  { intros k'. destruct (List.list_eq_dec N.eq_dec k' (e_key (snd f))) as [->|Hne]; [exists v'; auto|].
    destruct (I5' k') as (u & A & B). exists u. split; [|exact B]. destruct HO as (_ & _ & HO). eapply sees_frame; [|exact A]. apply HO. congruence. }
  set (st2 := mkJoining _ _ _ _ _ _ _) in *.
  assert (EM : mine k st2 = mine k st ++ (if on_key k (c_trail c, f) then [f] else [])).
  { unfold mine, st2. cbn [j_pending]. rewrite List.filter_app, map_app. cbn [List.filter]. now destruct (on_key k (c_trail c, f)). }
  split; cbn [j_master j_replica j_pending j_entry st2]; auto; [apply HO| |].
  { intros x Hin. apply in_app_or in Hin as [Hin|[<-|[]]]; [now apply I8|]. cbn [fst snd]. split; [exact Htrail|]. eexists _, _, _. exact L1. }
  unfold on_key in EM. cbn [snd] in EM. destruct (beq (e_key (snd f)) k) eqn:Eb.
  - (* the key itself *)
    apply beq_eq in Eb. rewrite Eb in *. destruct K4 as (vS & K4a & K4b).
    assert (Hfol : follows (final p (mine k st)) f /\ at_source k now (p_store pr) (fst (after f)) /\ exists v, knows (p_store pr) k v /\ snd (after f) <= v).
    { unfold effect in HE. unfold link in L1. unfold follows, after. destruct (kind_of (fst f)) eqn:Kd; cbn [fst snd].
      - destruct HE as (Hh & W & Hsz & Hv & Hxx & Ho). rewrite Eb in *. destruct L1 as (_ & Ev' & _ & Hsend & _). subst v'.
        assert (Hver : e_version (snd f) <> 0) by (exact (Hunw _ Hh W)).
        assert (Kn : knows (p_store pr) k (e_version (snd f))) by (left; exists (rec_of (snd f)); auto).
        specialize (Hst _ _ K4a Kn). split; [|split].
        + split; [lia|]. split; [lia|]. intros r' E. apply (Hv Hver). eapply at_source_live; [exact K3|exact Hx|exact E].
        + split; [exact L2|]. intros r' E. apply Some_inv in E. subst r'. split; [exact Hh|]. split; [exact W|]. split; [now apply L3|exact Hver].
        + exists (e_version (snd f)). split; [exact Kn|lia].
      - destruct L1 as (_ & -> & _). assert (exists e, r = RDelete e) as (e & ->).
        { pose proof (forward_kind now _ r pr f R F Hok) as FK. destruct r; cbn [is_write request_key leaves] in *; try contradiction; try congruence. eauto. }
        destruct (delete_forward _ _ _ _ _ I2 Hn R F) as (D1 & D2 & D3 & (r0 & D4 & D5 & D6) & D7). cbn [request_key] in Hk. rewrite <- Hk in *.
        assert (vS = r_version r0) by (eapply knows_fun; [exact K4a|]; left; eauto). specialize (I6 r0 D4 D5).
        assert (Kn : knows (p_store pr) k (e_version (snd f))).
        { destruct D7 as [D7|(x & D7)]; [|right; left; eauto]. exfalso. assert (Z : knows (p_store pr) k 0) by (right; right; auto). specialize (Hst _ _ K4a Z). lia. }
        split; [|split].
        + split; [lia|]. split; [lia|exact Logic.I].
        + split; [exact L2|]. intros r' E. discriminate.
        + exists (e_version (snd f)). split; [exact Kn|lia].
      - exfalso. pose proof (forward_kind now _ r pr f R F Hok) as FK. destruct r; cbn [is_write request_key leaves] in *; try contradiction; try congruence.
        destruct (delete_forward _ _ _ _ _ I2 Hn R F) as (D1 & _). rewrite D1 in Kd. discriminate. }
    destruct Hfol as (F1 & F2 & F3). exists sent, p. split; [split; auto|]. split; rewrite ?EM, ?final_snoc; auto; [now apply chain_snoc|].
    assert (OP : forall r', on_path p (mine k st) r' -> on_path p (mine k st ++ [f]) r') by (intros r' [A|(g & A & B)]; [now left|right; exists g; split; [apply in_or_app; now left|exact B]]).
    destruct K5 as [(A & B)|(A & B & C & D)]; [left|right].
    + split; [now apply placed_snoc|]. intros r' Hr. destruct (B r' Hr); auto.
    + split; [exact A|]. split; [auto|]. split; [exact C|]. right. right. right. now destruct (mine k st).
  - (* another key *)
    assert (Ek : e_key (snd f) <> k) by (intros E; apply beq_eq in E; congruence). rewrite app_nil_r in EM.
    assert (Edb : db (p_store pr) !! k = db (j_master st) !! k) by (apply HO; congruence).
    exists sent, p. split; [split; auto|]. split; rewrite ?EM; auto; [eapply at_source_frame; eauto|apply (version_on (j_master st)); [apply HO|exact Hst|exact K4]|].
    rewrite <- EM. eapply (place_keep l _ st); [exact EM|exact S0| | | |exact K5]; auto.
Qed.

Lemma jinv_joined T l T1 st : beginning k T st0 -> joined cfg ext alg part psize k T st0 l T1 st -> jinv l T1 st.
Proof.
  intros B H. remember st0 as st' eqn:E. induction H as [T st'|T st' l T1 st1 ev st2 H IH Ht Hs Hstep Hu Hst Hk]; subst st'; [now apply jinv_start|].
  specialize (IH eq_refl B). pose proof (ji_time _ _ _ IH) as Hc. assert (Hn : sane_clock (event_time ev)) by (unfold sane_clock in *; lia).
  destruct ev as [now stream|now k'|now|now|now i|now i]; cbn [event_time] in *.
  - eapply jinv_client; eauto; lia.
  - eapply jinv_visit; eauto; lia.
  - eapply jinv_finish; eauto; lia.
  - eapply jinv_land; eauto; lia.
  - exact (jinv_deliver _ _ _ _ _ false _ IH (proj1 Ht) Hn Hs Hstep Hk).
  - exact (jinv_deliver _ _ _ _ _ true _ IH (proj1 Ht) Hn Hs Hstep Hk).
Qed.
Lemma joined_agree T l T1 st : beginning k T st0 -> joined cfg ext alg part psize k T st0 l T1 st ->
  j_whole st = true -> sent_on k st -> seen_by k l \/ (forall r, holds (j_master st) k (Some r) -> ~ holds (j_master st0) k (Some r)) ->
  agree_from T1 k (j_master st) (j_replica st).
Proof.
  intros B H Hw Hs Hv. destruct (jinv_joined _ _ _ _ B H) as [I1 I2 I3 I4 I5 I6 I7 I8 (sent & p & [W1 W2 W3] & [K1 K2 K3 K4 K5])].
  destruct (W2 Hw) as (-> & _).
  assert (M : mine k st = []).
  { unfold mine. destruct (List.filter (on_key k) (j_pending st)) as [|x q] eqn:E; [reflexivity|]. exfalso.
    assert (Hin : In x (List.filter (on_key k) (j_pending st))) by (rewrite E; now left). apply filter_In in Hin as [Hin Hb]. apply (Hs x Hin). now apply beq_eq. }
  rewrite M in *. change (final p []) with p in *.
  assert (P : placed k (j_replica st) p [] -> agree_from T1 k (j_master st) (j_replica st)).
  { intros (d & (A & A') & D & [->|(f & [] & _)]). eapply sees_agree; [apply K3|]. destruct (sees_total T1 (j_replica st) k I3) as (o & O1 & O2 & O3).
    replace (fst p) with o; [exact O1|]. destruct o as [r|], (fst p) as [r'|] eqn:Ep; auto; try (unfold holds in *; cbn in *; congruence).
    f_equal. eapply holds_some_fun; [now apply O3|apply (D r' Ep)|exact O2|exact A]. }
  destruct K5 as [(A & _)|((v & A1 & A2 & A3) & A4 & A5 & A6)]; [now apply P|].
  destruct (fst p) as [r|] eqn:Ep.
  - exfalso. destruct A6 as [A6|[A6|[(r' & [])|A6]]]; try congruence. destruct Hv as [Hv|Hv]; [contradiction|]. apply (Hv r); [|exact A5]. now apply K3.
  - eapply sees_agree; [apply K3|]. destruct (sees_total T1 (j_replica st) k I3) as (o & O1 & O2 & O3). destruct o as [r|]; [|exact O1]. exfalso.
    apply A3; [|reflexivity]. unfold holds in O2. cbn in O2. congruence.
Qed.
End Key.
