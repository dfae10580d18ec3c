From Coq Require Import String.
From stdpp Require Import gmap.
From Coq Require Import ZifyBool ZifyNat ZifyN.
From Verif Require Import Base BaseLemmas StorageModel StorageSpec StorageProofs StorageProofs2 StorageProofs3 StorageProofs4
  TextModel TextSpec TextProofs3 SessionModel SessionProofs ServerModel ServerProofs ServerProofs2 ReplicaModel ReplicaSpec.
Local Open Scope N_scope.
Local Open Scope list_scope.

(** * Views of a key *)
Definition at_time (now : Z) (v : option rec) : option rec :=
  match v with Some r => if expired_at now (r_expire r) then None else Some r | None => None end.
Definition sees (T : Z) (s : store) (k : bytes) (v : option rec) : Prop :=
  forall now, (T <= now)%Z -> visible s now k (at_time now v).

Lemma visible_fun s now k o1 o2 : visible s now k o1 -> visible s now k o2 -> o1 = o2.
Proof.
  destruct o1 as [r1|], o2 as [r2|]; cbn; auto.
  - intros (H1 & W1 & _) (H2 & W2 & _). f_equal. exact (holds_some_fun _ _ _ _ W1 W2 H1 H2).
  - intros (H1 & W1 & E1) [H2|(r & H2 & W2 & E2)]; [elim (holds_none_some _ _ _ H2 H1)|].
    rewrite (holds_some_fun _ _ _ _ W1 W2 H1 H2) in E1. contradiction.
  - intros [H2|(r & H2 & W2 & E2)] (H1 & W1 & E1); [elim (holds_none_some _ _ _ H2 H1)|].
    rewrite (holds_some_fun _ _ _ _ W1 W2 H1 H2) in E1. contradiction.
Qed.
Lemma at_time_some now v r : at_time now v = Some r -> v = Some r /\ ~ expired now r.
Proof.
  destruct v as [r'|]; cbn; [|discriminate]. destruct (expired_at now (r_expire r')) eqn:E; [discriminate|].
  intros [= <-]. split; auto. intros H. apply expired_at_spec in H. congruence.
Qed.
Lemma at_time_earlier T now v r : (T <= now)%Z -> at_time now v = Some r -> at_time T v = Some r.
Proof.
  intros HT H. apply at_time_some in H as [-> H]. cbn. destruct (expired_at T (r_expire r)) eqn:E; auto.
  exfalso. apply H. apply expired_at_spec in E. unfold expired in *. lia.
Qed.
Lemma at_time_none T now v : (T <= now)%Z -> at_time T v = None -> at_time now v = None.
Proof. intros HT H. destruct (at_time now v) as [r|] eqn:E; auto. rewrite (at_time_earlier _ _ _ _ HT E) in H. discriminate. Qed.

Lemma sees_some T s k r : holds s k (Some r) -> wf_rec r -> sees T s k (Some r).
Proof.
  intros H W now _. cbn. destruct (expired_at now (r_expire r)) eqn:E; cbn.
  - right. exists r. split; [auto|split; [auto|]]. now apply expired_at_spec.
  - split; [auto|split; [auto|]]. intros X. apply expired_at_spec in X. congruence.
Qed.
Lemma sees_none T s k : holds s k None -> sees T s k None.
Proof. intros H now _. cbn. auto. Qed.
Lemma sees_mono T T' s k v : (T <= T')%Z -> sees T s k v -> sees T' s k v.
Proof. intros HT H now Hn. apply H. lia. Qed.
Lemma sees_unchanged T now s s' k v : (T <= now)%Z -> sees T s k v -> unchanged_from now s s' -> sees now s' k v.
Proof. intros HT H U now' Hn. apply U; auto. apply H. lia. Qed.
Lemma visible_db s s' now k o : db s' !! k = db s !! k -> visible s now k o -> visible s' now k o.
Proof. unfold visible, live, holds. intros ->. auto. Qed.
Lemma sees_frame T s s' k v : db s' !! k = db s !! k -> sees T s k v -> sees T s' k v.
Proof. intros E H now Hn. eapply visible_db; eauto. Qed.
Lemma sees_live T s k v now r : sees T s k v -> (T <= now)%Z -> live s now k r -> v = Some r /\ at_time T v = Some r.
Proof.
  intros H HT Hl. assert (E : at_time now v = Some r) by (eapply visible_fun; [apply H; auto|exact Hl]).
  split; [now apply at_time_some in E|]. eapply at_time_earlier; eauto.
Qed.
Lemma sees_total T s k : wf_store s -> exists v, sees T s k v /\ holds s k v /\ forall r, v = Some r -> wf_rec r.
Proof.
  intros H. destruct (wf_holds s k H) as ([r|] & Hh & Hw).
  - exists (Some r). split; [apply sees_some; auto|auto].
  - exists None. split; [now apply sees_none|]. split; auto.
Qed.
Lemma sees_agree T s1 s2 k v : sees T s1 k v -> sees T s2 k v -> agree_from T k s1 s2.
Proof.
  intros H1 H2 now o HT. split; intros H.
  - rewrite (visible_fun _ _ _ _ _ H (H1 now HT)). auto.
  - rewrite (visible_fun _ _ _ _ _ H (H2 now HT)). auto.
Qed.

(** * Reading *)
Lemma unchanged_trans now s1 s2 s3 : unchanged_from now s1 s2 -> unchanged_from now s2 s3 -> unchanged_from now s1 s3.
Proof. intros H1 H2 k n o Hn. rewrite (H2 k n o Hn). auto. Qed.
Lemma get_unchanged now s e : wf_store s -> is_i64 now ->
  wf_store (o_store (get s now e 0)) /\ unchanged_from now s (o_store (get s now e 0)).
Proof.
  intros Hwf Hi. split; [apply (get_local s now e 0 Hwf Hi)|].
  destruct (visible_total s now (e_key e) Hwf) as (v & Hv). destruct (get_exact s now e 0 v Hwf eq_refl Hv) as [_ H].
  destruct v as [r|]; [destruct H as (_ & -> & _); apply unchanged_refl|apply H].
Qed.
Lemma run_get_unchanged now t keys s : wf_store s -> is_i64 now ->
  wf_store (fst (run_get now s t keys)) /\ unchanged_from now s (fst (run_get now s t keys)).
Proof.
  revert s. induction keys as [|k keys IH]; intros s Hwf Hi; cbn [run_get]; [split; [auto|apply unchanged_refl]|].
  destruct (get_unchanged now s (empty_entry k) Hwf Hi) as [H1 H2].
  destruct (IH _ H1 Hi) as [H3 H4]. destruct (run_get now _ t keys) as [s' out]. cbn [fst] in *.
  split; auto. eapply unchanged_trans; eauto.
Qed.

(** The bytes of a value block. *)
Definition value_block (t : response_type) (k : bytes) (v : option rec) : bytes :=
  match v with
  | Some r => print_response t (mkEntry k (r_flag r) (r_expire r) (blen (r_data r)) (r_version r) 0 (r_data r))
  | None => []
  end.
Lemma get_key s now k b : e_key (o_entry (get s now (empty_entry k) b)) = k.
Proof.
  unfold get. cbn [e_key empty_entry]. destruct (db s !! k) as [raw|]; [|reflexivity].
  assert (K : e_key (fst (unser_header raw (empty_entry k))) = k).
  { unfold unser_header. repeat match goal with |- context [if ?c then _ else _] => destruct c end; reflexivity. }
  destruct (unser_header raw (empty_entry k)) as [e1 ok]. cbn [fst] in K.
  repeat match goal with |- context [if ?c then _ else _] => destruct c end; cbn [o_entry with_data e_key]; auto.
  destruct (remove_entry s now e1 (N.lor (N.land b behavior_skip_lock) behavior_version_equal)) as [-> _]. auto.
Qed.
Lemma get_block now s t k v : wf_store s -> visible s now k v ->
  match o_res (get s now (empty_entry k) 0) with Some result_none => print_response t (o_entry (get s now (empty_entry k) 0)) | _ => [] end
  = value_block t k v.
Proof.
  intros Hwf Hv. destruct (get_exact s now (empty_entry k) 0 v Hwf eq_refl Hv) as [_ H].
  destruct v as [r|]; [|now destruct H as [-> _]]. destruct H as (-> & _ & Hr & Hs).
  pose proof (get_key s now k 0) as Hk. destruct (o_entry (get s now (empty_entry k) 0)) as [k' f x n w o d].
  cbn [e_key] in Hk. subst k' r. cbn [rec_of r_data e_data e_size] in Hs. subst n. reflexivity.
Qed.
Lemma run_get_answer now s t keys (v : bytes -> option rec) : wf_store s -> is_i64 now -> (forall k, In k keys -> visible s now k (v k)) ->
  snd (run_get now s t keys) = flat_map (fun k => value_block t k (v k)) keys ++ s2b "END" ++ crlf.
Proof.
  revert s. induction keys as [|k keys IH]; intros s Hwf Hi Hv; [reflexivity|]. cbn [run_get flat_map].
  destruct (get_unchanged now s (empty_entry k) Hwf Hi) as [H1 H2].
  specialize (IH (o_store (get s now (empty_entry k) 0)) H1 Hi).
  rewrite <- (get_block now s t k (v k) Hwf) by (apply Hv; now left).
  destruct (run_get now (o_store (get s now (empty_entry k) 0)) t keys) as [s' out]. cbn [snd] in *. rewrite IH.
  - now rewrite <- app_assoc.
  - intros k' Hk'. apply H2; [lia|]. apply Hv. now right.
Qed.
Lemma run_get_agree now s1 s2 t keys : wf_store s1 -> wf_store s2 -> is_i64 now -> (forall k, In k keys -> agree_from now k s1 s2) ->
  snd (run_get now s1 t keys) = snd (run_get now s2 t keys).
Proof.
  intros H1 H2 Hi Ha.
  assert (E : forall k, exists v, visible s1 now k v) by (intros; now apply visible_total).
  assert (V : forall ks, exists f : bytes -> option rec, forall k, In k ks -> visible s1 now k (f k)).
  { induction ks as [|k ks [f Hf]]; [exists (fun _ => None); contradiction|]. destruct (E k) as [v Hv].
    exists (fun k' => if beq k k' then v else f k'). intros k' [<-|H]; [now rewrite beq_refl|].
    destruct (beq k k') eqn:B; [apply beq_eq in B; now subst|auto]. }
  destruct (V keys) as [f Hf]. rewrite (run_get_answer now s1 t keys f), (run_get_answer now s2 t keys f); auto.
  intros k Hk. apply Ha; auto. lia.
Qed.
