(** Proofs for the model of several index servers: one operation. *)
From Coq Require Import NArith ZArith List Bool Lia ZifyBool ZifyNat ZifyN.
From Verif Require Import Base BaseLemmas TextModel ClusterModel ClusterSpec ClusterProofs ClusterProofs2 ClusterProofs3 ClusterProofs4 ClusterProofs6 ClusterProofs7 ClusterProofs8.
From Verif Require Import LockModel IndexesModel IndexesSpec.
Import ListNotations.
Local Open Scope N_scope.
Local Open Scope list_scope.

Lemma u64_next v : u64 (v + 1) <> v.
Proof. unfold u64. change (2 ^ 64) with 18446744073709551616. intros H. pose proof (N.mod_lt (v + 1) 18446744073709551616 ltac:(lia)). destruct (N.eq_dec v 18446744073709551615) as [->|E]; [now vm_compute in H|].
  rewrite N.mod_small in H; lia. Qed.
Lemma disk_some P s : inv P s -> (exists k n, nfind k (i_map s) = Some n) \/ i_version s <> 0 -> i_disk s = Some (mkSaved (i_version s) (i_map s) (i_thread s)).
Proof. intros [_ _ _ [D|(_ & ->)]] H; auto. cbn in H. destruct H as [(k & n & H)|H]; [discriminate|congruence]. Qed.
Lemma thread_disk P s n : inv P s -> (16 <= n_thread n < i_thread s)%Z -> i_disk s <> None.
Proof. intros [_ _ _ [D|(_ & ->)]] H; [congruence|]. cbn in H. lia. Qed.
Lemma step_inv2 P f s e r s' : inv P s -> f_save f = SaveOk -> ~ abandons s e -> handle f s e = Ok (r, s') ->
  s' = s \/ ((exists P', inv P' s') /\ i_version s' = u64 (i_version s + 1) /\ i_disk s' <> None).
Proof.
  intros V F NA H. assert (Th : forall k n, nfind k (i_map s) = Some n -> (16 <= n_thread n < i_thread s)%Z) by (destruct V as [_ (_ & T & _) _ _]; exact T).
  assert (K : forall P' k n, inv P' s' -> nfind k (i_map s) = Some n -> i_thread s' = i_thread s -> i_disk s' <> None).
  { intros P' k n V' Fk Et. apply (thread_disk P' s' n V'). rewrite Et. eauto. }
  destruct e as [h p|h p|h p ro b q|h p st|]; cbn [handle] in H.
  - destruct (add_node_spec P f s h p r s' V F H) as [(-> & _)|(_ & V' & Ev & C)]; auto. right. split; [eauto|]. split; auto.
    destruct C as [(n & Fk & _ & _ & Et)|(_ & Fk & _)]; [eauto|]. rewrite (disk_some P s' V'); [discriminate|eauto].
  - destruct (remove_node_spec P f s _ r s' V F H) as [(-> & _)|(n & Fk & _ & _ & _ & _ & _ & V' & Et & Ev)]; auto. 2:{ right. split; eauto. }
    intros n. apply (not_abandons s _ _ n NA). reflexivity.
  - destruct (set_role_spec P f s _ ro b q r s' V F H) as [(-> & _)|(n & P' & Fk & _ & _ & _ & V' & Et & Ev)]; auto. right. split; eauto.
  - destruct st; cbn [set_node_state] in H.
    + destruct (up_node_spec P f s _ r s' V F H) as [->|(n & P' & Fk & _ & _ & V' & Et & Ev)]; auto. 2:{ right. split; eauto. }
      intros n. apply (not_abandons s _ _ n NA). reflexivity.
    + injection H as <- <-. auto.
    + destruct (down_node_spec P f s _ r s' V F H) as [(-> & _)|(n & Fk & _ & _ & _ & V' & Et & Ev)]; auto. right. split; eauto.
    + destruct (ready_node_spec P f s _ r s' V F H) as [(-> & _)|(n & Fk & _ & _ & _ & _ & V' & Et & Ev)]; auto. right. split; eauto.
  - destruct (restart_spec P f s r s' V H) as (-> & _). auto.
Qed.

(** ** An operation of a server whose tables are those of the stored map *)
(** The memory agrees with the state [t] of one server as far as a load does not replace it. *)
Definition matches (m t : index) : Prop := i_parts m = i_parts t /\ i_prep m = i_prep t.
Definition tuned (m t : index) : Prop := matches m t /\ (i_disk t = None -> m = fresh_index None).
Lemma matches_forget t : matches (forget t) t. Proof. now split. Qed.
Lemma tuned_forget P t : inv P t -> tuned (forget t) t.
Proof. intros [_ _ _ D]. split; [apply matches_forget|]. intros Dn. destruct D as [D|(_ & ->)]; [congruence|reflexivity]. Qed.
Lemma load_tuned P m t : inv P t -> tuned m t -> load (mkIo true true SaveOk) (with_disk m (i_disk t)) = (true, t).
Proof.
  intros V (M & N). pose proof (load_true (mkIo true true SaveOk) t P V eq_refl) as L. destruct (i_disk t) as [d|] eqn:D.
  - destruct M as (M1 & M2). unfold load in *. cbn [f_load negb with_disk i_disk i_parts i_prep] in *. rewrite D in L. rewrite M1, M2. exact L.
  - rewrite (N eq_refl). destruct V as [_ _ _ [D'|(_ & ->)]]; [congruence|]. reflexivity.
Qed.
Lemma handle_tuned P m t e : inv P t -> tuned m t -> is_operation e = true ->
  handle (mkIo true true SaveOk) (with_disk m (i_disk t)) e = handle (mkIo true true SaveOk) t e.
Proof.
  intros V M O. pose proof (load_tuned P m t V M) as L. pose proof (load_true (mkIo true true SaveOk) t P V eq_refl) as L'.
  assert (Q : forall b, locked (mkIo true true SaveOk) (with_disk m (i_disk t)) b = locked (mkIo true true SaveOk) t b).
  { intros b. unfold locked. cbn [f_begin negb]. now rewrite L, L'. }
  destruct e as [h p|h p|h p ro b q|h p st|]; cbn [handle].
  - unfold add_node. apply Q.
  - unfold remove_node. apply Q.
  - unfold set_node_role. apply Q.
  - destruct st; cbn [set_node_state]; [|discriminate| |]; [unfold up_node|unfold down_node|unfold ready_node]; apply Q.
  - reflexivity.
Qed.
Lemma handle_unloaded f s e r s' : f_begin f = true -> f_load f = false -> is_operation e = true -> handle f s e = Ok (r, s') -> r = (-1)%Z /\ s' = s.
Proof.
  intros B L O H. assert (Q : forall b, locked f s b = Ok ((-1)%Z, s)) by (intros b; unfold locked, load; now rewrite B, L).
  destruct e as [h p|h p|h p ro b q|h p st|]; cbn [handle] in H.
  - unfold add_node in H. rewrite Q in H. injection H. auto.
  - unfold remove_node in H. rewrite Q in H. injection H. auto.
  - unfold set_node_role in H. rewrite Q in H. injection H. auto.
  - destruct st; cbn [set_node_state] in H; [unfold up_node in H|discriminate|unfold down_node in H|unfold ready_node in H]; rewrite Q in H; injection H; auto.
  - unfold restart, load in H. now rewrite B, L in H.
Qed.
Lemma handle_unloaded_total f s e : f_begin f = true -> f_load f = false -> is_operation e = true -> e <> ERestart -> handle f s e = Ok ((-1)%Z, s).
Proof.
  intros B L O N. assert (Q : forall b, locked f s b = Ok ((-1)%Z, s)) by (intros b; unfold locked, load; now rewrite B, L).
  destruct e as [h p|h p|h p ro b q|h p st|]; cbn [handle]; [apply Q|apply Q|apply Q| |congruence].
  destruct st; cbn [set_node_state]; [apply Q|discriminate|apply Q|apply Q].
Qed.
(** What the operation of a tuned server does, in terms of the one server [t]. *)
Lemma body_tuned P ok m t e r m' w : inv P t -> tuned m t -> is_operation e = true -> ~ abandons t e ->
  body ok m (i_disk t) e = Ok (r, m', w) ->
  exists t', handle (mkIo true ok SaveOk) t e = Ok (r, t') /\
    match w with
    | None => t' = t /\ tuned m' t
    | Some d => (exists P', inv P' t') /\ m' = forget t' /\ i_disk t' = Some d /\ i_disk t <> Some d
    end.
Proof.
  intros V M O NA H. unfold body in H. set (f := mkIo true ok SaveOk) in *.
  destruct (handle f (with_disk m (i_disk t)) e) as [| |[r1 m1]] eqn:E; try discriminate. cbn [bind] in H. injection H as -> <- <-.
  destruct ok.
  - unfold f in E. rewrite (handle_tuned P m t e V M O) in E. exists m1. split; [exact E|]. unfold f. rewrite (load_tuned P m t V M). cbn [snd].
    destruct (step_inv2 P (mkIo true true SaveOk) t e r m1 V eq_refl NA E) as [->|((P' & V') & Ev & Dn)].
    + rewrite N.eqb_refl. split; auto. eapply tuned_forget; eauto.
    + rewrite Ev. replace (u64 (i_version t + 1) =? i_version t) with false by (symmetry; apply N.eqb_neq, u64_next).
      destruct (i_disk m1) as [d|] eqn:D; [|congruence]. split; [eauto|]. split; auto. split; auto.
      intros Et. destruct V as [_ _ _ [D'|(D' & _)]]; [|congruence]. destruct V' as [_ _ _ [D''|(D'' & _)]]; [|congruence].
      rewrite Et in D'. rewrite D in D''. injection D' as D'. injection D'' as D''. rewrite D' in D''. injection D'' as X _ _. rewrite Ev in X. symmetry in X. now apply u64_next in X.
  - destruct (handle_unloaded f _ e r m1 eq_refl eq_refl O E) as (-> & ->).
    assert (Ne : e <> ERestart) by (intros ->; discriminate). exists t. split; [now apply handle_unloaded_total|].
    cbn [load f f_load negb snd]. rewrite N.eqb_refl. split; auto. destruct M as ((M1 & M2) & N). split; [split; auto|]. intros D. rewrite (N D). reflexivity.
Qed.
Lemma update_tuned P m t : inv P t -> i_disk t <> None -> matches (update true m (i_disk t)) t.
Proof.
  intros V D. destruct (i_disk t) as [d|] eqn:Ed; [|congruence]. unfold update, load. cbn [f_load negb with_disk i_disk].
  pose proof (load_true (mkIo true true SaveOk) t P V eq_refl) as L. unfold load in L. cbn [f_load negb] in L. rewrite Ed in L. injection L as Lb Ls. cbn [i_map i_thread] in Lb.
  cbn [i_map i_thread]. rewrite Lb. unfold refresh. cbn [i_map].
  pose proof (restart_works P (mkIo true true SaveOk) t V eq_refl eq_refl) as R. unfold restart, load in R. cbn [f_begin f_load negb fresh_index i_disk] in R. rewrite Ed in R. cbn [i_map i_thread] in R. rewrite Lb in R. cbn [negb] in R.
  destruct (reconstruct (fun _ => false) (v_map d)) as [[[a b]|] ok]; [|destruct ok; discriminate]. destruct ok; [|discriminate]. cbn [fst]. injection R as R. rewrite <- R. now split.
Qed.
