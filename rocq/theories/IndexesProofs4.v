(** Proofs for the model of several index servers: consequences. *)
From Coq Require Import NArith ZArith List Bool Lia ZifyBool ZifyNat ZifyN.
From Verif Require Import Base BaseLemmas TextModel ClusterModel ClusterSpec ClusterProofs ClusterProofs3 ClusterProofs4 ClusterProofs5 ClusterProofs6 ClusterProofs7 ClusterProofs8 ClusterProofs9.
From Verif Require Import LockModel LockSpec IndexesModel IndexesSpec IndexesProofs IndexesProofs3.
Import ListNotations.
Local Open Scope list_scope.

(** ** What one server does *)
Lemma one_history l g s : one_server l g s -> history s.
Proof. induction 1; [constructor| |]; eapply history_step; eauto; reflexivity. Qed.
Lemma one_last l g s : one_server l g s -> i_disk s = stored g (List.length g).
Proof.
  induction 1 as [|l g s e ok r s' O IH NA H E|l g s e ok r s' d O IH NA H E N]; auto; [congruence|].
  rewrite app_length. cbn [List.length]. rewrite PeanoNat.Nat.add_1_r. cbn [stored]. rewrite nth_error_app2, PeanoNat.Nat.sub_diag by lia. exact E.
Qed.
Lemma node_stays s f e r s' k : history s -> f_save f = SaveOk -> ~ abandons s e -> handle f s e = Ok (r, s') ->
  nfind k (i_map s) <> None -> (forall h p, e = ERemove h p -> to_node_key h p <> k) -> nfind k (i_map s') <> None.
Proof.
  intros H F NA E Nk NR. destruct (history_inv s H) as (P & I).
  assert (SE : forall x, same_except [x] (i_map s) (i_map s') -> nfind x (i_map s') <> None -> nfind k (i_map s') <> None).
  { intros x S Nx. destruct (beq_spec k x) as [->|NE]; auto. rewrite S; auto. intros [X|[]]; congruence. }
  destruct e as [h p|h p|h p ro b q|h p st|]; cbn [handle] in E.
  - destruct (add_node_spec P f s h p r s' I F E) as [(-> & _)|(_ & _ & _ & [(n & _ & _ & M & T)|(N & Y & S & T)])]; auto; [congruence|]. apply (SE _ S). congruence.
  - destruct (remove_node_spec P f s _ r s' I F E (fun n => not_abandons s (ERemove h p) _ n NA eq_refl)) as [(-> & _)|(n & _ & _ & _ & _ & N & S & _ & T & _)]; auto.
    rewrite S; auto. intros [X|[]]. exact (NR h p eq_refl X).
  - destruct (set_role_spec P f s _ ro b q r s' I F E) as [(-> & _)|(n & P' & Fk & _ & _ & RS & _ & T & _)]; auto.
    destruct (beq_spec k (to_node_key h p)) as [->|NE].
    + unfold role_set in RS. destruct (n_role n), (n_state n), ro; try tauto; try (destruct RS as ((? & ? & ? & ? & RS & _) & _); congruence); try (destruct RS as ((? & ? & RS & _) & _); congruence);
        try (destruct RS as (_ & RS & _); congruence); try (destruct RS as (RS & _); congruence); congruence.
    + unfold role_set in RS.
      assert (SE' : same_except [to_node_key h p] (i_map s) (i_map s') -> nfind k (i_map s') <> None). { intros S. rewrite S; auto. intros [X|[]]; congruence. }
      destruct (n_role n), (n_state n), ro; try (destruct RS; tauto); try tauto; try (destruct RS as (_ & _ & RS); tauto); try (rewrite RS; assumption);
        (destruct RS as (_ & RS); specialize (RS k NE); rewrite RS; destruct (nfind k (i_map s)); [destruct (_ && _)|]; congruence).
  - destruct st; cbn [set_node_state] in E.
    + destruct (up_node_spec P f s _ r s' I F E (fun n => not_abandons s (EState h p Active) _ n NA eq_refl)) as [->|(n & P' & Fk & _ & (S & U) & _ & T & _)]; auto.
      apply (SE _ S). destruct (n_role n), (n_state n); try contradiction; try congruence. destruct U as [(_ & U)|(_ & U)]; congruence.
    + injection E as <- <-. auto.
    + destruct (down_node_spec P f s _ r s' I F E) as [(-> & _)|(n & Fk & _ & _ & W & _ & T & _)]; auto.
      unfold went_down in W. destruct (n_role n), (n_state n);
        try (destruct W as (W1 & W2); apply (SE _ W2); congruence);
        try (destruct W as (W1 & W2); destruct (beq_spec k (to_node_key h p)) as [->|NE]; [congruence|]; rewrite (W2 k NE); destruct (nfind k (i_map s)); [destruct (_ && _)|]; congruence).
      destruct W as [(_ & W1 & W2)|(w & nw & ((Fw & _) & _) & _ & W1 & W2 & W)]; [apply (SE _ W2); congruence|].
      destruct (beq_spec k w) as [->|NW]; [congruence|]. destruct (beq_spec k (to_node_key h p)) as [->|NE]; [congruence|]. rewrite W; auto. intros [X|[X|[]]]; congruence.
    + destruct (ready_node_spec P f s _ r s' I F E) as [(-> & _)|(n & Fk & _ & _ & Y & S & _ & T & _)]; auto. apply (SE _ S). congruence.
  - destruct (restart_spec P f s r s' I E) as (-> & _). auto.
Qed.
Lemma added s f h p s' : history s -> f_save f = SaveOk -> handle f s (EAdd h p) = Ok (0%Z, s') -> nfind (to_node_key h p) (i_map s') <> None.
Proof.
  intros H F E. destruct (history_inv s H) as (P & I). cbn [handle] in E.
  destruct (add_node_spec P f s h p 0%Z s' I F E) as [(_ & ?)|(_ & _ & _ & [(n & Fk & _ & M & _)|(_ & Y & _)])]; [discriminate| |]; congruence.
Qed.
Lemma one_keeps l g s h p : one_server l g s -> (exists ok, In (EAdd h p, ok, 0%Z) l) -> (forall e ok r, In (e, ok, r) l -> e <> ERemove h p) ->
  nfind (to_node_key h p) (i_map s) <> None.
Proof.
  assert (St : forall l s e ok r s', history s -> ~ abandons s e -> handle (mkIo true ok SaveOk) s e = Ok (r, s') ->
    ((exists ok, In (EAdd h p, ok, 0%Z) l) -> (forall e ok r, In (e, ok, r) l -> e <> ERemove h p) -> nfind (to_node_key h p) (i_map s) <> None) ->
    (exists ok', In (EAdd h p, ok', 0%Z) (l ++ [(e, ok, r)])) -> (forall e' ok' r', In (e', ok', r') (l ++ [(e, ok, r)]) -> e' <> ERemove h p) ->
    nfind (to_node_key h p) (i_map s') <> None).
  { intros l0 s0 e ok r s' Hi NA H IH (ok' & A) R. apply in_app_iff in A as [A|A].
    - refine (node_stays s0 (mkIo true ok SaveOk) e r s' _ Hi eq_refl NA H (IH _ _) _); eauto.
      + intros e' ok0 r' I'. apply (R e' ok0 r'). apply in_app_iff. now left.
      + intros h' p' -> K. apply to_node_key_inj in K as (-> & ->). apply (R (ERemove h p) ok r); auto. apply in_app_iff. right. now left.
    - destruct A as [A|[]]. injection A as -> -> ->. eapply added; eauto; reflexivity. }
  induction 1 as [|l g s e ok r s' O IH NA H E|l g s e ok r s' d O IH NA H E N]; [intros (? & []) | |]; eapply St; eauto using one_history.
Qed.

(** ** What the stored maps look like *)
Lemma one_versions l g s : one_server l g s -> i_version s = u64 (N.of_nat (List.length g)) /\
  forall k d, nth_error g k = Some d -> v_version d = u64 (N.of_nat k + 1).
Proof.
  induction 1 as [|l g s e ok r s' O (IH & IH') NA H E|l g s e ok r s' d O (IH & IH') NA H E N].
  - split; [reflexivity|]. intros [|k] d; discriminate.
  - split; auto. destruct (history_inv s (one_history _ _ _ O)) as (P & I). destruct (step_inv2 P (mkIo true ok SaveOk) s e r s' I eq_refl NA H) as [->|((P' & I') & V & D)]; auto.
    exfalso. destruct I' as [_ _ _ [D'|(D' & _)]]; [|congruence]. destruct I as [_ _ _ [D2|(D2 & _)]]; [|congruence]. rewrite D', D2 in E. injection E as Ev _ _. exact (u64_next _ (eq_trans (eq_sym V) Ev)).
  - destruct (history_inv s (one_history _ _ _ O)) as (P & I). destruct (step_inv2 P (mkIo true ok SaveOk) s e r s' I eq_refl NA H) as [->|((P' & I') & V & D)]; [congruence|].
    rewrite IH in V. assert (V' : i_version s' = u64 (N.of_nat (List.length g) + 1)). { rewrite V. unfold u64. now rewrite N.add_mod_idemp_l by discriminate. }
    split.
    + rewrite V', app_length. cbn [List.length]. f_equal. lia.
    + intros k x Hk. destruct (Nat.ltb k (List.length g)) eqn:L.
      * rewrite nth_error_app1 in Hk by lia. auto.
      * rewrite nth_error_app2 in Hk by lia. destruct (k - List.length g)%nat as [|j] eqn:K; [|destruct j; discriminate]. injection Hk as <-.
        destruct I' as [_ _ _ [D'|(D' & _)]]; [|congruence]. rewrite D' in E. injection E as <-. cbn [v_version]. rewrite V'. f_equal. lia.
Qed.

Section Proofs.
Context (uuid : N -> N -> bytes) (U : good_uuid uuid) (home : N -> N).
Lemma one_of_run es s : orderly uuid home ist0 es -> irun uuid home ist0 es = Ok s -> (z_next (lk s) <= 2 ^ 31)%N ->
  exists s1, one_server (map request (ops s)) (log s) s1 /\ i_map s1 = current s.
Proof.
  intros O H Hn. destruct (J0 uuid home) as (hs0 & V0). destruct (irun_J uuid U home _ _ es s V0 O H Hn) as (hs & V).
  exists (hs (List.length (log s))). split; [apply (j_one _ _ _ _ V)|eapply current_map; eauto].
Qed.
Lemma not_lost es s h p : orderly uuid home ist0 es -> irun uuid home ist0 es = Ok s -> (z_next (lk s) <= 2 ^ 31)%N -> ~ lost s h p.
Proof.
  intros O H Hn ((a & A1 & A2 & A3) & R & N). destruct (one_of_run es s O H Hn) as (s1 & O1 & M). rewrite <- M in N. revert N. apply (one_keeps _ _ _ h p O1).
  - exists (a_loaded a). apply in_map_iff. exists a. split; auto. unfold request. now rewrite A2, A3.
  - intros e ok r I. apply in_map_iff in I as (b & B & I). injection B as <- _ _. auto.
Qed.
End Proofs.

(** ** A run of one server, computed *)
Fixpoint replays (s : index) (g : list saved) (l : list (ClusterModel.event * bool * Z)) : option (list saved * index) :=
  match l with
  | [] => Some (g, s)
  | (e, ok, r) :: t =>
      match handle (mkIo true ok SaveOk) s e with
      | Ok (r', s') =>
          if (r =? r')%Z
          then replays s' (if match i_disk s, i_disk s' with Some a, Some b => (v_version a =? v_version b)%N | None, None => true | _, _ => false end then g else g ++ match i_disk s' with Some d => [d] | None => [] end) t
          else None
      | _ => None
      end
  end.
Lemma replays_app l1 : forall s g l2, replays s g (l1 ++ l2) = match replays s g l1 with Some (g', s') => replays s' g' l2 | None => None end.
Proof.
  induction l1 as [|((e, ok), r) l1 IH]; intros s g l2; auto. cbn [app replays]. destruct (handle _ s e) as [| |(r', s')]; auto. destruct (r =? r')%Z; auto.
Qed.
Lemma one_replays l g s : one_server l g s -> replays (fresh_index None) [] l = Some (g, s).
Proof.
  induction 1 as [|l g s e ok r s' O IH NA H E|l g s e ok r s' d O IH NA H E N]; [reflexivity| |]; rewrite replays_app, IH; cbn [replays]; rewrite H, Z.eqb_refl, E.
  - destruct (i_disk s); [now rewrite N.eqb_refl|reflexivity].
  - destruct (i_disk s) as [d0|] eqn:D; auto. replace (v_version d0 =? v_version d)%N with false; auto. symmetry. apply N.eqb_neq. intros Ev.
    destruct (history_inv s (one_history _ _ _ O)) as (P & I). destruct (step_inv2 P (mkIo true ok SaveOk) s e r s' I eq_refl NA H) as [->|((P' & I') & V & _)]; [congruence|].
    destruct I' as [_ _ _ [D'|(D' & _)]]; [|congruence]. destruct I as [_ _ _ [D2|(D2 & _)]]; [|congruence]. rewrite D' in E. rewrite D2 in D. injection E as <-. injection D as <-. cbn [v_version] in Ev. exact (u64_next _ (eq_trans (eq_sym V) (eq_sym Ev))).
Qed.
