(** Lemmas on the distribution of the cluster map. *)
From Coq Require Import ZArith NArith List Bool Lia ZifyBool ZifyNat ZifyN.
From Verif Require Import Base BaseLemmas TextModel TextProofs3 ClusterModel ClusterSpec ClusterProofs ClusterProofs2 ClusterProofs3 ClusterProofs4 ClusterProofs5
  ClusterProofs6 ClusterProofs7 ClusterProofs8 ClusterProofs9 NodeModel NodeSpec NodeProofs.
Import ListNotations.
Local Open Scope N_scope.
Local Open Scope list_scope.

(** ** The receiver *)
Lemma take_sync_cases near c ns v :
  (v < c_version c /\ take_sync near c ns v = (false, c)) \/
  (c_version c <= v /\ fst (take_sync near c ns v) = true /\ c_map (snd (take_sync near c ns v)) = map_of ns /\ c_version (snd (take_sync near c ns v)) = v).
Proof.
  unfold take_sync. destruct (N.ltb_spec 0 (c_version c)), (N.ltb_spec v (c_version c)); cbn [andb]; try (left; now split); try lia;
    right; (split; [lia|]); destruct (fst (reconstruct near (map_of ns))) as [(a, b)|]; cbn; auto.
Qed.
Lemma receive_app near l1 l2 c : receive near c (l1 ++ l2) = receive near (receive near c l1) l2.
Proof. revert c. induction l1 as [|(ns, v) l1 IH]; intros c; cbn [app receive]; auto. Qed.
Lemma receive_mono near l c : c_version c <= c_version (receive near c l).
Proof.
  revert c. induction l as [|(ns, v) l IH]; intros c; cbn [receive]; [lia|].
  etransitivity; [|apply IH]. destruct (take_sync_cases near c ns v) as [(H & ->)|(H & _ & _ & ->)]; cbn [snd]; lia.
Qed.
Lemma receive_bound near l V c : c_version c <= V -> (forall ns v, In (ns, v) l -> v <= V) -> c_version (receive near c l) <= V.
Proof.
  revert c. induction l as [|(ns, v) l IH]; intros c H B; cbn [receive]; auto.
  apply IH; [|intros; eapply B; right; eauto]. destruct (take_sync_cases near c ns v) as [(H' & ->)|(H' & _ & _ & ->)]; cbn [snd]; auto. apply (B ns). now left.
Qed.
Lemma take_full near c ns v a b ok : c_version c <= v -> reconstruct near (map_of ns) = (Some (a, b), ok) -> take_sync near c ns v = (true, mkCopy (map_of ns) v a b).
Proof.
  intros H E. unfold take_sync. replace (_ && _) with false by lia. rewrite E. reflexivity.
Qed.
Lemma receive_newest near l c M V a b ok : c_version c <= V ->
  (forall ns v, In (ns, v) l -> v < V \/ (v = V /\ map_of ns = M)) ->
  (exists ns, In (ns, V) l /\ map_of ns = M) ->
  reconstruct near M = (Some (a, b), ok) ->
  receive near c l = mkCopy M V a b.
Proof.
  intros H B (ns & I & E) R.
  assert (STAY : forall l, (forall ns v, In (ns, v) l -> v < V \/ (v = V /\ map_of ns = M)) -> receive near (mkCopy M V a b) l = mkCopy M V a b).
  { clear - R. induction l as [|(ns, v) l IH]; intros B; cbn [receive]; auto.
    replace (snd (take_sync near (mkCopy M V a b) ns v)) with (mkCopy M V a b); [apply IH; intros; eapply B; right; eauto|].
    destruct (B ns v (or_introl eq_refl)) as [L|(-> & E)].
    - destruct (take_sync_cases near (mkCopy M V a b) ns v) as [(_ & ->)|(X & _)]; auto. cbn [c_version] in X. lia.
    - rewrite (take_full near _ ns V a b ok); [now rewrite <- E|cbn [c_version]; lia|now rewrite E]. }
  apply in_split in I as (l1 & l2 & ->). rewrite receive_app. cbn [receive].
  rewrite (take_full near _ ns V a b ok); [|apply receive_bound; auto|now rewrite E].
  - cbn [snd]. rewrite E. apply STAY. intros ns' v' I'. apply B. apply in_or_app. right. now right.
  - intros ns' v' I'. destruct (B ns' v'); [apply in_or_app; now left|lia|lia].
Qed.

(** ** The map that is sent is the map that is held *)
Lemma map_of_ordered ns m : nordered m -> nordered (fold_left (fun m n => nset (to_node_key (n_name n) (n_port n)) n m) ns m).
Proof. revert m. induction ns as [|n ns IH]; intros m O; cbn [fold_left]; auto. apply IH. now apply nset_ordered. Qed.
Lemma fold_nset_find k (l : node_map) : forall m, NoDup (map fst l) ->
  (forall k n, In (k, n) l -> k = to_node_key (n_name n) (n_port n)) ->
  nfind k (fold_left (fun m n => nset (to_node_key (n_name n) (n_port n)) n m) (map snd l) m) = match nfind k l with Some n => Some n | None => nfind k m end.
Proof.
  induction l as [|(k0, n0) l IH]; intros m ND K; cbn [map fold_left snd fst] in *; [reflexivity|]. inversion_clear ND as [|? ? Ni ND'].
  rewrite IH; auto; [|intros; apply K; now right]. rewrite <- (K k0 n0) by now left. rewrite nfind_set. unfold nfind. cbn [mfind]. fold (nfind k l).
  destruct (beq_spec k k0) as [->|NE]; auto.
  assert (nfind k0 l = None) as ->; auto. apply mfind_none; [apply beq_iff|exact Ni].
Qed.
Lemma ordered_nodup {V} (m : list (bytes * V)) : ordered blt m -> NoDup (map fst m).
Proof.
  induction 1 as [|k v m H O IH]; cbn [map fst]; constructor; auto. intros I. specialize (H _ I). now rewrite blt_irrefl in H.
Qed.
Lemma map_of_values P m : good P m -> map_of (map snd m) = m.
Proof.
  intros G. pose proof (g_ord _ _ G) as O. unfold map_of. apply nmap_ext; auto.
  - apply map_of_ordered. constructor.
  - intros k. rewrite fold_nset_find.
    + destruct (nfind k m); auto.
    + apply ordered_nodup, O.
    + intros k' n' I. apply (g_key _ _ G). now apply (nfind_in _ _ _ O).
Qed.

(** ** The sender *)
Lemma step_version s P f e r s' : inv P s -> f_save f = SaveOk -> ~ abandons s e -> handle f s e = Ok (r, s') ->
  s' = s \/ i_version s' = u64 (i_version s + 1).
Proof.
  intros I F NA H. destruct e as [h p|h p|h p ro b q|h p st|]; cbn [handle] in H.
  - destruct (add_node_spec P f s h p r s' I F H) as [(-> & _)|(_ & _ & V & _)]; auto.
  - destruct (remove_node_spec P f s _ r s' I F H (fun n => not_abandons s (ERemove h p) _ n NA eq_refl)) as [(-> & _)|(n & _ & _ & _ & _ & _ & _ & _ & _ & V)]; auto.
  - destruct (set_role_spec P f s _ ro b q r s' I F H) as [(-> & _)|(n & P' & _ & _ & _ & _ & _ & _ & V)]; auto.
  - destruct st; cbn [set_node_state] in H.
    + destruct (up_node_spec P f s _ r s' I F H (fun n => not_abandons s (EState h p Active) _ n NA eq_refl)) as [->|(n & P' & _ & _ & _ & _ & _ & V)]; auto.
    + injection H as <- <-. auto.
    + destruct (down_node_spec P f s _ r s' I F H) as [(-> & _)|(n & _ & _ & _ & _ & _ & _ & V)]; auto.
    + destruct (ready_node_spec P f s _ r s' I F H) as [(-> & _)|(n & _ & _ & _ & _ & _ & _ & _ & V)]; auto.
  - destruct (restart_spec P f s r s' I H) as (-> & _). auto.
Qed.
Lemma run_versions s l s'' : run s l s'' -> (exists P, inv P s) -> i_version s + N.of_nat (length l) < 2 ^ 64 ->
  i_version s'' <= i_version s + N.of_nat (length l) /\ (exists P, inv P s'') /\
  (forall t, In t (s :: l) -> (exists P, inv P t) /\ i_version t <= i_version s'' /\ (i_version t = i_version s'' -> t = s'')).
Proof.
  induction 1 as [s|f s e r s' l s'' F NA H Hr IH]; intros (P & I) B.
  - cbn [length]. split; [lia|]. split; [eauto|]. intros t [<-|[]]. split; [eauto|]. split; [lia|auto].
  - destruct (step_inv P f s e r s' I F NA H) as (P' & I').
    assert (V : s' = s \/ i_version s' = i_version s + 1).
    { destruct (step_version s P f e r s' I F NA H) as [->| ->]; auto. right. unfold u64. rewrite N.mod_small; auto. cbn [length] in B. lia. }
    destruct IH as (U & J & K); [eauto|destruct V as [->| ->]; cbn [length] in B; lia|].
    split; [destruct V as [->|E]; cbn [length]; lia|]. split; auto. intros t [<-|It].
    + split; [eauto|]. destruct (K s' (or_introl eq_refl)) as (_ & K1 & K2). destruct V as [->|E]; [auto|]. split; lia.
    + auto.
Qed.
Lemma run_history s l s'' : history s -> run s l s'' -> history s''.
Proof. intros H. induction 1 as [|f s e r s' l s'' F NA E _ IH]; auto. apply IH. eapply history_step; eauto. Qed.
Lemma converges near l s ms : run (fresh_index None) l s -> N.of_nat (length l) < 2 ^ 64 ->
  (forall m, In m ms -> exists t, In t (fresh_index None :: l) /\ m = message t t) -> In (message s s) ms ->
  shows near (receive near fresh_copy ms) (i_map s) /\ c_version (receive near fresh_copy ms) = i_version s.
Proof.
  intros R B M I. destruct (run_versions _ _ _ R) as (_ & (P & IP) & K); [exists 0%Z; apply inv_fresh|exact B|].
  destruct (good_reconstruct P (i_map s) near (v_good _ _ IP)) as (a & b & E & O1 & O2 & A & C).
  rewrite (receive_newest near ms fresh_copy (i_map s) (i_version s) a b true).
  - split; [|reflexivity]. split; [reflexivity|]. split; [exact O1|]. split; [exact O2|]. split; auto.
  - cbn [fresh_copy c_version]. lia.
  - intros ns v J. destruct (M _ J) as (t & It & Em). injection Em as -> ->. destruct (K t It) as ((Q & IQ) & K1 & K2).
    destruct (N.eq_dec (i_version t) (i_version s)) as [EV|]; [|left; lia]. right. split; auto. rewrite (K2 EV). apply (map_of_values P), v_good, IP.
  - exists (map snd (i_map s)). split; [exact I|]. apply (map_of_values P), v_good, IP.
  - exact E.
Qed.
