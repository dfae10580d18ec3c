(** Proofs for the cluster model: totality, node keys and the counterexamples. *)
From Coq Require Import ZArith NArith List Bool Lia ZifyBool ZifyNat ZifyN.
From Verif Require Import Base BaseLemmas TextModel ClusterModel ClusterSpec ClusterProofs ClusterProofs2 ClusterProofs3 ClusterProofs4 ClusterProofs5 ClusterProofs6 ClusterProofs7 ClusterProofs8.
Import ListNotations.
Local Open Scope Z_scope.
Local Open Scope list_scope.

(** ** Overflow *)
Definition fits (z : Z) : Prop := -2147483648 <= z <= 2147483647.
Lemma add_int_fits a b : fits (a + b) -> add_int a b = Ok (a + b).
Proof. unfold fits, add_int. intros H. destruct (Z.leb_spec (-2147483648) (a + b)), (Z.leb_spec (a + b) 2147483647); cbn [andb]; auto; lia. Qed.
Lemma pick_slave_total l m key prev sum : (forall k b, In (k, b) l -> 0 <= b) -> 0 <= sum -> fits (sum + total l) ->
  exists x, pick_slave l m key prev sum = Ok x.
Proof.
  revert m key prev sum. induction l as [|(k, b) l IH]; intros m key prev sum NN S Fi; cbn [pick_slave]; eauto.
  cbn [total fold_right snd] in Fi. fold (total l) in Fi.
  assert (NN' : forall k b, In (k, b) l -> 0 <= b) by (intros; eapply NN; right; eauto).
  assert (0 <= total l). { clear -NN'. induction l as [|(k1, b1) l IHl]; cbn [total fold_right snd]; [lia|]. fold (total l). assert (0 <= b1) by (eapply NN'; now left). assert (0 <= total l) by (apply IHl; intros; eapply NN'; right; eauto). lia. }
  assert (0 <= b) by (eapply NN; now left).
  rewrite add_int_fits by (unfold fits in *; lia). cbn [bind].
  destruct (_ && _); apply IH; auto; try lia; unfold fits in *; lia.
Qed.
Lemma commit_total f s : f_save f = SaveOk -> exists s', commit f s = Ok (0, s').
Proof. intros F. unfold commit, save, ret_of. rewrite F. cbn [fst snd]. eauto. Qed.
Lemma down_node_total P f s k n : inv P s -> f = io_ok -> nfind k (i_map s) = Some n -> live n ->
  fits (total (slave_list (n_partition n) (i_map s))) -> exists s', down_node f s k = Ok (0, s').
Proof.
  intros I -> Fk L Fi. unfold down_node. rewrite (locked_open io_ok s P _ I eq_refl eq_refl). destruct I as [G T SY D]. rewrite Fk.
  destruct (state_eqb_spec (n_state n) Down); [easy|]. destruct (role_eqb_spec (n_role n) Master) as [R|]; cbn [negb]; [|now apply commit_total].
  pose proof (proj1 (good_iff _ _) G) as (O & KV & GV & SM).
  assert (PR : ~ settled n -> exists s', (let s := with_tables s (i_parts s) (ptouch (n_partition n) (i_prep s)) in
     let slaves := p_slaves (pat (n_partition n) (i_prep s)) in
     if mem k (map fst slaves) then Undef
     else commit io_ok (with_map (with_map s (release (i_map s) slaves)) (nupd k (fun n => demoted (with_state n Down)) (i_map (with_map s (release (i_map s) slaves)))))) = Ok (0, s')).
  { intros US. assert (Hp := g_prep _ _ G _ _ Fk R US). rewrite Hp.
    destruct (prep_slaves P s k n G SY Fk R US) as (SL & TO). rewrite TO. cbn zeta. cbn [with_tables i_parts i_prep i_map]. rewrite SL.
    rewrite (slave_list_mem P _ P k G), Fk, R. cbn [role_eqb andb]. now apply commit_total. }
  destruct (n_state n) eqn:St; [| |easy|].
  - assert (Hp : 0 <= n_partition n < P). { apply (gv_main _ _ GV). exists k, Active. split; [|now left]. rewrite (mview_find _ _ _ Fk). unfold role_view. now rewrite R, St. }
    destruct (main_slaves P s _ G SY Hp) as (SL & TO). rewrite TO. cbn [with_tables i_parts i_prep i_map]. rewrite SL.
    destruct (_ =? 0)%nat; [now apply commit_total|].
    assert (NN : forall k b, In (k, b) (slave_list (n_partition n) (i_map s)) -> 0 <= b).
    { intros x b Ix. apply (slave_list_in P _ _ _ _ G) in Ix as (nx & Fx & Rx & Qx & ->). pose proof (g_valid _ _ G _ _ Fx) as V. unfold valid_node in V. rewrite Rx in V. unfold share. destruct (state_eqb _ _); lia. }
    destruct (pick_slave_total (slave_list (n_partition n) (i_map s)) (i_map s) [] 0 0 NN ltac:(lia) Fi) as (((m', key), sum) & PS). rewrite PS. cbn [bind].
    apply pick_slave_spec in PS as (-> & -> & X); auto.
    2:{ intros y b Iy. apply (slave_list_in P _ _ _ _ G) in Iy as (ny & Fy & _). split; [eapply key_nonempty; eauto|congruence]. }
    cbn [beq] in X. destruct (beq_spec key []) as [->|Nk]; [now apply commit_total|].
    destruct X as [(X & _)|(b & X)]; [easy|]. apply (best_successor P _ _ _ _ G) in X as (nw & SU & Eb). pose proof SU as ((Fw & _) & _).
    destruct (Z.eqb_spec (0 + total (slave_list (n_partition n) (i_map s))) 0) as [Z0|Z0]; [|now apply commit_total].
    assert (B0 : n_balance nw = 0) by (eapply zero_max; eauto; lia).
    rewrite (upd_nat _ _ _ _ Fw). unfold nat_. rewrite nfind_set, beq_refl. cbn [with_role n_balance]. rewrite B0. change (add_int 0 1) with (@Ok Z 1). cbn [bind]. now apply commit_total.
  - apply PR. unfold settled. intuition congruence.
  - apply PR. unfold settled. intuition congruence.
Qed.
Lemma remove_node_total P f s k n : inv P s -> f = io_ok -> nfind k (i_map s) = Some n -> n_state n = Down ->
  (n_role n = Master -> others_live (i_map s) k (n_partition n)) -> exists s', remove_node f s k = Ok (0, s').
Proof.
  intros I -> Fk St OL. unfold remove_node. rewrite (locked_open io_ok s P _ I eq_refl eq_refl). destruct I as [G T SY D]. rewrite Fk, St. cbn [state_eqb negb].
  destruct (role_eqb_spec (n_role n) Master) as [R|]; cbn [andb]; [|now apply commit_total].
  rewrite (proj2 (other_live_iff P _ _ _ G) (OL R)). cbn [negb]. now apply commit_total.
Qed.

(** ** Node keys *)
Lemma dec_no_colon n : ~ In 58%N (dec n).
Proof. intros I. pose proof (dec_digits n) as D. rewrite Forall_forall in D. specialize (D _ I). discriminate. Qed.
Lemma decZ_no_colon z : ~ In 58%N (decZ z).
Proof.
  unfold decZ. destruct z; try apply dec_no_colon. all: intros I; try (destruct I as [I|I]; [discriminate|]); now apply dec_no_colon in I.
Qed.
Lemma app_sep (a b c d : bytes) x : ~ In x b -> ~ In x d -> a ++ x :: b = c ++ x :: d -> a = c /\ b = d.
Proof.
  revert c. induction a as [|y a IH]; intros [|z c] Nb Nd E; cbn [app] in E.
  - injection E as E. auto.
  - injection E as -> E. exfalso. apply Nb. rewrite E. apply in_or_app. right. now left.
  - injection E as -> E. exfalso. apply Nd. rewrite <- E. apply in_or_app. right. now left.
  - injection E as -> E. destruct (IH c Nb Nd E) as (-> & ->). auto.
Qed.
Lemma decZ_inj a b : decZ a = decZ b -> a = b.
Proof.
  unfold decZ. destruct (Z.ltb_spec a 0), (Z.ltb_spec b 0); intros E.
  - injection E as E. apply (f_equal dec_val) in E. rewrite !dec_val_dec in E. lia.
  - exfalso. pose proof (dec_digits (Z.to_N b)) as D. rewrite <- E in D. inversion D; subst. discriminate.
  - exfalso. pose proof (dec_digits (Z.to_N a)) as D. rewrite E in D. inversion D; subst. discriminate.
  - apply (f_equal dec_val) in E. rewrite !dec_val_dec in E. lia.
Qed.
Lemma to_node_key_inj h p h' p' : to_node_key h p = to_node_key h' p' -> h = h' /\ p = p'.
Proof.
  unfold to_node_key. cbn [app]. intros E. apply app_sep in E as (-> & E); [|apply decZ_no_colon|apply decZ_no_colon]. apply decZ_inj in E. auto.
Qed.

(** ** Computed histories *)
Fixpoint replay (s : index) (l : list event) : res (list Z * index) :=
  match l with
  | [] => Ok ([], s)
  | e :: t => let* (r, s) := handle io_ok s e in let* (rs, s) := replay s t in Ok (r :: rs, s)
  end.
Lemma replay_any l : forall s rs s', any_history s -> replay s l = Ok (rs, s') -> any_history s'.
Proof.
  induction l as [|e l IH]; intros s rs s' H; cbn [replay].
  - intros [= <- <-]. exact H.
  - intros E. apply bind_ok in E as ((r & s1) & E1 & E). apply bind_ok in E as ((rs2 & s2) & E2 & E). injection E as <- <-.
    eapply IH; [|exact E2]. eapply any_step; eauto. reflexivity.
Qed.
(** Whether an event abandons a partition, computed. *)
Definition abandons_b (s : index) (e : event) : bool :=
  match target e with
  | None => false
  | Some k =>
      match nfind k (i_map s) with
      | None => false
      | Some n => role_eqb (n_role n) Master && state_eqb (n_state n) Down && other_live k (n_partition n) (i_map s) &&
          negb (existsb (fun kn => match nfind (fst kn) (i_map s) with
                                   | Some m => role_eqb (n_role m) Master && negb (state_eqb (n_state m) Down) && (n_partition m =? n_partition n)
                                   | None => false
                                   end) (i_map s))
      end
  end.
Lemma abandons_compute s e : abandons_b s e = false -> ~ abandons s e.
Proof.
  intros B (k & n & T & F & R & S & (k' & n' & Nk & F' & L & Q) & U). unfold abandons_b in B. rewrite T, F, R, S in B. cbn [role_eqb state_eqb andb] in B.
  assert (OL : other_live k (n_partition n) (i_map s) = true).
  { unfold other_live. apply existsb_exists. exists (k', n'). split; [apply (mfind_in beq beq_iff); exact F'|]. cbn [fst snd].
    destruct (beq_spec k' k); [easy|]. destruct (Z.eqb_spec (n_partition n') (n_partition n)); [|easy]. unfold live in L. destruct (state_eqb_spec (n_state n') Down); easy. }
  rewrite OL in B. cbn [andb] in B. apply negb_false_iff in B. apply existsb_exists in B as ((x, nx) & I & B). cbn [fst] in B.
  destruct (nfind x (i_map s)) as [m|] eqn:Fx; [|easy].
  destruct (role_eqb_spec (n_role m) Master); [|easy]. destruct (state_eqb_spec (n_state m) Down); [easy|]. destruct (Z.eqb_spec (n_partition m) (n_partition n)); [|easy].
  refine (U x m Fx _ _ _); assumption.
Qed.
Fixpoint keeps (s : index) (l : list event) : bool :=
  match l with
  | [] => true
  | e :: t => negb (abandons_b s e) && match handle io_ok s e with Ok (_, s) => keeps s t | _ => true end
  end.
Lemma replay_history l : forall s rs s', history s -> keeps s l = true -> replay s l = Ok (rs, s') -> history s'.
Proof.
  induction l as [|e l IH]; intros s rs s' H K; cbn [replay].
  - intros [= <- <-]. exact H.
  - intros E. apply bind_ok in E as ((r & s1) & E1 & E). apply bind_ok in E as ((rs2 & s2) & E2 & E). injection E as <- <-.
    cbn [keeps] in K. apply andb_prop in K as (K1 & K2). rewrite E1 in K2. apply negb_true_iff in K1.
    eapply IH; [|exact K2|exact E2]. eapply history_step; eauto; [reflexivity|]. now apply abandons_compute.
Qed.

Lemma read_shares_total p m : read_shares p m = total (slave_list p m).
Proof. unfold read_shares, slave_list. induction (slaves_of p m) as [|x l IH]; cbn [map fold_right total snd]; auto. rewrite IH. reflexivity. Qed.
Lemma read_shares_pos P p m : good P m -> 0 <= read_shares p m.
Proof.
  intros G. rewrite read_shares_total. assert (H : forall k b, In (k, b) (slave_list p m) -> 0 <= b).
  { intros k b I. apply (slave_list_in P) in I as (n & F & R & Q & ->); auto. pose proof (g_valid _ _ G _ _ F) as V. unfold valid_node in V. rewrite R in V.
    unfold share. destruct (state_eqb _ _); lia. }
  induction (slave_list p m) as [|(k, b) l IH]; cbn [total fold_right snd]; [lia|]. assert (0 <= b) by (apply (H k b); now left).
  assert (0 <= total l) by (apply IH; intros; eapply H; right; eauto). unfold total in *. lia.
Qed.

Lemma remove_only_down s f h p r s' : history s -> f_save f = SaveOk -> ~ abandons s (ERemove h p) -> handle f s (ERemove h p) = Ok (r, s') ->
  let k := to_node_key h p in
  (s' = s /\ r = -1) \/
  (r = 0 /\ nfind k (i_map s') = None /\ same_except [k] (i_map s) (i_map s') /\
   exists n, nfind k (i_map s) = Some n /\ n_state n = Down /\
     (n_role n = Master -> exists k' n', k' <> k /\ nfind k' (i_map s') = Some n' /\ n_role n' = Master /\ live n' /\ n_partition n' = n_partition n)).
Proof.
  intros H F NA E k. destruct (history_inv s H) as (P & I). pose proof (fun n => not_abandons s (ERemove h p) k n NA eq_refl) as AB.
  destruct (remove_node_spec P f s k r s' I F E AB) as [?|(n & Fk & Sd & OL & -> & N & SE & _)]; auto.
  right. split; auto. split; auto. split; auto. exists n. split; auto. split; auto. intros R.
  destruct (AB n Fk R Sd (OL R)) as (k' & n' & F' & L' & R' & Q'). assert (k' <> k) by (intros ->; rewrite Fk in F'; injection F' as ->; exact (L' Sd)).
  exists k', n'. rewrite (SE k') by (intros [X|[]]; congruence). auto 8.
Qed.
Lemma threads_grow s f e r s' : history s -> f_save f = SaveOk -> ~ abandons s e -> handle f s e = Ok (r, s') ->
  i_thread s <= i_thread s' /\ (forall k n, nfind k (i_map s') = Some n -> nfind k (i_map s) = None -> n_thread n = i_thread s).
Proof.
  intros H F NA E. destruct (history_inv s H) as (P & I).
  assert (SAME : s' = s -> i_thread s <= i_thread s' /\ (forall k n, nfind k (i_map s') = Some n -> nfind k (i_map s) = None -> n_thread n = i_thread s)).
  { intros ->. split; [lia|]. intros k n A B. congruence. }
  destruct e as [h p|h p|h p ro b q|h p st|]; cbn [handle] in E.
  - destruct (add_node_spec P f s h p r s' I F E) as [(-> & _)|(_ & _ & _ & [(n & _ & _ & M & T)|(N & Y & SE & T)])]; auto.
    + rewrite M, T. split; [lia|]. congruence.
    + split; [lia|]. intros k n A B. destruct (beq_spec k (to_node_key h p)) as [->|NE].
      * rewrite Y in A. injection A as <-. reflexivity.
      * rewrite SE in A; [congruence|]. intros [X|[]]; congruence.
  - destruct (remove_node_spec P f s _ r s' I F E (fun n => not_abandons s (ERemove h p) _ n NA eq_refl)) as [(-> & _)|(n & _ & _ & _ & _ & N & SE & _ & T & _)]; auto.
    rewrite T. split; [lia|]. intros k n' A B. destruct (beq_spec k (to_node_key h p)) as [->|NE]; [congruence|]. rewrite SE in A; [congruence|]. intros [X|[]]; congruence.
  - destruct (set_role_spec P f s _ ro b q r s' I F E) as [(-> & _)|(n & P' & Fk & _ & _ & RS & _ & T & _)]; auto.
    rewrite T. split; [lia|]. intros k n' A B. exfalso. destruct (beq_spec k (to_node_key h p)) as [->|NE]; [congruence|].
    assert (SE : same_except [to_node_key h p] (i_map s) (i_map s') -> False). { intros SE. rewrite SE in A; [congruence|]. intros [X|[]]; congruence. }
    unfold role_set in RS. destruct (n_role n), (n_state n), ro; try (destruct RS; tauto); try tauto;
      try (destruct RS as (_ & RS); specialize (RS k NE); rewrite B in RS; congruence); try (destruct RS as (_ & _ & RS); tauto); try (rewrite RS in A; congruence).
  - destruct st; cbn [set_node_state] in E.
    + destruct (up_node_spec P f s _ r s' I F E (fun n => not_abandons s (EState h p Active) _ n NA eq_refl)) as [->|(n & P' & Fk & _ & (SE & _) & _ & T & _)]; auto.
      rewrite T. split; [lia|]. intros k n' A B. exfalso. destruct (beq_spec k (to_node_key h p)) as [->|NE]; [congruence|]. rewrite SE in A; [congruence|]. intros [X|[]]; congruence.
    + injection E as <- <-. auto.
    + destruct (down_node_spec P f s _ r s' I F E) as [(-> & _)|(n & Fk & _ & _ & W & _ & T & _)]; auto.
      rewrite T. split; [lia|]. intros k n' A B. exfalso. destruct (beq_spec k (to_node_key h p)) as [->|NE]; [congruence|].
      assert (SE : same_except [to_node_key h p] (i_map s) (i_map s') -> False). { intros SE. rewrite SE in A; [congruence|]. intros [X|[]]; congruence. }
      unfold went_down in W. destruct (n_role n), (n_state n); try tauto; try (destruct W as (_ & W); specialize (W k NE); rewrite B in W; congruence).
      destruct W as [(_ & _ & W)|(w & nw & ((Fw & _) & _) & _ & _ & _ & W)]; [tauto|]. destruct (beq_spec k w) as [->|NW]; [congruence|].
      rewrite W in A; [congruence|]. intros [X|[X|[]]]; congruence.
    + destruct (ready_node_spec P f s _ r s' I F E) as [(-> & _)|(n & Fk & _ & _ & _ & SE & _ & T & _)]; auto.
      rewrite T. split; [lia|]. intros k n' A B. exfalso. destruct (beq_spec k (to_node_key h p)) as [->|NE]; [congruence|]. rewrite SE in A; [congruence|]. intros [X|[]]; congruence.
  - destruct (restart_spec P f s r s' I E) as (E1 & _). exact (SAME E1).
Qed.
