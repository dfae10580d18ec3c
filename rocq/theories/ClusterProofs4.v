(** Proofs for the cluster model: how the well-formedness of the map is kept. *)
From Coq Require Import ZArith NArith List Bool Lia ZifyBool ZifyNat ZifyN.
From Verif Require Import Base BaseLemmas TextModel ClusterModel ClusterSpec ClusterProofs ClusterProofs2 ClusterProofs3.
Import ListNotations.
Local Open Scope Z_scope.
Local Open Scope list_scope.

(** ** The masters of a map *)
Definition mview (m : node_map) (k : bytes) : option (Z * nstate) :=
  match nfind k m with Some n => if role_eqb (n_role n) Master then Some (n_partition n, n_state n) else None | None => None end.
Definition settled_st (s : nstate) : Prop := s = Active \/ s = Down.
Record gview (P : Z) (V : bytes -> option (Z * nstate)) : Prop := mkGview {
  gv_pos : 0 <= P;
  gv_one : forall x y p s s', V x = Some (p, s) -> V y = Some (p, s') -> s <> Down -> s' <> Down -> x = y;
  gv_main : forall p, (exists x s, V x = Some (p, s) /\ settled_st s) <-> 0 <= p < P;
  gv_prep : forall x p s, V x = Some (p, s) -> ~ settled_st s -> p = P }.
Definition has_master (V : bytes -> option (Z * nstate)) (p : Z) : Prop := exists x s, V x = Some (p, s).

Lemma mview_some m k p s : mview m k = Some (p, s) <-> exists n, nfind k m = Some n /\ n_role n = Master /\ n_partition n = p /\ n_state n = s.
Proof.
  unfold mview. destruct (nfind k m) as [n|]; [|split; [easy|intros (? & ? & _); easy]].
  destruct (role_eqb_spec (n_role n) Master); split.
  - intros [= <- <-]. eauto.
  - intros (n' & [= <-] & _ & <- & <-). reflexivity.
  - easy.
  - intros (n' & [= <-] & ? & _). easy.
Qed.
Lemma good_iff P m : good P m <-> nordered m /\ (forall k n, nfind k m = Some n -> k = to_node_key (n_name n) (n_port n) /\ valid_node n) /\
  gview P (mview m) /\ (forall k n, nfind k m = Some n -> n_role n = Slave -> has_master (mview m) (n_partition n)).
Proof.
  split.
  - intros G. split; [apply (g_ord _ _ G)|]. split; [intros; split; [eapply g_key|eapply g_valid]; eauto|]. split.
    + constructor.
      * apply (g_pos _ _ G).
      * intros x y p s s' X Y. apply mview_some in X as (n & F & R & Q & S). apply mview_some in Y as (n' & F' & R' & Q' & S').
        subst. intros. apply (g_one _ _ G x n y n'); auto.
      * intros p. rewrite <- (g_main _ _ G). split.
        -- intros (x & s & X & T). apply mview_some in X as (n & F & R & Q & S). subst. exists x, n. auto.
        -- intros (x & n & F & R & T & Q). exists x, (n_state n). split; auto. apply mview_some. eauto.
      * intros x p s X T. apply mview_some in X as (n & F & R & Q & S). subst. eapply (g_prep _ _ G); eauto.
    + intros k n F R. destruct (g_slave _ _ G _ _ F R) as (k' & n' & F' & R' & Q). exists k', (n_state n'). apply mview_some. eauto 6.
  - intros (O & KV & [A B C D] & E). constructor; auto.
    + intros k n F. now apply KV.
    + intros k n F. eapply KV; eauto.
    + intros k1 n1 k2 n2 F1 F2 R1 R2 L1 L2 Q. eapply (B k1 k2 (n_partition n1) (n_state n1) (n_state n2)); auto; apply mview_some; eauto 6.
    + intros p. rewrite <- C. split.
      * intros (x & n & F & R & T & Q). exists x, (n_state n). split; auto. apply mview_some. eauto.
      * intros (x & s & X & T). apply mview_some in X as (n & F & R & Q & S). subst. exists x, n. auto.
    + intros k n F R T. apply (D k (n_partition n) (n_state n)); auto. apply mview_some. eauto.
    + intros k n F R. destruct (E _ _ F R) as (x & s & X). apply mview_some in X as (n' & F' & R' & Q & S). eauto 6.
Qed.

(** ** Changes of the masters *)
Definition vset (V : bytes -> option (Z * nstate)) (k : bytes) (v : option (Z * nstate)) : bytes -> option (Z * nstate) :=
  fun x => if beq x k then v else V x.
Lemma gview_ext P V V' : (forall x, V x = V' x) -> gview P V -> gview P V'.
Proof.
  intros E [A B C D]. constructor; auto.
  - intros x y p s s'. rewrite <- !E. eauto.
  - intros p. rewrite <- C. split; intros (x & s & X & T); exists x, s; [rewrite E|rewrite <- E]; auto.
  - intros x p s. rewrite <- E. eauto.
Qed.
Ltac vcase := unfold vset in *; repeat match goal with
  | H : context [beq ?a ?b] |- _ => destruct (beq_spec a b); subst
  | |- context [beq ?a ?b] => destruct (beq_spec a b); subst
  end.
Lemma gview_unsettled P V k p s s' : gview P V -> V k = Some (p, s) -> ~ settled_st s -> ~ settled_st s' -> gview P (vset V k (Some (p, s'))).
Proof.
  intros [A B C D] K S S'. constructor; auto.
  - intros x y q a b X Y L L'. assert (LS : s <> Down) by (intros ->; apply S; now right).
    unfold vset in X, Y. destruct (beq_spec x k) as [->|], (beq_spec y k) as [->|]; auto.
    + injection X as <- <-. eapply B; eauto.
    + injection Y as <- <-. eapply B; eauto.
    + eapply B; eauto.
  - intros q. rewrite <- C. split; intros (x & t & X & T).
    + unfold vset in X. destruct (beq_spec x k) as [->|]; [injection X as <- <-; easy|]. eauto.
    + exists x, t. split; auto. unfold vset. destruct (beq_spec x k) as [->|]; auto. rewrite K in X. injection X as <- <-. easy.
  - intros x q t X T. unfold vset in X. destruct (beq_spec x k) as [->|]; eauto. injection X as <- <-. eauto.
Qed.
(** The master of the next partition becomes active. *)
Lemma gview_activate P V k p s : gview P V -> V k = Some (p, s) -> ~ settled_st s -> gview (P + 1) (vset V k (Some (p, Active))).
Proof.
  intros [A B C D] K S. assert (LS : s <> Down) by (intros ->; apply S; now right).
  assert (p = P) as -> by eauto. constructor.
  - lia.
  - intros x y q a b X Y L L'.
    unfold vset in X, Y. destruct (beq_spec x k) as [->|], (beq_spec y k) as [->|]; auto.
    + injection X as <- <-. eapply B; eauto.
    + injection Y as <- <-. eapply B; eauto.
    + eapply B; eauto.
  - intros q. split.
    + intros (x & t & X & T). unfold vset in X. destruct (beq_spec x k) as [->|]; [injection X as <- <-; lia|].
      assert (0 <= q < P) by (apply C; eauto). lia.
    + intros Hq. destruct (Z.eq_dec q P) as [->|].
      * exists k, Active. unfold vset. rewrite beq_refl. split; auto. now left.
      * destruct (proj2 (C q)) as (x & t & X & T); [lia|]. exists x, t. split; auto. unfold vset. destruct (beq_spec x k) as [->|]; auto.
        rewrite K in X. injection X as <- <-. easy.
  - intros x q t X T. exfalso. unfold vset in X. destruct (beq_spec x k) as [->|N]; [injection X as <- <-; apply T; now left|].
    apply N. assert (q = P) as -> by eauto. apply (B x k P t s); auto. intros ->. apply T. now right.
Qed.
Lemma gview_down P V k p : gview P V -> V k = Some (p, Active) -> gview P (vset V k (Some (p, Down))).
Proof.
  intros [A B C D] K. constructor; auto.
  - intros x y q a b X Y L L'. unfold vset in X, Y. destruct (beq_spec x k) as [->|]; [injection X as <- <-; easy|].
    destruct (beq_spec y k) as [->|]; [injection Y as <- <-; easy|]. eapply B; eauto.
  - intros q. rewrite <- C. split; intros (x & t & X & T).
    + unfold vset in X. destruct (beq_spec x k) as [->|]; [|eauto]. injection X as <- <-. exists k, Active. split; auto. now left.
    + unfold vset. destruct (beq_spec x k) as [->|].
      * rewrite K in X. injection X as <- <-. exists k, Down. rewrite beq_refl. split; auto. now right.
      * exists x, t. destruct (beq_spec x k); [easy|]. auto.
  - intros x q t X T. unfold vset in X. destruct (beq_spec x k) as [->|]; eauto. injection X as <- <-. exfalso. apply T. now right.
Qed.
(** A master without a live colleague becomes active in an existing partition. *)
Lemma gview_up P V k p : gview P V -> 0 <= p < P -> (V k = None \/ V k = Some (p, Down)) ->
  (forall x s, x <> k -> V x = Some (p, s) -> s = Down) -> gview P (vset V k (Some (p, Active))).
Proof.
  intros [A B C D] Hp K U. constructor; auto.
  - intros x y q a b X Y L L'. unfold vset in X, Y. destruct (beq_spec x k) as [->|N], (beq_spec y k) as [->|N']; auto.
    + injection X as <- <-. exfalso. eapply L', U; eauto.
    + injection Y as <- <-. exfalso. eapply L, U; eauto.
    + eapply B; eauto.
  - intros q. split.
    + intros (x & t & X & T). unfold vset in X. destruct (beq_spec x k) as [->|]; [injection X as <- <-; lia|]. apply C. eauto.
    + intros Hq. destruct (Z.eq_dec q p) as [->|]. { exists k, Active. unfold vset. rewrite beq_refl. split; auto. now left. }
      apply C in Hq as (x & t & X & T). exists x, t. unfold vset. destruct (beq_spec x k) as [->|]; auto. destruct K as [K|K]; rewrite K in X; [easy|]. injection X as <- <-. easy.
  - intros x q t X T. unfold vset in X. destruct (beq_spec x k) as [->|]; eauto. injection X as <- <-. exfalso. apply T. now left.
Qed.
(** A down master leaves while another one is active. *)
Lemma gview_leave P V k p x s : gview P V -> V k = Some (p, Down) -> V x = Some (p, s) -> s <> Down -> gview P (vset V k None).
Proof.
  intros [A B C D] K X L. assert (Hp : 0 <= p < P). { apply C. exists k, Down. split; auto. now right. }
  assert (x <> k) by (intros ->; congruence).
  constructor; auto.
  - intros y z q a b Y Z. unfold vset in Y, Z. destruct (beq y k), (beq z k); try easy. eapply B; eauto.
  - intros q. rewrite <- C. split; intros (y & t & Y & T).
    + unfold vset in Y. destruct (beq y k); [easy|]. eauto.
    + destruct (beq_spec y k) as [->|N]; [|exists y, t; unfold vset; destruct (beq_spec y k); easy].
      rewrite K in Y. injection Y as <- <-. exists x, s. unfold vset. destruct (beq_spec x k); [easy|]. split; auto.
      destruct s; unfold settled_st; auto; exfalso; assert (p = P) by (eapply D; eauto; unfold settled_st; intuition congruence); lia.
  - intros y q t Y T. unfold vset in Y. destruct (beq y k); [easy|]. eauto.
Qed.
(** An active slave takes over. *)
Lemma gview_swap P V k k' p : gview P V -> V k = Some (p, Active) -> V k' = None -> gview P (vset (vset V k' (Some (p, Active))) k None).
Proof.
  intros [A B C D] K K'. assert (N : k' <> k) by (intros ->; congruence).
  constructor; auto.
  - intros x y q a b X Y L L'. unfold vset in X, Y. destruct (beq_spec x k) as [->|Nx]; [easy|]. destruct (beq_spec y k) as [->|Ny]; [easy|].
    destruct (beq_spec x k') as [->|], (beq_spec y k') as [->|]; auto.
    + injection X as <- <-. exfalso. apply Ny. apply (B y k p b Active); auto; easy.
    + injection Y as <- <-. exfalso. apply Nx. apply (B x k p a Active); auto; easy.
    + eapply B; eauto.
  - intros q. rewrite <- C. unfold vset. split; intros (x & t & X & T).
    + destruct (beq_spec x k) as [->|]; [easy|]. destruct (beq_spec x k') as [->|]; [|eauto]. injection X as <- <-. exists k, Active. auto.
    + destruct (beq_spec x k) as [->|].
      * rewrite K in X. injection X as <- <-. exists k', Active. destruct (beq_spec k' k); [easy|]. rewrite beq_refl. auto.
      * exists x, t. destruct (beq_spec x k); [easy|]. destruct (beq_spec x k') as [->|]; [congruence|]. auto.
  - intros x q t X T. unfold vset in X. destruct (beq_spec x k) as [->|]; [easy|]. destruct (beq_spec x k') as [->|]; eauto. injection X as <- <-. exfalso. apply T. now left.
Qed.
Lemma gview_release P V k p s : gview P V -> V k = Some (p, s) -> ~ settled_st s -> gview P (vset V k None).
Proof.
  intros [A B C D] K S. constructor; auto.
  - intros y z q a b Y Z. unfold vset in Y, Z. destruct (beq y k), (beq z k); try easy. eapply B; eauto.
  - intros q. rewrite <- C. split; intros (y & t & Y & T).
    + unfold vset in Y. destruct (beq y k); [easy|]. eauto.
    + exists y, t. unfold vset. destruct (beq_spec y k) as [->|]; auto. rewrite K in Y. injection Y as <- <-. easy.
  - intros y q t Y T. unfold vset in Y. destruct (beq y k); [easy|]. eauto.
Qed.
(** A proxy becomes the master of the next partition. *)
Lemma gview_new P V k s : gview P V -> V k = None -> (forall x t, V x <> Some (P, t)) -> ~ settled_st s -> gview P (vset V k (Some (P, s))).
Proof.
  intros [A B C D] K U S. constructor; auto.
  - intros x y q a b X Y L L'. unfold vset in X, Y. destruct (beq_spec x k) as [->|N], (beq_spec y k) as [->|N']; auto.
    + injection X as <- <-. exfalso. eapply U; eauto.
    + injection Y as <- <-. exfalso. eapply U; eauto.
    + eapply B; eauto.
  - intros q. rewrite <- C. unfold vset. split; intros (x & t & X & T).
    + destruct (beq_spec x k) as [->|]; [injection X as <- <-; easy|eauto].
    + exists x, t. destruct (beq_spec x k) as [->|]; [congruence|auto].
  - intros x q t X T. unfold vset in X. destruct (beq_spec x k) as [->|]; eauto. congruence.
Qed.
Lemma gview_first V k : gview 0 V -> V k = None -> (forall x t, V x <> Some (0, t)) -> gview 1 (vset V k (Some (0, Active))).
Proof.
  intros G K U.
  assert (N : forall s, ~ settled_st s -> gview 0 (vset V k (Some (0, s)))) by (intros; now apply gview_new).
  assert (NP : ~ settled_st Prepare) by (unfold settled_st; intuition congruence).
  apply (gview_ext (0 + 1) (vset (vset V k (Some (0, Prepare))) k (Some (0, Active)))).
  - intros x. unfold vset. now destruct (beq x k).
  - apply (gview_activate 0 _ k 0 Prepare); auto. unfold vset. now rewrite beq_refl.
Qed.

(** ** The step *)
(** [op f s] returned from a good state: nothing happened, or a good map was committed. *)
Lemma commit_ok f s P r s' : f_save f = SaveOk -> good P (i_map s) -> threads_ok (i_map s) (i_thread s) -> commit f s = Ok (r, s') ->
  inv P s' /\ r = 0 /\ i_map s' = i_map s /\ i_thread s' = i_thread s /\ i_version s' = u64 (i_version s + 1).
Proof.
  intros F G T. unfold commit, refresh. destruct (good_reconstruct P (i_map s) (fun _ => false) G) as (a & b & E & O1 & O2 & M & Q).
  rewrite E. cbn [fst]. unfold save, ret_of. rewrite F. cbn [fst snd with_tables i_map i_thread i_version i_parts i_prep]. intros H. injection H as <- <-.
  cbn [i_map i_thread i_parts i_prep i_disk i_version].
  split; [|auto]. constructor; cbn [i_map i_thread]; auto.
  - unfold synced. cbn [i_map i_thread i_parts i_prep]. auto.
  - now left.
Qed.
Lemma load_id f s P : inv P s -> fst (load f s) = true -> load f s = (true, s).
Proof.
  intros [G T S D]. unfold load. destruct (f_load f); cbn [negb fst]; [|easy]. intros H.
  assert (E : (match i_disk s with Some d => mkIndex (v_map d) (v_thread d) (v_version d) (i_parts s) (i_prep s) (i_disk s) | None => s end) = s).
  { destruct D as [D|(D & _)]; rewrite D; cbn [v_map v_thread v_version]; auto. destruct s; cbn in *. now rewrite D. }
  rewrite E in *. now rewrite H.
Qed.
Lemma load_true f s P : inv P s -> f_load f = true -> load f s = (true, s).
Proof.
  intros I L. eapply load_id; eauto. destruct I as [G T S D]. unfold load. rewrite L. cbn [negb fst].
  assert (X : forallb (fun kn => n_thread (snd kn) <? i_thread s) (i_map s) = true).
  { apply forallb_forall. intros (k, n) H. apply (nfind_in _ _ _ (g_ord _ _ G)) in H. cbn [snd]. destruct T as (_ & T & _). specialize (T _ _ H). lia. }
  destruct D as [D|(D & _)]; rewrite D; cbn [v_map v_thread i_map i_thread]; exact X.
Qed.
Lemma locked_ok f s P body : inv P s -> locked f s body = Ok (-1, s) \/ locked f s body = body s.
Proof.
  intros I. unfold locked. destruct (f_begin f); cbn [negb]; auto. destruct (f_load f) eqn:L.
  - rewrite (load_true _ _ _ I L). auto.
  - unfold load. rewrite L. auto.
Qed.
Lemma locked_cases f s P body r s' : inv P s -> locked f s body = Ok (r, s') -> (r = -1 /\ s' = s /\ f_begin f && f_load f = false) \/ body s = Ok (r, s').
Proof.
  intros I H. unfold locked in H. destruct (f_begin f); cbn [negb] in H; [|left; split; [congruence|]; split; [congruence|auto]].
  destruct (f_load f) eqn:L.
  - rewrite (load_true _ _ _ I L) in H. auto.
  - unfold load in H. rewrite L in H. left. cbn [negb] in H. split; [congruence|]. split; [congruence|auto].
Qed.
Lemma locked_open f s P body : inv P s -> f_begin f = true -> f_load f = true -> locked f s body = body s.
Proof. intros I B L. unfold locked. rewrite B. cbn [negb]. now rewrite (load_true _ _ _ I L). Qed.
