(** Proofs for the cluster model: roles, restarts and all histories. *)
From Coq Require Import ZArith NArith List Bool Lia ZifyBool ZifyNat ZifyN.
From Verif Require Import Base BaseLemmas TextModel ClusterModel ClusterSpec ClusterProofs ClusterProofs2 ClusterProofs3 ClusterProofs4 ClusterProofs5 ClusterProofs6 ClusterProofs7.
Import ListNotations.
Local Open Scope Z_scope.
Local Open Scope list_scope.

Lemma check_balance_ok k b m : check_node_balance k b m = Ok true -> 0 <= b.
Proof. unfold check_node_balance. destruct (Z.ltb_spec b 0); [discriminate|lia]. Qed.
Lemma check_partition_some P p m pr : good P m -> check_node_partition p m = Some pr ->
  0 <= p /\ exists x nx, nfind x m = Some nx /\ n_role nx = Master /\ live nx /\ n_partition nx = p.
Proof.
  intros G. unfold check_node_partition. destruct (Z.ltb_spec p 0); [easy|]. destruct (find _ m) as [(x, nx)|] eqn:E; [|easy]. intros _.
  apply find_some in E as (I & E). cbn [snd] in E. apply (nfind_in _ _ _ (g_ord _ _ G)) in I. split; auto. exists x, nx.
  destruct (role_eqb_spec (n_role nx) Master); [|easy]. destruct (state_eqb_spec (n_state nx) Down); [easy|]. destruct (Z.eqb_spec (n_partition nx) p); [|easy]. auto.
Qed.
Lemma existsb_false {A} (f : A -> bool) l : existsb f l = false -> forall x, In x l -> f x = false.
Proof. intros H x I. destruct (f x) eqn:E; auto. assert (existsb f l = true) by (apply existsb_exists; eauto). congruence. Qed.
Lemma check_new_some P p s pr : good P (i_map s) -> synced s -> check_node_partition_for_new p (i_parts s) (i_map s) = Some pr ->
  (pr = true /\ p = P /\ forall x t, mview (i_map s) x <> Some (P, t)) \/
  (pr = false /\ 0 <= p < P /\ forall x t, mview (i_map s) x = Some (p, t) -> t = Down).
Proof.
  intros G SY. unfold check_node_partition_for_new. rewrite (parts_length P s G SY). destruct (Z.ltb_spec P p); [easy|]. destruct (Z.ltb_spec p 0); [easy|]. cbn [orb].
  destruct (Z.eqb_spec p P) as [->|NP].
  - destruct (existsb _ (i_map s)) eqn:E; [easy|]. intros [= <-]. left. repeat split; auto. intros x t X.
    apply mview_some in X as (n & F & R & Q & S). apply (nfind_in _ _ _ (g_ord _ _ G)) in F. apply (existsb_false _ _ E) in F. cbn [snd] in F. rewrite R, Q, Z.eqb_refl in F. discriminate.
  - destruct (existsb _ (i_map s)) eqn:E; [easy|]. intros [= <-]. right. split; auto. split; [lia|]. intros x t X.
    apply mview_some in X as (n & F & R & Q & S). apply (nfind_in _ _ _ (g_ord _ _ G)) in F. apply (existsb_false _ _ E) in F. cbn [snd] in F. rewrite R, Q, Z.eqb_refl in F. subst t.
    destruct (n_state n); easy.
Qed.
Lemma bind_ok {A B} (x : res A) (g : A -> res B) y : bind x g = Ok y -> exists a, x = Ok a /\ g a = Ok y.
Proof. destruct x; cbn [bind]; try easy. eauto. Qed.

Lemma set_role_spec P f s k ro b p r s' : inv P s -> f_save f = SaveOk -> set_node_role f s k ro b p = Ok (r, s') ->
  (s' = s /\ r = -1) \/ (exists n P', nfind k (i_map s) = Some n /\ live n /\ r = 0 /\ role_set (i_map s) k n ro b p (i_map s') /\ inv P' s' /\ i_thread s' = i_thread s /\ i_version s' = u64 (i_version s + 1)).
Proof.
  intros I F H. unfold set_node_role in H. apply (locked_cases _ _ P) in H as [(-> & -> & X0)|H]; auto.
  destruct I as [G T SY D]. destruct (nfind k (i_map s)) as [n|] eqn:Fk; [|left; split; congruence].
  destruct (state_eqb_spec (n_state n) Down) as [|Nd]; [left; split; congruence|]. assert (Lv : live n) by exact Nd.
  pose proof (proj1 (good_iff _ _) G) as (O & KV & GV & SM). pose proof (g_valid _ _ G _ _ Fk) as V. unfold valid_node in V.
  assert (VK := mview_find _ _ _ Fk). unfold role_view in VK.
  assert (Nat : nat_ k (i_map s) = n) by now apply nat_some.
  assert (FIN : forall s2 n' P', commit f s2 = Ok (r, s') -> i_map s2 = nset k n' (i_map s) -> i_thread s2 = i_thread s -> i_version s2 = i_version s ->
    same_id n n' -> good P' (nset k n' (i_map s)) ->
    r = 0 /\ nfind k (i_map s') = Some n' /\ same_except [k] (i_map s) (i_map s') /\ inv P' s' /\ i_thread s' = i_thread s /\ i_version s' = u64 (i_version s + 1)).
  { intros s2 n' P' C M2 T2 V2 ID G'. apply (commit_ok f _ P') in C as (I' & -> & M' & T' & V'); auto.
    - rewrite M', M2, T', V', T2, V2. destruct (set_same_except (i_map s) k n'). auto 10.
    - now rewrite M2.
    - rewrite M2, T2. eapply threads_kept; [exact T|]. eapply same_ids_set; eauto. }
  (* a change of balance *)
  assert (BAL : 0 <= b -> n_role n <> Proxy -> good P (nset k (with_balance n b) (i_map s))).
  { intros Hb NP. refine (good_minor P _ k n _ G Fk _ _ _ _).
    - repeat split.
    - unfold valid_node, live. cbn [with_balance n_role n_partition n_balance n_state]. destruct (n_role n); try easy; unfold live in V; tauto.
    - reflexivity.
    - cbn [with_balance n_role n_partition]. eauto. }
  (* a slave becomes a proxy *)
  assert (OUT : n_role n = Slave -> good P (nset k (with_state (demoted n) Active) (i_map s))).
  { intros R. refine (good_minor P _ k n _ G Fk _ _ _ _).
    - repeat split.
    - split; auto.
    - unfold role_view. cbn. now rewrite R.
    - discriminate. }
  destruct (n_role n) eqn:R.
  - (* master *)
    cbn [role_eqb] in VK.
    assert (UNS : n_state n = Prepare \/ n_state n = Ready ->
      (let* (go, s0) := role_step1 s k n ro b in if negb go then Ok (-1, s0) else
         let n0 := nat_ k (i_map s0) in
         let* (go0, s1) := (if state_eqb (n_state n0) Active then role_step2 s0 k n0 ro b p else Ok (true, s0)) in
         if negb go0 then Ok (-1, s1) else commit f s1) = Ok (r, s') ->
      (s' = s /\ r = -1) \/ (exists P', r = 0 /\ role_set (i_map s) k n ro b p (i_map s') /\ inv P' s' /\ i_thread s' = i_thread s /\ i_version s' = u64 (i_version s + 1))).
    { intros US HH. apply bind_ok in HH as ((go, s0) & E & HH). unfold role_step1 in E. rewrite R in E. destruct ro.
      - apply bind_ok in E as (ok & CB & E). destruct ok.
        + injection E as <- <-. cbn [negb] in HH. rewrite (upd_nat _ _ _ _ Fk) in HH.
          assert (Nat2 : nat_ k (i_map (with_map s (nset k (with_balance n b) (i_map s)))) = with_balance n b). { cbn [with_map i_map]. unfold nat_. now rewrite nfind_set, beq_refl. }
          rewrite Nat2 in HH. cbn [with_balance n_state] in HH. destruct (state_eqb_spec (n_state n) Active); [intuition congruence|]. cbn [bind negb] in HH.
          apply check_balance_ok in CB. right. exists P.
          destruct (FIN _ (with_balance n b) P HH) as (-> & X & Y & Z & W); auto; try (repeat split; fail); try (apply BAL; auto; congruence).
          split; auto. split; [|auto]. unfold role_set. rewrite R. destruct (n_state n); auto.
        + injection E as <- <-. cbn [negb] in HH. injection HH as <- <-. auto.
      - injection E as <- <-. cbn [negb] in HH. injection HH as <- <-. auto.
      - assert (UST : ~ settled n) by (unfold settled; intuition congruence).
        assert (Hp := g_prep _ _ G _ _ Fk R UST). rewrite Hp in E.
        destruct (prep_slaves P s k n G SY Fk R UST) as (SL & TO). rewrite TO in E. cbn [with_tables i_parts i_prep i_map] in E. rewrite SL in E.
        rewrite (slave_list_mem P _ P k G), Fk, R in E. cbn [role_eqb andb] in E.
        assert (ND : NoDup (map fst (slave_list P (i_map s)))) by (eapply ordered_nodup; [apply blt_irrefl|now apply slave_list_ordered]).
        destruct (release_spec (slave_list P (i_map s)) (i_map s) ND) as (Om1 & Fm1). set (m1 := release (i_map s) (slave_list P (i_map s))) in *. specialize (Om1 O).
        injection E as <- <-. cbn [negb] in HH. set (n' := with_state (demoted n) Active) in *.
        assert (Nat1 : nat_ k m1 = n). { unfold nat_. rewrite Fm1, (slave_list_mem P _ P k G), Fk, R. reflexivity. }
        assert (Um : nupd k (fun n => with_state (demoted n) Active) m1 = nset k n' m1). { unfold nupd. rewrite Nat1. reflexivity. }
        rewrite Um in HH. cbn [with_map with_tables i_map] in HH.
        assert (Nat2 : nat_ k (nset k n' m1) = n'). { unfold nat_. now rewrite nfind_set, beq_refl. }
        rewrite Nat2 in HH. change (n_state n') with Active in HH. cbn [state_eqb] in HH. unfold role_step2 in HH. change (n_role n') with Proxy in HH. cbn [bind negb] in HH.
        assert (Fm : forall x, nfind x (nset k n' m1) = if beq x k then Some n' else
          match nfind x (i_map s) with Some nx => if role_eqb (n_role nx) Slave && (n_partition nx =? P) then Some (with_state (demoted nx) Active) else Some nx | None => None end).
        { intros x. rewrite nfind_set. destruct (beq x k); auto. rewrite Fm1, (slave_list_mem P _ P x G). unfold nat_. destruct (nfind x (i_map s)); auto. }
        assert (IDS : same_ids (i_map s) (nset k n' m1)).
        { intros x nx. rewrite Fm. destruct (beq_spec x k) as [->|]; [intros [= <-]; exists n; repeat split; auto|]. destruct (nfind x (i_map s)) as [ny|]; [|easy]. destruct (_ && _); intros [= <-]; exists ny; repeat split; auto. }
        right. exists P. apply (commit_ok f _ P) in HH as (I' & -> & M' & T' & V'); auto; cbn [with_map with_tables i_map i_thread i_version] in *.
        + split; auto. split; [|auto]. unfold role_set. rewrite R, M', Hp.
          assert (X : nfind k (nset k n' m1) = Some n' /\ (forall x, x <> k -> nfind x (nset k n' m1) =
             match nfind x (i_map s) with Some nx => if role_eqb (n_role nx) Slave && (n_partition nx =? P) then Some (with_state (demoted nx) Active) else Some nx | None => None end)).
          { split; [now rewrite Fm, beq_refl|]. intros x Nx. rewrite Fm. destruct (beq_spec x k); easy. }
          destruct US as [-> | ->]; exact X.
        + apply (good_change P P (i_map s) _ (vset (mview (i_map s)) k None)); auto using nset_ordered.
          * intros x nx. rewrite Fm. destruct (beq_spec x k) as [->|]; [intros [= <-]; split; auto|]. destruct (nfind x (i_map s)) as [ny|] eqn:Fx; [|easy]. destruct (_ && _); intros [= <-]; [split; auto|eapply g_valid; eauto].
          * intros x. unfold mview at 1. rewrite Fm. unfold vset. destruct (beq_spec x k); [reflexivity|]. unfold mview. destruct (nfind x (i_map s)) as [ny|]; auto.
            destruct (role_eqb_spec (n_role ny) Slave) as [Ry|Ry]; cbn [andb]; auto. destruct (n_partition ny =? P); auto. cbn. now rewrite Ry.
          * eapply gview_release; eauto.
          * intros x nx. rewrite Fm. intros Fx Rx. destruct (beq_spec x k) as [->|]; [injection Fx as <-; discriminate|]. destruct (nfind x (i_map s)) as [ny|] eqn:Fy; [|easy].
            destruct (role_eqb_spec (n_role ny) Slave) as [Ry|Ry]; cbn [andb] in Fx; [|injection Fx as <-; easy]. destruct (Z.eqb_spec (n_partition ny) P) as [Q|Q]; [injection Fx as <-; discriminate|].
            injection Fx as <-. destruct (SM _ _ Fy Ry) as (z & t & Z). exists z, t. unfold vset. destruct (beq_spec z k) as [->|]; [|exact Z]. rewrite VK in Z. injection Z as Z _. congruence.
        + eapply threads_kept; eauto. }
    destruct (n_state n) eqn:St; [| |easy|].
    + cbn [bind negb] in H. rewrite Nat, St in H. cbn [state_eqb] in H. apply bind_ok in H as ((go, s1) & E & H). unfold role_step2 in E. rewrite R in E. destruct ro.
      * apply bind_ok in E as (ok & CB & E). destruct ok; injection E as <- <-; cbn [negb] in H; [|injection H as <- <-; auto].
        rewrite (upd_nat _ _ _ _ Fk) in H. apply check_balance_ok in CB. right. exists n, P.
        destruct (FIN _ (with_balance n b) P H) as (-> & X & Y & Z & W); auto; try (repeat split; fail); try (apply BAL; auto; congruence).
        split; auto. split; auto. split; auto. split; [|auto]. unfold role_set. rewrite R, St. auto.
      * injection E as <- <-. cbn [negb] in H. injection H as <- <-. auto.
      * injection E as <- <-. cbn [negb] in H. injection H as <- <-. auto.
    + destruct (UNS (or_introl eq_refl) H) as [?|(P' & ? & ?)]; [auto|]. right. exists n, P'. split; auto.
    + destruct (UNS (or_intror eq_refl) H) as [?|(P' & ? & ?)]; [auto|]. right. exists n, P'. split; auto.
  - (* slave *)
    cbn [role_eqb] in VK.
    assert (BALr : forall s2, 0 <= b -> commit f s2 = Ok (r, s') -> i_map s2 = nset k (with_balance n b) (i_map s) -> i_thread s2 = i_thread s -> i_version s2 = i_version s -> ro = Slave ->
       exists n0 P', Some n = Some n0 /\ live n0 /\ r = 0 /\ role_set (i_map s) k n0 ro b p (i_map s') /\ inv P' s' /\ i_thread s' = i_thread s /\ i_version s' = u64 (i_version s + 1)).
    { intros s2 Hb C M2 T2 V2 ->. destruct (FIN s2 (with_balance n b) P C) as (-> & X & Y & Z & W); auto; try (repeat split; fail); try (apply BAL; auto; congruence).
      exists n, P. split; auto. split; auto. split; auto. split; [|auto]. unfold role_set. rewrite R. destruct (n_state n); auto. }
    assert (OUTr : forall s2, commit f s2 = Ok (r, s') -> i_map s2 = nset k (with_state (demoted n) Active) (i_map s) -> i_thread s2 = i_thread s -> i_version s2 = i_version s -> ro = Proxy ->
       exists n0 P', Some n = Some n0 /\ live n0 /\ r = 0 /\ role_set (i_map s) k n0 ro b p (i_map s') /\ inv P' s' /\ i_thread s' = i_thread s /\ i_version s' = u64 (i_version s + 1)).
    { intros s2 C M2 T2 V2 ->. destruct (FIN s2 (with_state (demoted n) Active) P C) as (-> & X & Y & Z & W); auto; try (repeat split; fail).
      exists n, P. split; auto. split; auto. split; auto. split; [|auto]. unfold role_set. rewrite R. destruct (n_state n); auto. }
    destruct (n_state n) eqn:St; [| |easy|].
    + cbn [bind negb] in H. rewrite Nat, St in H. cbn [state_eqb] in H. apply bind_ok in H as ((go, s1) & E & H). unfold role_step2 in E. rewrite R in E. destruct ro.
      * injection E as <- <-. cbn [negb] in H. injection H as <- <-. auto.
      * apply bind_ok in E as (ok & CB & E). destruct ok; injection E as <- <-; cbn [negb] in H; [|injection H as <- <-; auto].
        rewrite (upd_nat _ _ _ _ Fk) in H. apply check_balance_ok in CB. right. eapply BALr; eauto.
      * apply bind_ok in E as (ok & CB & E). destruct ok; injection E as <- <-; cbn [negb] in H; [|injection H as <- <-; auto].
        rewrite (upd_nat _ _ _ _ Fk) in H. right. exact (OUTr _ H eq_refl eq_refl eq_refl eq_refl).
    + apply bind_ok in H as ((go, s1) & E & H). unfold role_step1 in E. rewrite R in E. destruct ro.
      * injection E as <- <-. cbn [negb] in H. injection H as <- <-. auto.
      * destruct (check_node_partition (n_partition n) (i_map s)) as [[]|]; try (injection E as <- <-; cbn [negb] in H; injection H as <- <-; auto; fail).
        apply bind_ok in E as (ok & CB & E). destruct ok; injection E as <- <-; cbn [negb] in H; [|injection H as <- <-; auto].
        rewrite (upd_nat _ _ _ _ Fk) in H. cbn [with_map i_map] in H. unfold nat_ in H. rewrite nfind_set, beq_refl in H. cbn [with_balance n_state] in H. rewrite St in H. cbn [state_eqb bind negb] in H.
        apply check_balance_ok in CB. right. eapply BALr; eauto.
      * injection E as <- <-. cbn [negb] in H. rewrite (upd_nat _ _ _ _ Fk) in H. cbn [with_map i_map] in H. unfold nat_ in H. rewrite nfind_set, beq_refl in H. cbn [with_state demoted with_balance with_part with_role n_state state_eqb] in H.
        unfold role_step2 in H. cbn [n_role bind negb] in H. right. exact (OUTr _ H eq_refl eq_refl eq_refl eq_refl).
    + apply bind_ok in H as ((go, s1) & E & H). unfold role_step1 in E. rewrite R in E. destruct ro.
      * injection E as <- <-. cbn [negb] in H. injection H as <- <-. auto.
      * destruct (check_node_partition (n_partition n) (i_map s)) as [[]|]; try (injection E as <- <-; cbn [negb] in H; injection H as <- <-; auto; fail).
        apply bind_ok in E as (ok & CB & E). destruct ok; injection E as <- <-; cbn [negb] in H; [|injection H as <- <-; auto].
        rewrite (upd_nat _ _ _ _ Fk) in H. cbn [with_map i_map] in H. unfold nat_ in H. rewrite nfind_set, beq_refl in H. cbn [with_balance n_state] in H. rewrite St in H. cbn [state_eqb bind negb] in H.
        apply check_balance_ok in CB. right. eapply BALr; eauto.
      * injection E as <- <-. cbn [negb] in H. rewrite (upd_nat _ _ _ _ Fk) in H. cbn [with_map i_map] in H. unfold nat_ in H. rewrite nfind_set, beq_refl in H. cbn [with_state demoted with_balance with_part with_role n_state state_eqb] in H.
        unfold role_step2 in H. cbn [n_role bind negb] in H. right. exact (OUTr _ H eq_refl eq_refl eq_refl eq_refl).
  - (* proxy *)
    cbn [role_eqb] in VK. destruct V as (Q & [St|St]); [|easy]. rewrite St in H. cbn [bind negb] in H. rewrite Nat, St in H. cbn [state_eqb] in H.
    apply bind_ok in H as ((go, s1) & E & H). unfold role_step2 in E. rewrite R in E. destruct ro.
    + destruct (check_node_partition_for_new p (i_parts s) (i_map s)) as [pr|] eqn:CN; [|injection E as <- <-; cbn [negb] in H; injection H as <- <-; auto].
      destruct (Z.leb_spec b 0); [injection E as <- <-; cbn [negb] in H; injection H as <- <-; auto|].
      set (st := if pr && negb (p =? 0) then Prepare else Active) in *. injection E as <- <-. cbn [negb] in H. rewrite (upd_nat _ _ _ _ Fk) in H.
      set (n' := with_part (with_balance (with_state (with_role n Master) st) b) p) in *.
      assert (ID : same_id n n') by repeat split.
      assert (Hp : 0 <= p). { pose proof (g_pos _ _ G). destruct (check_new_some P p s pr G SY CN) as [(_ & -> & _)|(_ & ? & _)]; lia. }
      assert (V' : valid_node n'). { unfold valid_node, n'. cbn [with_part with_balance with_state with_role n_role n_partition n_balance]. lia. }
      assert (NL : forall x nx, nfind x (i_map s) = Some nx -> n_role nx = Master -> n_partition nx = p -> n_state nx = Down).
      { intros x nx Fx Rx Qx. assert (X : mview (i_map s) x = Some (p, n_state nx)) by (rewrite (mview_find _ _ _ Fx); unfold role_view; rewrite Rx, Qx; reflexivity).
        destruct (check_new_some P p s pr G SY CN) as [(_ & -> & U)|(_ & _ & U)]; [exfalso; eapply U; eauto|eauto]. }
      assert (GVn : exists P', gview P' (vset (mview (i_map s)) k (Some (p, st)))).
      { destruct (check_new_some P p s pr G SY CN) as [(-> & -> & U)|(-> & HpP & U)]; unfold st; cbn [andb].
        - destruct (Z.eqb_spec P 0) as [->|]; cbn [negb]; [exists 1; now apply gview_first|exists P; apply gview_new; auto]. unfold settled_st. intuition congruence.
        - exists P. apply gview_up; eauto. }
      destruct GVn as (P' & GVn).
      assert (G' : good P' (nset k n' (i_map s))).
      { refine (good_set P P' _ k n _ G Fk ID V' _ _); change (role_view n') with (Some (p, st)); auto.
        intros x nx. rewrite nfind_set. intros Fx Rx. destruct (beq_spec x k) as [->|]; [injection Fx as <-; discriminate|].
        destruct (SM _ _ Fx Rx) as (z & t & Z). exists z, t. unfold vset. destruct (beq_spec z k) as [->|]; [congruence|auto]. }
      destruct (FIN _ _ _ H eq_refl eq_refl eq_refl ID G') as (-> & X & Y & Z & W). right. exists n, P'. split; auto. split; auto. split; auto. split; [|auto].
      unfold role_set. rewrite R. split; [|exact Y]. exists st. split; [lia|]. split; auto. split; [unfold st; destruct (_ && _); auto|]. auto.
    + destruct (check_node_partition p (i_map s)) as [pr|] eqn:CN; [|injection E as <- <-; cbn [negb] in H; injection H as <- <-; auto].
      set (b' := if pr then Z.max b 0 else 0) in *. injection E as <- <-. cbn [negb] in H. rewrite (upd_nat _ _ _ _ Fk) in H.
      destruct (check_partition_some P p _ _ G CN) as (Hp & x & nx & Fx & Rx & Lx & Qx).
      set (n' := with_part (with_balance (with_state (with_role n Slave) Prepare) b') p) in *.
      assert (ID : same_id n n') by repeat split. assert (Hb' : 0 <= b') by (unfold b'; destruct pr; lia).
      assert (G' : good P (nset k n' (i_map s))).
      { refine (good_minor P _ k n _ G Fk ID _ _ _).
        - unfold valid_node, live, n'. cbn [with_part with_balance with_state with_role n_role n_partition n_balance n_state]. repeat split; auto; easy.
        - unfold role_view. rewrite R. reflexivity.
        - intros _. exists x, (n_state nx). rewrite (mview_find _ _ _ Fx). unfold role_view. rewrite Rx, Qx. reflexivity. }
      destruct (FIN _ _ _ H eq_refl eq_refl eq_refl ID G') as (-> & X & Y & Z & W). right. exists n, P. split; auto. split; auto. split; auto. split; [|auto].
      unfold role_set. rewrite R. split; [|exact Y]. exists b'. split; auto. split; auto. eauto 6.
    + injection E as <- <-. cbn [negb] in H. right. exists n, P. apply (commit_ok f _ P) in H as (I' & -> & M' & T' & V'); auto.
      split; auto. split; auto. split; auto. split; [|auto]. unfold role_set. rewrite R. auto.
Qed.

(** *** Restart *)
Lemma restart_spec P f s r s' : inv P s -> restart f s = Ok (r, s') -> s' = s /\ r = 0.
Proof.
  intros [G T SY D] H. unfold restart in H. destruct (f_begin f); cbn [negb] in H; [|easy].
  destruct (load f (fresh_index (i_disk s))) as (ok, s0) eqn:L. destruct ok; cbn [negb] in H; [|easy].
  unfold load in L. destruct (f_load f); cbn [negb] in L; [|congruence].
  destruct D as [D|(D & ->)].
  - rewrite D in L. cbn [fresh_index i_disk v_map v_thread v_version] in L. injection L as _ <-. cbn [i_map] in H.
    destruct (good_reconstruct P (i_map s) (fun _ => false) G) as (a & b & E & O1 & O2 & M & Q). rewrite E in H. cbn [with_tables i_map i_thread i_version i_disk] in H.
    injection H as <- <-. split; auto. destruct SY as (P1 & P2 & M' & Q').
    assert (a = i_parts s) as -> by (apply pmap_ext; auto; intros; now rewrite M, M').
    assert (b = i_prep s) as -> by (apply pmap_ext; auto; intros; now rewrite Q, Q').
    destruct s; cbn in *. now rewrite D.
  - cbn in L. injection L as <-. cbn in H. injection H as <- <-. auto.
Qed.
(** A restart with a working coordinator succeeds. *)
Lemma restart_works P f s : inv P s -> f_begin f = true -> f_load f = true -> restart f s = Ok (0, s).
Proof.
  intros I B L. assert (LT := load_true f s P I L). assert (exists r s', restart f s = Ok (r, s')) as (r & s' & H).
  { destruct I as [G T SY D]. unfold restart, load in *. rewrite B, L in *. cbn [negb fresh_index i_disk] in *.
    destruct D as [D|(D & ->)]; rewrite ?D in *; cbn [v_map v_thread v_version i_map i_thread] in *.
    - injection LT as LT _. rewrite LT. cbn [negb]. destruct (good_reconstruct P (i_map s) (fun _ => false) G) as (a & b & E & _). rewrite E. eauto.
    - cbn. eauto. }
  destruct (restart_spec P f s r s' I H) as (-> & ->). exact H.
Qed.

(** ** All histories *)
Lemma good_empty : good 0 [].
Proof.
  constructor; try easy; try lia; try constructor. 2:{ intros H; lia. }
  intros (k & n & F & _). discriminate.
Qed.
Lemma inv_fresh : inv 0 (fresh_index None).
Proof.
  constructor; cbn [fresh_index i_map i_thread].
  - apply good_empty.
  - split; [lia|]. split; [intros k n; discriminate|intros ? ? ? ?; discriminate].
  - repeat split; constructor.
  - right. auto.
Qed.
Lemma not_abandons s e k n : ~ abandons s e -> target e = Some k -> nfind k (i_map s) = Some n -> n_role n = Master -> n_state n = Down ->
  others_live (i_map s) k (n_partition n) -> exists k' n', nfind k' (i_map s) = Some n' /\ live n' /\ n_role n' = Master /\ n_partition n' = n_partition n.
Proof.
  intros NA T F R S (k' & n' & Nk & F' & L & Q).
  set (f := fun kn : bytes * node => role_eqb (n_role (snd kn)) Master && negb (state_eqb (n_state (snd kn)) Down) && (n_partition (snd kn) =? n_partition n)).
  destruct (existsb f (filter (fun kn => match nfind (fst kn) (i_map s) with Some _ => true | None => false end) (i_map s))) eqn:E.
  - apply existsb_exists in E as ((x, nx) & I & E). apply filter_In in I as (I & _).
    (* the first entry under this key is the one found *)
    destruct (nfind x (i_map s)) as [ny|] eqn:Fx.
    + destruct (existsb (fun kn => f kn && match nfind (fst kn) (i_map s) with Some m => role_eqb (n_role m) Master && negb (state_eqb (n_state m) Down) && (n_partition m =? n_partition n) | None => false end) (i_map s)) eqn:E2.
      * apply existsb_exists in E2 as ((y, nz) & _ & E2). apply andb_prop in E2 as (_ & E2). cbn [fst] in E2. destruct (nfind y (i_map s)) as [m|] eqn:Fy; [|easy].
        exists y, m. split; auto. destruct (role_eqb_spec (n_role m) Master); [|easy]. unfold live. destruct (state_eqb_spec (n_state m) Down); [easy|]. destruct (Z.eqb_spec (n_partition m) (n_partition n)); [|easy]. auto.
      * exfalso. apply NA. exists k, n. repeat split; auto; [exists k', n'; auto|]. intros y m Fy Ly Ry Qy.
        assert (I' : In (y, m) (i_map s)) by (apply (mfind_in beq beq_iff); exact Fy).
        apply (existsb_false _ _ E2) in I'. unfold f in I'. cbn [fst snd] in I'. rewrite Fy, Ry, Qy, Z.eqb_refl in I'. unfold live in Ly. destruct (n_state m); easy.
    + exfalso. apply mfind_none in Fx; [|apply beq_iff]. apply Fx. change x with (fst (x, nx)). now apply in_map.
  - exfalso. apply NA. exists k, n. repeat split; auto; [exists k', n'; auto|]. intros y m Fy Ly Ry Qy.
    assert (I' : In (y, m) (filter (fun kn => match nfind (fst kn) (i_map s) with Some _ => true | None => false end) (i_map s))).
    { apply filter_In. split; [apply (mfind_in beq beq_iff); exact Fy|]. cbn [fst]. now rewrite Fy. }
    apply (existsb_false _ _ E) in I'. unfold f in I'. cbn [snd] in I'. rewrite Ry, Qy, Z.eqb_refl in I'. unfold live in Ly. destruct (n_state m); easy.
Qed.
Lemma step_inv P f s e r s' : inv P s -> f_save f = SaveOk -> ~ abandons s e -> handle f s e = Ok (r, s') -> exists P', inv P' s'.
Proof.
  intros I F NA H. destruct e as [h p|h p|h p ro b q|h p st|]; cbn [handle] in H.
  - destruct (add_node_spec P f s h p r s' I F H) as [(-> & _)|(_ & ? & _)]; eauto.
  - destruct (remove_node_spec P f s _ r s' I F H) as [(-> & _)|(n & _ & _ & _ & _ & _ & _ & ? & _)]; eauto. intros n. apply (not_abandons s _ _ n NA). reflexivity.
  - destruct (set_role_spec P f s _ ro b q r s' I F H) as [(-> & _)|(n & P' & _ & _ & _ & _ & ? & _)]; eauto.
  - destruct st; cbn [set_node_state] in H.
    + destruct (up_node_spec P f s _ r s' I F H) as [->|(n & P' & _ & _ & _ & ? & _)]; eauto. intros n. apply (not_abandons s _ _ n NA). reflexivity.
    + injection H as <- <-. eauto.
    + destruct (down_node_spec P f s _ r s' I F H) as [(-> & _)|(n & _ & _ & _ & _ & ? & _)]; eauto.
    + destruct (ready_node_spec P f s _ r s' I F H) as [(-> & _)|(n & _ & _ & _ & _ & _ & ? & _)]; eauto.
  - destruct (restart_spec P f s r s' I H) as (-> & _). eauto.
Qed.
Lemma history_inv s : history s -> exists P, inv P s.
Proof.
  induction 1 as [|f s e r s' _ (P & I) F NA H].
  - exists 0. apply inv_fresh.
  - eapply step_inv; eauto.
Qed.
