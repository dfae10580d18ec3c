(** Lemmas on what startup and reload put in force. *)
From Coq Require Import List NArith ZArith Bool String Lia.
From Coq Require Import ZifyBool ZifyNat ZifyN.
From Verif Require Import Base BaseLemmas TextModel ConfigModel ConfigSpec ConfigProofs.
Import ListNotations.
Local Open Scope string_scope.
Local Open Scope Z_scope.
Local Open Scope list_scope.

(** ** load *)
Definition load_fields (fqdn : bytes) (vm : vmap) : fields := fields_after vm (node_load_steps fqdn) node_defaults.

Lemma load_value fqdn vm o : sensible vm -> of_node o -> ~ of_servers o ->
  load_fields fqdn vm o
  = match vm o with Some v => v | None => default fqdn (load_fields fqdn vm ProxyConcurrency) o end.
Proof.
  intros S H1 H2. destruct (vm o) as [v|] eqn:E.
  - transitivity (assigned o v); [|apply (sensible_assigned _ _ _ S E)].
    destruct o; first [ exfalso; apply H1; cbn; tauto | exfalso; apply H2; unfold of_servers; tauto | idtac ];
      lazy -[assigned]; rewrite !E; reflexivity.
  - destruct o; first [ exfalso; apply H1; cbn; tauto | exfalso; apply H2; unfold of_servers; tauto | idtac ];
      lazy -[assigned]; rewrite ?E; reflexivity.
Qed.

(** ** The members a running node may have *)
Definition member_ok (f : fields) (o : opt) : Prop := typed (kind_of o) (f o) /\ in_range o (f o).
Definition sound (f : fields) : Prop :=
  (forall o, In o (ReplConcurrency :: reloadable) -> member_ok f o)
  /\ known_replication (str (f ReplicationType)) = true /\ known_mode (str (f ReplMode)) = true.

Lemma load_passes fqdn vm f0 : sensible vm -> all_pass vm f0 (node_load_steps fqdn) ->
  (forall s, vm ReplicationType = Some (Str s) -> known_replication s = true)
  /\ (forall s, vm ReplMode = Some (Str s) -> known_mode s = true)
  /\ index_servers vm <> None.
Proof.
  intros S. unfold node_load_steps. cbn [all_pass].
  assert (A : forall f, passes vm f (Checked ReplicationType known_replication) <->
    (forall s, vm ReplicationType = Some (Str s) -> known_replication s = true)) by (intros; apply checked_pass; auto).
  assert (B : forall f, passes vm f (Checked ReplMode known_mode) <->
    (forall s, vm ReplMode = Some (Str s) -> known_mode s = true)) by (intros; apply checked_pass; auto).
  rewrite A, B. change (passes vm ?f Servers) with (index_servers vm <> None).
  intros H. decompose [and] H. auto.
Qed.

Lemma default_ok fqdn c o : In o reloadable -> typed (kind_of o) (default fqdn c o) /\ in_range o (default fqdn c o).
Proof. intros H. cbn in H. decompose [or] H; subst; try contradiction; cbn; lia || auto. Qed.

Lemma load_sound fqdn vm : sensible vm ->
  (forall s, vm ReplicationType = Some (Str s) -> known_replication s = true) ->
  (forall s, vm ReplMode = Some (Str s) -> known_mode s = true) ->
  sound (load_fields fqdn vm).
Proof.
  intros S R M.
  assert (N : forall o, In o (ReplConcurrency :: reloadable) -> of_node o /\ ~ of_servers o).
  { intros o H. cbn in H. unfold of_node, of_servers.
    decompose [or] H; subst; try contradiction; (split; [cbn; intuition discriminate|intuition discriminate]). }
  split; [|split].
  - intros o H. destruct (N o H) as [N1 N2]. unfold member_ok. rewrite (load_value fqdn vm o S N1 N2).
    destruct (vm o) as [v|] eqn:E; [apply (S _ _ E)|].
    destruct H as [<-|H]; [|apply default_ok; exact H].
    change (default fqdn (load_fields fqdn vm ProxyConcurrency) ReplConcurrency) with (load_fields fqdn vm ProxyConcurrency).
    assert (P : of_node ProxyConcurrency /\ ~ of_servers ProxyConcurrency)
      by (unfold of_node, of_servers; cbn; intuition discriminate).
    rewrite (load_value fqdn vm ProxyConcurrency S (proj1 P) (proj2 P)).
    destruct (vm ProxyConcurrency) as [v|] eqn:F; [|cbn; lia].
    destruct (S _ _ F) as [T I]. destruct v; cbn in *; auto.
  - destruct (N ReplicationType) as [N1 N2]; [cbn; tauto|]. rewrite (load_value fqdn vm _ S N1 N2).
    destruct (vm ReplicationType) as [v|] eqn:E; [|reflexivity].
    destruct (text_typed vm ReplicationType v S eq_refl E) as [s ->]. apply R. reflexivity.
  - destruct (N ReplMode) as [N1 N2]; [cbn; tauto|]. rewrite (load_value fqdn vm _ S N1 N2).
    destruct (vm ReplMode) as [v|] eqn:E; [|reflexivity].
    destruct (text_typed vm ReplMode v S eq_refl E) as [s ->]. apply M. reflexivity.
Qed.

(** ** reload keeps the members sound, whether it is accepted or not *)
Lemma taken_ok vm o f o' : sensible vm -> member_ok f o' -> member_ok (taken vm o f) o'.
Proof.
  intros S M. unfold member_ok. rewrite taken_value by exact S.
  destruct (opt_eq_dec o o') as [<-|]; [|exact M].
  destruct (vm o) as [v|] eqn:E; [apply (S _ _ E)|exact M].
Qed.

Lemma effect_sound vm f s : sensible vm -> In s node_reload_steps -> passes vm f s -> sound f ->
  sound (effect vm s f).
Proof.
  intros S H P (A & B & C).
  assert (T : forall o, In o (ReplConcurrency :: reloadable) -> member_ok (effect vm s f) o).
  { intros o Ho. specialize (A o Ho). cbn in H. decompose [or] H; subst; try contradiction; cbn [effect];
      first [apply taken_ok; assumption|exact A]. }
  split; [exact T|]. cbn in H.
  decompose [or] H; subst; try contradiction; cbn [effect]; try (split; [exact B|exact C]);
    rewrite !taken_value by exact S;
    (destruct (opt_eq_dec _ ReplicationType) as [D|D]; [try discriminate D|]);
    (destruct (opt_eq_dec _ ReplMode) as [D'|D']; [try discriminate D'|]); try (split; [exact B|exact C]).
  - split; [|exact C]. cbn in P. destruct (vm ReplicationType) as [[z|v|b]|] eqn:E; try contradiction; auto.
  - split; [exact B|]. cbn in P. destruct (vm ReplMode) as [[z|v|b]|] eqn:E; try contradiction; auto.
Qed.

Lemma steps_sound vm l : forall f, sensible vm -> (forall s, In s l -> In s node_reload_steps) ->
  all_pass vm f l -> sound f -> sound (fields_after vm l f).
Proof.
  induction l as [|s l IH]; intros f S I P F; [exact F|]. destruct P as [P Q].
  apply (IH (effect vm s f)); auto; [intros; apply I; right; assumption|].
  apply effect_sound; auto. apply I. left. reflexivity.
Qed.

Lemma written_reloadable s o : In s node_reload_steps -> In o (written s) -> In o reloadable.
Proof.
  intros H I. change reloadable with (flat_map written node_reload_steps). apply in_flat_map. eauto.
Qed.

Lemma steps_static vm l : forall f o, sensible vm -> (forall s, In s l -> In s node_reload_steps) ->
  ~ In o reloadable -> fields_after vm l f o = f o.
Proof.
  intros f o S I N. rewrite fields_plain; [|exact S|].
  - destruct (in_dec opt_eq_dec o (flat_map written l)) as [H|]; [|reflexivity].
    exfalso. apply N. apply in_flat_map in H as (s & Hs & Ho). apply (written_reloadable s); auto.
  - apply forallb_forall. intros s Hs. apply I in Hs. cbn in Hs.
    decompose [or] Hs; subst; try contradiction; reflexivity.
Qed.

(** ** A node that goes by its members *)
Definition governed (l : live) : Prop :=
  let f := field (l_ini l) in
  l_facility l = str (f LogFacility) /\ l_timeout l = num (f NetReadTimeout) * 1000
  /\ l_servers l = servers (l_ini l) /\ l_interval l = num (f ReconInterval)
  /\ l_bwlimit l = num (f ReconBwlimit)
  /\ (exists b, l_replication l = replication_cast (str (f ReplicationType)) b)
  /\ l_pool_req l = size_of (num (f ThreadPool)) /\ l_pool_other l = size_of (num (f ThreadPool))
  /\ l_queue l = num (f MaxQueue) /\ l_noreply l = num (f NoreplyWindow)
  /\ l_watch l = (if flag (f WatcherEnabled) then Some (num (f WatcherInterval)) else None)
  /\ l_warn l = num (f ThresholdWarn) /\ l_ping_ng l = num (f ThresholdPingNg)
  /\ Some (l_mode l) = mode_cast (str (f ReplMode))
  /\ l_dest l = (if flag (f ClusterRepl)
                 then Some (str (f ReplName), num (f ReplPort), num (f ReplConcurrency)) else None).

Lemma known_replication_cases s : known_replication s = true -> s = s2b "async" \/ s = s2b "sync".
Proof.
  unfold known_replication, one_of. cbn [existsb]. rewrite orb_false_r.
  intros H. apply orb_true_iff in H as [H|H]; apply beq_eq in H; auto.
Qed.
Lemma known_mode_cases s : known_mode s = true -> s = s2b "duplicate" \/ s = s2b "forward".
Proof.
  unfold known_mode, one_of. cbn [existsb]. rewrite orb_false_r.
  intros H. apply orb_true_iff in H as [H|H]; apply beq_eq in H; auto.
Qed.
Lemma known_mode_cast s : known_mode s = true -> exists m, mode_cast s = Some m.
Proof. intros H. destruct (known_mode_cases s H) as [-> | ->]; [exists Duplicate|exists Forward]; reflexivity. Qed.

Ltac member A o T I := destruct (A o) as [T I]; [cbn; tauto|].

Lemma governed_honest l : sound (field (l_ini l)) ->
  (forall o, ~ In o reloadable -> l_start l o = field (l_ini l) o) -> governed l -> honest l.
Proof.
  intros (A & B & C) St G. unfold governed in G.
  remember (field (l_ini l)) as f eqn:Ef.
  destruct G as (g1 & g2 & g3 & g4 & g5 & (b & g6) & g7 & g8 & g9 & g10 & g11 & g12 & g13 & g14 & g15).
  assert (Static : forall o, ~ In o reloadable -> o <> ReplConcurrency -> goes_by l o (f o)).
  { intros o N D. assert (G : ~ In o reloadable /\ l_start l o = f o) by (split; [exact N|apply St; exact N]).
    destruct o; try exact G; try (exfalso; apply N; cbn; tauto); congruence. }
  split; [|exact g3].
  rewrite <- Ef. intros o. destruct (in_dec opt_eq_dec o (ReplConcurrency :: reloadable)) as [H|H].
  2: { apply Static; [|]; intros D; apply H; [right; exact D|left; congruence]. }
  destruct (A o H) as [T I]. cbn in H.
  decompose [or] H; try contradiction; subst o; clear H Static A; unfold goes_by.
  - assert (E : l_start l ReplConcurrency = f ReplConcurrency) by (apply St; cbn; intuition discriminate).
    destruct (f ReplConcurrency) as [z|s|b']; try contradiction. split; [exact E|].
    intros n p c D. rewrite g15 in D. destruct (flag (f ClusterRepl)); [|discriminate].
    injection D as _ _ <-. reflexivity.
  - destruct (f LogFacility); try contradiction. exact g1.
  - unfold takes_connection. rewrite <- Ef.
    destruct (f MaxConnection); try contradiction. cbn [num]. intros t. rewrite Z.leb_antisym, negb_involutive. reflexivity.
  - destruct (f NetReadTimeout); try contradiction. rewrite g2. cbn [num]. lia.
  - destruct (f ReconInterval); try contradiction. exact g4.
  - destruct (f ReconBwlimit); try contradiction. exact g5.
  - destruct (f ReplicationType) as [z|s|b']; try contradiction. cbn [str] in *. rewrite g6.
    destruct (known_replication_cases s B) as [-> | ->]; [left|right]; split; reflexivity.
  - destruct (f ThreadPool) as [z|s|b']; try contradiction. cbn [num] in *. rewrite g7, g8. unfold size_of.
    cbn in T, I. rewrite Z.mod_small; [auto|]. split; [exact I|]. destruct T as [_ T].
    eapply Z.lt_trans; [exact T|reflexivity].
  - destruct (f MaxQueue); try contradiction. exact g9.
  - destruct (f NoreplyWindow); try contradiction. exact g10.
  - destruct (f WatcherEnabled) as [z|s|b']; try contradiction. rewrite g11. cbn [flag].
    destruct b'; split; congruence.
  - destruct (f WatcherInterval) as [z|s|b']; try contradiction. intros t. rewrite g11. cbn [num].
    destruct (flag (f WatcherEnabled)); congruence.
  - destruct (f ThresholdWarn); try contradiction. exact g12.
  - destruct (f ThresholdPingNg); try contradiction. exact g13.
  - destruct (f ClusterRepl) as [z|s|b']; try contradiction. rewrite g15. cbn [flag].
    destruct b'; split; congruence.
  - destruct (f ReplName) as [z|s|b']; try contradiction. intros n p c. rewrite g15. cbn [str].
    destruct (flag (f ClusterRepl)); congruence.
  - destruct (f ReplPort) as [z|s|b']; try contradiction. intros n p c. rewrite g15. cbn [num].
    destruct (flag (f ClusterRepl)); congruence.
  - destruct (f ReplMode) as [z|s|b']; try contradiction. cbn [str] in *.
    destruct (known_mode_cases s C) as [-> | ->]; [left|right]; (split; [reflexivity|]).
    + change (mode_cast (s2b "duplicate")) with (Some Duplicate) in g14. congruence.
    + change (mode_cast (s2b "forward")) with (Some Forward) in g14. congruence.
Qed.

(** ** startup *)
Lemma timeout_ok f : member_ok f NetReadTimeout -> timeout_of (num (f NetReadTimeout)) = Ok (num (f NetReadTimeout) * 1000).
Proof.
  intros [T I]. destruct (f NetReadTimeout) as [z|s|b]; try contradiction. cbn in *. unfold timeout_of.
  replace ((- 2147483648 <=? z * 1000) && (z * 1000 <=? 2147483647)) with true by lia. reflexivity.
Qed.
Lemma concurrency_pos f : member_ok f ReplConcurrency -> (num (f ReplConcurrency) <=? 0) = false.
Proof. intros [T I]. destruct (f ReplConcurrency) as [z|s|b]; try contradiction. cbn in *. lia. Qed.

Lemma start_ok fqdn cli file master l : sensible cli -> read_ok file ->
  node_start fqdn cli file master = Ok l ->
  exists vm, with_file (names_path cli) cli file = Some vm /\ sensible vm
    /\ field (l_ini l) = load_fields fqdn vm /\ index_servers vm = Some (servers (l_ini l))
    /\ sound (field (l_ini l)) /\ l_start l = field (l_ini l) /\ governed l.
Proof.
  intros Sc Rf. unfold node_start, node_load.
  destruct (with_file (names_path cli) cli file) as [vm|] eqn:W; [|discriminate].
  assert (S : sensible vm).
  { unfold with_file in W. destruct (names_path cli); [|injection W as <-; exact Sc]. destruct file as [g|]; [|discriminate].
    injection W as <-. apply merge_sensible; [exact Sc|apply Rf]. }
  destruct (run_steps vm (mkIni node_defaults []) (node_load_steps fqdn)) as [i [|]] eqn:R; [|discriminate].
  apply run_true in R as [P Ei]. cbn [field servers] in *.
  destruct (load_passes _ _ _ S P) as (p1 & p2 & p3).
  pose proof (load_sound fqdn vm S p1 p2) as So.
  assert (Ef : field i = load_fields fqdn vm) by (rewrite Ei; reflexivity).
  assert (Es : index_servers vm = Some (servers i)).
  { rewrite Ei. cbn [servers]. destruct (index_servers vm) as [sv|] eqn:E; [|congruence].
    cbn. rewrite E. reflexivity. }
  clear Ei. rewrite <- Ef in So. remember (field i) as f eqn:Efi.
  rewrite (timeout_ok f) by (apply So; cbn; tauto). cbn [bind].
  destruct (known_mode_cast _ (proj2 (proj2 So))) as [m Em]. rewrite Em.
  intros H. exists vm. split; [reflexivity|]. split; [exact S|].
  destruct (flag (f ClusterRepl)) eqn:Ec.
  - unfold repl_start in H. cbn [l_dest] in H. rewrite (concurrency_pos f) in H by (apply So; cbn; tauto).
    injection H as <-. cbn [l_ini l_start]. rewrite <- Efi.
    do 3 (split; [assumption|]). split; [reflexivity|].
    unfold governed. cbn [l_ini l_facility l_timeout l_servers l_interval l_bwlimit l_replication l_pool_req
      l_pool_other l_queue l_noreply l_watch l_warn l_ping_ng l_mode l_dest]. rewrite <- Efi, Em, Ec.
    repeat split. eexists. reflexivity.
  - injection H as <-. cbn [l_ini l_start]. rewrite <- Efi.
    do 3 (split; [assumption|]). split; [reflexivity|].
    unfold governed. cbn [l_ini l_facility l_timeout l_servers l_interval l_bwlimit l_replication l_pool_req
      l_pool_other l_queue l_noreply l_watch l_warn l_ping_ng l_mode l_dest]. rewrite <- Efi, Em, Ec.
    repeat split. eexists. reflexivity.
Qed.

(** ** reload *)
(** what holds of every node that lived *)
Definition inv (l : live) : Prop :=
  sound (field (l_ini l))
  /\ (forall o, ~ In o reloadable -> l_start l o = field (l_ini l) o)
  /\ (forall n p c, l_dest l = Some (n, p, c) -> c = num (field (l_ini l) ReplConcurrency)).

(** what reload() reads *)
Definition read_by (l : live) (file : option vmap) : option vmap :=
  with_file (has_path (field (l_ini l))) no_options file.
Lemma read_sensible l file vm : read_ok file -> read_by l file = Some vm -> sensible vm.
Proof.
  unfold read_by, with_file. destruct (has_path _); [|intros _ [= <-]; apply no_options_sensible].
  destruct file as [g|]; [|discriminate]. intros [S _] [= <-]. exact S.
Qed.

Lemma reload_true l file master l' : inv l -> read_ok file -> reload l file master = Ok (l', true) ->
  exists vm, read_by l file = Some vm /\ legal vm
    /\ (forall o, field (l_ini l') o = wanted (field (l_ini l)) vm o)
    /\ index_servers vm = Some (servers (l_ini l'))
    /\ l_start l' = l_start l
    /\ sound (field (l_ini l')) /\ governed l'
    /\ l_dumps l' = dumps_after l l' master.
Proof.
  intros (So & St & Co) Rf. unfold reload, node_reload. fold (read_by l file).
  destruct (read_by l file) as [vm|] eqn:W; [|discriminate].
  pose proof (read_sensible _ _ _ Rf W) as S.
  destruct (run_steps vm (l_ini l) node_reload_steps) as [i [|]] eqn:R; [|discriminate].
  apply run_true in R as [P Ei].
  assert (So' : sound (field i)).
  { rewrite Ei. cbn [field]. apply steps_sound; auto. }
  assert (Ef : forall o, field i o = wanted (field (l_ini l)) vm o).
  { intros o. rewrite Ei. cbn [field]. apply reload_fields. exact S. }
  assert (Es : index_servers vm = Some (servers i)).
  { rewrite Ei. cbn [servers]. apply (reload_passes vm _ S) in P as (_ & _ & p).
    destruct (index_servers vm) as [sv|] eqn:E; [|congruence]. cbn. rewrite E. reflexivity. }
  assert (L : legal vm) by (apply (reload_passes vm (field (l_ini l))); assumption).
  assert (Rc : field i ReplConcurrency = field (l_ini l) ReplConcurrency).
  { rewrite Ef. unfold wanted. destruct (in_dec opt_eq_dec ReplConcurrency reloadable) as [H|]; [|reflexivity].
    cbn in H. decompose [or] H; try discriminate; contradiction. }
  clear Ei. remember (field i) as f eqn:Efi.
  rewrite (timeout_ok f) by (apply So'; cbn; tauto). cbn [bind l_start l_replication l_mode l_dest l_dumps].
  destruct (known_mode_cast _ (proj2 (proj2 So'))) as [m Em]. rewrite Em.
  assert (Cp : (num (f ReplConcurrency) <=? 0) = false) by (apply concurrency_pos; apply So'; cbn; tauto).
  intros H. exists vm. split; [reflexivity|]. split; [exact L|].
  assert (G : forall l2, l_ini l2 = i -> l_start l2 = l_start l -> governed l2 -> l_dumps l2 = dumps_after l l2 master ->
    (forall o, field (l_ini l2) o = wanted (field (l_ini l)) vm o)
    /\ index_servers vm = Some (servers (l_ini l2)) /\ l_start l2 = l_start l /\ sound (field (l_ini l2))
    /\ governed l2 /\ l_dumps l2 = dumps_after l l2 master).
  { intros l2 E1 E2 G D. rewrite E1, <- Efi. repeat (split; [assumption|]). assumption. }
  assert (Rt : exists b, replication_cast (str (f ReplicationType)) (l_replication l) = replication_cast (str (f ReplicationType)) b)
    by (eexists; reflexivity).
  destruct (flag (f ClusterRepl)) eqn:Ec.
  - destruct (l_dest l) as [[[n p] c]|] eqn:D.
    + destruct (beq (str (f ReplName)) n) eqn:B1; cbn [negb orb] in H.
      * destruct (num (f ReplPort) =? p) eqn:B2; cbn [negb] in H.
        -- unfold repl_start in H. cbn [l_dest] in H. rewrite ?D in H. injection H as <-.
           apply beq_eq in B1. apply Z.eqb_eq in B2. specialize (Co _ _ _ eq_refl). rewrite <- Rc in Co.
           apply G; [reflexivity..| |].
           ++ unfold governed. cbn [l_ini l_facility l_timeout l_servers l_interval l_bwlimit l_replication l_pool_req
                l_pool_other l_queue l_noreply l_watch l_warn l_ping_ng l_mode l_dest]. rewrite <- Efi, Em, Ec, ?D.
              subst n p c. repeat split. exact Rt.
           ++ unfold dumps_after. cbn [l_dest l_mode l_dumps]. rewrite D. 
              replace (beq n n) with true by (symmetry; apply beq_eq; reflexivity). rewrite Z.eqb_refl.
              rewrite andb_false_r. reflexivity.
        -- unfold repl_start, repl_stop, with_dest in H. cbn [l_dest l_mode l_dumps] in H. rewrite Cp in H.
           injection H as <-. apply G; [reflexivity..| |].
           ++ unfold governed. cbn [l_ini l_facility l_timeout l_servers l_interval l_bwlimit l_replication l_pool_req
                l_pool_other l_queue l_noreply l_watch l_warn l_ping_ng l_mode l_dest]. rewrite <- Efi, Em, Ec.
              repeat split. exact Rt.
           ++ unfold dumps_after. cbn [l_dest l_mode l_dumps]. rewrite D, B1, B2.
              destruct m, master; reflexivity.
      * unfold repl_start, repl_stop, with_dest in H. cbn [l_dest l_mode l_dumps] in H. rewrite Cp in H.
        injection H as <-. apply G; [reflexivity..| |].
        ++ unfold governed. cbn [l_ini l_facility l_timeout l_servers l_interval l_bwlimit l_replication l_pool_req
             l_pool_other l_queue l_noreply l_watch l_warn l_ping_ng l_mode l_dest]. rewrite <- Efi, Em, Ec.
           repeat split. exact Rt.
        ++ unfold dumps_after. cbn [l_dest l_mode l_dumps]. rewrite D, B1. destruct m, master; reflexivity.
    + unfold repl_start in H. cbn [l_dest l_mode l_dumps] in H. rewrite Cp in H.
      injection H as <-. apply G; [reflexivity..| |].
      * unfold governed. cbn [l_ini l_facility l_timeout l_servers l_interval l_bwlimit l_replication l_pool_req
          l_pool_other l_queue l_noreply l_watch l_warn l_ping_ng l_mode l_dest]. rewrite <- Efi, Em, Ec.
        repeat split. exact Rt.
      * unfold dumps_after. cbn [l_dest l_mode l_dumps]. rewrite D. destruct m, master; reflexivity.
  - injection H as <-. apply G; [reflexivity..| |].
    + unfold governed, repl_stop, with_dest. cbn [l_ini l_facility l_timeout l_servers l_interval l_bwlimit l_replication l_pool_req
        l_pool_other l_queue l_noreply l_watch l_warn l_ping_ng l_mode l_dest]. rewrite <- Efi, Em, Ec.
      repeat split. exact Rt.
    + reflexivity.
Qed.

Lemma reload_false l file master l' : inv l -> read_ok file -> reload l file master = Ok (l', false) ->
  same_but_limit l l' /\ sound (field (l_ini l'))
  /\ (forall o, ~ In o reloadable -> field (l_ini l') o = field (l_ini l) o)
  /\ (read_by l file = None -> l_ini l' = l_ini l)
  /\ (forall vm, read_by l file = Some vm -> ~ legal vm
       /\ exists done, all_pass vm (field (l_ini l)) done /\ (exists s rest, node_reload_steps = done ++ s :: rest)
            /\ l_ini l' = mkIni (fields_after vm done (field (l_ini l))) (servers_after vm done (servers (l_ini l)))).
Proof.
  intros (So & St & Co) Rf. unfold reload, node_reload. fold (read_by l file).
  destruct (read_by l file) as [vm|] eqn:W.
  - pose proof (read_sensible _ _ _ Rf W) as S.
    destruct (run_steps vm (l_ini l) node_reload_steps) as [i ok] eqn:R. destruct ok.
    + unfold bind. destruct (timeout_of _); try discriminate. 
      destruct (mode_cast _); [|discriminate]. destruct (flag _); [|discriminate].
      match goal with |- context [repl_start ?a ?b ?c ?d ?e] => destruct (repl_start a b c d e) end; discriminate.
    + intros H. pose proof R as R0. apply run_false in R as (d & s & r & El & P & NP & Ei).
      injection H as <-. cbn [l_ini].
      assert (I : forall s, In s d -> In s node_reload_steps)
        by (intros s' Hs; rewrite El; apply in_or_app; left; exact Hs).
      split; [unfold same_but_limit, same_force; cbn; repeat split|].
      split; [rewrite Ei; cbn [field]; apply steps_sound; auto|].
      split; [intros o N; rewrite Ei; cbn [field]; apply steps_static; auto|].
      split; [discriminate|]. intros vm' [= <-]. split.
      * intros L. apply (reload_passes vm (field (l_ini l))) in L; [|exact S].
        apply run_pass in L. congruence.
      * exists d. repeat split; eauto.
  - intros [= <-]. cbn [l_ini]. split; [unfold same_but_limit, same_force; cbn; repeat split|].
    split; [exact So|]. split; [reflexivity|]. split; [reflexivity|discriminate].
Qed.

Lemma inv_start fqdn cli file master l : sensible cli -> read_ok file ->
  node_start fqdn cli file master = Ok l -> inv l.
Proof.
  intros Sc Rf H. destruct (start_ok _ _ _ _ _ Sc Rf H) as (vm & _ & _ & _ & _ & So & St & G).
  split; [exact So|]. split; [intros; rewrite St; reflexivity|].
  intros n p c D. destruct G as (_ & _ & _ & _ & _ & _ & _ & _ & _ & _ & _ & _ & _ & _ & G). rewrite G in D.
  destruct (flag _); congruence.
Qed.
Lemma wanted_static f vm o : ~ In o reloadable -> wanted f vm o = f o.
Proof. intros N. unfold wanted. destruct (in_dec opt_eq_dec o reloadable); [contradiction|reflexivity]. Qed.
Lemma inv_reload l file master l' ok : inv l -> read_ok file -> reload l file master = Ok (l', ok) -> inv l'.
Proof.
  intros I Rf H. pose proof I as (So & St & Co). destruct ok.
  - destruct (reload_true _ _ _ _ I Rf H) as (vm & W & L & Ef & _ & Es & So' & G & _).
    split; [exact So'|]. split.
    + intros o N. rewrite Es, Ef, wanted_static by exact N. apply St. exact N.
    + intros n p c D. destruct G as (_ & _ & _ & _ & _ & _ & _ & _ & _ & _ & _ & _ & _ & _ & G). rewrite G in D.
      destruct (flag _); congruence.
  - destruct (reload_false _ _ _ _ I Rf H) as (SB & So' & Ef & _).
    unfold same_but_limit, same_force in SB. decompose [and] SB.
    split; [exact So'|]. split.
    + intros o N. rewrite Ef by exact N. replace (l_start l') with (l_start l) by congruence. apply St. exact N.
    + intros n p c D. rewrite Ef by (cbn; intuition discriminate). apply (Co n p). congruence.
Qed.
Lemma lived_inv fqdn cli l : lived fqdn cli l -> inv l.
Proof.
  induction 1 as [file master l Sc Rf H|l file master l' ok _ IH Rf H].
  - apply (inv_start _ _ _ _ _ Sc Rf H).
  - apply (inv_reload _ _ _ _ _ IH Rf H).
Qed.

(** a reload of sensible values does not leave what C++ defines *)
Lemma reload_defined l file master : inv l -> read_ok file -> exists l' ok, reload l file master = Ok (l', ok).
Proof.
  intros (So & St & Co) Rf. unfold reload, node_reload. fold (read_by l file).
  destruct (read_by l file) as [vm|] eqn:W; [|eauto].
  pose proof (read_sensible _ _ _ Rf W) as S.
  destruct (run_steps vm (l_ini l) node_reload_steps) as [i [|]] eqn:R; [|eauto].
  apply run_true in R as [P Ei].
  assert (So' : sound (field i)) by (rewrite Ei; cbn [field]; apply steps_sound; auto).
  rewrite (timeout_ok (field i)) by (apply So'; cbn; tauto). cbn [bind].
  destruct (mode_cast _); [|eauto]. destruct (flag _); [|eauto].
  match goal with |- context [repl_start ?a ?b ?c ?d ?e] => destruct (repl_start a b c d e) end; eauto.
Qed.
