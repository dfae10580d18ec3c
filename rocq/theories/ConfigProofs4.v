(** Lemmas on a reload of an unchanged file, on a restart, and on the index server. *)
From Coq Require Import List NArith ZArith Bool String Lia.
From Coq Require Import ZifyBool ZifyNat ZifyN.
From Verif Require Import Base BaseLemmas TextModel ConfigModel ConfigSpec ConfigProofs ConfigProofs2.
Import ListNotations.
Local Open Scope string_scope.
Local Open Scope Z_scope.
Local Open Scope list_scope.

Lemma replication_same s a b : known_replication s = true -> replication_cast s a = replication_cast s b.
Proof. intros H. destruct (known_replication_cases s H) as [-> | ->]; reflexivity. Qed.

(** two nodes that go by the same members do the same *)
Lemma governed_same l l' : governed l -> governed l' -> sound (field (l_ini l)) ->
  (forall o, field (l_ini l') o = field (l_ini l) o) -> servers (l_ini l') = servers (l_ini l) ->
  same_force l l' /\ same_limit l l'.
Proof.
  intros G G' So E Es. unfold governed in *.
  destruct G as (g1 & g2 & g3 & g4 & g5 & (b & g6) & g7 & g8 & g9 & g10 & g11 & g12 & g13 & g14 & g15).
  destruct G' as (h1 & h2 & h3 & h4 & h5 & (b' & h6) & h7 & h8 & h9 & h10 & h11 & h12 & h13 & h14 & h15).
  rewrite !E in *. split.
  - unfold same_force. repeat (split; [congruence|]); try congruence.
    split; [rewrite h6, g6; apply replication_same; apply So|].
    repeat (split; [congruence|]). congruence.
  - intros t. unfold takes_connection. rewrite E. reflexivity.
Qed.

Lemma index_servers_ext vm vm' : (forall o, of_servers o -> vm o = vm' o) -> index_servers vm = index_servers vm'.
Proof.
  intros H. unfold index_servers. rewrite !H by (unfold of_servers; tauto). reflexivity.
Qed.

Lemma reloadable_node o : In o reloadable -> of_node o /\ ~ of_servers o.
Proof.
  intros H. cbn in H. unfold of_node, of_servers.
  decompose [or] H; try contradiction; subst o; (split; [cbn; intuition discriminate|intuition discriminate]).
Qed.

Lemma config_path_node : of_node ConfigPath /\ ~ of_servers ConfigPath.
Proof. unfold of_node, of_servers. cbn. split; intuition discriminate. Qed.

Lemma has_path_start fqdn cli file master l : sensible cli -> read_ok file ->
  node_start fqdn cli file master = Ok l -> has_path (field (l_ini l)) = names_path cli.
Proof.
  intros Sc Rf H. destruct (start_ok _ _ _ _ _ Sc Rf H) as (vm & W & S & Ef & _).
  unfold has_path. rewrite Ef. rewrite (load_value fqdn vm ConfigPath S) by apply config_path_node.
  unfold names_path. unfold with_file in W.
  destruct (cli ConfigPath) as [v|] eqn:E.
  - assert (V : vm ConfigPath = Some v).
    { destruct (names_path cli); [|injection W as <-; exact E]. destruct file as [g|]; [|discriminate].
      injection W as <-. unfold merge. rewrite E. reflexivity. }
    rewrite V. destruct (text_typed cli ConfigPath v Sc eq_refl E) as [s ->]. destruct s; reflexivity.
  - unfold names_path in W. rewrite E in W. injection W as <-. rewrite E. reflexivity.
Qed.

(** a reload of the file that the node started with *)
Lemma reload_unchanged fqdn cli file master l m : sensible cli -> read_ok (Some file) ->
  names_path cli = true -> silent_on cli ->
  node_start fqdn cli (Some file) master = Ok l ->
  exists l', reload l (Some file) m = Ok (l', true)
    /\ (forall o, field (l_ini l') o = field (l_ini l) o) /\ servers (l_ini l') = servers (l_ini l)
    /\ same_but_limit l l' /\ same_limit l l'.
Proof.
  intros Sc Rf Np Si H. pose proof (inv_start _ _ _ _ _ Sc Rf H) as I.
  pose proof (has_path_start _ _ _ _ _ Sc Rf H) as Hp.
  destruct (start_ok _ _ _ _ _ Sc Rf H) as (vm & W & S & Ef & Es & So & St & G).
  rewrite Np in W, Hp. cbn in W. injection W as Evm.
  assert (Rd : read_by l (Some file) = Some (merge no_options file)) by (unfold read_by; rewrite Hp; reflexivity).
  assert (Sf : sensible (merge no_options file)) by (apply merge_sensible; [apply no_options_sensible|apply Rf]).
  assert (Same : forall o, In o reloadable \/ of_servers o -> merge no_options file o = vm o).
  { intros o Ho. rewrite <- Evm. unfold merge, no_options. rewrite (Si o Ho). reflexivity. }
  assert (V : forall o, In o reloadable -> field (l_ini l) o = match vm o with Some v => v | None => field (l_ini l) o end).
  { intros o Ho. destruct (reloadable_node o Ho) as [N1 N2].
    destruct (vm o) as [v|] eqn:E; [|reflexivity]. rewrite Ef, (load_value fqdn vm o S N1 N2), E. reflexivity. }
  assert (L : legal (merge no_options file)).
  { destruct So as (A & B & C). repeat split.
    - intros s E. rewrite Same in E by (left; cbn; tauto). rewrite V, E in B by (cbn; tauto). exact B.
    - intros s E. rewrite Same in E by (left; cbn; tauto). rewrite V, E in C by (cbn; tauto). exact C.
    - rewrite (index_servers_ext _ vm) by (intros; apply Same; right; assumption). congruence. }
  assert (D : exists l' ok, reload l (Some file) m = Ok (l', ok)) by (apply reload_defined; assumption).
  destruct D as (l' & ok & R). destruct ok.
  2: { exfalso. destruct (reload_false _ _ _ _ I Rf R) as (_ & _ & _ & _ & X). destruct (X _ Rd) as [X1 _]. exact (X1 L). }
  exists l'. split; [exact R|].
  destruct (reload_true _ _ _ _ I Rf R) as (vm' & W' & _ & Ef' & Es' & St' & So' & G' & Du).
  rewrite Rd in W'. injection W' as <-.
  assert (F : forall o, field (l_ini l') o = field (l_ini l) o).
  { intros o. rewrite Ef'. unfold wanted. destruct (in_dec opt_eq_dec o reloadable) as [Ho|]; [|reflexivity].
    rewrite Same by (left; exact Ho). symmetry. apply V. exact Ho. }
  assert (Sv : servers (l_ini l') = servers (l_ini l)).
  { rewrite (index_servers_ext _ vm) in Es' by (intros; apply Same; right; assumption). congruence. }
  destruct (governed_same l l' G G' So F Sv) as [Fo Li].
  split; [exact F|]. split; [exact Sv|]. split; [|exact Li].
  split; [exact Fo|]. split; [exact St'|]. rewrite Du. unfold dumps_after.
  replace (l_dest l') with (l_dest l) by (unfold same_force in Fo; decompose [and] Fo; congruence).
  destruct (l_dest l) as [[[n p] c]|]; [|reflexivity].
  replace (beq n n) with true by (symmetry; apply beq_eq; reflexivity). rewrite Z.eqb_refl.
  cbn [andb negb]. rewrite andb_false_r. reflexivity.
Qed.

(** a reload of a complete file, and a restart *)
Lemma reload_restart fqdn cli l file m l' m2 l2 : inv l -> sensible cli -> read_ok (Some file) ->
  silent_on cli -> (forall o, In o reloadable -> file o <> None) ->
  reload l (Some file) m = Ok (l', true) -> node_start fqdn cli (Some file) m2 = Ok l2 ->
  (forall o, ~ In o reloadable -> field (l_ini l) o = field (l_ini l2) o) ->
  (forall o, field (l_ini l') o = field (l_ini l2) o) /\ servers (l_ini l') = servers (l_ini l2)
  /\ same_force l2 l' /\ same_limit l2 l'.
Proof.
  intros I Sc Rf Si Co R H Eq.
  destruct (reload_true _ _ _ _ I Rf R) as (vm' & W' & L' & Ef' & Es' & St' & So' & G' & Du).
  pose proof (has_path_start _ _ _ _ _ Sc Rf H) as Hp.
  destruct (start_ok _ _ _ _ _ Sc Rf H) as (vm & W & S & Ef & Es & So & St & G).
  assert (P : has_path (field (l_ini l)) = true).
  { unfold read_by, with_file in W'. destruct (has_path (field (l_ini l))); [reflexivity|].
    injection W' as <-. destruct L' as (_ & _ & L'). cbn in L'. congruence. }
  assert (P2 : has_path (field (l_ini l2)) = true).
  { unfold has_path in *. rewrite <- Eq by (cbn; intuition discriminate). exact P. }
  rewrite P2 in Hp. rewrite <- Hp in W. cbn in W. injection W as Evm.
  unfold read_by in W'. rewrite P in W'. cbn in W'. injection W' as Evm'.
  assert (Same : forall o, In o reloadable \/ of_servers o -> vm' o = vm o).
  { intros o Ho. rewrite <- Evm, <- Evm'. unfold merge, no_options. rewrite (Si o Ho). reflexivity. }
  assert (F : forall o, field (l_ini l') o = field (l_ini l2) o).
  { intros o. rewrite Ef'. unfold wanted. destruct (in_dec opt_eq_dec o reloadable) as [Ho|N]; [|apply Eq; exact N].
    destruct (reloadable_node o Ho) as [N1 N2]. rewrite Ef, (load_value fqdn vm o S N1 N2).
    rewrite Same by (left; exact Ho). destruct (vm o) as [v|] eqn:E; [reflexivity|].
    exfalso. apply (Co o Ho). rewrite <- Evm in E. unfold merge in E. rewrite (Si o (or_introl Ho)) in E. exact E. }
  assert (Sv : servers (l_ini l') = servers (l_ini l2)).
  { rewrite (index_servers_ext _ vm) in Es' by (intros; apply Same; right; assumption). congruence. }
  split; [exact F|]. split; [exact Sv|]. apply (governed_same l2 l' G G' So F Sv).
Qed.

(** ** The index server *)
Lemma only_known names vm o : only names vm = true -> vm o <> None -> In o names.
Proof.
  intros H E. unfold only in H. rewrite forallb_forall in H.
  assert (A : In o all_options) by (destruct o; vm_compute; tauto).
  specialize (H o A). destruct (vm o); [|congruence].
  unfold among in H. apply existsb_exists in H as (x & Hx & Ex). destruct (opt_eq_dec o x) as [<-|]; [exact Hx|discriminate].
Qed.

Lemma index_steps_pass vm f : all_pass vm f index_reload_steps.
Proof. cbn. tauto. Qed.

Definition index_ok (o : opt) (v : value) : Prop := typed (kind_of o) v /\ in_range o v.
Definition index_sound (f : fields) : Prop :=
  (forall o, In o index_reloadable -> index_ok o (f o)) /\ f NetReadTimeout = Num 600000.

Lemma timeout_field vm : only index_options vm = true -> vm NetReadTimeout = None.
Proof.
  intros H. destruct (vm NetReadTimeout) eqn:E; [|reflexivity]. exfalso.
  assert (In NetReadTimeout index_options) by (apply (only_known _ vm); congruence).
  cbn in *. intuition discriminate.
Qed.
Lemma timeout_field_cli vm : only index_cli_options vm = true -> vm NetReadTimeout = None.
Proof.
  intros H. destruct (vm NetReadTimeout) eqn:E; [|reflexivity]. exfalso.
  assert (In NetReadTimeout index_cli_options) by (apply (only_known _ vm); congruence).
  cbn in *. intuition discriminate.
Qed.

Definition index_load_fields (fqdn : bytes) (vm : vmap) : fields :=
  fields_after vm (index_load_steps fqdn) index_defaults.
Lemma index_load_value fqdn vm o : sensible vm -> In o (NetReadTimeout :: index_reloadable) ->
  index_load_fields fqdn vm o = match vm o with Some v => v | None => index_defaults o end.
Proof.
  intros S H. destruct (vm o) as [v|] eqn:E.
  - transitivity (assigned o v); [|apply (sensible_assigned _ _ _ S E)].
    cbn in H. decompose [or] H; try contradiction; subst o; lazy -[assigned]; rewrite !E; reflexivity.
  - cbn in H. decompose [or] H; try contradiction; subst o; lazy -[assigned]; rewrite ?E; reflexivity.
Qed.

Lemma index_load_chosen fqdn vm o : sensible vm -> of_index o ->
  index_load_fields fqdn vm o = match vm o with Some v => v | None => index_default fqdn o end.
Proof.
  intros S H. destruct (vm o) as [v|] eqn:E.
  - transitivity (assigned o v); [|apply (sensible_assigned _ _ _ S E)].
    cbn in H. decompose [or] H; try contradiction; subst o; lazy -[assigned]; rewrite !E; reflexivity.
  - cbn in H. decompose [or] H; try contradiction; subst o; lazy -[assigned]; rewrite ?E; reflexivity.
Qed.
Lemma index_start_fields fqdn cli file l : sensible cli -> read_ok file -> index_start fqdn cli file = Ok l ->
  exists vm, with_file (names_path cli) cli (accepted index_options file) = Some vm /\ sensible vm
    /\ field (x_ini l) = index_load_fields fqdn vm.
Proof.
  intros Sc Rf. unfold index_start, index_load.
  destruct (only index_cli_options cli) eqn:Oc; [|discriminate].
  destruct (with_file (names_path cli) cli (accepted index_options file)) as [vm|] eqn:W; [|discriminate].
  destruct (run_steps vm (mkIni index_defaults []) (index_load_steps fqdn)) as [i [|]] eqn:R; [|discriminate].
  apply run_true in R as [P Ei]. intros H. exists vm. split; [reflexivity|]. split.
  - unfold with_file, accepted in W. destruct (names_path cli).
    + destruct file as [g|]; [|discriminate]. destruct (only index_options g) eqn:Og; [|discriminate].
      injection W as <-. apply merge_sensible; [exact Sc|apply Rf].
    + injection W as <-. exact Sc.
  - assert (x_ini l = i) as -> by (unfold bind in H; destruct (timeout_of _); try discriminate; injection H as <-; reflexivity).
    rewrite Ei. reflexivity.
Qed.

Lemma size_small z : 0 <= z < 2 ^ 31 -> size_of z = z.
Proof. intros H. unfold size_of. apply Z.mod_small. split; [lia|]. eapply Z.lt_trans; [apply H|reflexivity]. Qed.

(** what reload puts in force and what it leaves *)
Definition index_governed (l : index_live) : Prop :=
  let f := field (x_ini l) in
  x_facility l = str (f LogFacility)
  /\ x_monitor l = (num (f MonitorThreshold), num (f MonitorInterval), num (f MonitorReadTimeout))
  /\ x_told l = x_monitor l /\ x_pool_req l = num (f ThreadPool) /\ x_timeout l = 600000000.
Definition index_inv (l : index_live) : Prop :=
  index_sound (field (x_ini l)) /\ index_governed l
  /\ (forall o, ~ In o index_reloadable -> x_start l o = field (x_ini l) o).

Lemma set_monitor_all f m : set_monitor f m = (num (f MonitorThreshold), num (f MonitorInterval), num (f MonitorReadTimeout)).
Proof. destruct m as [[a b] c]. reflexivity. Qed.

Lemma index_pool f : index_ok ThreadPool (f ThreadPool) -> size_of (num (f ThreadPool)) = num (f ThreadPool).
Proof. intros [T I]. destruct (f ThreadPool) as [z|s|b]; try contradiction. cbn in *. apply size_small. lia. Qed.

Lemma index_start_inv fqdn cli file l : sensible cli -> read_ok file -> index_start fqdn cli file = Ok l -> index_inv l.
Proof.
  intros Sc Rf. unfold index_start, index_load.
  destruct (only index_cli_options cli) eqn:Oc; [|discriminate].
  destruct (with_file (names_path cli) cli (accepted index_options file)) as [vm|] eqn:W; [|discriminate].
  assert (S : sensible vm /\ vm NetReadTimeout = None).
  { unfold with_file, accepted in W. destruct (names_path cli).
    - destruct file as [g|]; [|discriminate]. destruct (only index_options g) eqn:Og; [|discriminate].
      injection W as <-. split; [apply merge_sensible; [exact Sc|apply Rf]|].
      unfold merge. rewrite (timeout_field_cli cli Oc). apply timeout_field. exact Og.
    - injection W as <-. split; [exact Sc|apply timeout_field_cli; exact Oc]. }
  destruct S as [S T].
  destruct (run_steps vm (mkIni index_defaults []) (index_load_steps fqdn)) as [i [|]] eqn:R; [|discriminate].
  apply run_true in R as [P Ei]. cbn [field servers] in *.
  assert (Ef : field i = index_load_fields fqdn vm) by (rewrite Ei; reflexivity).
  assert (So : index_sound (field i)).
  { rewrite Ef. split.
    - intros o Ho. rewrite index_load_value by (exact S || (right; exact Ho)). unfold index_ok.
      destruct (vm o) as [v|] eqn:E; [apply (S _ _ E)|].
      cbn in Ho. decompose [or] Ho; try contradiction; subst o; cbn; lia || auto.
    - rewrite index_load_value by (exact S || (left; reflexivity)). rewrite T. reflexivity. }
  destruct So as [So Et]. rewrite Et. unfold num at 1. change (timeout_of 600000) with (Ok 600000000). cbn [bind].
  intros [= <-]. split; [split; cbn [x_ini]; assumption|]. split; [|reflexivity].
  unfold index_governed. cbn [x_ini x_facility x_monitor x_told x_pool_req x_timeout].
  rewrite set_monitor_all, index_pool by (apply So; cbn; tauto). repeat split.
Qed.

Lemma index_steps_fields vm f o : sensible vm -> vm NetReadTimeout = None ->
  fields_after vm index_reload_steps f o = index_wanted f vm o.
Proof.
  intros S T. rewrite fields_plain by (exact S || reflexivity). unfold index_wanted.
  change (flat_map written index_reload_steps) with
    [LogFacility; MaxConnection; MonitorThreshold; MonitorInterval; MonitorReadTimeout; NetReadTimeout; ThreadPool].
  destruct (in_dec opt_eq_dec o _) as [H|H]; destruct (in_dec opt_eq_dec o index_reloadable) as [H'|H']; try reflexivity.
  - assert (o = NetReadTimeout) as -> by (symmetry; cbn in H, H'; tauto). rewrite T. reflexivity.
  - exfalso. cbn in *. tauto.
Qed.

Lemma index_reload_inv l file l' ok : index_inv l -> read_ok file -> index_reloaded l file = Ok (l', ok) ->
  index_inv l'
  /\ (ok = false -> l' = l)
  /\ (ok = true -> exists vm, with_file (has_path (field (x_ini l))) no_options (accepted index_options file) = Some vm
        /\ (forall o, field (x_ini l') o = index_wanted (field (x_ini l)) vm o)
        /\ x_start l' = x_start l /\ x_pool_other l' = x_pool_other l).
Proof.
  intros (So & G & St) Rf. unfold index_reloaded, index_reload.
  destruct (with_file (has_path (field (x_ini l))) no_options (accepted index_options file)) as [vm|] eqn:W.
  - assert (S : sensible vm /\ vm NetReadTimeout = None).
    { unfold with_file, accepted in W. destruct (has_path _).
      - destruct file as [g|]; [|discriminate]. destruct (only index_options g) eqn:Og; [|discriminate].
        injection W as <-. split; [apply merge_sensible; [apply no_options_sensible|apply Rf]|].
        unfold merge, no_options. apply timeout_field. exact Og.
      - injection W as <-. split; [apply no_options_sensible|reflexivity]. }
    destruct S as [S T].
    rewrite run_pass by apply index_steps_pass.
    set (f := fields_after vm index_reload_steps (field (x_ini l))).
    assert (Ef : forall o, f o = index_wanted (field (x_ini l)) vm o) by (intros; apply index_steps_fields; assumption).
    assert (So' : index_sound f).
    { destruct So as [So Et]. split.
      - intros o Ho. rewrite Ef. unfold index_wanted, index_ok. destruct (in_dec opt_eq_dec o index_reloadable); [|contradiction].
        destruct (vm o) as [v|] eqn:E; [apply (S _ _ E)|]. apply So. exact Ho.
      - rewrite Ef. unfold index_wanted. destruct (in_dec opt_eq_dec NetReadTimeout index_reloadable) as [H|]; [|exact Et].
        rewrite T. exact Et. }
    cbn [field]. pose proof So' as [So1 Et]. rewrite Et. unfold num at 1. change (timeout_of 600000) with (Ok 600000000). cbn [bind].
    clearbody f.
    intros [= <- <-]. split.
    + split; [exact So'|]. split.
      * unfold index_governed. cbn [x_ini x_facility x_monitor x_told x_pool_req x_timeout field].
        rewrite set_monitor_all, index_pool by (apply So1; cbn; tauto). repeat split.
      * cbn [x_start x_ini field]. intros o N. rewrite Ef. unfold index_wanted.
        destruct (in_dec opt_eq_dec o index_reloadable); [contradiction|]. apply St. exact N.
    + split; [discriminate|]. intros _. exists vm. split; [reflexivity|]. split; [exact Ef|]. split; reflexivity.
  - intros [= <- <-]. destruct l as [a b c d e g h k]. cbn [x_ini x_start x_facility x_timeout x_monitor x_told x_pool_req x_pool_other].
    split; [split; [|split]; assumption|]. split; [reflexivity|discriminate].
Qed.

Lemma index_lived_inv fqdn cli l : index_lived fqdn cli l -> index_inv l.
Proof.
  induction 1 as [file l Sc Rf H|l file l' ok _ IH Rf H].
  - apply (index_start_inv _ _ _ _ Sc Rf H).
  - apply (index_reload_inv _ _ _ _ IH Rf H).
Qed.

Lemma index_honest l : index_inv l -> forall o, index_goes_by l o (field (x_ini l) o).
Proof.
  intros ((So & Et) & G & St). unfold index_governed in G. destruct G as (g1 & g2 & g3 & g4 & g5).
  intros o. destruct (in_dec opt_eq_dec o index_reloadable) as [H|H].
  - destruct (So o H) as [T I]. cbn in H. decompose [or] H; try contradiction; subst o; unfold index_goes_by.
    + destruct (field (x_ini l) LogFacility); try contradiction. exact g1.
    + destruct (field (x_ini l) MaxConnection); try contradiction. reflexivity.
    + destruct (field (x_ini l) MonitorThreshold); try contradiction. rewrite g3, g2. split; reflexivity.
    + destruct (field (x_ini l) MonitorInterval); try contradiction. rewrite g3, g2. split; reflexivity.
    + destruct (field (x_ini l) MonitorReadTimeout); try contradiction. rewrite g3, g2. split; reflexivity.
    + destruct (field (x_ini l) ThreadPool); try contradiction. exact g4.
  - assert (K : ~ In o index_reloadable /\ x_start l o = field (x_ini l) o) by (split; [exact H|apply St; exact H]).
    destruct o; try exact K; exfalso; apply H; cbn; tauto.
Qed.

(** ** What can be started *)
Lemma one_of_in l s : one_of l s = true <-> In s (map s2b l).
Proof.
  unfold one_of. rewrite existsb_exists, in_map_iff. split.
  - intros (x & Hx & E). apply beq_eq in E. exists x. split; [symmetry; exact E|exact Hx].
  - intros (x & E & Hx). exists x. split; [exact Hx|]. apply beq_eq. symmetry. exact E.
Qed.

Lemma load_all_pass fqdn vm : sensible vm -> (all_pass vm node_defaults (node_load_steps fqdn) <->
  legal vm /\ (exists d, vm DataDir = Some (Str d) /\ d <> [])
  /\ (forall s, vm StorageCompress = Some (Str s) -> known_compress s = true)
  /\ (forall s, vm StorageType = Some (Str s) -> known_type s = true)).
Proof.
  intros S. unfold node_load_steps. cbn [all_pass].
  assert (A : forall f, passes vm f (Checked ReplicationType known_replication) <->
    (forall s, vm ReplicationType = Some (Str s) -> known_replication s = true)) by (intros; apply checked_pass; auto).
  assert (B : forall f, passes vm f (Checked ReplMode known_mode) <->
    (forall s, vm ReplMode = Some (Str s) -> known_mode s = true)) by (intros; apply checked_pass; auto).
  assert (C : forall f, passes vm f (Checked StorageCompress known_compress) <->
    (forall s, vm StorageCompress = Some (Str s) -> known_compress s = true)) by (intros; apply checked_pass; auto).
  assert (D : forall f, passes vm f (Checked StorageType known_type) <->
    (forall s, vm StorageType = Some (Str s) -> known_type s = true)) by (intros; apply checked_pass; auto).
  match goal with |- context [passes vm ?f (Required DataDir)] =>
    assert (E : passes vm f (Required DataDir) <-> exists d, vm DataDir = Some (Str d) /\ d <> []) end.
  { match goal with |- passes vm ?f _ <-> _ =>
      assert (F : f DataDir = match vm DataDir with Some v => v | None => Str [] end) by
        (cbn [effect]; rewrite (taken_value vm DataDir) by exact S; destruct (opt_eq_dec DataDir DataDir); [|congruence];
         destruct (vm DataDir); [reflexivity|]; reflexivity);
      change (passes vm f (Required DataDir)) with (f DataDir <> Str []); rewrite F end.
    destruct (vm DataDir) as [v|] eqn:V.
    - destruct (text_typed vm DataDir v S eq_refl V) as [d ->]. split.
      + intros N. exists d. split; [reflexivity|congruence].
      + intros (d' & [= <-] & N). congruence.
    - split; [congruence|]. intros (d & X & _). discriminate X. }
  rewrite A, B, C, D, E. change (passes vm ?f Servers) with (index_servers vm <> None).
  unfold legal. cbn [passes]. tauto.
Qed.

Lemma start_defined fqdn cli file master : sensible cli -> read_ok file ->
  (exists l, node_start fqdn cli file master = Ok l) /\
    (exists vm, with_file (names_path cli) cli file = Some vm /\ all_pass vm node_defaults (node_load_steps fqdn))
  \/ node_start fqdn cli file master = Err /\
    forall vm, with_file (names_path cli) cli file = Some vm -> ~ all_pass vm node_defaults (node_load_steps fqdn).
Proof.
  intros Sc Rf. unfold node_start, node_load.
  destruct (with_file (names_path cli) cli file) as [vm|] eqn:W; [|right; split; [reflexivity|discriminate]].
  assert (S : sensible vm).
  { unfold with_file in W. destruct (names_path cli); [|injection W as <-; exact Sc]. destruct file as [g|]; [|discriminate].
    injection W as <-. apply merge_sensible; [exact Sc|apply Rf]. }
  destruct (run_steps vm (mkIni node_defaults []) (node_load_steps fqdn)) as [i [|]] eqn:R.
  - left. apply run_true in R as [P Ei]. cbn [field servers] in *. split; [|exists vm; split; [reflexivity|exact P]].
    destruct (load_passes _ _ _ S P) as (p1 & p2 & p3).
    pose proof (load_sound fqdn vm S p1 p2) as So.
    assert (Ef : field i = load_fields fqdn vm) by (rewrite Ei; reflexivity).
    clear Ei. rewrite <- Ef in So. remember (field i) as f eqn:Efi.
    rewrite (timeout_ok f) by (apply So; cbn; tauto). cbn [bind].
    destruct (known_mode_cast _ (proj2 (proj2 So))) as [m Em]. rewrite Em.
    destruct (flag (f ClusterRepl)); [|eauto].
    unfold repl_start. cbn [l_dest]. rewrite (concurrency_pos f) by (apply So; cbn; tauto). eauto.
  - right. split; [reflexivity|]. intros vm' [= <-] P.
    rewrite (run_pass vm _ (mkIni node_defaults []) P) in R. discriminate R.
Qed.

Lemma index_all_pass fqdn vm : sensible vm -> (all_pass vm index_defaults (index_load_steps fqdn) <->
  (exists d, vm DataDir = Some (Str d) /\ d <> [])
  /\ (forall s, vm PartitionType = Some (Str s) -> known_partition s = true)
  /\ (forall s, vm KeyHash = Some (Str s) -> known_hash s = true)).
Proof.
  intros S. unfold index_load_steps. cbn [all_pass].
  assert (C : forall f, passes vm f (Checked PartitionType known_partition) <->
    (forall s, vm PartitionType = Some (Str s) -> known_partition s = true)) by (intros; apply checked_pass; auto).
  assert (D : forall f, passes vm f (Checked KeyHash known_hash) <->
    (forall s, vm KeyHash = Some (Str s) -> known_hash s = true)) by (intros; apply checked_pass; auto).
  match goal with |- context [passes vm ?f (Required DataDir)] =>
    assert (E : passes vm f (Required DataDir) <-> exists d, vm DataDir = Some (Str d) /\ d <> []) end.
  { match goal with |- passes vm ?f _ <-> _ =>
      assert (F : f DataDir = match vm DataDir with Some v => v | None => Str [] end) by
        (cbn [effect]; rewrite (taken_value vm DataDir) by exact S; destruct (opt_eq_dec DataDir DataDir); [|congruence];
         destruct (vm DataDir); [reflexivity|]; reflexivity);
      change (passes vm f (Required DataDir)) with (f DataDir <> Str []); rewrite F end.
    destruct (vm DataDir) as [v|] eqn:V.
    - destruct (text_typed vm DataDir v S eq_refl V) as [d ->]. split.
      + intros N. exists d. split; [reflexivity|congruence].
      + intros (d' & [= <-] & N). congruence.
    - split; [congruence|]. intros (d & X & _). discriminate X. }
  rewrite C, D, E. cbn [passes]. tauto.
Qed.

Lemma index_start_defined fqdn cli file : sensible cli -> read_ok file ->
  let ok vm := only index_cli_options cli = true /\ with_file (names_path cli) cli (accepted index_options file) = Some vm
     /\ all_pass vm index_defaults (index_load_steps fqdn) in
  (exists l, index_start fqdn cli file = Ok l) /\ (exists vm, ok vm)
  \/ index_start fqdn cli file = Err /\ forall vm, ~ ok vm.
Proof.
  intros Sc Rf ok. unfold index_start, index_load, ok. clear ok.
  destruct (only index_cli_options cli) eqn:Oc; [|right; split; [reflexivity|]; intros vm (X & _); discriminate X].
  destruct (with_file (names_path cli) cli (accepted index_options file)) as [vm|] eqn:W;
    [|right; split; [reflexivity|intros vm (_ & X & _); discriminate X]].
  assert (S : sensible vm /\ vm NetReadTimeout = None).
  { unfold with_file, accepted in W. destruct (names_path cli).
    - destruct file as [g|]; [|discriminate]. destruct (only index_options g) eqn:Og; [|discriminate].
      injection W as <-. split; [apply merge_sensible; [exact Sc|apply Rf]|].
      unfold merge. rewrite (timeout_field_cli cli Oc). apply timeout_field. exact Og.
    - injection W as <-. split; [exact Sc|apply timeout_field_cli; exact Oc]. }
  destruct S as [S T].
  destruct (run_steps vm (mkIni index_defaults []) (index_load_steps fqdn)) as [i [|]] eqn:R.
  - left. apply run_true in R as [P Ei]. cbn [field servers] in *. split; [|exists vm; split; [reflexivity|]; split; [reflexivity|exact P]].
    assert (Ef : field i = index_load_fields fqdn vm) by (rewrite Ei; reflexivity).
    rewrite Ef. rewrite index_load_value by (exact S || (left; reflexivity)). rewrite T.
    change (timeout_of (num (index_defaults NetReadTimeout))) with (@Ok Z 600000000). cbn [bind]. eauto.
  - right. split; [reflexivity|]. intros vm' (_ & [= <-] & P).
    rewrite (run_pass vm _ (mkIni index_defaults []) P) in R. discriminate R.
Qed.

Lemma only_iff names vm : only names vm = true <-> (forall o, vm o <> None -> In o names).
Proof.
  split; [intros H o; apply only_known; exact H|].
  intros H. unfold only. apply forallb_forall. intros o _. destruct (vm o) eqn:E; [|reflexivity].
  unfold among. apply existsb_exists. exists o. split; [apply H; congruence|]. destruct (opt_eq_dec o o); [reflexivity|congruence].
Qed.
