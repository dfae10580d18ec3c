(** C67: the settings that a node and an index server go by are those the operator gave: the command
    line, the file and the defaults at the start; the file at a reload; and 'show variables' shows them. *)
From Coq Require Import List NArith ZArith Bool String Lia.
From Coq Require Import ZifyBool ZifyNat ZifyN.
From Verif Require Import Base BaseLemmas TextModel ConfigModel ConfigSpec
  ConfigProofs ConfigProofs2 ConfigProofs3 ConfigProofs4.
Import ListNotations.
Local Open Scope string_scope.
Local Open Scope N_scope.
Local Open Scope Z_scope.
Local Open Scope list_scope.

(** ** Example files *)
Fixpoint opts (l : list (opt * value)) : vmap :=
  match l with
  | [] => fun _ => None
  | (o, v) :: l => fun o' => if opt_eq_dec o' o then Some v else opts l o'
  end.
Definition cli0 : vmap := opts [(ConfigPath, Str (s2b "/etc/flared.conf"))].
Definition base0 : list (opt * value) :=
  [(DataDir, Str (s2b "/var/flare")); (IndexServers, Str (s2b "i1:12120, i2:12120"))].
Definition file0 : vmap := opts (base0 ++ [(MaxConnection, Num 100)]).
Definition file1 : vmap := opts (base0 ++ [(MaxConnection, Num 200); (ThreadPool, Num 16); (ServerPort, Num 5)]).
Definition typedb (k : kind) (v : value) : bool :=
  match k, v with
  | KInt, Num z => (- 2 ^ 31 <=? z) && (z <? 2 ^ 31)
  | KU32, Num z => (0 <=? z) && (z <? 2 ^ 32)
  | KU64, Num z => (0 <=? z) && (z <? 2 ^ 64)
  | KText, Str _ => true
  | KBool, Flag _ => true
  | KNone, Flag b => b
  | _, _ => false
  end.
Definition rangeb (o : opt) (v : value) : bool :=
  match o, v with
  | MaxConnection, Num z | ThreadPool, Num z => 0 <=? z
  | NetReadTimeout, Num z => (0 <=? z) && (z <=? 2147483)
  | ProxyConcurrency, Num z | ReplConcurrency, Num z => 0 <? z
  | _, _ => true
  end.
Lemma opts_sensible l : forallb (fun p => typedb (kind_of (fst p)) (snd p) && rangeb (fst p) (snd p)) l = true ->
  sensible (opts l).
Proof.
  intros H. induction l as [|[o v] l IH]; [intros x y; discriminate|].
  cbn [forallb fst snd] in H. apply andb_true_iff in H as [H1 H2]. apply andb_true_iff in H1 as [H1 H3].
  intros x y. cbn [opts]. destruct (opt_eq_dec x o) as [->|]; [|apply IH; exact H2].
  intros [= <-]. split.
  - clear - H1. destruct (kind_of o), v as [z|s|[|]]; cbn [typedb typed] in *; trivial; try discriminate; lia.
  - clear - H3. destruct o, v; cbn [rangeb in_range] in *; trivial; lia.
Qed.
(** running one step of a witness *)
Definition after67 {A} (r : res A) (P : A -> bool) : bool := match r with Ok a => P a | _ => false end.
Lemma after_ok {A} (r : res A) P : after67 r P = true -> exists a, r = Ok a /\ P a = true.
Proof. destruct r as [| |a]; try discriminate. intros H. exists a. split; [reflexivity|exact H]. Qed.
Definition is_num (v : value) (z : Z) : bool := match v with Num x => x =? z | _ => false end.
Lemma is_num_ok v z : is_num v z = true -> v = Num z.
Proof. destruct v; try discriminate. cbn. intros H. f_equal. lia. Qed.

Definition value_eq_dec (a b : value) : {a = b} + {a <> b}.
Proof. decide equality; [apply Z.eq_dec|apply (List.list_eq_dec N.eq_dec)|apply bool_dec]. Defined.
Definition agree (f g : fields) : bool :=
  forallb (fun o => among reloadable o || if value_eq_dec (f o) (g o) then true else false) all_options.
Lemma agree_ok f g : agree f g = true -> forall o, ~ In o reloadable -> f o = g o.
Proof.
  unfold agree. rewrite forallb_forall. intros H o N.
  assert (A : In o all_options) by (destruct o; vm_compute; tauto). specialize (H o A).
  apply orb_true_iff in H as [H|H]; [|destruct (value_eq_dec (f o) (g o)); [assumption|discriminate H]].
  exfalso. apply N. unfold among in H. apply existsb_exists in H as (x & Hx & E).
  destruct (opt_eq_dec o x) as [<-|]; [exact Hx|discriminate E].
Qed.

Definition start0 : live := match node_start (s2b "h") cli0 (Some file0) true with Ok l => l | _ => mkLive (mkIni (fun _ => Flag false) []) (fun _ => Flag false) [] 0 [] 0 0 Async 0 0 0 0 None 0 0 Duplicate None [] end.
Example start0_ok : node_start (s2b "h") cli0 (Some file0) true = Ok start0.
Proof.
  assert (W : after67 (node_start (s2b "h") cli0 (Some file0) true) (fun _ => true) = true) by (vm_compute; reflexivity).
  apply after_ok in W as (l & E & _). unfold start0. rewrite E. reflexivity.
Qed.
Example cli0_sensible : sensible cli0.
Proof. apply opts_sensible. reflexivity. Qed.
Example file0_ok : read_ok (Some file0).
Proof. split; [apply opts_sensible; vm_compute; reflexivity|split; reflexivity]. Qed.
Example file1_ok : read_ok (Some file1).
Proof. split; [apply opts_sensible; vm_compute; reflexivity|split; reflexivity]. Qed.
Example lived0 : lived (s2b "h") cli0 start0.
Proof. exact (started _ _ (Some file0) true _ cli0_sensible file0_ok start0_ok). Qed.
Example has_file0 : has_file start0.
Proof. vm_compute. discriminate. Qed.

(** ** The start *)
(** A node that starts goes by the value on the command line, or else in the file, or else by the default,
    of every option; it talks to the index servers that those name. *)
Theorem c67_start fqdn cli file master l :
  sensible cli -> read_ok (Some file) -> names_path cli = true ->
  node_start fqdn cli (Some file) master = Ok l ->
  (forall o, of_node o -> ~ of_servers o ->
     goes_by l o (chosen cli file (default fqdn (chosen cli file (default fqdn (Num 2)) ProxyConcurrency)) o))
  /\ index_servers (merge cli file) = Some (l_servers l)
  /\ honest l.
Proof.
  intros Sc Rf Np H.
  destruct (start_ok _ _ _ _ _ Sc Rf H) as (vm & W & S & Ef & Es & So & St & G).
  rewrite Np in W. cbn in W. injection W as <-.
  assert (Ho : honest l) by (apply governed_honest; [exact So|intros; rewrite St; reflexivity|exact G]).
  split; [|split; [rewrite (proj2 Ho); exact Es|exact Ho]].
  assert (C : load_fields fqdn (merge cli file) ProxyConcurrency
              = chosen cli file (default fqdn (Num 2)) ProxyConcurrency).
  { rewrite load_value by (exact S || (unfold of_node, of_servers; cbn; intuition discriminate)).
    unfold merge, chosen. destruct (cli ProxyConcurrency); [reflexivity|]. destruct (file ProxyConcurrency); reflexivity. }
  intros o N1 N2. destruct Ho as [Ho _]. specialize (Ho o). rewrite Ef, (load_value fqdn _ o S N1 N2), C in Ho.
  unfold merge at 1, chosen at 1 in Ho. unfold chosen at 1. destruct (cli o); [exact Ho|]. destruct (file o); exact Ho.
Qed.
Print Assumptions c67_start.
Example c67_start_ex :
  takes_connection start0 99 = true /\ takes_connection start0 100 = false /\ l_timeout start0 = 600000
  /\ l_servers start0 = [(s2b "i1", 12120); (s2b "i2", 12120)].
Proof. vm_compute. repeat split; reflexivity. Qed.

(** The same without a file. *)
Theorem c67_start_no_file fqdn cli master file l :
  sensible cli -> read_ok file -> names_path cli = false ->
  node_start fqdn cli file master = Ok l ->
  (forall o, of_node o -> ~ of_servers o ->
     goes_by l o (chosen cli no_options (default fqdn (chosen cli no_options (default fqdn (Num 2)) ProxyConcurrency)) o))
  /\ index_servers cli = Some (l_servers l) /\ honest l.
Proof.
  intros Sc Rf Np H.
  destruct (start_ok _ _ _ _ _ Sc Rf H) as (vm & W & S & Ef & Es & So & St & G).
  rewrite Np in W. cbn in W. injection W as <-.
  assert (Ho : honest l) by (apply governed_honest; [exact So|intros; rewrite St; reflexivity|exact G]).
  split; [|split; [rewrite (proj2 Ho); exact Es|exact Ho]].
  assert (C : load_fields fqdn cli ProxyConcurrency = chosen cli no_options (default fqdn (Num 2)) ProxyConcurrency).
  { rewrite load_value by (exact S || (unfold of_node, of_servers; cbn; intuition discriminate)).
    unfold chosen, no_options. destruct (cli ProxyConcurrency); reflexivity. }
  intros o N1 N2. destruct Ho as [Ho _]. specialize (Ho o). rewrite Ef, (load_value fqdn _ o S N1 N2), C in Ho.
  unfold chosen at 1 in Ho. unfold chosen at 1, no_options at 1. destruct (cli o); exact Ho.
Qed.
Print Assumptions c67_start_no_file.
Example c67_start_no_file_ex :
  let cli := opts [(DataDir, Str (s2b "/d")); (IndexServerName, Str (s2b "i")); (ThreadPool, Num 9)] in
  sensible cli /\ names_path cli = false
  /\ match node_start (s2b "h") cli None false with Ok l => l_pool_req l = 9 /\ l_servers l = [(s2b "i", 12120)] | _ => False end.
Proof. split; [apply opts_sensible; vm_compute; reflexivity|]. vm_compute. repeat split; reflexivity. Qed.

Lemma acceptable_legal file : acceptable file <-> legal file.
Proof.
  unfold acceptable, legal. split; intros (A & B & C); (split; [|split; [|exact C]]).
  - intros s E. destruct (A s E) as [-> | ->]; reflexivity.
  - intros s E. destruct (B s E) as [-> | ->]; reflexivity.
  - intros s E. apply known_replication_cases. apply A. exact E.
  - intros s E. apply known_mode_cases. apply B. exact E.
Qed.
(** A start never leaves what C++ defines, and succeeds exactly when the file can be read and the values on
    the command line and in the file are allowed. *)
Theorem c67_startable fqdn cli file master :
  sensible cli -> read_ok file ->
  ((exists l, node_start fqdn cli file master = Ok l) \/ node_start fqdn cli file master = Err)
  /\ ((exists l, node_start fqdn cli file master = Ok l) <->
      (if names_path cli then exists f, file = Some f /\ startable (merge cli f) else startable cli)).
Proof.
  intros Sc Rf.
  assert (K : (if names_path cli then exists f, file = Some f /\ startable (merge cli f) else startable cli)
     <-> exists vm, with_file (names_path cli) cli file = Some vm /\ all_pass vm node_defaults (node_load_steps fqdn)).
  { assert (K : forall vm, sensible vm -> (startable vm <-> all_pass vm node_defaults (node_load_steps fqdn))).
    { intros vm S. rewrite (load_all_pass fqdn vm S). unfold startable. rewrite acceptable_legal.
      unfold known_compress, known_type. setoid_rewrite one_of_in. tauto. }
    unfold with_file. destruct (names_path cli).
    - split.
      + intros (f & -> & H). exists (merge cli f). split; [reflexivity|]. apply K; [|exact H].
        apply merge_sensible; [exact Sc|apply Rf].
      + intros (vm & W & H). destruct file as [f|]; [|discriminate W]. injection W as <-. exists f. split; [reflexivity|].
        apply K; [|exact H]. apply merge_sensible; [exact Sc|apply Rf].
    - rewrite (K cli Sc). split; [intros H; exists cli; split; [reflexivity|exact H]|]. intros (vm & [= <-] & H). exact H. }
  rewrite K. destruct (start_defined fqdn cli file master Sc Rf) as [[A B]|[A B]].
  - split; [left; exact A|]. tauto.
  - split; [right; exact A|]. rewrite A. split; [intros (l & X); discriminate X|]. intros (vm & W & P). destruct (B vm W P).
Qed.
Print Assumptions c67_startable.
Example c67_startable_ex :
  node_start (s2b "h") cli0 (Some (opts (base0 ++ [(StorageType, Str (s2b "tcd"))]))) true = Err
  /\ node_start (s2b "h") cli0 None true = Err
  /\ node_start (s2b "h") cli0 (Some (opts [(IndexServerName, Str (s2b "i"))])) true = Err.
Proof. vm_compute. repeat split; reflexivity. Qed.

(** ** The reload *)
Lemma read_file l file : has_file l -> read_by l (Some file) = Some file.
Proof.
  intros H. unfold read_by, has_file, has_path in *.
  destruct (field (l_ini l) ConfigPath) as [z|[|c s]|b]; try reflexivity. congruence.
Qed.

(** After an accepted reload, however many reloads went before and whatever became of them: the reloadable
    options that the file names have its values, everything else is as before, the index servers are the
    file's, the node goes by all that it shows, and a dump is started exactly to a new destination. *)
Theorem c67_reload fqdn cli l file master l' :
  lived fqdn cli l -> has_file l -> read_ok (Some file) ->
  reload l (Some file) master = Ok (l', true) ->
  (forall o, field (l_ini l') o = wanted (field (l_ini l)) file o)
  /\ index_servers file = Some (l_servers l')
  /\ l_start l' = l_start l
  /\ honest l'
  /\ l_dumps l' = dumps_after l l' master.
Proof.
  intros L P Rf H. apply lived_inv in L. pose proof (inv_reload _ _ _ _ _ L Rf H) as (So & St & Co).
  destruct (reload_true _ _ _ _ L Rf H) as (vm & W & _ & Ef & Es & Est & _ & G & Du).
  rewrite (read_file l file P) in W. injection W as <-.
  assert (Ho : honest l') by (apply governed_honest; assumption).
  split; [exact Ef|]. split; [rewrite (proj2 Ho); exact Es|]. split; [exact Est|]. split; [exact Ho|exact Du].
Qed.
Print Assumptions c67_reload.
Example c67_reload_ex :
  match reload start0 (Some file1) true with
  | Ok (l', ok) => ok = true /\ takes_connection l' 199 = true /\ takes_connection l' 200 = false
      /\ l_pool_req l' = 16 /\ l_pool_other l' = 16 /\ field (l_ini l') ServerPort = Num 12121
  | _ => False
  end.
Proof. vm_compute. repeat split; reflexivity. Qed.

(** A reload always ends; it is accepted exactly when the file can be read and its values are allowed. *)
Theorem c67_accept fqdn cli l master :
  lived fqdn cli l ->
  (forall file, has_file l -> read_ok (Some file) ->
     exists l' ok, reload l (Some file) master = Ok (l', ok) /\ (ok = true <-> acceptable file))
  /\ (has_file l -> exists l', reload l None master = Ok (l', false))
  /\ (~ has_file l -> forall file, read_ok file -> exists l', reload l file master = Ok (l', false)).
Proof.
  intros L. apply lived_inv in L. split; [|split].
  - intros file P Rf. destruct (reload_defined l (Some file) master L Rf) as (l' & ok & H).
    exists l', ok. split; [exact H|]. rewrite acceptable_legal. destruct ok.
    + destruct (reload_true _ _ _ _ L Rf H) as (vm & W & X & _). rewrite (read_file l file P) in W. injection W as <-. tauto.
    + destruct (reload_false _ _ _ _ L Rf H) as (_ & _ & _ & _ & X). destruct (X _ (read_file l file P)) as [N _].
      split; [discriminate|contradiction].
  - intros P. destruct (reload_defined l None master L Logic.I) as (l' & ok & H). destruct ok; [|eauto].
    destruct (reload_true l None master l' L Logic.I H) as (vm & W & _). exfalso.
    unfold read_by, has_file, has_path in *. destruct (field (l_ini l) ConfigPath) as [z|[|c s]|b]; discriminate || congruence.
  - intros P file Rf. destruct (reload_defined l file master L Rf) as (l' & ok & H). destruct ok; [|eauto].
    destruct (reload_true _ _ _ _ L Rf H) as (vm & W & (_ & _ & X) & _). exfalso.
    unfold read_by, has_file, has_path in *.
    destruct (field (l_ini l) ConfigPath) as [z|[|c s]|b]; try (apply P; discriminate).
    cbn in W. injection W as <-. cbn in X. congruence.
Qed.
Print Assumptions c67_accept.

(** A refused reload leaves in force everything but the limit on connections; what it shows of the options
    that need a restart is unchanged, and if the file could not be read nothing at all is changed.
    Missing: that nothing is changed whatever the reason, which is false; see [c67_atomic_refuted]. *)
Theorem c67_refused_partial fqdn cli l file master l' :
  lived fqdn cli l -> read_ok file -> reload l file master = Ok (l', false) ->
  same_but_limit l l'
  /\ (forall o, ~ In o reloadable -> field (l_ini l') o = field (l_ini l) o)
  /\ (has_file l -> file = None -> l_ini l' = l_ini l).
Proof.
  intros L Rf H. apply lived_inv in L. destruct (reload_false _ _ _ _ L Rf H) as (SB & _ & Ef & N & _).
  split; [exact SB|]. split; [exact Ef|]. intros P ->. apply N.
  unfold read_by, has_file, has_path in *. destruct (field (l_ini l) ConfigPath) as [z|[|c s]|b]; try reflexivity. congruence.
Qed.
Print Assumptions c67_refused_partial.
Definition file_bad : vmap :=
  opts (base0 ++ [(MaxConnection, Num 7); (ReconInterval, Num 5); (ReplicationType, Str (s2b "snyc"))]).
Example file_bad_ok : read_ok (Some file_bad).
Proof. split; [apply opts_sensible; vm_compute; reflexivity|split; reflexivity]. Qed.

(** Refused, and yet: the new limit on connections is in force, and 'show variables' shows a
    reconstruction interval that the node does not go by. *)
Theorem c67_atomic_refuted :
  exists l', reload start0 (Some file_bad) true = Ok (l', false)
    /\ takes_connection start0 50 = true /\ takes_connection l' 50 = false
    /\ field (l_ini l') ReconInterval = Num 5 /\ l_interval l' = 0 /\ ~ honest l'.
Proof.
  assert (W : after67 (reload start0 (Some file_bad) true) (fun p => negb (snd p)
       && negb (takes_connection (fst p) 50) && is_num (field (l_ini (fst p)) ReconInterval) 5
       && (l_interval (fst p) =? 0)) = true) by (vm_compute; reflexivity).
  apply after_ok in W as ([l' ok] & E & W). cbn [fst snd] in W. rewrite !andb_true_iff in W.
  destruct W as (((W1 & W2) & W3) & W4). apply is_num_ok in W3.
  exists l'. destruct ok; [discriminate W1|]. split; [exact E|]. split; [vm_compute; reflexivity|].
  split; [destruct (takes_connection l' 50); [discriminate W2|reflexivity]|]. split; [exact W3|].
  split; [lia|]. intros [Ho _]. specialize (Ho ReconInterval). rewrite W3 in Ho. cbn in Ho. lia.
Qed.
Print Assumptions c67_atomic_refuted.

(** A later reload of a good file that does not name the option puts the value of the refused file in force. *)
Theorem c67_leftover_refuted :
  exists l1 l2, reload start0 (Some file_bad) true = Ok (l1, false)
    /\ reload l1 (Some file0) true = Ok (l2, true)
    /\ file0 ReconInterval = None /\ l_interval start0 = 0 /\ l_interval l2 = 5.
Proof.
  assert (W : after67 (reload start0 (Some file_bad) true) (fun p => negb (snd p)
       && after67 (reload (fst p) (Some file0) true) (fun q => snd q && (l_interval (fst q) =? 5))) = true)
    by (vm_compute; reflexivity).
  apply after_ok in W as ([l1 ok] & E & W). cbn [fst snd] in W. apply andb_true_iff in W as [W1 W].
  apply after_ok in W as ([l2 ok2] & E2 & W). cbn [fst snd] in W. apply andb_true_iff in W as [W2 W].
  exists l1, l2. destruct ok; [discriminate W1|]. destruct ok2; [|discriminate W2]. split; [exact E|]. split; [exact E2|].
  split; [reflexivity|]. split; [vm_compute; reflexivity|]. lia.
Qed.
Print Assumptions c67_leftover_refuted.

(** ** A reload without a change, and a restart *)
(** A reload of the very file that the node started with changes nothing, when the command line leaves to
    the file all that a reload may change. *)
Theorem c67_unchanged fqdn cli file master l m :
  sensible cli -> read_ok (Some file) -> names_path cli = true -> silent_on cli ->
  node_start fqdn cli (Some file) master = Ok l ->
  exists l', reload l (Some file) m = Ok (l', true)
    /\ (forall o, field (l_ini l') o = field (l_ini l) o) /\ servers (l_ini l') = servers (l_ini l)
    /\ same_but_limit l l' /\ same_limit l l'.
Proof. exact (reload_unchanged fqdn cli file master l m). Qed.
Print Assumptions c67_unchanged.
Example c67_unchanged_ex : names_path cli0 = true /\ silent_on cli0.
Proof.
  split; [reflexivity|]. intros o [H|H].
  - cbn in H. decompose [or] H; try contradiction; subst o; reflexivity.
  - destruct H as [-> | [-> | ->]]; reflexivity.
Qed.

(** With the limit on the command line, a reload of the unchanged file overrides it. *)
Theorem c67_command_line_refuted :
  let cli := opts [(ConfigPath, Str (s2b "/etc/flared.conf")); (MaxConnection, Num 500)] in
  exists l l', sensible cli /\ node_start (s2b "h") cli (Some file0) true = Ok l
    /\ reload l (Some file0) true = Ok (l', true)
    /\ takes_connection l 400 = true /\ takes_connection l' 400 = false.
Proof.
  intros cli.
  assert (W : after67 (node_start (s2b "h") cli (Some file0) true) (fun l => takes_connection l 400
       && after67 (reload l (Some file0) true) (fun q => snd q && negb (takes_connection (fst q) 400))) = true)
    by (vm_compute; reflexivity).
  apply after_ok in W as (l & E & W). apply andb_true_iff in W as [W1 W].
  apply after_ok in W as ([l' ok] & E2 & W). cbn [fst snd] in W. apply andb_true_iff in W as [W2 W].
  exists l, l'. destruct ok; [|discriminate W2]. split; [apply opts_sensible; vm_compute; reflexivity|].
  split; [exact E|]. split; [exact E2|]. split; [exact W1|].
  destruct (takes_connection l' 400); [discriminate W|reflexivity].
Qed.
Print Assumptions c67_command_line_refuted.

(** When the index server is named on the command line and not in the file, every reload is refused. *)
Theorem c67_cli_servers_refuted :
  let cli := opts [(ConfigPath, Str (s2b "/etc/flared.conf")); (IndexServerName, Str (s2b "i"))] in
  sensible cli
  /\ (exists l, lived (s2b "h") cli l /\ has_file l)
  /\ forall l file master l' ok, lived (s2b "h") cli l -> read_ok (Some file) ->
       (forall o, of_servers o -> file o = None) ->
       reload l (Some file) master = Ok (l', ok) -> ok = false.
Proof.
  intros cli. assert (Sc : sensible cli) by (apply opts_sensible; vm_compute; reflexivity).
  split; [exact Sc|]. split.
  - assert (Rf : read_ok (Some (opts [(DataDir, Str (s2b "/d"))])))
      by (split; [apply opts_sensible; vm_compute; reflexivity|split; reflexivity]).
    assert (W : after67 (node_start (s2b "h") cli (Some (opts [(DataDir, Str (s2b "/d"))])) true)
                  (fun l => has_path (field (l_ini l))) = true) by (vm_compute; reflexivity).
    apply after_ok in W as (l & E & W). exists l. split; [exact (started _ _ _ _ _ Sc Rf E)|].
    unfold has_file, has_path in *. intros X. rewrite X in W. discriminate W.
  - intros l file master l' ok L Rf N H. destruct ok; [|reflexivity]. exfalso. apply lived_inv in L.
    destruct (reload_true _ _ _ _ L Rf H) as (vm & W & (_ & _ & X) & _). apply X.
    assert (K : forall o, of_servers o -> vm o = None).
    { intros o Ho. unfold read_by, with_file in W. destruct (has_path _); injection W as <-; [|reflexivity].
      unfold merge, no_options. apply N. exact Ho. }
    unfold index_servers. rewrite !K by (unfold of_servers; tauto). reflexivity.
Qed.
Print Assumptions c67_cli_servers_refuted.

(** Reloading a file that names every reloadable option comes to the same as a restart with it. *)
Theorem c67_restart fqdn cli l file m l' m2 l2 :
  lived fqdn cli l -> sensible cli -> read_ok (Some file) -> silent_on cli ->
  (forall o, In o reloadable -> file o <> None) ->
  reload l (Some file) m = Ok (l', true) -> node_start fqdn cli (Some file) m2 = Ok l2 ->
  (forall o, ~ In o reloadable -> field (l_ini l) o = field (l_ini l2) o) ->
  (forall o, field (l_ini l') o = field (l_ini l2) o) /\ servers (l_ini l') = servers (l_ini l2)
  /\ same_force l2 l' /\ same_limit l2 l'.
Proof. intros L. apply reload_restart. apply (lived_inv _ _ _ L). Qed.
Print Assumptions c67_restart.
Definition file_full : vmap :=
  opts (base0 ++
   [(LogFacility, Str (s2b "local1")); (MaxConnection, Num 64); (NetReadTimeout, Num 60); (ReconInterval, Num 3);
    (ReconBwlimit, Num 1024); (ReplicationType, Str (s2b "sync")); (ThreadPool, Num 8); (MaxQueue, Num 1000);
    (NoreplyWindow, Num 5); (WatcherEnabled, Flag true); (WatcherInterval, Num 100); (ThresholdWarn, Num 50);
    (ThresholdPingNg, Num 500); (ClusterRepl, Flag true); (ReplName, Str (s2b "other")); (ReplPort, Num 12121);
    (ReplMode, Str (s2b "forward"))]).
Example c67_restart_ex :
  read_ok (Some file_full) /\ (forall o, In o reloadable -> file_full o <> None)
  /\ exists l' l2, reload start0 (Some file_full) true = Ok (l', true)
     /\ node_start (s2b "h") cli0 (Some file_full) true = Ok l2
     /\ (forall o, ~ In o reloadable -> field (l_ini start0) o = field (l_ini l2) o)
     /\ l_dest l' <> None /\ l_pool_req l' = 8.
Proof.
  split; [split; [apply opts_sensible; vm_compute; reflexivity|split; reflexivity]|].
  split; [intros o H; cbn in H; decompose [or] H; try contradiction; subst o; vm_compute; discriminate|].
  assert (W : after67 (reload start0 (Some file_full) true) (fun q =>
      after67 (node_start (s2b "h") cli0 (Some file_full) true) (fun l2 =>
       snd q && agree (field (l_ini start0)) (field (l_ini l2))
       && (match l_dest (fst q) with Some _ => true | None => false end) && (l_pool_req (fst q) =? 8))) = true)
    by (vm_compute; reflexivity).
  apply after_ok in W as ([l' ok] & E & W). apply after_ok in W as (l2 & E2 & W). cbn [fst snd] in W.
  rewrite !andb_true_iff in W. destruct W as (((W1 & W2) & W3) & W4).
  exists l', l2. destruct ok; [|discriminate W1]. split; [exact E|]. split; [exact E2|].
  split; [apply agree_ok; exact W2|]. split; [intros X; rewrite X in W3; discriminate W3|]. lia.
Qed.

(** An option that is taken out of the file keeps its value at a reload, and gets its default at a restart. *)
Theorem c67_restart_refuted :
  exists l' l2, reload start0 (Some (opts base0)) true = Ok (l', true)
    /\ node_start (s2b "h") cli0 (Some (opts base0)) true = Ok l2
    /\ takes_connection l' 110 = false /\ takes_connection l2 110 = true.
Proof.
  assert (W : after67 (reload start0 (Some (opts base0)) true)
       (fun q => snd q && negb (takes_connection (fst q) 110)) = true) by (vm_compute; reflexivity).
  assert (W2 : after67 (node_start (s2b "h") cli0 (Some (opts base0)) true) (fun l => takes_connection l 110) = true)
    by (vm_compute; reflexivity).
  apply after_ok in W as ([l' ok] & E & W). cbn [fst snd] in W. apply andb_true_iff in W as [W1 W].
  apply after_ok in W2 as (l2 & E2 & W2).
  exists l', l2. destruct ok; [|discriminate W1]. split; [exact E|]. split; [exact E2|].
  split; [destruct (takes_connection l' 110); [discriminate W|reflexivity]|exact W2].
Qed.
Print Assumptions c67_restart_refuted.

(** Turning a running replication from forward to duplicate starts no dump, although a master that starts
    with that file dumps. *)
Theorem c67_dump_refuted :
  let repl (m : string) := opts (base0 ++
    [(ClusterRepl, Flag true); (ReplName, Str (s2b "other")); (ReplPort, Num 12121); (ReplMode, Str (s2b m))]) in
  exists l l' l2, node_start (s2b "h") cli0 (Some (repl "forward")) true = Ok l
    /\ reload l (Some (repl "duplicate")) true = Ok (l', true)
    /\ node_start (s2b "h") cli0 (Some (repl "duplicate")) true = Ok l2
    /\ l_mode l' = Duplicate /\ l_dest l' = l_dest l2 /\ l_dumps l' = [] /\ l_dumps l2 = [(s2b "other", 12121)].
Proof.
  intros repl.
  assert (W : after67 (node_start (s2b "h") cli0 (Some (repl "forward")) true) (fun l =>
      after67 (reload l (Some (repl "duplicate")) true) (fun q =>
      after67 (node_start (s2b "h") cli0 (Some (repl "duplicate")) true) (fun l2 =>
        snd q && (match l_mode (fst q) with Duplicate => true | Forward => false end)
        && (match l_dest (fst q), l_dest l2 with
            | Some (n, p, c), Some (n2, p2, c2) => beq n n2 && (p =? p2) && (c =? c2)
            | _, _ => false
            end)
        && (match l_dumps (fst q), l_dumps l2 with
            | [], [(n, p)] => beq n (s2b "other") && (p =? 12121)
            | _, _ => false
            end)))) = true) by (vm_compute; reflexivity).
  apply after_ok in W as (l & E & W). apply after_ok in W as ([l' ok] & E1 & W). apply after_ok in W as (l2 & E2 & W).
  exists l, l', l2. cbn [fst snd] in W. rewrite !andb_true_iff in W. destruct W as (((W1 & W2) & W3) & W4).
  destruct ok; [|discriminate W1]. split; [exact E|]. split; [exact E1|]. split; [exact E2|].
  split; [destruct (l_mode l'); [reflexivity|discriminate W2]|].
  split.
  - destruct (l_dest l') as [[[n p] c]|], (l_dest l2) as [[[n2 p2] c2]|]; try discriminate W3.
    rewrite !andb_true_iff in W3. destruct W3 as ((X & Y) & Z'). apply beq_eq in X. subst n2. repeat f_equal; lia.
  - destruct (l_dumps l') as [|x y]; [|discriminate W4]. split; [reflexivity|].
    destruct (l_dumps l2) as [|[n p] [|z t]]; try discriminate W4.
    apply andb_true_iff in W4 as [X Y]. apply beq_eq in X. subst n. repeat f_equal; lia.
Qed.
Print Assumptions c67_dump_refuted.

(** ** The list of index servers *)
(** Every list of servers, written with commas and any blanks after them, is read back. *)
Theorem c67_servers blanks l vm :
  Forall (fun c => c = 32 \/ 9 <= c <= 13)%N blanks -> servers_ok l -> l <> [] ->
  vm IndexServers = Some (Str (listing blanks l)) -> vm IndexServerName = None -> vm IndexServerPort = None ->
  index_servers vm = Some (map (fun s => (fst s, Z.of_N (snd s))) l).
Proof.
  intros B. apply servers_read. eapply List.Forall_impl; [|exact B]. cbv beta. intros c H. unfold is_blank. lia.
Qed.
Print Assumptions c67_servers.
Example c67_servers_ex :
  servers_ok [(s2b "i1", 12120%N); (s2b "10.0.0.7", 99%N)]
  /\ listing [32%N] [(s2b "i1", 12120%N); (s2b "10.0.0.7", 99%N)] = s2b "i1:12120, 10.0.0.7:99".
Proof.
  split; [|reflexivity].
  assert (K : forall s, forallb (fun c => negb (N.eqb c 44 || N.eqb c 58 || N.eqb c 32 || (N.leb 9 c && N.leb c 13))) s = true ->
             Forall (fun c => c <> 44 /\ c <> 58 /\ c <> 32 /\ ~ (9 <= c <= 13))%N s).
  { intros s H. apply List.Forall_forall. intros c Hc. rewrite forallb_forall in H. specialize (H c Hc). cbv beta in H. lia. }
  repeat apply List.Forall_cons; try apply List.Forall_nil; (split; [split; [discriminate|apply K; reflexivity]|vm_compute; reflexivity]).
Qed.

(** One server can be named by its name and port, which then is the list; naming servers both ways, or
    none, is refused. *)
Theorem c67_server vm :
  sensible vm ->
  (vm IndexServers = None ->
     (forall n, vm IndexServerName = Some (Str n) -> n <> [] ->
        index_servers vm = Some [(n, match vm IndexServerPort with Some (Num p) => p | _ => 12120 end)])
     /\ (vm IndexServerName = None \/ vm IndexServerName = Some (Str []) -> index_servers vm = None))
  /\ (vm IndexServers <> None -> vm IndexServerName <> None \/ vm IndexServerPort <> None -> index_servers vm = None).
Proof.
  intros S. split.
  - intros E. unfold index_servers. rewrite E. split.
    + intros n -> N. destruct n; [congruence|reflexivity].
    + intros [-> | ->]; reflexivity.
  - intros E N. unfold index_servers. destruct (vm IndexServers) as [[z|s|b]|]; try reflexivity; [|congruence].
    destruct (scan _ s) as [[|e l]|]; try reflexivity.
    destruct (vm IndexServerName), (vm IndexServerPort); try reflexivity. destruct N; congruence.
Qed.
Print Assumptions c67_server.
Example c67_server_ex :
  index_servers (opts [(IndexServerName, Str (s2b "i")); (IndexServerPort, Num 7)]) = Some [(s2b "i", 7)]
  /\ index_servers (opts [(IndexServers, Str (s2b "a:1")); (IndexServerPort, Num 7)]) = None.
Proof. split; vm_compute; reflexivity. Qed.

(** A list that is not so written is not always refused: with a semicolon the second server gets a name
    that holds the first one's port. *)
Theorem c67_servers_refuted :
  index_servers (opts [(IndexServers, Str (s2b "a:1;b:2"))]) = Some [(s2b "a", 1); (s2b ";b", 2)]
  /\ index_servers (opts [(IndexServers, Str (s2b "a:1 and some words, b:2junk"))]) = Some [(s2b "a", 1); (s2b "b", 2)].
Proof. split; vm_compute; reflexivity. Qed.
Print Assumptions c67_servers_refuted.

(** ** 'show variables' *)
(** A client that looks up an option's label in the answer finds the option's value, and the index servers
    in a form that, as an option, would give the same servers. *)
Theorem c67_show i :
  shows_well i ->
  (forall o label, label_of o = Some label ->
     exists s, look_up (s2b label) (lines_of (show_variables i)) = Some s /\ reads o (field i o) s)
  /\ (forall l vm, servers i = map (fun s => (fst s, Z.of_N (snd s))) l -> servers_ok l -> l <> [] ->
      exists s, look_up (s2b "index_server(s)") (lines_of (show_variables i)) = Some s
        /\ (vm IndexServers = Some (Str s) -> vm IndexServerName = None -> vm IndexServerPort = None ->
            index_servers vm = Some (servers i))).
Proof.
  intros W. split.
  - intros o label E. apply shown_value; assumption.
  - intros l vm E Ok Ne. exists (listing [32%N] l). split; [apply shown_servers; assumption|].
    intros E1 E2 E3. rewrite E. apply (servers_read [32%N]); try assumption. repeat constructor.
Qed.
Print Assumptions c67_show.
Example c67_show_ex :
  look_up (s2b "max_connection") (lines_of (show_variables (l_ini start0))) = Some (s2b "100")
  /\ look_up (s2b "index_server(s)") (lines_of (show_variables (l_ini start0))) = Some (s2b "i1:12120, i2:12120")
  /\ look_up (s2b "storage_type") (lines_of (show_variables (l_ini start0))) = Some (s2b "tch").
Proof. vm_compute. repeat split; reflexivity. Qed.

(** ** The request to reload *)
(** When no SIGHUP comes while a reload is running, the file as it was at the latest SIGHUP, or a later
    one, has been read at the latest two steps of the main thread after it.  Missing: SIGHUPs during a
    reload, for which it is false; and the time that the steps take: a signal between the check and the
    wait is noticed when the wait ends. *)
Theorem c67_signal_partial v hs :
  let s := mkLoop Check1 false v v in
  hup_in_reload s hs = false ->
  (hup_version s 0 hs <= loaded (run_all s (hs ++ [Run; Run])))%N.
Proof.
  intros s H. assert (K : forall hs s more, run_all s (hs ++ more) = run_all (run_all s hs) more)
    by (induction hs0 as [|h hs0 IH]; intros; [reflexivity|apply IH]).
  rewrite K. destruct (hup_kept hs s 0%N H) as (A & B & C & D); try (cbn; lia).
  remember (run_all s hs) as t. remember (hup_version s 0 hs) as n. clear - A B C D.
  destruct t as [p a f l]. cbn [asked loaded file_now] in *.
  destruct A as [A | ->]; destruct p; try destruct a; cbn in *; lia || (specialize (B eq_refl); lia).
Qed.
Print Assumptions c67_signal_partial.
Example c67_signal_ex :
  let hs := [Run; Edit; Hup; Run; Run; Edit; Hup; Run] in
  let s := mkLoop Check1 false 5 5 in
  hup_in_reload s hs = false /\ hup_version s 0 hs = 7%N.
Proof. split; reflexivity. Qed.

(** A SIGHUP that comes while the node reloads is forgotten: the edit before it is never read, however
    long the node runs on. *)
Theorem c67_signal_refuted n :
  let hs := [Edit; Hup; Run; Edit; Hup] in
  let s := mkLoop Check1 false 0 0 in
  hup_version s 0 hs = 2%N /\ loaded (run_all s (hs ++ repeat Run n)) = 1%N.
Proof.
  intros hs s. split; [reflexivity|].
  assert (K : forall n q, match q with Reload1 | Reload2 => False | _ => True end ->
      loaded (run_all (mkLoop q false 2 1) (repeat Run n)) = 1%N).
  { intros m. induction m as [|m IH]; intros q Hq; [reflexivity|]. cbn [repeat run_all happen].
    destruct q; try contradiction; unfold run_loop; cbn; apply IH; exact Logic.I. }
  destruct n as [|n]; [reflexivity|].
  change (loaded (run_all (mkLoop Waiting false 2 1) (repeat Run n)) = 1%N).
  apply K. exact Logic.I.
Qed.
Print Assumptions c67_signal_refuted.
(** However many signals come, and whatever is edited: connections are accepted at the latest after four steps of the main thread. *)
Theorem c67_goes_on s hs : (4 <= List.length (List.filter (fun h => match h with Run => true | _ => false end) hs))%nat ->
  exists h1 h2, hs = h1 ++ h2 /\ at_ (run_all s h1) = Accepting.
Proof.
  intros H. assert (K : (match at_ s with Check1 => 4 | Reload1 => 3 | Waiting => 2 | Reload2 => 1 | Accepting => 0 end
    <= List.length (List.filter (fun h => match h with Run => true | _ => false end) hs))%nat) by (destruct (at_ s); lia). clear H.
  revert s K. induction hs as [|h hs IH]; intros s K.
  - exists [], []. split; [reflexivity|]. cbn in K |- *. destruct (at_ s); try lia. reflexivity.
  - assert (D : at_ s = Accepting \/ (match at_ (happen s h) with Check1 => 4 | Reload1 => 3 | Waiting => 2 | Reload2 => 1 | Accepting => 0 end
      <= List.length (List.filter (fun h => match h with Run => true | _ => false end) hs))%nat).
    { destruct s as [[] a f l]; cbn [at_] in *; [right..|left; reflexivity]; destruct h; cbn [List.filter List.length] in K; try (cbn [happen at_]; lia); destruct a; cbn; lia. }
    destruct D as [D|D]; [exists [], (h :: hs); auto|]. destruct (IH _ D) as (h1 & h2 & -> & R). exists (h :: h1), h2. auto.
Qed.
Print Assumptions c67_goes_on.
Example c67_goes_on_ex : let hs := [Hup; Run; Hup; Run; Hup; Run; Hup; Run; Hup] in
  List.length (List.filter (fun h => match h with Run => true | _ => false end) hs) = 4%nat /\ at_ (run_all (mkLoop Check1 false 5 5) [Hup; Run; Hup; Run; Hup; Run; Hup; Run]) = Accepting.
Proof. split; reflexivity. Qed.

(** ** The index server *)
(** An index server that starts goes by the command line, else by the file, else by the defaults. *)
Theorem c67_index_start fqdn cli file l :
  sensible cli -> read_ok (Some file) -> names_path cli = true ->
  index_start fqdn cli (Some file) = Ok l ->
  forall o, of_index o -> index_goes_by l o (chosen cli file (index_default fqdn) o).
Proof.
  intros Sc Rf Np H o Ho. pose proof (index_start_inv _ _ _ _ Sc Rf H) as I'.
  destruct (index_start_fields _ _ _ _ Sc Rf H) as (vm & W & S & Ef).
  rewrite Np in W. unfold with_file, accepted in W. destruct (only index_options file); [|discriminate W]. injection W as <-.
  pose proof (index_honest l I' o) as G. rewrite Ef, (index_load_chosen fqdn _ o S Ho) in G.
  unfold merge, chosen in *. destruct (cli o); [exact G|]. destruct (file o); exact G.
Qed.
Print Assumptions c67_index_start.

(** It starts exactly when every name is known, the file can be read and the values are allowed. *)
Theorem c67_index_startable fqdn cli file :
  sensible cli -> read_ok (Some file) -> names_path cli = true ->
  ((exists l, index_start fqdn cli (Some file) = Ok l) \/ index_start fqdn cli (Some file) = Err)
  /\ ((exists l, index_start fqdn cli (Some file) = Ok l) <->
      (forall o, cli o <> None \/ file o <> None -> of_index o) /\ index_startable (merge cli file)).
Proof.
  intros Sc Rf Np.
  assert (K : (exists vm, only index_cli_options cli = true
      /\ with_file (names_path cli) cli (accepted index_options (Some file)) = Some vm
      /\ all_pass vm index_defaults (index_load_steps fqdn))
     <-> (forall o, cli o <> None \/ file o <> None -> of_index o) /\ index_startable (merge cli file)).
  { assert (S : sensible (merge cli file)) by (apply merge_sensible; [exact Sc|apply Rf]).
    assert (Q : index_startable (merge cli file) <-> all_pass (merge cli file) index_defaults (index_load_steps fqdn)).
    { rewrite (index_all_pass fqdn _ S). unfold index_startable, known_partition, known_hash. setoid_rewrite one_of_in.
      cbn [map In]. split; intros (A & B & C); (split; [exact A|]); (split; [|exact C]); intros s E; specialize (B s E).
      - left. symmetry. exact B.
      - destruct B as [B|[]]. symmetry. exact B. }
    rewrite Np. unfold with_file, accepted. destruct Rf as (Sf & F1 & F2).
    split.
    - intros (vm & O & W & P). destruct (only index_options file) eqn:Of; [|discriminate W]. injection W as <-.
      split; [|apply Q; exact P]. intros o [H|H].
      + pose proof (only_known _ _ o O H) as X. vm_compute in X. unfold of_index. vm_compute. tauto.
      + pose proof (only_known _ _ o Of H) as X. vm_compute in X. unfold of_index. vm_compute. tauto.
    - intros [H P]. exists (merge cli file).
      assert (O : only index_cli_options cli = true).
      { apply only_iff. intros o N. specialize (H o (or_introl N)). unfold of_index in H. vm_compute in H. vm_compute. tauto. }
      assert (Of : only index_options file = true).
      { apply only_iff. intros o N. specialize (H o (or_intror N)).
        assert (o <> ConfigPath) by (intros ->; congruence). assert (o <> PidPath) by (intros ->; congruence).
        unfold of_index in H. cbn [In] in H. cbn [In index_options].
        destruct H as [H|[H|H]]; [congruence|congruence|]. tauto. }
      rewrite Of. split; [exact O|]. split; [reflexivity|]. apply Q. exact P. }
  rewrite <- K. destruct (index_start_defined fqdn cli (Some file) Sc Rf) as [[A B]|[A B]].
  - split; [left; exact A|]. tauto.
  - split; [right; exact A|]. rewrite A. split; [intros (l & X); discriminate X|]. intros (vm & H). destruct (B vm H).
Qed.
Print Assumptions c67_index_startable.

(** Its reload is accepted exactly when the file can be read and every name is known. *)
Theorem c67_index_accept fqdn cli l :
  index_lived fqdn cli l -> field (x_ini l) ConfigPath <> Str [] ->
  (forall file, read_ok (Some file) ->
     exists l' ok, index_reloaded l (Some file) = Ok (l', ok) /\ (ok = true <-> forall o, file o <> None -> of_index o))
  /\ exists l', index_reloaded l None = Ok (l', false).
Proof.
  intros L P. apply index_lived_inv in L.
  assert (Hp : has_path (field (x_ini l)) = true).
  { unfold has_path. destruct (field (x_ini l) ConfigPath) as [z|[|c s]|b]; try reflexivity. congruence. }
  split.
  - intros file (S & F1 & F2). unfold index_reloaded, index_reload. rewrite Hp. unfold with_file, accepted.
    destruct (only index_options file) eqn:O.
    + rewrite run_pass by apply index_steps_pass. cbn [field].
      rewrite index_steps_fields by (apply timeout_field; exact O) || exact S.
      unfold index_wanted. destruct (in_dec opt_eq_dec NetReadTimeout index_reloadable) as [X|_];
        [exfalso; cbn in X; intuition discriminate|].
      destruct L as ((_ & Et) & _). rewrite Et. change (timeout_of (num (Num 600000))) with (@Ok Z 600000000). cbn [bind].
      eexists _, true. split; [reflexivity|]. split; [|reflexivity]. intros _ o N.
      pose proof (only_known _ _ o O N) as X. unfold index_options in X. cbn [In] in X. unfold of_index. cbn [In]. tauto.
    + eexists _, false. split; [reflexivity|]. split; [discriminate|]. intros H. exfalso.
      assert (only index_options file = true); [|congruence].
      apply only_iff. intros o N. specialize (H o N).
      assert (o <> ConfigPath) by (intros ->; congruence). assert (o <> PidPath) by (intros ->; congruence).
      unfold of_index in H. cbn [In] in H. cbn [In index_options].
      destruct H as [H|[H|H]]; [congruence|congruence|]. tauto.
  - unfold index_reloaded, index_reload. rewrite Hp. cbn. eauto.
Qed.
Print Assumptions c67_index_accept.

(** A refused reload of an index server changes nothing; after an accepted one the reloadable options that
    the file names have its values and all else is as before; and it goes by all that it shows. *)
Theorem c67_index fqdn cli l file l' ok :
  index_lived fqdn cli l -> field (x_ini l) ConfigPath <> Str [] -> read_ok file ->
  index_reloaded l file = Ok (l', ok) ->
  (ok = false -> l' = l)
  /\ (ok = true -> exists f, file = Some f
        /\ (forall o, field (x_ini l') o = index_wanted (field (x_ini l)) f o)
        /\ x_start l' = x_start l)
  /\ forall o, index_goes_by l' o (field (x_ini l') o).
Proof.
  intros L P Rf H. apply index_lived_inv in L.
  destruct (index_reload_inv _ _ _ _ L Rf H) as (I' & A & B).
  split; [exact A|]. split; [|apply index_honest; exact I'].
  intros E. destruct (B E) as (vm & W & Ef & Es & _).
  assert (Hp : has_path (field (x_ini l)) = true).
  { unfold has_path. destruct (field (x_ini l) ConfigPath) as [z|[|c s]|b]; try reflexivity. congruence. }
  rewrite Hp in W. cbn in W. unfold accepted in W. destruct file as [f|]; [|discriminate].
  destruct (only index_options f); [|discriminate]. injection W as <-. exists f. split; [reflexivity|]. split; [exact Ef|exact Es].
Qed.
Print Assumptions c67_index.
Definition icli : vmap := opts [(ConfigPath, Str (s2b "/etc/flarei.conf"))].
Definition ifile (n : Z) : vmap := opts [(DataDir, Str (s2b "/d")); (ThreadPool, Num n); (MonitorThreshold, Num n)].
Example c67_index_start_ex :
  sensible icli /\ read_ok (Some (ifile 4)) /\ names_path icli = true
  /\ exists l, index_start (s2b "h") icli (Some (ifile 4)) = Ok l.
Proof.
  split; [apply opts_sensible; vm_compute; reflexivity|].
  split; [split; [apply opts_sensible; vm_compute; reflexivity|split; reflexivity]|]. split; [reflexivity|].
  assert (W : after67 (index_start (s2b "h") icli (Some (ifile 4))) (fun _ => true) = true) by (vm_compute; reflexivity).
  apply after_ok in W as (l & E & _). exists l. exact E.
Qed.
Example c67_index_ex :
  match index_start (s2b "h") icli (Some (ifile 4)) with
  | Ok l => match index_reloaded l (Some (ifile 9)) with
            | Ok (l', ok) => ok = true /\ x_monitor l' = (9, 5, 1000) /\ x_told l' = (9, 5, 1000) /\ x_pool_req l' = 9
            | _ => False
            end
  | _ => False
  end.
Proof. vm_compute. repeat split; reflexivity. Qed.

(** The pool of the monitoring threads keeps the size it started with. *)
Theorem c67_index_pool_refuted :
  exists l l', index_start (s2b "h") icli (Some (ifile 4)) = Ok l
    /\ index_reloaded l (Some (ifile 9)) = Ok (l', true)
    /\ field (x_ini l') ThreadPool = Num 9 /\ x_pool_req l' = 9 /\ x_pool_other l' = 4.
Proof.
  assert (W : after67 (index_start (s2b "h") icli (Some (ifile 4))) (fun l =>
      after67 (index_reloaded l (Some (ifile 9))) (fun q =>
        snd q && is_num (field (x_ini (fst q)) ThreadPool) 9 && (x_pool_req (fst q) =? 9) && (x_pool_other (fst q) =? 4))) = true)
    by (vm_compute; reflexivity).
  apply after_ok in W as (l & E & W). apply after_ok in W as ([l' ok] & E1 & W). cbn [fst snd] in W.
  rewrite !andb_true_iff in W. destruct W as (((W1 & W2) & W3) & W4).
  exists l, l'. destruct ok; [|discriminate W1]. split; [exact E|]. split; [exact E1|].
  split; [apply is_num_ok; exact W2|]. split; lia.
Qed.
Print Assumptions c67_index_pool_refuted.

(** An index server has a read timeout of 600,000 seconds that no file and no command line can change. *)
Theorem c67_index_timeout_refuted :
  (forall fqdn cli l, index_lived fqdn cli l -> x_timeout l = 600000 * 1000)
  /\ (forall fqdn file z, index_start fqdn (opts [(NetReadTimeout, Num z)]) file = Err)
  /\ (forall l f, has_path (field (x_ini l)) = true -> f NetReadTimeout <> None -> index_reloaded l (Some f) = Ok (l, false)).
Proof.
  split; [|split].
  - intros fqdn cli l L. apply index_lived_inv in L. destruct L as (_ & G & _). apply G.
  - intros fqdn file z. reflexivity.
  - intros l f Hp N. unfold index_reloaded, index_reload. rewrite Hp. unfold accepted.
    destruct (only index_options f) eqn:O; [|destruct l; reflexivity].
    exfalso. apply N. apply timeout_field. exact O.
Qed.
Print Assumptions c67_index_timeout_refuted.

(** ** Values that make no sense *)
(** A timeout of a month overflows an int; a negative number of pooled threads becomes the
    largest number, and a negative limit on connections 4,294,967,295. *)
Theorem c67_range_refuted :
  node_start (s2b "h") cli0 (Some (opts (base0 ++ [(NetReadTimeout, Num 2592000)]))) true = Undef
  /\ (exists l, node_start (s2b "h") cli0 (Some (opts (base0 ++ [(ThreadPool, Num (-1))]))) true = Ok l
       /\ l_pool_req l = 2 ^ 64 - 1)
  /\ (exists l, node_start (s2b "h") cli0 (Some (opts (base0 ++ [(MaxConnection, Num (-1))]))) true = Ok l
       /\ takes_connection l 4294967294 = true).
Proof.
  split; [vm_compute; reflexivity|]. split.
  - assert (W : after67 (node_start (s2b "h") cli0 (Some (opts (base0 ++ [(ThreadPool, Num (-1))]))) true)
       (fun l => l_pool_req l =? 2 ^ 64 - 1) = true) by (vm_compute; reflexivity).
    apply after_ok in W as (l & E & W). exists l. split; [exact E|]. apply Z.eqb_eq. exact W.
  - assert (W : after67 (node_start (s2b "h") cli0 (Some (opts (base0 ++ [(MaxConnection, Num (-1))]))) true)
       (fun l => takes_connection l 4294967294) = true) by (vm_compute; reflexivity).
    apply after_ok in W as (l & E & W). exists l. split; [exact E|]. exact W.
Qed.
Print Assumptions c67_range_refuted.
