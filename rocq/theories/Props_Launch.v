(** C81: what a start does before it fails, and whether a server can be started again. *)
From Coq Require Import NArith ZArith List Bool String Lia.
From Coq Require Import ZifyBool ZifyNat ZifyN.
From Verif Require Import Base BaseLemmas TextModel LaunchModel LaunchSpec LaunchProofs.
Import ListNotations.
Local Open Scope N_scope.
Local Open Scope list_scope.

(** Whatever fails, the start has done what comes before it and nothing that comes after it. *)
Theorem c81_prefix works plan l ok : launch works plan = (l, ok) ->
  Forall (fun d => works d = true) l /\ (if ok then l = plan else exists d rest, plan = l ++ d :: rest /\ works d = false).
Proof. exact (launch_spec works plan l ok). Qed.
Print Assumptions c81_prefix.

(** A start that succeeds has done everything that is asked for and nothing else, each once, the file with the number last; and nothing
    that is needed may fail. *)
Theorem c81_complete works c l :
  (launch works (node_plan c) = (l, true) <-> l = node_plan c /\ forall d, node_needs c d -> works d = true) /\
  (launch works (index_plan c) = (l, true) <-> l = index_plan c /\ forall d, index_needs c d -> works d = true) /\
  (forall d, In d (node_plan c) <-> node_needs c d) /\ (forall d, In d (index_plan c) <-> index_needs c d) /\
  List.NoDup (node_plan c) /\ List.NoDup (index_plan c) /\ last (node_plan c) Options = Pid /\ last (index_plan c) Options = Pid.
Proof.
  assert (N1 : forall d, In d (node_plan c) <-> node_needs c d).
  { intros d. destruct c as [dm so wa co]. unfold node_plan, node_needs, when, has_socket. cbn [c_daemon c_socket c_watcher c_copy].
    destruct dm, so, wa, co, d; cbn [app In]; intuition (try discriminate; try congruence). }
  assert (N2 : forall d, In d (index_plan c) <-> index_needs c d).
  { intros d. destruct c as [dm so wa co]. unfold index_plan, index_needs, when, has_socket. cbn [c_daemon c_socket c_watcher c_copy].
    destruct dm, so, d; cbn [app In]; intuition (try discriminate; try congruence). }
  split; [rewrite launch_all; split; intros [A B]; (split; [exact A|]); intros d H; apply B; now apply N1|].
  split; [rewrite launch_all; split; intros [A B]; (split; [exact A|]); intros d H; apply B; now apply N2|].
  split; [exact N1|]. split; [exact N2|]. destruct c as [dm so wa co]. unfold node_plan, index_plan, when, has_socket. cbn [c_daemon c_socket c_watcher c_copy].
  destruct dm, so, wa, co; cbn [app]; repeat split; repeat (apply List.NoDup_cons; [cbn [In]; intuition discriminate|]); apply List.NoDup_nil.
Qed.
Print Assumptions c81_complete.
(** An index server with a hash function it does not know goes away before its controller runs or the map is read; without its coordinator
    it does not even listen. *)
Theorem c81_index works c l ok : launch works (index_plan c) = (l, ok) ->
  (works Hash = false -> ok = false /\ ~ In Controller l /\ ~ In State l /\ ~ In Pid l) /\
  (works Coordinator = false \/ works Meta = false -> ok = false /\ ~ In Port l /\ ~ In Socket l /\ ~ In Controller l /\ ~ In State l /\ ~ In Pid l).
Proof.
  intros E. destruct c as [dm so wa co]. unfold index_plan, when, has_socket in E. cbn [c_daemon c_socket c_watcher c_copy] in E.
  split; intros H; [|destruct H as [H|H]]; destruct dm, so; cbn [app launch] in E; rewrite H in E;
    repeat match type of E with context [if works ?d then _ else _] => destruct (works d) end; injection E as <- <-; cbn [In]; intuition discriminate.
Qed.
Print Assumptions c81_index.

(** A server whose port is taken, or whose local socket is, goes away before it has told the index server, opened the database, read the
    map of the cluster or written its number, whatever the options. *)
Theorem c81_port works c l ok : works Port = false \/ (c_socket c <> [] /\ works Socket = false) ->
  (launch works (node_plan c) = (l, ok) -> ok = false /\ ~ In Join l /\ ~ In Database l /\ ~ In Copy l /\ ~ In Pid l) /\
  (launch works (index_plan c) = (l, ok) -> ok = false /\ ~ In Controller l /\ ~ In State l /\ ~ In Pid l).
Proof.
  intros H. destruct c as [dm so wa co]. cbn [c_socket] in H.
  assert (K : works Port = true -> works Socket = false /\ so <> []) by (intros W; destruct H as [H|[H1 H2]]; [congruence|auto]).
  split; intros E; unfold node_plan, index_plan, when, has_socket in E; cbn [c_daemon c_socket c_watcher c_copy] in E;
    destruct (works Port) eqn:P; [destruct (K eq_refl) as [S1 S2]; destruct so as [|b so]; [congruence|]| |destruct (K eq_refl) as [S1 S2]; destruct so as [|b so]; [congruence|]|];
    destruct dm; cbn [app launch] in E; rewrite P in E; try rewrite S1 in E;
    repeat match type of E with context [if works ?d then _ else _] => destruct (works d) end; injection E as <- <-; cbn [In]; intuition discriminate.
Qed.
Print Assumptions c81_port.
(** But a node that finds the number of a living process in the file, which it looks at last, has done everything else: it listens,
    the index server has added it, the database is open and the copy to the other cluster has begun. *)
Theorem c81_pid_refuted works c : (forall d, works d = match d with Pid => false | _ => true end) ->
  exists l, launch works (node_plan c) = (l, false) /\ node_plan c = l ++ [Pid] /\ In Port l /\ In Join l /\ In Database l /\ (c_copy c = true -> In Copy l).
Proof.
  intros W. destruct c as [dm so wa co]. unfold node_plan, when, has_socket. cbn [c_daemon c_socket c_watcher c_copy].
  destruct dm, so, wa, co; cbn [app launch]; rewrite !W; eexists; (split; [reflexivity|]); (split; [reflexivity|]); cbn [In]; repeat split; intuition discriminate.
Qed.
Print Assumptions c81_pid_refuted.
(** And one that cannot open its database has told the index server of itself before. *)
Theorem c81_database_refuted works c : (forall d, works d = match d with Database => false | _ => true end) ->
  exists l, launch works (node_plan c) = (l, false) /\ In Port l /\ In Join l /\ ~ In Database l.
Proof.
  intros W. destruct c as [dm so wa co]. unfold node_plan, when, has_socket. cbn [c_daemon c_socket c_watcher c_copy].
  destruct dm, so; cbn [app launch]; rewrite !W; eexists; (split; [reflexivity|]); cbn [In]; repeat split; intuition discriminate.
Qed.
Print Assumptions c81_database_refuted.

(** Without daemonize the caller is told of every failure, and only of failures. *)
Theorem c81_status works c plan : c_daemon c = false -> plan = node_plan c \/ plan = index_plan c ->
  (status works c plan = Some 255%Z <-> snd (launch works plan) = false) /\ (status works c plan = None <-> snd (launch works plan) = true).
Proof.
  intros D P. assert (N0 : ~ In Fork plan).
  { destruct c as [dm so wa co]. cbn in D. subst dm. destruct P as [-> | ->]; unfold node_plan, index_plan, when, has_socket; cbn [c_daemon c_socket c_watcher c_copy];
      destruct so, wa, co; cbn [app In]; intuition discriminate. }
  unfold status. destruct (launch works plan) as [l ok] eqn:E. destruct (launch_spec _ _ _ _ E) as [_ B].
  assert (X : existsb (fun d => match d with Fork => true | _ => false end) l = false).
  { destruct (existsb _ l) eqn:X; [|reflexivity]. exfalso. apply existsb_exists in X. destruct X as (d & H & T). destruct d; try discriminate T. apply N0.
    destruct ok; [now subst|]. destruct B as (d & rest & -> & _). apply in_or_app. now left. }
  rewrite X. cbn [snd]. destruct ok; split; split; congruence.
Qed.
Print Assumptions c81_status.
(** With daemonize the caller is told 0, whatever fails after the fork. *)
Theorem c81_status_refuted works c plan : c_daemon c = true -> works Options = true -> works Limits = true -> works Fork = true ->
  plan = node_plan c \/ plan = index_plan c -> status works c plan = Some 0%Z.
Proof.
  intros D W1 W2 W3 P. assert (T : exists t, plan = Options :: Limits :: Fork :: t) by (destruct P as [-> | ->]; unfold node_plan, index_plan; rewrite D; eexists; reflexivity).
  destruct T as (t & ->). unfold status. cbn [launch]. rewrite W1, W2, W3. destruct (launch works t). reflexivity.
Qed.
Print Assumptions c81_status_refuted.
Example c81_met : let c := mkConf true (s2b "/tmp/f") true true in
  launch (fun d => match d with Database => false | _ => true end) (node_plan c) = ([Options; Limits; Fork; Handlers; Port; Socket; Join], false) /\
  launch (fun _ => true) (index_plan c) = ([Options; Limits; Fork; Coordinator; Meta; Handlers; Port; Socket; Hash; Controller; State; Alarm; Pid], true) /\
  launch (fun _ => true) (node_plan c) = ([Options; Limits; Fork; Handlers; Port; Socket; Join; Database; Alarm; Watcher; Mode; Copy; Pid], true) /\
  launch (fun d => match d with Port => false | _ => true end) (node_plan c) = ([Options; Limits; Fork; Handlers], false) /\
  status (fun d => match d with Limits => false | _ => true end) c (node_plan c) = Some 255%Z.
Proof. repeat split. Qed.

(** A local socket with a name of at most 13 bytes, through all lives of the server: the name is there while the server is up and after it was
    killed, until somebody removes it; so a start succeeds unless the name was left behind by a kill.  No other file is touched. *)
Theorem c81_socket p ps es m : plain_name p -> (List.length p <= 13)%nat -> ps p = false -> live p (mkMachine ps false) es = Some m ->
  (m_paths m p = true <-> m_up m = true \/ left_behind false es = true) /\ (forall q, q <> p -> m_paths m q = ps q) /\
  (m_up m = false -> exists m', live_step p m Start = Some m' /\ m_up m' = negb (left_behind false es)).
Proof.
  intros P L F E. destruct (lives_inv p P L es _ _ false (F : m_paths (mkMachine ps false) p = _) ltac:(discriminate) E) as (A & B & C). cbn [m_up m_paths] in *.
  split; [rewrite A, orb_true_iff; reflexivity|]. split; [exact C|]. intros U. cbn [live_step]. rewrite U. unfold listen_unix. rewrite bound_plain by apply P. rewrite firstn_all2 by lia.
  rewrite A, U. cbn [orb]. destruct (left_behind false es); eexists; (split; [reflexivity|]); [exact U|reflexivity].
Qed.
Print Assumptions c81_socket.
Example c81_socket_met : let p := s2b "/tmp/f.sock" in plain_name p /\ (List.length p <= 13)%nat /\
  (exists m, live p (mkMachine (fun _ => false) false) [Start; Stop [1; 2]; Fail []; Start; Kill; Start; Fail []; Clean; Start] = Some m /\ m_up m = true) /\
  (exists m, live p (mkMachine (fun _ => false) false) [Start; Kill; Start] = Some m /\ m_up m = false).
Proof. cbv zeta. split; [split; [discriminate|]; repeat (apply List.Forall_cons; [vm_compute; discriminate|]); apply List.Forall_nil|]. split; [vm_compute; lia|]. split; eexists; (split; [reflexivity|]); reflexivity. Qed.

(** With a longer name, whatever lies behind the address in memory unless it happens to be the end of the name: after a stop, or a start
    that failed, the name is still there and no start succeeds; and the file whose name begins with the first 14 bytes and goes on with what
    is in memory is removed if there is one. *)
Theorem c81_socket_refuted p ps mem : plain_name p -> (14 <= List.length p <= 107)%nat -> ps p = false -> cstr mem <> skipn 14 p ->
  forall es, es = [Start; Stop mem] \/ es = [Fail mem] -> exists m, live p (mkMachine ps false) es = Some m /\ m_up m = false /\
    m_paths m p = true /\ m_paths m (firstn 14 p ++ cstr mem) = false /\ live_step p m Start = Some m.
Proof.
  intros [_ P] L F N0 es H. assert (B : bound_path p = p) by (rewrite bound_plain by exact P; apply firstn_all2; lia).
  assert (X : p <> firstn 14 p ++ cstr mem) by (intros X; apply N0; rewrite <- (firstn_skipn 14 p) in X at 1; apply app_inv_head in X; congruence).
  exists (mkMachine (close_unix (set_path ps p true) p mem) false). split.
  { destruct H as [-> | ->]; cbn [live live_step m_up m_paths]; unfold listen_unix; rewrite B, F; reflexivity. }
  assert (T : close_unix (set_path ps p true) p mem p = true) by (unfold close_unix; rewrite reported_long by (try exact P; lia); rewrite set_path_other by exact X; apply set_path_same).
  split; [reflexivity|]. cbn [m_paths]. split; [exact T|]. split; [unfold close_unix; rewrite reported_long by (try exact P; lia); apply set_path_same|].
  cbn [live_step m_up m_paths]. unfold listen_unix. rewrite B, T. reflexivity.
Qed.
Print Assumptions c81_socket_refuted.
Example c81_socket_refuted_met : let p := s2b "/tmp/flared.sock" in plain_name p /\ (14 <= List.length p <= 107)%nat /\ cstr [0] <> skipn 14 p /\
  firstn 14 p ++ cstr [0] = s2b "/tmp/flared.so".
Proof. cbv zeta. split; [split; [discriminate|]; repeat (apply List.Forall_cons; [vm_compute; discriminate|]); apply List.Forall_nil|]. split; [vm_compute; lia|]. split; [discriminate|reflexivity]. Qed.
(** A name of more than 107 bytes is cut: the clients that use the whole name find nothing there. *)
Theorem c81_cut_refuted p ps : plain_name p -> (107 < List.length p)%nat -> ps p = false -> ps (firstn 107 p) = false ->
  exists m, live p (mkMachine ps false) [Start] = Some m /\ m_up m = true /\ m_paths m p = false /\ m_paths m (firstn 107 p) = true.
Proof.
  intros [_ P] L F G. cbn [live live_step m_up m_paths]. unfold listen_unix. rewrite bound_plain, G by exact P. eexists. split; [reflexivity|]. split; [reflexivity|]. cbn [m_paths].
  rewrite set_path_same. split; [|reflexivity]. rewrite set_path_other; [exact F|]. intros X. apply (f_equal (@List.length _)) in X. rewrite firstn_length in X. lia.
Qed.
Print Assumptions c81_cut_refuted.
Example c81_cut_met : let p := repeat 97 108 in plain_name p /\ (107 < List.length p)%nat.
Proof. cbv zeta. split; [split; [discriminate|]; apply List.Forall_forall; intros x H; apply repeat_spec in H; subst; discriminate|rewrite repeat_length; lia]. Qed.
