(** Lemmas on load(), reload() and what they put in force. *)
From Coq Require Import List NArith ZArith Bool String Lia.
From Coq Require Import ZifyBool ZifyNat ZifyN.
From Verif Require Import Base BaseLemmas TextModel ConfigModel ConfigSpec.
Import ListNotations.
Local Open Scope Z_scope.
Local Open Scope list_scope.

(** ** Running the steps *)
Definition effect (vm : vmap) (s : step) (f : fields) : fields :=
  match s with
  | Take o | Checked o _ => taken vm o f
  | Else o d => upd f o match vm o with Some _ => f o | None => d f end
  | _ => f
  end.
(** a step that did not throw *)
Definition passes (vm : vmap) (f : fields) (s : step) : Prop :=
  match s with
  | Checked o ok => match vm o with Some (Str v) => ok v = true | Some _ => False | None => True end
  | Required o => f o <> Str []
  | Servers => index_servers vm <> None
  | _ => True
  end.
Definition fields_after (vm : vmap) (l : list step) (f : fields) : fields := fold_left (fun f s => effect vm s f) l f.
Fixpoint all_pass (vm : vmap) (f : fields) (l : list step) : Prop :=
  match l with [] => True | s :: l => passes vm f s /\ all_pass vm (effect vm s f) l end.
Definition servers_after (vm : vmap) (l : list step) (before : list (bytes * Z)) : list (bytes * Z) :=
  fold_left (fun b s => match s with Servers => match index_servers vm with Some l => l | None => b end | _ => b end) l before.


Lemma step_some vm i s i' : run_step vm i s = Some i' ->
  passes vm (field i) s /\ i' = mkIni (effect vm s (field i)) (servers_after vm [s] (servers i)).
Proof.
  destruct i as [f sv], s as [o|o ok|o d|o|]; cbn [run_step passes effect servers_after fold_left field servers].
  - intros [= <-]. auto.
  - destruct (vm o) as [[z|v|b]|]; try discriminate.
    + destruct (ok v); [|discriminate]. intros [= <-]. auto.
    + intros [= <-]. auto.
  - intros [= <-]. auto.
  - destruct (f o) as [z|[|c v]|b] eqn:E; try discriminate; intros [= <-]; repeat split; congruence.
  - destruct (index_servers vm) as [l|]; [|discriminate]. intros [= <-]. repeat split; congruence.
Qed.

Lemma step_none vm i s : run_step vm i s = None -> ~ passes vm (field i) s.
Proof.
  destruct i as [f sv], s as [o|o ok|o d|o|]; cbn [run_step passes field]; try discriminate.
  - destruct (vm o) as [[z|v|b]|]; try discriminate; auto.
    destruct (ok v); [discriminate|]. congruence.
  - destruct (f o) as [z|[|c v]|b] eqn:E; try discriminate. auto.
  - destruct (index_servers vm) as [l|]; [discriminate|]. auto.
Qed.

Lemma run_true vm l : forall i i', run_steps vm i l = (i', true) ->
  all_pass vm (field i) l /\ i' = mkIni (fields_after vm l (field i)) (servers_after vm l (servers i)).
Proof.
  induction l as [|s l IH]; intros i i'; cbn [run_steps].
  - intros [= <-]. destruct i. cbn. auto.
  - destruct (run_step vm i s) as [i1|] eqn:E; [|discriminate].
    apply step_some in E as [P ->]. intros H. apply IH in H as [Q ->].
    split; [split; assumption|reflexivity].
Qed.

Lemma run_pass vm l : forall i, all_pass vm (field i) l ->
  run_steps vm i l = (mkIni (fields_after vm l (field i)) (servers_after vm l (servers i)), true).
Proof.
  induction l as [|s l IH]; intros i.
  - destruct i. reflexivity.
  - intros [P Q]. cbn [run_steps]. destruct (run_step vm i s) as [i1|] eqn:E.
    + apply step_some in E as [_ ->]. rewrite IH by exact Q. reflexivity.
    + apply step_none in E. contradiction.
Qed.

(** what a function that threw leaves: the steps before the one that threw *)
Lemma run_false vm l : forall i i', run_steps vm i l = (i', false) ->
  exists done s rest, l = done ++ s :: rest /\ all_pass vm (field i) done
    /\ ~ passes vm (fields_after vm done (field i)) s
    /\ i' = mkIni (fields_after vm done (field i)) (servers_after vm done (servers i)).
Proof.
  induction l as [|s l IH]; intros i i'; cbn [run_steps]; [discriminate|].
  destruct (run_step vm i s) as [i1|] eqn:E.
  - apply step_some in E as [P ->]. intros H. apply IH in H as (d & s' & r & -> & Q & NP & ->).
    exists (s :: d), s', r. repeat split; assumption.
  - apply step_none in E. intros [= <-]. exists [], s, l. destruct i. repeat split; assumption.
Qed.

(** ** Values *)
Lemma assigned_ok o v : typed (kind_of o) v -> in_range o v -> assigned o v = v.
Proof.
  destruct o, v; cbn; try reflexivity; try contradiction; try congruence.
  intros [H1 H2] H3. rewrite Z.mod_small; [reflexivity|]. split; [exact H3|].
  eapply Z.lt_trans; [exact H2|reflexivity].
Qed.
Lemma sensible_assigned vm o v : sensible vm -> vm o = Some v -> assigned o v = v.
Proof. intros S E. destruct (S _ _ E). apply assigned_ok; assumption. Qed.

Lemma taken_value vm o f o' : sensible vm ->
  taken vm o f o' = if opt_eq_dec o o' then match vm o' with Some v => v | None => f o' end else f o'.
Proof.
  intros S. unfold taken, upd. destruct (opt_eq_dec o o') as [<-|]; [|reflexivity].
  destruct (vm o) eqn:E; [|reflexivity]. apply (sensible_assigned _ _ _ S E).
Qed.

Lemma merge_sensible a b : sensible a -> sensible b -> sensible (merge a b).
Proof.
  intros A B o v. unfold merge. destruct (a o) eqn:E; [intros [= <-]; apply A; exact E|apply B].
Qed.
Lemma no_options_sensible : sensible no_options.
Proof. intros o v. discriminate. Qed.

(** steps without else branches: each option they name gets its value *)
Definition written (s : step) : list opt :=
  match s with Take o | Checked o _ | Else o _ => [o] | _ => [] end.
Definition is_else (s : step) : bool := match s with Else _ _ => true | _ => false end.

Lemma fields_plain vm l : sensible vm -> forallb (fun s => negb (is_else s)) l = true -> forall f o,
  fields_after vm l f o
  = if in_dec opt_eq_dec o (flat_map written l) then match vm o with Some v => v | None => f o end else f o.
Proof.
  intros S. unfold fields_after. induction l as [|s l IH]; intros P f o; [reflexivity|].
  cbn [forallb] in P. apply andb_true_iff in P as [P Q]. cbn [fold_left]. rewrite (IH Q).
  assert (E : effect vm s f o = if in_dec opt_eq_dec o (written s) then match vm o with Some v => v | None => f o end else f o).
  { destruct s as [o1|o1 k|o1 d|o1|]; try discriminate P; cbn [effect written]; try reflexivity.
    - rewrite taken_value by exact S. destruct (opt_eq_dec o1 o) as [<-|N].
      + destruct (in_dec opt_eq_dec o1 [o1]) as [_|N]; [reflexivity|]. destruct N. left. reflexivity.
      + destruct (in_dec opt_eq_dec o [o1]) as [[C|[]]|_]; [congruence|reflexivity].
    - rewrite taken_value by exact S. destruct (opt_eq_dec o1 o) as [<-|N].
      + destruct (in_dec opt_eq_dec o1 [o1]) as [_|N]; [reflexivity|]. destruct N. left. reflexivity.
      + destruct (in_dec opt_eq_dec o [o1]) as [[C|[]]|_]; [congruence|reflexivity]. }
  cbn [flat_map]. rewrite E.
  destruct (in_dec opt_eq_dec o (written s)) as [I1|N1], (in_dec opt_eq_dec o (flat_map written l)) as [I2|N2],
    (in_dec opt_eq_dec o (written s ++ flat_map written l)) as [I3|N3]; destruct (vm o); try reflexivity;
    exfalso; rewrite ?in_app_iff in *; tauto.
Qed.

(** ** reload *)
Lemma reload_writes : flat_map written node_reload_steps = 
  [ LogFacility; MaxConnection; NetReadTimeout; ReconInterval; ReconBwlimit; ReplicationType; ThreadPool;
    MaxQueue; NoreplyWindow; WatcherEnabled; WatcherInterval; ThresholdWarn; ThresholdPingNg;
    ClusterRepl; ReplName; ReplPort; ReplMode ].
Proof. reflexivity. Qed.

Lemma reload_fields vm f o : sensible vm -> fields_after vm node_reload_steps f o = wanted f vm o.
Proof. intros S. rewrite fields_plain by (exact S || reflexivity). reflexivity. Qed.

Lemma reload_servers vm b l : index_servers vm = Some l -> servers_after vm node_reload_steps b = l.
Proof. intros E. cbn. rewrite E. reflexivity. Qed.

(** the maps that reload() refuses *)
Definition legal (vm : vmap) : Prop :=
  (forall s, vm ReplicationType = Some (Str s) -> known_replication s = true)
  /\ (forall s, vm ReplMode = Some (Str s) -> known_mode s = true)
  /\ index_servers vm <> None.

Lemma text_typed vm o v : sensible vm -> kind_of o = KText -> vm o = Some v -> exists s, v = Str s.
Proof. intros S K E. destruct (S _ _ E) as [T _]. rewrite K in T. destruct v; try contradiction. eauto. Qed.

Lemma checked_pass vm f o ok : sensible vm -> kind_of o = KText ->
  (passes vm f (Checked o ok) <-> (forall s, vm o = Some (Str s) -> ok s = true)).
Proof.
  intros S K. cbn. destruct (vm o) as [v|] eqn:E.
  - destruct (text_typed _ _ _ S K E) as [s ->]. split; [intros H s' [= <-]; exact H|intros H; apply H; reflexivity].
  - split; [discriminate|trivial].
Qed.

Lemma reload_passes vm f : sensible vm -> (all_pass vm f node_reload_steps <-> legal vm).
Proof.
  intros S. unfold node_reload_steps. cbn [all_pass].
  assert (A : forall f, passes vm f (Checked ReplicationType known_replication) <->
    (forall s, vm ReplicationType = Some (Str s) -> known_replication s = true)) by (intros; apply checked_pass; auto).
  assert (B : forall f, passes vm f (Checked ReplMode known_mode) <->
    (forall s, vm ReplMode = Some (Str s) -> known_mode s = true)) by (intros; apply checked_pass; auto).
  rewrite A, B. cbn [passes]. unfold legal. tauto.
Qed.
