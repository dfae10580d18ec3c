(** C34: the cluster map survives a crash of the index server. *)
From Coq Require Import List Bool NArith ZArith Lia String.
From Verif Require Import Base StorageModel TextModel ClusterModel ClusterSpec ClusterProofs Props_Cluster FilesModel FilesProofs.
Import ListNotations.

Section Xml.
  (** Any serialization that can be read back and never is the empty string. *)
  Variables (encode : saved -> bytes) (decode : bytes -> option saved).
  Hypothesis read_back : forall v, decode (encode v) = Some v.
  Hypothesis not_empty : forall v, encode v <> [].

  (** Wherever the server is killed while it saves a state over an old one, a new process reads the
      old or the new state; or there is no state file and the complete new state is in the
      temporary file. *)
  Theorem c34_crash_partial : forall v o d old c, holds encode d old -> (List.length (encode v) <= o_written o)%nat ->
    In c (fst (fst (save_file (encode v) o d))) ->
    restore decode c = Some old \/ restore decode c = Some (Some v) \/ (c = mkFs None (Some (encode v)) /\ restore decode c = Some None).
  Proof. exact (crash_disk encode decode read_back not_empty). Qed.
  (** So for any history of requests and any request: wherever the server is killed while it saves the
      outcome, a new process comes up with exactly the state before or after that request, unless the state file is
      missing at that moment. *)
  Theorem c34_recovers_partial : forall s e r s' v o d c, history s -> ~ abandons s e -> handle io_ok s e = Ok (r, s') -> i_disk s' = Some v ->
    holds encode d (i_disk s) -> (List.length (encode v) <= o_written o)%nat ->
    In c (fst (fst (save_file (encode v) o d))) -> main c <> None \/ i_disk s = None ->
    exists back, start_on decode c = Ok (0%Z, back) /\ (back = s \/ back = s').
  Proof. exact (recovers encode decode read_back not_empty). Qed.
  (** Saving with failing system calls does what ClusterModel says, and reports it. *)
  Theorem c34_save_reports : forall s o d l d' r b ld, holds encode d (i_disk s) -> (List.length (encode (to_save s)) <= o_written o)%nat ->
    save_index encode s o d = (l, d', r) ->
    exists out s', save (mkIo b ld out) s = ((r =? 0)%Z, s') /\ holds encode d' (i_disk s') /\ (out = SaveOk <-> r = 0%Z).
  Proof. exact (save_refines encode). Qed.

  (** But the state file is removed before the new one takes its place: in between,
      whatever the old state was, a new process comes up with an empty map. *)
  Theorem c34_crash_refuted : forall v old, exists c, In c (fst (fst (save_file (encode v) (all_well (encode v)) (mkFs (Some (encode old)) None)))) /\
    start_on decode c = Ok (0%Z, fresh_index None).
  Proof.
    intros v old. exists (mkFs None (Some (encode v))). split; [|reflexivity].
    unfold save_file, all_well. cbn [o_open o_written o_unlink o_rename negb fst tmp main]. right. apply in_or_app. right. left. now rewrite firstn_all.
  Qed.
  (** And a full disk is not noticed: an empty file replaces the state, and 0 is returned. *)
  Theorem c34_full_disk_refuted : forall v old l d' r, save_file (encode v) (mkOutcome true 0 true true) (mkFs (Some (encode old)) None) = (l, d', r) ->
    r = 0%Z /\ start_on decode d' = Ok (0%Z, fresh_index None).
  Proof. intros v old l d' r [= _ <- <-]. split; reflexivity. Qed.
End Xml.
Print Assumptions c34_crash_partial.
Print Assumptions c34_recovers_partial.
Print Assumptions c34_save_reports.
Print Assumptions c34_crash_refuted.
Print Assumptions c34_full_disk_refuted.

(** The hypotheses can be met: a serialization that is read back for every state.  (Its
    "bytes" are arbitrary numbers, which is enough to show that.) *)
Definition put_z (z : Z) : bytes := [if (z <? 0)%Z then 1%N else 0%N; Z.abs_N z].
Definition put_name (k : bytes) : bytes := N.of_nat (List.length k) :: k.
Definition put_role (r : role) : N := match r with Master => 0 | Slave => 1 | Proxy => 2 end%N.
Definition put_state (r : nstate) : N := match r with Active => 0 | Prepare => 1 | Down => 2 | Ready => 3 end%N.
Definition put_node (n : node) : bytes := put_name (n_name n) ++ put_z (n_port n) ++ put_role (n_role n) :: put_state (n_state n) ::
  put_z (n_partition n) ++ put_z (n_balance n) ++ put_z (n_thread n).
Definition put_entry (e : bytes * node) : bytes := put_name (fst e) ++ put_node (snd e).
Definition put_saved (v : saved) : bytes := v_version v :: put_z (v_thread v) ++ N.of_nat (List.length (v_map v)) :: List.concat (map put_entry (v_map v)).
Definition get_z (x : bytes) : option (Z * bytes) :=
  match x with s :: a :: r => Some (if (s =? 1)%N then (- Z.of_N a)%Z else Z.of_N a, r) | _ => None end.
Definition get_name (x : bytes) : option (bytes * bytes) :=
  match x with n :: r => Some (firstn (N.to_nat n) r, skipn (N.to_nat n) r) | [] => None end.
Definition get_role (n : N) : role := match n with 0 => Master | 1 => Slave | _ => Proxy end%N.
Definition get_state (n : N) : nstate := match n with 0 => Active | 1 => Prepare | 2 => Down | _ => Ready end%N.
Definition get_node (x : bytes) : option (node * bytes) :=
  match get_name x with None => None | Some (nm, x) =>
  match get_z x with Some (pt, r :: s :: x) =>
  match get_z x with None => None | Some (pa, x) =>
  match get_z x with None => None | Some (ba, x) =>
  match get_z x with None => None | Some (th, x) => Some (mkNode nm pt (get_role r) (get_state s) pa ba th, x) end end end | _ => None end end.
Fixpoint get_entries (n : nat) (x : bytes) : option node_map :=
  match n with
  | O => Some []
  | S n => match get_name x with None => None | Some (k, x) => match get_node x with None => None | Some (v, x) =>
      option_map (cons (k, v)) (get_entries n x) end end
  end.
Definition get_saved (x : bytes) : option saved :=
  match x with v :: x => match get_z x with Some (t, n :: x) => option_map (fun m => mkSaved v m t) (get_entries (N.to_nat n) x) | _ => None end | [] => None end.
Lemma get_put_z z r : get_z (put_z z ++ r) = Some (z, r).
Proof. cbn. do 2 f_equal. destruct (Z.ltb_spec z 0); cbn; lia. Qed.
Lemma get_put_name k r : get_name (put_name k ++ r) = Some (k, r).
Proof.
  unfold put_name, get_name. cbn [app]. rewrite Nat2N.id, firstn_app, skipn_app, Nat.sub_diag, firstn_all, skipn_all. cbn. now rewrite app_nil_r.
Qed.
Lemma get_put_node n r : get_node (put_node n ++ r) = Some (n, r).
Proof.
  unfold put_node, get_node. rewrite <- !app_assoc, get_put_name, get_put_z. cbn [app]. rewrite <- !app_assoc, !get_put_z.
  destruct n as [nm pt ro st pa ba th]. cbn. destruct ro, st; reflexivity.
Qed.
Lemma get_put_entries m : get_entries (List.length m) (List.concat (map put_entry m)) = Some m.
Proof.
  induction m as [|[k n] m IH]; [reflexivity|]. cbn [List.length map List.concat get_entries]. unfold put_entry at 1. cbn [fst snd].
  now rewrite <- !app_assoc, get_put_name, get_put_node, IH.
Qed.
Lemma get_put_saved v : get_saved (put_saved v) = Some v.
Proof. unfold put_saved, get_saved. rewrite get_put_z, Nat2N.id, get_put_entries. now destruct v. Qed.
Lemma put_saved_not_empty v : put_saved v <> [].
Proof. discriminate. Qed.

(** Two partitions are served; a further node is just being added when the server is killed. *)
Definition ex_after : index := match handle io_ok ex_state (EAdd (s2b "z") 1) with Ok (_, s) => s | _ => ex_state end.
Definition ex_new : saved := mkSaved (i_version ex_after) (i_map ex_after) (i_thread ex_after).
Definition ex_fs : fs := mkFs (option_map put_saved (i_disk ex_state)) None.
Example c34_example : forall c, In c (fst (fst (save_file (put_saved ex_new) (all_well (put_saved ex_new)) ex_fs))) -> main c <> None ->
  exists back, start_on get_saved c = Ok (0%Z, back) /\ (back = ex_state \/ back = ex_after).
Proof.
  intros c I M.
  assert (NA : ~ abandons ex_state (EAdd (s2b "z") 1)) by (intros (k & n & T & _); discriminate T).
  assert (V : i_disk ex_after = Some ex_new) by (vm_compute; reflexivity).
  assert (H : handle io_ok ex_state (EAdd (s2b "z") 1) = Ok (0%Z, ex_after)) by (vm_compute; reflexivity).
  assert (D : holds put_saved ex_fs (i_disk ex_state)) by (unfold holds, ex_fs; cbn [main]; exact eq_refl).
  pose proof ex_state_history as HS. revert I. generalize dependent ex_fs. generalize dependent ex_new. generalize dependent ex_after. generalize dependent ex_state.
  intros s NA HS s' H v V d D I.
  exact (c34_recovers_partial put_saved get_saved get_put_saved put_saved_not_empty s (EAdd (s2b "z") 1) 0%Z s'
    v (all_well (put_saved v)) d c HS NA H V D (le_n _) I (or_introl M)).
Qed.
Example c34_points : List.length (fst (fst (save_file (s2b "abc") (all_well (s2b "abc")) (mkFs (Some (s2b "xy")) None)))) = 7%nat /\
  snd (fst (save_file (s2b "abc") (all_well (s2b "abc")) (mkFs (Some (s2b "xy")) None))) = mkFs (Some (s2b "abc")) None /\
  ex_after <> ex_state /\ start_on get_saved (mkFs (Some (put_saved ex_new)) None) = Ok (0%Z, ex_after).
Proof. split; [reflexivity|]. split; [reflexivity|]. split; [|vm_compute; reflexivity]. intros E. apply (f_equal i_version) in E. vm_compute in E. discriminate E. Qed.
