(** C34: what a failure of the whole machine leaves of the cluster map. *)
From Coq Require Import List Bool NArith ZArith Lia String.
From Verif Require Import Base StorageModel TextModel ClusterModel ClusterSpec ClusterProofs Props_Cluster FilesModel FilesProofs Props_Files PowerModel PowerSpec PowerProofs.
Import ListNotations.

(** What the machine goes through, as states of the index server: it saves this one and is killed after so
    many system calls (or not); the kernel writes everything to the disk. *)
Inductive sevent := SSave (v : saved) (o : outcome) (stop : nat) | SWriteOut.
(** The states saved since everything was last on the disk. *)
Fixpoint recent (h : list sevent) (acc : list saved) : list saved :=
  match h with [] => acc | SSave v _ _ :: h => recent h (v :: acc) | SWriteOut :: h => recent h [] end.

Section Xml.
  (** Any serialization that can be read back; the beginning of one is refused, or is enough to read all of it back. *)
  Variables (encode : saved -> bytes) (decode : bytes -> option saved).
  Hypothesis read_back : forall v, decode (encode v) = Some v.
  Hypothesis not_empty : forall v, encode v <> [].
  Hypothesis torn : forall v n, decode (firstn n (encode v)) = None \/ decode (firstn n (encode v)) = Some v.
  Definition bytes_of (e : sevent) : mevent := match e with SSave v o n => ESaving (encode v) o n | SWriteOut => EWriteOut end.
  Definition history_of (h : list sevent) : list mevent := map bytes_of h.
  Lemma since_recent h l x : In x (since (history_of h) (map encode l)) -> exists v, In v (recent h l) /\ x = encode v.
  Proof.
    revert l. induction h as [|[v o n|] h IH]; intros l I; cbn in *.
    - apply in_map_iff in I as (v & <- & I). eauto.
    - now apply (IH (v :: l)).
    - now apply (IH []).
  Qed.

  (** While the machine runs, the calls of a save do what the model of C34 says. *)
  Theorem c34_power_running : forall d h x o, seen (now (machine d (h ++ [ESaving x o (List.length (save_calls x o))]))) = snd (fst (save_file x o (seen (now (machine d h))))).
  Proof. intros. rewrite machine_app. cbn [fold_left machine_step]. rewrite firstn_all. apply save_seen. Qed.
  (** Whenever the machine fails, the new process finds no state, or refuses to start, or has the state of the moment when the
      kernel last wrote everything to the disk, or one of those saved since then.  It never has
      any other. *)
  Theorem c34_power_partial : forall d h c, failure (machine d (history_of h)) c ->
    restore decode c = Some None \/ restore decode c = None \/
    restore decode c = restore decode (seen (now (machine d (up_to_sync (history_of h))))) \/
    exists v, In v (recent h []) /\ restore decode c = Some (Some v).
  Proof.
    intros d h c F. destruct (after_failure _ _ _ F) as [M|[M|(x & n & I & M)]].
    - left. unfold restore, load_file. now rewrite M.
    - right. right. left. unfold restore, load_file. now rewrite M.
    - destruct (since_recent h [] x I) as (v & Iv & ->). unfold restore, load_file. rewrite M.
      destruct (firstn n (encode v)) as [|b y] eqn:E; [auto|]. rewrite <- E. destruct (torn v n) as [T|T]; rewrite T; cbn; eauto 6.
  Qed.
  (** Once the kernel has done so, and until the next save, nothing is lost. *)
  Theorem c34_power_synced : forall d h c, failure (machine d (h ++ [EWriteOut])) c -> c = seen (now (machine d h)).
  Proof. intros d h c F. apply after_sync in F as ->. rewrite machine_app. cbn [fold_left machine_step now hd]. destruct (now (machine d h)) as [[m|] [t|]]; reflexivity. Qed.
  (** But nobody asks the kernel to: whatever was saved before, and although the save was reported to have worked, the
      new process can come up with an empty map. *)
  Theorem c34_power_refuted : forall d h v, let o := all_well (encode v) in
    exists c, failure (machine d (h ++ [ESaving (encode v) o (List.length (save_calls (encode v) o))])) c /\
      snd (save_file (encode v) o (seen (now (machine d h)))) = 0%Z /\
      start_on decode c = Ok (0%Z, fresh_index None).
  Proof.
    intros d h v o. exists (mkFs (Some []) None). split; [exact (after_save d (encode v) 0 h)|]. split; reflexivity.
  Qed.
  (** And any number of saves can be undone at once. *)
  Theorem c34_power_lost_refuted : forall d h, ~ In SWriteOut h -> failure (machine d (history_of h)) (seen d).
  Proof.
    intros d h N. apply after_saves. unfold history_of. intros I. apply in_map_iff in I as ([v o n|] & E & J); [discriminate E|]. now apply N.
  Qed.
End Xml.
Print Assumptions c34_power_running.
Print Assumptions c34_power_partial.
Print Assumptions c34_power_synced.
Print Assumptions c34_power_refuted.
Print Assumptions c34_power_lost_refuted.

(** The hypotheses can be met: the serialization of Props_Files behind its length. *)
Definition put_counted (v : saved) : bytes := N.of_nat (List.length (put_saved v)) :: put_saved v.
Definition get_counted (x : bytes) : option saved :=
  match x with n :: x => if (N.to_nat n =? List.length x)%nat then get_saved x else None | [] => None end.
Lemma get_put_counted v : get_counted (put_counted v) = Some v.
Proof. unfold get_counted, put_counted. rewrite Nat2N.id, Nat.eqb_refl. apply get_put_saved. Qed.
Lemma put_counted_not_empty v : put_counted v <> [].
Proof. discriminate. Qed.
Lemma torn_counted v n : get_counted (firstn n (put_counted v)) = None \/ get_counted (firstn n (put_counted v)) = Some v.
Proof.
  destruct n as [|n]; [now left|]. unfold put_counted, get_counted. cbn [firstn]. rewrite Nat2N.id. destruct (Nat.eqb_spec (List.length (put_saved v)) (List.length (firstn n (put_saved v)))) as [E|E]; [|now left].
  right. rewrite firstn_length in E. rewrite firstn_all2 by lia. apply get_put_saved.
Qed.

(** The state of Props_Cluster is on the disk; then a node is added.  All four outcomes of a failure can happen. *)
Definition ex_disk : disk := mkDisk (option_map (fun v => mkP (put_counted v) true) (i_disk ex_state)) None.
Definition save_all (v : saved) : list sevent := [SSave v (all_well (put_counted v)) (List.length (save_calls (put_counted v) (all_well (put_counted v))))].
Lemma all_fails d v n : failure (machine d (history_of put_counted (save_all v))) (mkFs (Some (firstn n (put_counted v))) None).
Proof. exact (after_save d (put_counted v) n []). Qed.
Definition ex_saves : list sevent := save_all ex_new.
Definition ex_prefix (n : nat) : fs := mkFs (Some (firstn n (put_counted ex_new))) None.
Example c34_power_example :
  (failure (machine ex_disk (history_of put_counted ex_saves)) (seen ex_disk) /\ start_on get_counted (seen ex_disk) = Ok (0%Z, ex_state)) /\
  (failure (machine ex_disk (history_of put_counted ex_saves)) (ex_prefix 500) /\ start_on get_counted (ex_prefix 500) = Ok (0%Z, ex_after)) /\
  (failure (machine ex_disk (history_of put_counted ex_saves)) (ex_prefix 0) /\ start_on get_counted (ex_prefix 0) = Ok (0%Z, fresh_index None)) /\
  (failure (machine ex_disk (history_of put_counted ex_saves)) (ex_prefix 7) /\ start_on get_counted (ex_prefix 7) = Err).
Proof.
  unfold ex_saves, ex_prefix. split; [|split; [|split]]; (split; [|vm_compute; reflexivity]).
  - apply c34_power_lost_refuted. intros [E|[]]. discriminate E.
  - apply all_fails.
  - apply all_fails.
  - apply all_fails.
Qed.
