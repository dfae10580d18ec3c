From Coq Require Import List Bool NArith ZArith Lia.
From Verif Require Import Base FilesModel PowerModel PowerSpec.
Import ListNotations.

(** ** What the running machine sees is what FilesModel says. *)
Lemma calls_app j a b : calls j (a ++ b) = calls (calls j a) b.
Proof. revert j. induction a as [|c a IH]; intros j; cbn; auto. Qed.
Lemma puts j x m t p : now j = mkDisk m (Some (mkP p t)) -> x <> [] -> now (calls j (map CPut x)) = mkDisk m (Some (mkP (p ++ x) false)).
Proof.
  revert j p t. induction x as [|b x IH]; intros j p t E N; [congruence|]. cbn [map calls].
  destruct x as [|c x].
  - cbn. rewrite E. reflexivity.
  - rewrite (IH (do_call (now j) (CPut b) :: j) (p ++ [b]) false); [now rewrite <- app_assoc| |discriminate]. cbn. rewrite E. reflexivity.
Qed.
Lemma puts_open j x m : now j = mkDisk m (Some (mkP [] false)) -> now (calls j (map CPut x)) = mkDisk m (Some (mkP x false)).
Proof. intros E. destruct x as [|b x]; [exact E|]. now rewrite (puts j (b :: x) m false [] E). Qed.
Lemma save_seen j x o : seen (now (calls j (save_calls x o))) = snd (fst (save_file x o (seen (now j)))).
Proof.
  unfold save_calls, save_file. destruct (o_open o); cbn [negb fst snd]; [|reflexivity]. cbn [calls]. rewrite calls_app.
  set (j1 := calls _ (map CPut _)). assert (E : now j1 = mkDisk (d_main (now j)) (Some (mkP (firstn (o_written o) x) false))) by (apply puts_open; reflexivity).
  clearbody j1. destruct (o_unlink o); cbn [negb fst snd]; [|cbn; rewrite E; reflexivity].
  destruct (o_rename o); cbn [negb fst snd calls now hd do_call]; rewrite E; reflexivity.
Qed.

(** ** The journal. *)
Definition main_ok (base : option bytes) (l : list bytes) (f : option pfile) : Prop :=
  match f with
  | None => True
  | Some f => (safe f = true /\ Some (data f) = base) \/ exists x n, In x l /\ data f = firstn n x
  end.
Definition good (base : option bytes) (l : list bytes) (j : journal) : Prop := Forall (fun d => main_ok base l (d_main d)) j.
Lemma main_ok_more base l x f : main_ok base l f -> main_ok base (x :: l) f.
Proof. destruct f as [f|]; cbn; [|auto]. intros [H|(y & n & I & E)]; [auto|]. right. exists y, n. auto. Qed.
Lemma good_now base l j : good base l j -> main_ok base l (d_main (now j)).
Proof. intros G. destruct j as [|d j]; [exact Logic.I|]. now inversion G. Qed.
Definition tmp_ok (x : bytes) (d : disk) : Prop := exists n, option_map data (d_tmp d) = Some (firstn n x).
(** One save, cut anywhere. *)
Lemma good_puts base l j x n : good base l j -> (exists t, d_tmp (now j) = Some (mkP t false)) ->
  good base l (calls j (map CPut (firstn n x))).
Proof.
  revert j n. induction x as [|b x IH]; intros j n G (t & E); [now rewrite firstn_nil|]. destruct n as [|n]; [exact G|].
  cbn [firstn map calls]. apply IH.
  - constructor; [|exact G]. cbn. rewrite E. cbn. now apply good_now.
  - cbn. rewrite E. cbn. eauto.
Qed.
Lemma firstn_app_map {A B} (f : A -> B) n (x : list A) y : exists m k, firstn n (map f x ++ y) = map f (firstn m x) ++ firstn k y /\ (k <> 0 -> firstn m x = x).
Proof.
  rewrite firstn_app, firstn_map, map_length. exists n, (n - length x). split; [reflexivity|]. intros K. apply firstn_all2. lia.
Qed.
Lemma good_save base l j x o n : In x l -> good base l j -> good base l (calls j (firstn n (save_calls x o))).
Proof.
  intros IX G. unfold save_calls. destruct (o_open o); cbn [negb]; [|now rewrite firstn_nil]. destruct n as [|n]; [exact G|]. cbn [firstn calls].
  set (tl := if negb (o_unlink o) then _ else _).
  destruct (firstn_app_map CPut n (firstn (o_written o) x) tl) as (m & k & -> & F). rewrite calls_app.
  set (j0 := do_call (now j) COpen :: j).
  assert (E0 : now j0 = mkDisk (d_main (now j)) (Some (mkP [] false))) by reflexivity.
  assert (G0 : good base l j0) by (constructor; [cbn; now apply good_now|exact G]). clearbody j0.
  assert (G1 : good base l (calls j0 (map CPut (firstn m (firstn (o_written o) x))))) by (apply good_puts; [exact G0|rewrite E0; cbn; eauto]).
  assert (E1 := puts_open j0 (firstn m (firstn (o_written o) x)) _ E0).
  set (j1 := calls j0 _) in *. clearbody j1.
  destruct k as [|k]; [exact G1|]. rewrite (F (Nat.neq_succ_0 _)) in E1.
  unfold tl. destruct (o_unlink o); cbn [negb]; [|now rewrite firstn_nil].
  cbn [firstn calls]. assert (G2 : good base l (do_call (now j1) CUnlink :: j1)) by (constructor; [exact Logic.I|exact G1]).
  assert (E2 : do_call (now j1) CUnlink = mkDisk None (Some (mkP (firstn (o_written o) x) false))) by (rewrite E1; reflexivity).
  destruct (o_rename o); cbn [negb]; [|now rewrite firstn_nil]. destruct k as [|k]; [exact G2|]. cbn [firstn]. rewrite firstn_nil. cbn [calls].
  constructor; [|exact G2]. cbn [now hd]. rewrite E2. cbn. right. exists x, (o_written o). auto.
Qed.

Definition base_of (j : journal) : option bytes := main (seen (now j)).
Lemma good_sync j : good (base_of [written_out (now j)]) [] [written_out (now j)].
Proof.
  constructor; [|constructor]. unfold base_of, written_out, seen. cbn. destruct (d_main (now j)) as [f|]; cbn; auto.
Qed.
Lemma machine_app d a b : machine d (a ++ b) = fold_left machine_step b (machine d a).
Proof. unfold machine. now rewrite fold_left_app. Qed.
Lemma good_run h j l base : good base l j ->
  exists base', good base' (since h l) (fold_left machine_step h j) /\
    base' = (match up_to_sync h with [] => base | s => base_of (fold_left machine_step s j) end).
Proof.
  revert j l base. induction h as [|e h IH]; intros j l base G; [exists base; auto|].
  cbn [fold_left since up_to_sync]. destruct e as [x o n|].
  - assert (G' : good base (x :: l) (machine_step j (ESaving x o n))).
    { cbn. apply good_save; [now left|]. eapply Forall_impl; [|exact G]. intros d. apply main_ok_more. }
    destruct (IH _ _ _ G') as (b & Gb & Eb). exists b. split; [exact Gb|]. rewrite Eb. now destruct (up_to_sync h).
  - destruct (IH _ _ _ (good_sync j)) as (b & Gb & Eb). exists b. split; [exact Gb|]. rewrite Eb. now destruct (up_to_sync h).
Qed.
Lemma failure_main base l j c : good base l j -> failure j c ->
  main c = None \/ main c = base \/ exists x n, In x l /\ main c = Some (firstn n x).
Proof.
  intros G (d & I & C & _). pose proof (proj1 (List.Forall_forall _ _) G d I) as M. cbn beta in M. unfold main_ok in M.
  unfold cut in C. destruct (d_main d) as [f|], (main c) as [y|]; try contradiction; [|auto].
  right. destruct M as [(S1 & B)|(x & n & Ix & E)].
  - left. rewrite S1 in C. congruence.
  - right. exists x. destruct (safe f); [exists n; split; [auto|congruence]|]. destruct C as (k & ->). exists (Nat.min k n). split; [auto|].
    now rewrite E, firstn_firstn.
Qed.
Lemma after_failure d h c : failure (machine d h) c ->
  main c = None \/ main c = main (seen (now (machine d (up_to_sync h)))) \/ exists x n, In x (since h []) /\ main c = Some (firstn n x).
Proof.
  intros F. assert (G0 : good (base_of [written_out d]) [] [written_out d]) by (apply (good_sync [d])).
  destruct (good_run h _ _ _ G0) as (b & G & E). fold (machine d h) in G.
  destruct (failure_main _ _ _ _ G F) as [H|[H|H]]; [auto| |auto]. right. left. rewrite H, E. unfold base_of, machine.
  destruct (up_to_sync h); reflexivity.
Qed.
Lemma after_sync d h c : failure (machine d (h ++ [EWriteOut])) c -> c = seen (now (machine d (h ++ [EWriteOut]))).
Proof.
  rewrite machine_app. cbn [fold_left machine_step]. intros (x & [<-|[]] & A & B). destruct c as [m t]. unfold written_out, seen in *. cbn in *.
  destruct (d_main (now _)) as [f|], m as [m|]; try contradiction; destruct (d_tmp (now _)) as [g|], t as [t|]; try contradiction; cbn in *; congruence.
Qed.
(** Until everything is written out, anything may be left of the last save that worked, or nothing. *)
Lemma after_save d x n h : failure (machine d (h ++ [ESaving x (all_well x) (length (save_calls x (all_well x)))])) (mkFs (Some (firstn n x)) None).
Proof.
  rewrite machine_app. cbn [fold_left machine_step]. rewrite firstn_all. set (j := machine d h).
  assert (E : exists j', calls j (save_calls x (all_well x)) = mkDisk (Some (mkP x false)) None :: j').
  { unfold save_calls, all_well. cbn [o_open o_unlink o_rename o_written negb]. rewrite firstn_all. cbn [calls]. rewrite calls_app. cbn [calls now hd].
    rewrite (puts_open (do_call (now j) COpen :: j) x (d_main (now j)) eq_refl). cbn. eauto. }
  destruct E as (j' & ->). exists (mkDisk (Some (mkP x false)) None). split; [now left|]. cbn. split; [eauto|exact Logic.I].
Qed.
(** What was written out last may be found again after any number of saves. *)
Lemma calls_keep j cs d : In d j -> In d (calls j cs).
Proof. revert j. induction cs as [|c cs IH]; intros j I; [exact I|]. cbn. apply IH. now right. Qed.
Lemma steps_keep h j d : ~ In EWriteOut h -> In d j -> In d (fold_left machine_step h j).
Proof.
  revert j. induction h as [|e h IH]; intros j N I; [exact I|]. cbn. apply IH; [intros J; apply N; now right|].
  destruct e as [x o n|]; [now apply calls_keep|]. elim N. now left.
Qed.
Lemma after_saves d h : ~ In EWriteOut h -> failure (machine d h) (seen d).
Proof.
  intros N. exists (written_out d). split; [apply steps_keep; [exact N|now left]|]. unfold written_out, seen. cbn.
  split; [destruct (d_main d)|destruct (d_tmp d)]; cbn; auto.
Qed.
