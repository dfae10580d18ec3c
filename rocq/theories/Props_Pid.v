(** C78: one server for a directory. *)
From Coq Require Import NArith ZArith List Bool String Lia.
From Verif Require Import Base BaseLemmas TextModel PidModel PidSpec PidProofs.
Import ListNotations.
Local Open Scope N_scope.

Definition no_group (_ : Z) : bool := false.
(** a machine on which nothing runs, with the file [f] *)
Definition machine (f : option bytes) : st := mkSt (match f with Some w => Some (0, w) | None => None end) 1 (fun _ => Away).
Lemma machine_nobody f : nobody (machine f).
Proof. intro p. left. reflexivity. Qed.

(** While no two servers start at the same time, and what is written is written whole, at most one server runs with a
    file, whatever the file had in it at first, whichever servers are stopped or killed at whatever point and started
    again, and whichever other programs come and go; and the file names the one that runs.  Missing: servers that start
    at the same time ([c78_race_refuted]). *)
Theorem c78_one_partial groups s0 es s : nobody s0 -> all_calm groups s0 es -> steps groups s0 es = Some s ->
  one_server s /\ forall p, at_ s p = Running -> names s p.
Proof.
  intros N0 C E. pose proof (steps_inv groups es s0 s (inv0 s0 N0) C E) as I. split.
  - intros p q P Q. apply (one s I); [rewrite P|rewrite Q]; exact Logic.I.
  - exact (named s I).
Qed.
Print Assumptions c78_one_partial.
(** A server that is started while one runs goes away and changes nothing. *)
Theorem c78_second groups s0 es s p q : nobody s0 -> all_calm groups s0 es -> steps groups s0 es = Some s ->
  at_ s q = Running -> at_ s p = Starting ->
  exists s', step groups s (Check p) = Some s' /\ at_ s' p = Away /\ at_ s' q = Running /\ file s' = file s.
Proof.
  intros N0 C E Q P. pose proof (steps_inv groups es s0 s (inv0 s0 N0) C E) as I. exists (move s p Away).
  split; [apply (check_running groups s p q I P Q)|]. cbn [at_ file move]. rewrite upd_same. repeat split.
  rewrite upd_other; [exact Q|congruence].
Qed.
Print Assumptions c78_second.
Definition some_life : list event :=
  [Spawn 7; Check 7; Open 7 true; Write 7 true; Spawn 8; Others 9 true; Check 8; Kill 7; Spawn 10; Check 10; Open 10 true; Write 10 true; Spawn 11].
Example c78_life : all_calm no_group (machine (Some (s2b "5"))) some_life
  /\ exists s, steps no_group (machine (Some (s2b "5"))) some_life = Some s /\ at_ s 10 = Running /\ at_ s 8 = Away /\ at_ s 11 = Starting
     /\ file s = Some (0, s2b "10" ++ [10]).
Proof.
  split.
  - apply (calmb_calm no_group [7; 8; 9; 10; 11]); [intros q _ []|vm_compute; reflexivity].
  - eexists. split; [vm_compute; reflexivity|]. vm_compute. auto.
Qed.

(** A server can be started again after any stop or crash, when its own number is not the one in the file and that number is
    free; it then runs and the file names it. *)
Theorem c78_again groups s p : at_ s p = Away -> 1 <= p < 2147483648 ->
  match file s with
  | None => True
  | Some (_, w) => exists z, pid_of (first_word w) = Some z /\ exists_ groups (move s p Starting) z = false
  end ->
  exists s', steps groups s [Spawn p; Check p; Open p true; Write p true] = Some s' /\ at_ s' p = Running /\ names s' p
    /\ forall q, q <> p -> at_ s' q = at_ s q.
Proof.
  intros A B F.
  assert (E1 : step groups s (Spawn p) = Some (move s p Starting)).
  { cbn [step]. rewrite A. replace ((1 <=? p) && (p <? 2147483648)) with true by lia. reflexivity. }
  assert (E2 : step groups (move s p Starting) (Check p) = Some (move (move s p Starting) p Checked)).
  { cbn [step]. replace (at_ (move s p Starting) p) with Starting by (cbn [at_ move]; rewrite upd_same; reflexivity).
    change (file (move s p Starting)) with (file s). destruct (file s) as [[i w]|]; [|reflexivity].
    destruct F as (z & Z0 & X). rewrite Z0, X. reflexivity. }
  assert (G : forall f n, exists s', (match step groups (mkSt f n (upd (upd (at_ s) p Starting) p Checked)) (Open p true) with
      | Some s1 => match step groups s1 (Write p true) with Some s2 => Some s2 | None => None end | None => None end) = Some s'
      /\ at_ s' p = Running /\ names s' p /\ forall q, q <> p -> at_ s' q = at_ s q).
  { intros f n. cbn [step at_ file inodes]. rewrite upd_same. destruct f as [[i w]|]; cbn [step at_ file inodes]; rewrite upd_same, N.eqb_refl; cbn [andb];
      eexists; (split; [reflexivity|]); cbn [at_ file]; rewrite upd_same; (split; [reflexivity|]);
      (split; [eexists; cbn [file]; rewrite skipn_nil, app_nil_r; reflexivity|]); intros q Q; rewrite !upd_other by assumption; reflexivity. }
  cbn [steps]. rewrite E1, E2. exact (G (file s) (inodes s)).
Qed.
Print Assumptions c78_again.
Example c78_again_met : exists s, steps no_group (machine None) [Spawn 7; Check 7; Open 7 true; Write 7 true; Kill 7] = Some s
  /\ file s = Some (1, s2b "7" ++ [10]) /\ at_ s 8 = Away /\ pid_of (first_word (s2b "7" ++ [10])) = Some 7%Z
  /\ exists_ no_group (move s 8 Starting) 7 = false.
Proof. eexists. split; [vm_compute; reflexivity|]. vm_compute. auto. Qed.
(** A stop removes the file. *)
Theorem c78_stop groups s p s' : step groups s (Stop p) = Some s' -> at_ s p = Running /\ file s' = None /\ at_ s' p = Away
  /\ forall q, q <> p -> at_ s' q = at_ s q.
Proof.
  cbn [step]. destruct (at_ s p) eqn:A; try discriminate. intro E. injection E as <-. cbn [file at_]. rewrite upd_same.
  repeat split. intros q Q. apply upd_other. exact Q.
Qed.
Print Assumptions c78_stop.

(** What the file is taken for: its first word, between any blanks, when that is a number that fits into 32 bits, with a sign or
    without; nothing else is taken for a number. *)
Theorem c78_file_read ws w r z : Forall blank ws -> Forall (fun c => ~ blank c) w -> w <> [] -> (r = [] \/ exists b t, r = b :: t /\ blank b) ->
  (pid_of (first_word (ws ++ w ++ r)) = Some z <-> written w z /\ (- 2147483648 <= z < 2147483648)%Z).
Proof. intros A B N0 R. rewrite (word_read ws w r A B N0 R). apply pid_written. Qed.
Print Assumptions c78_file_read.
Example c78_file_read_met : Forall blank [32; 10] /\ Forall (fun c => ~ blank c) (s2b "+07") /\ written (s2b "+07") 7
  /\ pid_of (first_word ([32; 10] ++ s2b "+07" ++ s2b " x")) = Some 7%Z.
Proof.
  split; [repeat constructor; unfold blank; cbn; tauto|]. split.
  - repeat constructor; unfold blank; cbn; intuition discriminate.
  - split; [|vm_compute; reflexivity]. left. exists (s2b "07"). split; [|split; [right; reflexivity|reflexivity]].
    split; [discriminate|]. repeat constructor.
Qed.
(** What a starting server does when it looks: it goes on when there is no file, or the file has the number of a process that does
    not exist (a negative number stands for a group of processes, and there always is one for 0); otherwise it goes away.  Nothing
    else changes. *)
Definition free (groups : Z -> bool) (s : st) (z : Z) : Prop :=
  ((0 < z)%Z /\ at_ s (Z.to_N z) = Away) \/ ((z < 0)%Z /\ groups z = false).
Theorem c78_look groups s p : at_ s p = Starting -> exists s', step groups s (Check p) = Some s' /\ file s' = file s
  /\ (forall q, q <> p -> at_ s' q = at_ s q) /\ (at_ s' p = Checked \/ at_ s' p = Away)
  /\ (at_ s' p = Checked <-> match file s with None => True | Some (_, w) => exists z, pid_of (first_word w) = Some z /\ free groups s z end).
Proof.
  intro A. cbn [step]. rewrite A. destruct (file s) as [[i w]|] eqn:F.
  - destruct (pid_of (first_word w)) as [z|] eqn:Z0.
    + eexists. split; [reflexivity|]. cbn [file at_ move]. rewrite F, upd_same. split; [reflexivity|]. split; [intros q Q; apply upd_other; exact Q|].
      assert (X : exists_ groups s z = false <-> free groups s z).
      { unfold exists_, free, alive. destruct (0 <? z)%Z eqn:P.
        - destruct (at_ s (Z.to_N z)); split; intro H; try discriminate H; try (destruct H as [[_ H]|[H _]]; [discriminate H|lia]); [left; split; [lia|reflexivity]|reflexivity].
        - destruct (z =? 0)%Z eqn:E0; split; intro H; try discriminate H; try (right; split; [lia|exact H]); destruct H as [[H _]|[H1 H]]; try lia; exact H. }
      destruct (exists_ groups s z) eqn:B.
      * split; [right; reflexivity|]. split; [discriminate|]. intros (z' & E & H). injection E as <-. apply X in H. discriminate H.
      * split; [left; reflexivity|]. split; [|reflexivity]. intros _. exists z. split; [reflexivity|]. apply X. reflexivity.
    + eexists. split; [reflexivity|]. cbn [file at_ move]. rewrite F, upd_same. split; [reflexivity|]. split; [intros q Q; apply upd_other; exact Q|].
      split; [right; reflexivity|]. split; [discriminate|]. intros (z & E & _). discriminate E.
  - eexists. split; [reflexivity|]. cbn [file at_ move]. rewrite F, upd_same. split; [reflexivity|]. split; [intros q Q; apply upd_other; exact Q|].
    split; [left; reflexivity|]. split; [constructor|reflexivity].
Qed.
Print Assumptions c78_look.
Example c78_look_met : exists s, steps no_group (machine (Some (s2b "-5"))) [Spawn 7] = Some s /\ at_ s 7 = Starting
  /\ pid_of (first_word (s2b "-5")) = Some (-5)%Z /\ free no_group s (-5) /\ ~ free no_group s 0 /\ ~ free no_group s 7.
Proof.
  eexists. split; [vm_compute; reflexivity|]. split; [reflexivity|]. split; [reflexivity|]. unfold free. split; [right; split; [lia|reflexivity]|].
  split; intros [[A B]|[A B]]; try lia. discriminate B.
Qed.
(** A server that comes to write its number runs from then on, whether it could be written or not, and what it writes changes the
    file only when that is still the one it opened. *)
Theorem c78_write groups s p whole i : at_ s p = Opened i -> exists s', step groups s (Write p whole) = Some s' /\ at_ s' p = Running
  /\ (forall q, q <> p -> at_ s' q = at_ s q)
  /\ (whole = false \/ ~ (exists old, file s = Some (i, old)) -> file s' = file s)
  /\ (whole = true -> file s = Some (i, []) -> names s' p).
Proof.
  intro A. cbn [step]. rewrite A. eexists. split; [reflexivity|]. cbn [at_ file]. rewrite upd_same. split; [reflexivity|].
  split; [intros q Q; apply upd_other; exact Q|]. split.
  - intros H. destruct (file s) as [[j old]|]; [|reflexivity]. destruct (N.eqb_spec i j) as [->|E]; [|reflexivity].
    destruct H as [->|H]; [reflexivity|]. exfalso. eauto.
  - intros -> ->. rewrite N.eqb_refl. cbn [andb]. exists i. cbn [file]. rewrite skipn_nil, app_nil_r. reflexivity.
Qed.
Print Assumptions c78_write.
Example c78_write_met : exists s, steps no_group (machine None) [Spawn 7; Check 7; Open 7 true] = Some s /\ at_ s 7 = Opened 1 /\ file s = Some (1, []).
Proof. eexists. split; [vm_compute; reflexivity|]. split; reflexivity. Qed.
(** Two that start at the same time both run; when one of them is stopped, the file of the other is gone, and a third
    one can be started beside it. *)
Theorem c78_race_refuted :
  (exists s, steps no_group (machine None) [Spawn 7; Spawn 8; Check 7; Check 8; Open 7 true; Write 7 true; Open 8 true; Write 8 true] = Some s
     /\ at_ s 7 = Running /\ at_ s 8 = Running)
  /\ (exists s, steps no_group (machine None) [Spawn 7; Spawn 8; Check 7; Check 8; Open 7 true; Write 7 true; Open 8 true; Write 8 true; Stop 7;
       Spawn 9; Check 9; Open 9 true; Write 9 true] = Some s /\ at_ s 8 = Running /\ at_ s 9 = Running).
Proof. split; eexists; (split; [vm_compute; reflexivity|]); vm_compute; auto. Qed.
Print Assumptions c78_race_refuted.
(** Numbers of unequal length: the file has a rest of the longer one behind the shorter, which is not read. *)
Example c78_overwritten : exists s, steps no_group (machine None)
    [Spawn 7; Spawn 1234; Check 7; Check 1234; Open 7 true; Open 1234 true; Write 1234 true; Write 7 true] = Some s
  /\ file s = Some (1, s2b "7" ++ [10] ++ s2b "34" ++ [10]) /\ pid_of (first_word (s2b "7" ++ [10] ++ s2b "34" ++ [10])) = Some 7%Z.
Proof. eexists. split; [vm_compute; reflexivity|]. vm_compute. auto. Qed.

(** A server that ends between making the file and writing to it, or whose number cannot be written, leaves an empty file;
    as long as that is there every server that is started fails. *)
Theorem c78_empty_refuted :
  (exists s, steps no_group (machine None) [Spawn 7; Check 7; Open 7 true; Kill 7] = Some s /\ file s = Some (1, []) /\ nobody s)
  /\ forall groups s i w, nobody s -> file s = Some (i, w) -> pid_of (first_word w) = None ->
     forall es s', steps groups s es = Some s' -> file s' = Some (i, w) /\ forall p, at_ s' p <> Running.
Proof.
  split.
  - eexists. split; [vm_compute; reflexivity|]. split; [reflexivity|]. intro p. left. cbn [at_].
    destruct p as [|p]; [reflexivity|]. do 3 (destruct p as [p|p|]; try reflexivity).
  - intros groups s i w N0 F W es s' E.
    assert (B : barred (fun _ => True) (Some (i, w)) s').
    { apply (barred_steps groups (fun _ => True) i w es s s'); auto.
      - intros z Z0. congruence.
      - apply nobody_barred; assumption.
      - apply Forall_forall. intros e _. destruct e; exact Logic.I. }
    split; [apply B|]. intros p R. apply (b_idle _ _ _ B p). rewrite R. exact Logic.I.
Qed.
Print Assumptions c78_empty_refuted.
(** A server that always gets the same number, as in a container, and was killed once never starts again. *)
Theorem c78_same_number_refuted :
  (exists s, steps no_group (machine None) [Spawn 7; Check 7; Open 7 true; Write 7 true; Kill 7] = Some s /\ names s 7 /\ nobody s)
  /\ forall groups s p, 1 <= p < 2147483648 -> nobody s -> names s p ->
     forall es s', (forall q, In (Spawn q) es -> q = p) -> steps groups s es = Some s' -> names s' p /\ forall q, at_ s' q <> Running.
Proof.
  split.
  - eexists. split; [vm_compute; reflexivity|]. split; [exists 1; reflexivity|]. intro p. left. cbn [at_].
    destruct p as [|p]; [reflexivity|]. do 3 (destruct p as [p|p|]; try reflexivity).
  - intros groups s p P N0 [i F] es s' Q E.
    assert (B : barred (fun q => q = p) (Some (i, dec p ++ [10])) s').
    { apply (barred_steps groups (fun q => q = p) i (dec p ++ [10]) es s s'); auto.
      - intros z Z0 q ->. rewrite (pid_back p []) in Z0 by lia. congruence.
      - apply nobody_barred; assumption.
      - apply Forall_forall. intros e H. destruct e; try exact Logic.I. exact (Q _ H). }
    split; [exists i; apply B|]. intros q R. apply (b_idle _ _ _ B q). rewrite R. exact Logic.I.
Qed.
Print Assumptions c78_same_number_refuted.
(** Any other program that has got the number of a killed server keeps every server from starting. *)
Theorem c78_other_refuted : exists s, steps no_group (machine (Some (s2b "7" ++ [10]))) [Others 7 true; Spawn 8; Check 8] = Some s /\ at_ s 8 = Away.
Proof. eexists. split; [vm_compute; reflexivity|]. reflexivity. Qed.
Print Assumptions c78_other_refuted.
