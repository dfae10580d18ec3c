From Coq Require Import List Bool NArith ZArith Lia.
From Verif Require Import Base StorageModel TextModel ClusterModel ClusterSpec ClusterProofs Props_Cluster FilesModel.
Import ListNotations.

Lemma trace_main x o d c : In c (fst (fst (save_file x o d))) ->
  main c = main d \/ (c = mkFs None (Some (firstn (o_written o) x)) /\ o_unlink o = true) \/ (c = mkFs (Some (firstn (o_written o) x)) None /\ o_rename o = true).
Proof.
  unfold save_file. set (w := map _ _). assert (W : In c w -> main c = main d).
  { unfold w. intros I. apply in_map_iff in I as (n & <- & _). reflexivity. } clearbody w.
  destruct (o_open o); cbn [negb fst]; [|intros [<-|[]]; auto].
  destruct (o_unlink o); cbn [negb fst tmp].
  - destruct (o_rename o); cbn [negb fst]; (intros [<-|I]; [auto|apply in_app_or in I as [I|I]; [auto|]]); cbn in I; intuition; subst; auto.
  - intros [<-|I]; auto.
Qed.
Lemma save_result x o d l d' r : save_file x o d = (l, d', r) ->
  In d' l /\ (r = 0%Z -> d' = mkFs (Some (firstn (o_written o) x)) None) /\
  (r <> 0%Z -> r = (-1)%Z /\ (main d' = main d \/ (main d' = None /\ tmp d' = Some (firstn (o_written o) x) /\ o_rename o = false))).
Proof.
  unfold save_file. set (n := S (o_written o)). assert (W : In (mkFs (main d) (Some (firstn (o_written o) x))) (map (fun k => mkFs (main d) (Some (firstn k x))) (seq 0 n))).
  { apply in_map_iff. exists (o_written o). split; [reflexivity|]. apply in_seq. unfold n. lia. }
  set (w := map _ _) in *. clearbody w n.
  destruct (o_open o); cbn [negb]; [|intros [= <- <- <-]; split; [now left|split; [discriminate|auto]]].
  destruct (o_unlink o); cbn [negb tmp].
  - destruct (o_rename o) eqn:R; cbn [negb]; intros [= <- <- <-].
    + split; [right; apply in_or_app; right; cbn; auto|]. split; [auto|congruence].
    + split; [right; apply in_or_app; right; cbn; auto|]. split; [discriminate|]. cbn. auto 6.
  - intros [= <- <- <-]. split; [now right|]. split; [discriminate|]. cbn. auto.
Qed.

Section Xml.
  Variables (encode : saved -> bytes) (decode : bytes -> option saved).
  Hypothesis read_back : forall v, decode (encode v) = Some v.
  Hypothesis not_empty : forall v, encode v <> [].
  Lemma restore_main c v : main c = Some (encode v) -> restore decode c = Some (Some v).
  Proof.
    intros M. unfold restore, load_file. rewrite M. destruct (encode v) as [|b x] eqn:E; [now elim (not_empty v)|]. now rewrite <- E, read_back.
  Qed.
  Lemma restore_holds c v : holds encode c v -> restore decode c = Some v.
  Proof. unfold holds. destruct v as [v|]; cbn; intros M; [now apply restore_main|]. unfold restore, load_file. now rewrite M. Qed.
  Lemma crash_disk v o d old c : holds encode d old -> (length (encode v) <= o_written o)%nat -> In c (fst (fst (save_file (encode v) o d))) ->
    restore decode c = Some old \/ restore decode c = Some (Some v) \/ (c = mkFs None (Some (encode v)) /\ restore decode c = Some None).
  Proof.
    intros H L I. apply trace_main in I as [M|[(-> & _)|(-> & _)]].
    - left. apply restore_holds. unfold holds in *. congruence.
    - right. right. rewrite firstn_all2 by exact L. split; reflexivity.
    - right. left. apply restore_main. cbn. now rewrite firstn_all2 by exact L.
  Qed.
  Lemma save_refines s o d l d' r b ld : holds encode d (i_disk s) -> (length (encode (to_save s)) <= o_written o)%nat ->
    save_index encode s o d = (l, d', r) -> exists out s', save (mkIo b ld out) s = ((r =? 0)%Z, s') /\ holds encode d' (i_disk s') /\ (out = SaveOk <-> r = 0%Z).
  Proof.
    unfold save_index. intros H L E. apply save_result in E as (_ & Z & NZ). destruct (Z.eqb_spec r 0) as [->|R].
    - exists SaveOk. eexists. split; [reflexivity|]. rewrite (Z eq_refl). cbn. unfold holds. cbn. rewrite firstn_all2 by exact L. split; [reflexivity|tauto].
    - destruct (NZ R) as (-> & [M|(M & T & _)]); [exists SaveKept|exists SaveLost]; eexists; (split; [reflexivity|]); cbn; unfold holds in *; cbn; split; try congruence; split; discriminate.
  Qed.
  Lemma start_same s c : history s -> restore decode c = Some (i_disk s) -> start_on decode c = Ok (0%Z, s).
  Proof.
    intros H R. unfold start_on. rewrite R. pose proof (c46_restart_partial s io_ok H eq_refl eq_refl) as C. cbn [handle] in C. exact C.
  Qed.
  Lemma recovers s e r s' v o d c : history s -> ~ abandons s e -> handle io_ok s e = Ok (r, s') -> i_disk s' = Some v -> holds encode d (i_disk s) ->
    (length (encode v) <= o_written o)%nat -> In c (fst (fst (save_file (encode v) o d))) -> main c <> None \/ i_disk s = None ->
    exists back, start_on decode c = Ok (0%Z, back) /\ (back = s \/ back = s').
  Proof.
    intros H NA E V D L I M. assert (H' : history s') by (eapply (history_step io_ok); eauto).
    destruct (crash_disk v o d (i_disk s) c D L I) as [R|[R|(-> & R)]].
    - exists s. split; [|auto]. now apply start_same.
    - exists s'. split; [|auto]. apply start_same; auto. now rewrite V.
    - destruct M as [M|M]; [now elim M|]. exists s. split; [|auto]. apply start_same; auto. now rewrite M.
  Qed.
End Xml.
