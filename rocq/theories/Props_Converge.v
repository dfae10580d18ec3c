(** C11: replicas that receive stores and deletes. *)
From stdpp Require Import gmap.
From Coq Require Import ZifyBool ZifyNat ZifyN.
From Verif Require Import Base BaseLemmas StorageModel StorageSpec StorageProofs StorageProofs2 StorageProofs3 StorageProofs6 Props_Storage ConvergeSpec ConvergeProofs.
Local Open Scope N_scope.

(** The newest operation decides: if it is a store its record is what the replica has in the end, if it is a delete
    the replica has nothing.  Stores and deletes arrive any number of times and in any order, except that no forwarded store comes after a delete of the same or a later version;
    records of a dump may. *)
Theorem c11_newest_decides_partial k init v s l s' w : receives k init v s l s' -> (forall r, init = Some r -> wf_rec r) -> news k v l ->
  decides k l w -> holds s' k w.
Proof. exact (decided k init v s l s' w). Qed.
Print Assumptions c11_newest_decides_partial.

(** Two replicas that receive the same stores and deletes, each in such an order, have the same in the end.
    Missing: orders in which a forwarded store overtakes a delete (c11_delete_order_refuted), and records that
    expire meanwhile (c10_expiry_refuted). *)
Theorem c11_replicas_agree_partial k init v s1 l1 s1' s2 l2 s2' : receives k init v s1 l1 s1' -> receives k init v s2 l2 s2' ->
  (forall r, init = Some r -> wf_rec r) -> news k v l1 ->
  (forall r, (exists o, In o l1 /\ delivers k o r) <-> (exists o, In o l2 /\ delivers k o r)) ->
  (forall d, (exists o, In o l1 /\ deletes k o d) <-> (exists o, In o l2 /\ deletes k o d)) ->
  distinct k l1 -> forall x, holds s1' k x <-> holds s2' k x.
Proof.
  intros R1 R2 Hi N HR HD Hx x. destruct (agreement k init v s1 l1 s1' s2 l2 s2' R1 R2 Hi N HR HD Hx) as (y&H1&H2).
  unfold holds in *. rewrite H1, H2. tauto.
Qed.
Print Assumptions c11_replicas_agree_partial.

(** ** Examples *)
Fixpoint orderly_b (k : key) (l : list op) : bool :=
  match l with
  | [] => true
  | ORemove _ e _ :: l' => (negb (beq (e_key e) k) || forallb (fun o => match o with OSet _ e' 0 => negb (beq (e_key e') k) || (e_version e <? e_version e') | _ => true end) l') && orderly_b k l'
  | _ :: l' => orderly_b k l'
  end.
Lemma orderly_b_ok k l : orderly_b k l = true -> orderly k l.
Proof.
  intros H l1 o l2 d now e -> (n'&e'&b'&->&<-&->) I E. induction l1 as [|p l1 IH]; cbn [app orderly_b] in H.
  - apply andb_true_iff in H as [H _]. rewrite beq_refl in H. cbn [negb orb] in H. rewrite forallb_forall in H. specialize (H _ I). cbn in H.
    rewrite E, beq_refl in H. cbn [negb orb] in H. now apply N.ltb_lt in H.
  - apply IH. destruct p; auto. now apply andb_true_iff in H as [_ H].
Qed.
Lemma fresh_forever k init l : (forall r, init = Some r -> r_expire r = 0%Z) -> (forall now e b, In (OSet now e b) l -> e_expire e = 0%Z) -> fresh k init l.
Proof.
  intros H1 H2 o r _ _ [H|(o'&I&now&e&b&->&_&->)]; unfold expired; [rewrite (H1 r H); lia|]. cbn. rewrite (H2 _ _ _ I). lia.
Qed.

Definition put (v d : N) := OSet 100 (ent kA 0 0 v [d]) 0.
Definition dumped (v d : N) := OSet 100 (ent kA 0 0 v [d]) behavior_dump.
Definition del (v : N) := ORemove 100 (ent kA 0 0 v []) 0.
Definition other := OSet 100 (ent kB 0 0 0 [67]) 0.
(** The delete of version 2 is the newest. *)
Definition first_way : list op := [put 1 65; other; put 2 66; del 2; dumped 1 65; dumped 2 66].
Definition second_way : list op := [put 2 66; dumped 1 65; del 2; OGet 100 (ent kA 0 0 0 []) 0; del 2; dumped 1 65].
Lemma way_receives l s' : Forall wf_op l -> Forall sane_op l -> Forall (mixed_delivery kA) l -> Forall (fun o => exists k', op_key o = Some k' /\ In k' [kA; kB]) l ->
  (forall now e b, In (OSet now e b) l -> e_expire e = 0%Z) -> orderly_b kA l = true -> run st0 l = Some s' -> receives kA None 0 st0 l s'.
Proof.
  intros H1 H2 H3 H4 H5 H6 H7. split; auto.
  - apply init_wf.
  - split; [reflexivity|]. right; right. split; reflexivity || auto.
  - apply fresh_forever; [discriminate|auto].
  - now apply orderly_b_ok.
  - intros _. split; [|vm_compute; discriminate]. apply (small_key_set_never_forgets [kA; kB]); auto; [apply init_wf|intros k' X; now destruct X|vm_compute; discriminate].
Qed.
Lemma wfb l : Forall (fun c => 0 <= c < 256) l -> wf_bytes l.
Proof. intros H. eapply Forall_impl; [exact H|]. cbn. intros. red. lia. Qed.
Ltac ops := repeat (apply List.Forall_cons || apply List.Forall_nil).
Ltac way := eexists; split; [apply way_receives; [| | | | |reflexivity|reflexivity]|];
  [ repeat constructor; cbn; try lia; apply wfb; repeat constructor; lia
  | ops; cbn; try exact I; intros ?; discriminate
  | ops; cbn; repeat split; intros; try discriminate; auto
  | ops; (exists kA; split; [reflexivity|now left]) || (exists kB; split; [reflexivity|right; now left])
  | intros now e b H; cbn in H; repeat destruct H as [H|H]; try discriminate; try (injection H as <- <- <-; reflexivity); destruct H
  | ].
Example c11_first : exists s', receives kA None 0 st0 first_way s' /\ holds s' kA None.
Proof. way. reflexivity. Qed.
Example c11_second : exists s', receives kA None 0 st0 second_way s' /\ holds s' kA None.
Proof. way. reflexivity. Qed.
(** Then a store of version 3; a store and a delete of the past arrive again. *)
Definition third_way : list op := first_way ++ [put 3 67; dumped 2 66; del 2].
Example c11_third : exists s', receives kA None 0 st0 third_way s' /\ holds s' kA (Some (mkRec 0 0 3 [67])).
Proof. way. reflexivity. Qed.
Ltac each H := cbn in H; repeat destruct H as [<-|H]; try destruct H.
Lemma in_first r : (exists o, In o first_way /\ delivers kA o r) <-> r = mkRec 0 0 1 [65] \/ r = mkRec 0 0 2 [66].
Proof.
  split.
  - intros (o&H&now&e&b&E&K&->). each H; try discriminate E; injection E as <- <- <-; try discriminate K; vm_compute; auto.
  - intros [-> | ->]; [exists (put 1 65)|exists (put 2 66)]; (split; [cbn; tauto|]; do 3 eexists; split; [reflexivity|split; reflexivity]).
Qed.
Lemma in_second r : (exists o, In o second_way /\ delivers kA o r) <-> r = mkRec 0 0 1 [65] \/ r = mkRec 0 0 2 [66].
Proof.
  split.
  - intros (o&H&now&e&b&E&K&->). each H; try discriminate E; injection E as <- <- <-; try discriminate K; vm_compute; auto.
  - intros [-> | ->]; [exists (dumped 1 65)|exists (put 2 66)]; (split; [cbn; tauto|]; do 3 eexists; split; [reflexivity|split; reflexivity]).
Qed.
Lemma dels l d : l = first_way \/ l = second_way -> (exists o, In o l /\ deletes kA o d) <-> d = 2.
Proof.
  intros L. split.
  - intros (o&H&now&e&b&E&K&->). destruct L; subst l; each H; try discriminate E; injection E as <- <- <-; reflexivity.
  - intros ->. exists (del 2). split; [destruct L; subst l; cbn; tauto|]. do 3 eexists. split; [reflexivity|split; reflexivity].
Qed.
Example c11_hypotheses : news kA 0 first_way /\ distinct kA first_way /\ decides kA first_way None
  /\ (forall r, (exists o, In o first_way /\ delivers kA o r) <-> (exists o, In o second_way /\ delivers kA o r))
  /\ (forall d, (exists o, In o first_way /\ deletes kA o d) <-> (exists o, In o second_way /\ deletes kA o d)).
Proof.
  assert (R : forall o r, In o first_way -> delivers kA o r -> r = mkRec 0 0 1 [65] \/ r = mkRec 0 0 2 [66]) by (intros o r I D; apply in_first; eauto).
  assert (D : forall o d, In o first_way -> deletes kA o d -> d = 2) by (intros o d I D; apply (dels first_way); eauto).
  split; [|split; [|split; [|split]]].
  - split; [intros o r I H; destruct (R o r I H) as [-> | ->]; cbn; lia|intros; lia].
  - intros o o' r r' I I' H H' E. destruct (R o r I H) as [-> | ->], (R o' r' I' H') as [-> | ->]; auto; discriminate E.
  - exists (del 2), 2. split; [cbn; tauto|]. split; [do 3 eexists; split; [reflexivity|split; reflexivity]|].
    split; [intros o r I H; destruct (R o r I H) as [-> | ->]; cbn; lia|intros o d I H; rewrite (D o d I H); lia].
  - intros r. now rewrite in_first, in_second.
  - intros d. rewrite !dels; auto.
Qed.
