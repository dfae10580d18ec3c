(** C79: a dump by a node that cannot read some of its records. *)
From stdpp Require Import gmap.
From Coq Require Import String Lia.
From Coq Require Import ZifyBool ZifyNat ZifyN.
From Verif Require Import Base BaseLemmas StorageModel StorageSpec TextModel KeyResolverModel DumpModel DumpSpec DumpProofs DumpProofs2 FailModel BlindDumpModel Props_Dump.
Local Open Scope N_scope.

Section Alike.
  Variables (cfg : config) (ext : hash_algorithm -> bytes -> Z) (alg : hash_algorithm) (part : Z) (psize : nat).
  Definition read_ones (ts : list (turn * bool)) : list turn := map fst (List.filter snd ts).
  (** With nothing unreadable it is the dump. *)
  Lemma blind_fine ts last stop : forall s e, dump_blind cfg ext alg part psize s e (map (fun t => (t, true)) ts) last stop = dump_loop cfg ext alg part psize s e ts last stop.
  Proof.
    induction ts as [|t ts IH]; intros s e; [reflexivity|]. cbn [map dump_blind dump_loop negb]. destruct (t_stop t); [reflexivity|]. destruct (selected _ _ _ _ _ _) as [[]|]; [|apply IH|reflexivity].
    destruct (_ || _); [apply IH|]. destruct (t_sent t); [reflexivity|]. now rewrite IH.
  Qed.
  Lemma loop_key_any ts s e k last stop : dump_loop cfg ext alg part psize s (with_key e k) ts last stop = dump_loop cfg ext alg part psize s e ts last stop.
  Proof. destruct ts as [|t ts]; reflexivity. Qed.
  (** The rounds that read nothing leave no trace. *)
  Lemma blind_alike ts : forall s e last stop, Forall (fun t => t_stop (fst t) = false /\ selected cfg ext alg part psize (turn_key (fst t)) <> None) ts ->
    dump_blind cfg ext alg part psize s e ts last stop = dump_loop cfg ext alg part psize s e (read_ones ts) last stop.
  Proof.
    induction ts as [|[t b] ts IH]; intros s e last stop F; [reflexivity|]. pose proof (List.Forall_inv F) as [F1 F2]. pose proof (List.Forall_inv_tail F) as F3. cbn [fst] in F1, F2.
    cbn [dump_blind]. rewrite F1. change (e_key (with_key e (TextModel.cstr (t_key t)))) with (turn_key t). destruct b.
    - change (read_ones ((t, true) :: ts)) with (t :: read_ones ts). cbn [dump_loop negb]. rewrite F1. change (e_key (with_key e (TextModel.cstr (t_key t)))) with (turn_key t).
      destruct (selected _ _ _ _ _ (turn_key t)) as [[]|]; [|now apply IH|reflexivity]. destruct (_ || _); [now apply IH|]. destruct (t_sent t); [reflexivity|]. now rewrite IH.
    - change (read_ones ((t, false) :: ts)) with (read_ones ts). destruct (selected _ _ _ _ _ (turn_key t)) as [[]|]; [| |congruence]; cbn [negb]; rewrite IH by exact F3; apply loop_key_any.
  Qed.
End Alike.

(** If all can be read it is the dump of C40, however it ends. *)
Theorem c79_dump_readable cfg ext alg part psize s ts last stop :
  dump_server_blind cfg ext alg part psize s (map (fun t => (t, true)) ts) last stop = dump_server cfg ext alg part psize s ts last stop.
Proof. unfold dump_server_blind, dump_server. now rewrite blind_fine. Qed.
Print Assumptions c79_dump_readable.

(** A dump of a database some of whose records cannot be read ends like one of a whole database: the client is told that it has
    all records.  It has those that could be read, each once, and nothing else. *)
Theorem c79_dump_unread cfg ext alg part psize s ts : wf_store s -> walk s (map (fun t => t_key (fst t)) ts) ->
  Forall (fun t => no_nul (t_key (fst t)) /\ undisturbed (fst t) /\ resolvable cfg ext alg part psize (t_key (fst t))) ts ->
  exists s' sent, dump_server_blind cfg ext alg part psize s ts iteration_end false = (s', record_blocks sent ++ s2b "END" ++ crlf, Ended) /\
    List.NoDup (map fst sent) /\
    (forall k r, In (k, r) sent <-> exists t, In (t, true) ts /\ t_key t = k /\ asked cfg ext alg part psize k /\ live s (t_now t) k r) /\
    wf_store s' /\ same_or_gone s s' (read_ones ts).
Proof.
  intros W [Wn _] F. assert (In_read : forall t, In t (read_ones ts) <-> In (t, true) ts).
  { intros t. unfold read_ones. rewrite in_map_iff. split; [intros ([t' b] & <- & H); apply filter_In in H; destruct H as [H E]; cbn [snd fst] in *; now subst|].
    intros H. exists (t, true). split; [reflexivity|]. now apply filter_In. }
  assert (F0 := proj1 (List.Forall_forall _ _) F). clear F. rename F0 into F.
  assert (K : forall t b, In (t, b) ts -> turn_key t = t_key t) by (intros t b H; apply no_nul_cstr; first [exact (proj1 (F _ H))|assumption]).
  assert (A : Forall (fun t => t_stop (fst t) = false /\ selected cfg ext alg part psize (turn_key (fst t)) <> None) ts).
  { rewrite List.Forall_forall. intros [t b] H. destruct (F _ H) as (_ & (_ & U & _) & R). cbn [fst] in *. split; [exact U|]. apply selected_resolvable. now rewrite (K _ _ H). }
  set (rs := read_ones ts) in *.
  assert (Et : map turn_key rs = map t_key rs) by (apply map_ext_in; intros t H; apply (K t true); now apply In_read).
  assert (ND : List.NoDup (map turn_key rs)).
  { rewrite Et. unfold rs, read_ones. clear -Wn. induction ts as [|[t b] ts IH]; [constructor|]. cbn [map fst] in Wn. apply List.NoDup_cons_iff in Wn. destruct Wn as [W1 W2].
    cbn [List.filter snd]. destruct b; [|now apply IH]. cbn [map fst]. constructor; [|now apply IH]. intros H. apply W1. apply in_map_iff in H. destruct H as (u & E & H). apply in_map_iff in H. destruct H as (v & <- & H).
    apply filter_In in H. rewrite <- E. apply in_map_iff. exists v. tauto. }
  assert (I : Forall (fun t => is_i64 (t_now t) /\ t_stop t = false /\ t_sent t = None /\ selected cfg ext alg part psize (turn_key t) <> None) rs).
  { rewrite List.Forall_forall. intros t H. apply In_read in H. destruct (F _ H) as (_ & (U1 & U2 & U3) & R). cbn [fst] in *. repeat split; auto; try apply U1. apply selected_resolvable. now rewrite (K _ _ H). }
  assert (I' : Forall (fun t => is_i64 (t_now t)) rs) by (eapply Forall_impl; [exact I|]; cbn; tauto).
  pose proof (loop_ok cfg ext alg part psize iteration_end false rs s (empty_entry []) W eq_refl I') as L.
  pose proof (loop_ended cfg ext alg part psize rs s (empty_entry []) W eq_refl I) as X. unfold dump_server_blind. rewrite (blind_alike _ _ _ _ _ ts _ _ _ _ A). fold rs.
  destruct (dump_loop cfg ext alg part psize s (empty_entry []) rs iteration_end false) as [[s' out] x]. cbn [snd] in X. subst x. destruct L as (sent & tail & [A1 B C T E F1 G]).
  assert (tail = []) as -> by (destruct T as [T|(T & _)]; [exact T|discriminate T]). rewrite app_nil_r in A1. subst out.
  exists s', sent. split; [reflexivity|]. split; [eapply sublist_NoDup; [exact E|exact ND]|]. split; [|auto].
  intros k r. split.
  - intros H. destruct (C k r H) as (t & H1 & <- & H2 & H3). apply In_read in H1. exists t. rewrite (K t _ H1) in *. split; [exact H1|]. split; [reflexivity|]. split; [now apply selected_asked|exact H3].
  - intros (t & H1 & <- & H2 & H3). rewrite <- (K t _ H1) in *. apply F1; auto; [now apply In_read|]. split; [now apply selected_asked|exact H3].
Qed.
Print Assumptions c79_dump_unread.
(** So a slave that copies from it is activated without a record its master has, and the index server is told that it is complete. *)
Theorem c79_dump_unread_refuted : exists s k r ts s' out rs s2 s3, wf_store s /\ wf_store s2 /\ live s 100 k r /\ Forall undisturbed (map fst ts) /\ walk s (map (fun t => t_key (fst t)) ts) /\
  dump_server_blind cfg16 no_ext ha_simple (-1) 2 s ts iteration_end false = (s', out, Ended) /\ db s' !! k = db s !! k /\ Forall no_stop rs /\
  dump_client rs s2 out = DDone s3 [] /\ slave_handler true (DDone s3 []) = Some Activate /\ db s3 !! k = None.
Proof.
  eexists donor, kA, rA, (map (fun t => (t, negb (beq (t_key t) kA))) turns_cab), _, _, [Props_Dump.calm; Props_Dump.calm; Props_Dump.calm], nothing, _.
  split; [exact donor_wf|]. split; [exact nothing_wf|]. split; [split; [reflexivity|]; split; [now apply wf_small|]|].
  { intros (X & _). vm_compute in X. discriminate X. }
  split; [repeat constructor; vm_compute; discriminate|]. split; [exact donor_walk|]. split; [vm_compute; reflexivity|]. split; [vm_compute; reflexivity|]. split; [repeat constructor|].
  split; [vm_compute; reflexivity|]. split; [reflexivity|]. vm_compute. reflexivity.
Qed.
Print Assumptions c79_dump_unread_refuted.
(** The first theorem applies to this dump; two of three records are sent. *)
Example c79_dump_unread_met : let ts := map (fun t => (t, negb (beq (t_key t) kA))) turns_cab in
  wf_store donor /\ walk donor (map (fun t => t_key (fst t)) ts) /\ List.length (read_ones ts) = (List.length ts - 1)%nat /\ read_ones ts <> [] /\
  Forall (fun t => no_nul (t_key (fst t)) /\ undisturbed (fst t) /\ resolvable cfg16 no_ext ha_simple (-1) 2 (t_key (fst t))) ts.
Proof.
  split; [exact donor_wf|]. split; [exact donor_walk|]. split; [reflexivity|]. split; [vm_compute; discriminate|].
  repeat (apply List.Forall_cons; [split; [repeat (apply List.Forall_cons; [vm_compute; discriminate|]); apply List.Forall_nil|split; [repeat split; vm_compute; discriminate|left; lia]]|]). apply List.Forall_nil.
Qed.
