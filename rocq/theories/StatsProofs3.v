(** What the answers say about each other. *)
From Coq Require Import String.
From stdpp Require Import gmap.
From Coq Require Import ZifyBool ZifyNat ZifyN.
From Verif Require Import Base BaseLemmas StorageModel StorageSpec TextModel TextSpec ClientSpec MemcachedSpec MemcachedProofs MemcachedProofs2 BinaryModel BinarySpec BinaryServerSpec
  StreamModel BinaryServerModel BinaryProofs BinaryProofs2 BinaryServerProofs BinaryServerProofs2 BinaryServerProofs3 ClusterModel ClusterProofs9 NodeSpec StatsModel StatsSpec StatsProofs.
Local Open Scope N_scope.
Local Open Scope list_scope.

(** Hits and misses. *)
Definition balanced (h : list counter) : Prop :=
  times AllGets h = times GetHits h + times GetMisses h /\
  times CasHits h <= times TotalItems h /\ times TotalItems h + times CasMisses h + times CasBadval h + times TouchHits h + times TouchMisses h <= times AllSets h.
Lemma balanced_app a b : balanced a -> balanced b -> balanced (a ++ b).
Proof. unfold balanced. rewrite !times_app. lia. Qed.
Lemma moves_balanced now m c : balanced (moves now m c).
Proof.
  destruct c as [md k f x d nr|k f x d t nr|k x nr|k x nr|k nr|up k v nr|tk ks|nr|v nr| | |w r|]; cbn [moves]; try (vm_compute; repeat split; discriminate).
  - destruct (stores md _); vm_compute; repeat split; discriminate.
  - destruct (look m now k) as [r|]; [destruct (r_version r =? t)|]; vm_compute; repeat split; discriminate.
  - destruct (look m now k) as [r|]; vm_compute; repeat split; discriminate.
  - destruct (look m now k) as [r|]; vm_compute; repeat split; discriminate.
  - destruct up, (look m now k) as [r|]; vm_compute; repeat split; discriminate.
  - induction ks as [|k ks IH]; [vm_compute; repeat split; discriminate|]. cbn [flat_map]. apply balanced_app; [|exact IH].
    destruct (look m now k); vm_compute; repeat split; discriminate.
Qed.
Lemma ask_balanced now m q : balanced (ask_moves now m q).
Proof.
  destruct q as [c|[q o c]]; cbn [ask_moves a_call]; [apply moves_balanced|].
  assert (B : balanced (match counterpart c with Some t => moves now m t | None => [] end)).
  { destruct (counterpart c); [apply moves_balanced|vm_compute; repeat split; discriminate]. }
  destruct c; cbn [bmoves]; first [exact B|apply moves_balanced].
Qed.
Lemma observed_balanced nodes v m h l m' h' outs : observed nodes v m h l m' h' outs -> balanced h -> balanced h'.
Proof. induction 1; auto using balanced_app, ask_balanced. Qed.

(** The nodes. *)
Lemma role_shown r r' : shown_role r = shown_role r' -> r = r'.
Proof. destruct r, r'; intros E; first [reflexivity|discriminate E]. Qed.
Lemma state_shown s s' : shown_state s = shown_state s' -> s = s'.
Proof. destruct s, s'; intros E; first [reflexivity|discriminate E]. Qed.
Lemma node_lines_inj n n' l l' : node_lines n ++ l = node_lines n' ++ l' -> n = n' /\ l = l'.
Proof.
  intros E. assert (EL : l = l') by exact (f_equal (skipn 5) E). split; [|exact EL].
  assert (V : forall i, nth i (node_lines n) ([], []) = nth i (node_lines n') ([], [])).
  { intros i. destruct (Nat.ltb i 5) eqn:Hi; [|rewrite !nth_overflow; [reflexivity|cbn; lia..]].
    pose proof (f_equal (fun x => nth i x ([], [])) E) as H. cbv beta in H. rewrite !app_nth1 in H by (cbn; lia). exact H. }
  pose proof (V 0%nat) as V0. pose proof (V 1%nat) as V1. pose proof (V 2%nat) as V2. pose proof (V 3%nat) as V3. pose proof (V 4%nat) as V4.
  unfold node_lines in *. cbv [nth] in V0, V1, V2, V3, V4.
  apply (f_equal snd) in V1, V2, V3, V4. pose proof (f_equal snd V0) as VR. apply (f_equal fst) in V0. cbn [fst snd] in *.
  apply app_inv_tail in V0. change (s2b ":") with [58] in V0. apply (to_node_key_inj _ _ _ _) in V0 as (A & B).
  apply decZ_inj in V2, V3, V4. apply role_shown in VR. apply state_shown in V1.
  destruct n, n'; cbn in *; congruence.
Qed.
Lemma nodes_determined l l' : flat_map node_lines l = flat_map node_lines l' -> l = l'.
Proof.
  revert l'. induction l as [|n l IH]; intros [|n' l'] E; [reflexivity|discriminate E|discriminate E|].
  cbn [flat_map] in E. apply node_lines_inj in E as (-> & E). f_equal. now apply IH.
Qed.
Lemma misshapen_watched u now w m rest : well_sized m -> m_magic m = 128 -> misshapen m ->
  watch_any u now w (encode m ++ rest) = Ok (encode (mkMsg 129 (m_opcode m) 132 0 0 [] [] (s2b "Internal error")), w, rest).
Proof.
  intros Z M H. unfold watch_any, watch_binary. rewrite encode_binary by auto. destruct (next_frame now m rest Z M) as (b & ->).
  destruct (misshapen_rejected now m b Z H) as (-> & ->). cbn [bind quiet_opcode]. rewrite result_response_encode by apply (z_opcode _ Z). reflexivity.
Qed.
