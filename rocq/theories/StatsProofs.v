(** What requests count. *)
From Coq Require Import String.
From stdpp Require Import gmap.
From Coq Require Import ZifyBool ZifyNat ZifyN.
From Verif Require Import Base BaseLemmas StorageModel StorageSpec StorageProofs3 StorageProofs4 TextModel TextSpec ClientSpec SessionModel ServerModel ServerProofs ServerProofs2 ReplicaProofs MemcachedSpec
  MemcachedProofs MemcachedProofs2 TextProofs TextProofs4 StreamModel BinaryModel BinarySpec BinaryServerModel BinaryServerSpec BinaryServerProofs BinaryServerProofs2 StatsModel StatsSpec.
Local Open Scope N_scope.
Local Open Scope list_scope.

Definition counted (c : counters) (h : list counter) : Prop := forall x, c x = times x h mod 2 ^ 64.
Lemma times_cons x y h : times x (y :: h) = (if counter_eqb x y then 1 else 0) + times x h.
Proof. unfold times. cbn [List.filter]. destruct (counter_eqb x y); cbn [List.length]; lia. Qed.
Lemma times_app x l h : times x (l ++ h) = times x l + times x h.
Proof. unfold times. rewrite List.filter_app, app_length. lia. Qed.
Lemma counter_eqb_sym x y : counter_eqb x y = counter_eqb y x.
Proof. destruct x, y; reflexivity. Qed.
Lemma counted_none : counted no_counts [].
Proof. intros x. reflexivity. Qed.
Lemma counted_bump c h y : counted c h -> counted (bump y c) (y :: h).
Proof.
  intros H x. unfold bump. rewrite times_cons, (counter_eqb_sym x y), (H x). destruct (counter_eqb y x); [|now rewrite N.add_0_l].
  unfold u64. rewrite N.add_mod_idemp_l by discriminate. f_equal. lia.
Qed.
Lemma counted_same c h h' : (forall x, times x h = times x h') -> counted c h -> counted c h'.
Proof. intros E H x. rewrite <- E. apply H. Qed.

Section Step.
Context (T : Z) (M : N) (s : store) (m : memory) (now : Z).
Let P : bytes -> Prop := fun _ => True.
Context (Q : quiet T M s) (Sh : shows P T m s) (HT : (T <= now)%Z) (Hn : sane_clock now) (HM : M + 1 < 2 ^ 64).
Context (c : counters) (h : list counter) (HC : counted c h).

Lemma store_counts ident md e o : wf_entry e -> e_version e = 0 -> beq ident (s2b "cas") = false -> beq ident (s2b "touch") = false ->
  set s now e (cmd_behavior (mode_cmd md)) = Some o ->
  counted (count_store now s ident (cmd_behavior (mode_cmd md)) e c) ((AllSets :: if stores md (look m now (e_key e)) then [TotalItems] else []) ++ h).
Proof.
  intros He Hv H1 H2 Hset. unfold count_store. rewrite Hset. unfold count_set. rewrite H1, H2.
  assert (Hc : has (cmd_behavior (mode_cmd md)) behavior_cas = false) by (destruct md; reflexivity). rewrite Hc. cbn [orb].
  pose proof (can_store_stores P T M s m now Q Sh HT md e Logic.I Hv) as Hcs.
  destruct (command_conditions (mode_cmd md) s now e o (q_wf _ _ _ Q) He Hset) as [(Hret & Hres & Hcan)|(r & Hret & Hres & Href & Hcan & _)]; rewrite Hret, Hres; cbn [Z.ltb Z.compare].
  - assert (store_answer (mode_cmd md) = result_stored) as -> by (destruct md; reflexivity).
    apply Hcs in Hcan. rewrite Hcan. eapply counted_same; [|apply counted_bump, counted_bump, HC]. intros x. rewrite !times_app, !times_cons. change (times x []) with 0. lia.
  - assert (r = result_not_stored) as -> by (destruct md; exact Href).
    destruct (stores md (look m now (e_key e))); [elim Hcan; now apply Hcs|]. apply counted_bump, HC.
Qed.
Lemma cas_counts ident e o : wf_entry e -> set s now e (cmd_behavior CmdCas) = Some o ->
  counted (count_store now s ident (cmd_behavior CmdCas) e c)
    ((AllSets :: match look m now (e_key e) with
                | Some r => if r_version r =? e_version e then [TotalItems; CasHits] else [CasBadval]
                | None => [CasMisses]
                end) ++ h).
Proof.
  intros He Hset. unfold count_store. rewrite Hset. unfold count_set.
  change (has (cmd_behavior CmdCas) behavior_cas) with true. cbn [orb].
  pose proof (quiet_not_pending _ _ _ now (e_key e) Q HT) as NP.
  assert (KN : forall r, live s now (e_key e) r -> knows s (e_key e) (r_version r)).
  { intros r (A & B & _). left. exists r. auto. }
  destruct (command_conditions CmdCas s now e o (q_wf _ _ _ Q) He Hset) as [(Hret & Hres & Hcan)|(r & Hret & Hres & Href & Hcan & _)]; rewrite Hret, Hres; cbn [Z.ltb Z.compare].
  - cbn [store_answer]. destruct Hcan as ([(r & Hr)|Hp] & Hk); [|contradiction].
    rewrite (live_look P T s m now Sh HT (e_key e) r Logic.I Hr).
    assert (r_version r = e_version e) as -> by (eapply knows_fun; [apply KN; exact Hr|exact Hk]).
    rewrite N.eqb_refl. eapply counted_same; [|apply counted_bump, counted_bump, counted_bump, HC]. intros x. rewrite !times_app, !times_cons. change (times x []) with 0. lia.
  - destruct Href as [(-> & Hnl & _)|(-> & [(r0 & Hr0)|Hp] & Hk)]; [| |contradiction].
    + destruct (look m now (e_key e)) as [r0|] eqn:L; [elim (Hnl r0); exact (look_live P T s m now Sh HT (e_key e) r0 Logic.I L)|].
      eapply counted_same; [|apply counted_bump, counted_bump, HC]. intros x. rewrite !times_app, !times_cons. change (times x []) with 0. lia.
    + rewrite (live_look P T s m now Sh HT (e_key e) r0 Logic.I Hr0).
      destruct (r_version r0 =? e_version e) eqn:E; [apply N.eqb_eq in E; elim Hk; rewrite <- E; now apply KN|].
      eapply counted_same; [|apply counted_bump, counted_bump, HC]. intros x. rewrite !times_app, !times_cons. change (times x []) with 0. lia.
Qed.
Lemma touch_counts ident k x nr : (0 <= x < 2 ^ 63)%Z -> ident = s2b "touch" \/ ident = s2b "gat" ->
  counted (count_store now s ident behavior_touch (mkEntry k 0 (due now x) 0 0 (opt nr) []) c)
    ((AllSets :: if beq ident (s2b "touch") then [hit_or TouchHits TouchMisses (look m now k)] else []) ++ h).
Proof.
  intros Hx Hi. destruct (touch_state P T M s m now now Q Sh HT Hn Hn HM k x nr Logic.I Hx) as (o & Hset & Hret & _ & _ & Hm).
  unfold count_store. rewrite Hset. unfold count_set. rewrite Hret. cbn [Z.ltb Z.compare].
  change (has behavior_touch behavior_cas) with false. 
  destruct (look m now k) as [r|]; destruct Hm as (Hres & _); rewrite Hres; destruct Hi as [-> | ->];
    change (beq (s2b "touch") (s2b "cas")) with false; change (beq (s2b "gat") (s2b "cas")) with false; cbn [orb hit_or];
    change (beq (s2b "touch") (s2b "touch")) with true; change (beq (s2b "gat") (s2b "touch")) with false; cbv iota;
    (eapply counted_same; [|first [apply counted_bump, counted_bump, HC|apply counted_bump, HC]]; intros y; rewrite !times_app, !times_cons; change (times y []) with 0; lia).
Qed.
Lemma delete_counts k nr : counted (count_delete now s (mkEntry k 0 0%Z 0 0 (opt nr) []) c) ([hit_or DeleteHits DeleteMisses (look m now k)] ++ h).
Proof.
  set (e := mkEntry k 0 0%Z 0 0 (opt nr) []).
  destruct (remove_exact s now e 0 (q_wf _ _ _ Q) eq_refl eq_refl eq_refl) as (Hret & H1 & H2). change (e_key e) with k in *.
  unfold count_delete. rewrite Hret. cbn [Z.ltb Z.compare]. destruct (look m now k) as [r|] eqn:L.
  - destruct (H1 r (look_live P T s m now Sh HT k r Logic.I L)) as [Ha _]. destruct Ha as [-> _]; [now left|]. apply counted_bump, HC.
  - destruct (H2 (look_none P T s m now Sh HT k Logic.I L)) as [-> _]. apply counted_bump, HC.
Qed.
Lemma incr_counts up e v nr : e_option e = opt nr -> v < 2 ^ 64 ->
  counted (count_incr now s up e v c) ([if up then hit_or IncrHits IncrMisses (look m now (e_key e)) else hit_or DecrHits DecrMisses (look m now (e_key e))] ++ h).
Proof.
  intros Ho Hv. destruct (count_state P T M s m now Q Sh HT Hn HM up e v nr Ho Hv Logic.I) as (o & Hi & Hret & _ & _ & Hm).
  unfold count_incr. rewrite Hi, Hret. cbn [Z.ltb Z.compare]. destruct (look m now (e_key e)) as [r|]; [destruct Hm as (? & ? & ? & -> & _)|destruct Hm as (-> & _)];
    destruct up; apply counted_bump, HC.
Qed.
End Step.
Lemma gets_counts now m : sane_clock now -> forall es s c h, wf_store s -> (forall e, In e es -> visible s now (e_key e) (look m now (e_key e))) -> counted c h ->
  counted (count_gets now s es c) (flat_map (fun k => [AllGets; hit_or GetHits GetMisses (look m now k)]) (map e_key es) ++ h).
Proof.
  intros Hn. induction es as [|e es IH]; intros s c h W V HC; [exact HC|]. cbn [count_gets map flat_map].
  destruct (get_exact s now e 0 (look m now (e_key e)) W eq_refl (V e (or_introl eq_refl))) as [_ G].
  destruct (get_unchanged now s e W (sane_i64 _ Hn)) as [W1 U].
  assert (V1 : forall e', In e' es -> visible (o_store (get s now e 0)) now (e_key e') (look m now (e_key e'))).
  { intros e' I'. apply U; [lia|]. apply V. now right. }
  assert (G' : counted (match o_res (get s now e 0) with Some result_none => bump GetHits (bump AllGets c) | _ => bump GetMisses (bump AllGets c) end)
     (hit_or GetHits GetMisses (look m now (e_key e)) :: AllGets :: h)).
  { destruct (look m now (e_key e)) as [r|]; destruct G as (-> & _); cbn [hit_or]; apply counted_bump, counted_bump, HC. }
  specialize (IH _ _ _ W1 V1 G'). eapply counted_same; [|exact IH]. intros x. rewrite !times_app, !times_cons, ?times_app. change (times x []) with 0. lia.
Qed.

(** One request, in either protocol. *)
Lemma call_counts T M s m now c h k : quiet T M s -> shows (fun _ => True) T m s -> (T <= now)%Z -> sane_clock now -> M + 1 < 2 ^ 64 ->
  legal_call k -> MemcachedProofs2.known k -> ~ too_long now m k -> counted c h -> counted (count_request now s (request_of now k) c) (moves now m k ++ h).
Proof.
  intros Q Sh HT Hn HM Hl Hk Hs HC.
  destruct (fine_call (fun _ => True) T M s m now now Q Sh HT Hn Hn HM k Hl Hk (fun _ _ => Logic.I) Hs) as (p & m1 & Hrun & _).
  destruct k as [md k f x d nr|k f x d t nr|k x nr|k x nr|k nr|up k v nr|tk ks|nr|v nr| | |w r|]; cbn [request_of count_request moves]; try exact HC.
  - destruct Hl as (_ & Hf & Hx & Hd).
    assert (He : wf_entry (mkEntry k f (due now x) (blen d) 0 (opt nr) d)) by (split; [exact Hf|]; split; [now apply (due_i64 M now Hn HM)|]; split; [reflexivity|]; split; [reflexivity|exact Hd]).
    cbn [request_of run_request] in Hrun. unfold run_store in Hrun. rewrite (mode_behavior md) in Hrun |- *.
    destruct (set s now _ (cmd_behavior (mode_cmd md))) as [o|] eqn:Hset; [|discriminate].
    exact (store_counts T M s m now Q Sh HT HM c h HC (mode_word md) md _ o He eq_refl ltac:(destruct md; reflexivity) ltac:(destruct md; reflexivity) Hset).
  - destruct Hl as (_ & Hf & Hx & Hd & Ht).
    assert (He : wf_entry (mkEntry k f (due now x) (blen d) t (opt nr) d)) by (split; [exact Hf|]; split; [now apply (due_i64 M now Hn HM)|]; split; [exact Ht|]; split; [reflexivity|exact Hd]).
    cbn [request_of run_request] in Hrun. unfold run_store in Hrun. change (store_behavior (s2b "cas")) with (cmd_behavior CmdCas) in *.
    destruct (set s now _ (cmd_behavior CmdCas)) as [o|] eqn:Hset; [|discriminate].
    exact (cas_counts T M s m now Q Sh HT HM c h HC (s2b "cas") _ o He Hset).
  - exact (touch_counts T M s m now Q Sh HT Hn HM c h HC (s2b "touch") k x nr (proj2 Hl) (or_introl eq_refl)).
  - exact (touch_counts T M s m now Q Sh HT Hn HM c h HC (s2b "gat") k x nr (proj2 Hl) (or_intror eq_refl)).
  - exact (delete_counts T M s m now Q Sh HT c h HC k nr).
  - replace (beq (if up then s2b "incr" else s2b "decr") (s2b "incr")) with up by (destruct up; reflexivity).
    match goal with |- counted (count_incr _ _ _ ?e _ _) _ => exact (incr_counts T M s m now Q Sh HT Hn HM c h HC up e v nr eq_refl (proj2 Hl)) end.
  - pose proof (gets_counts now m Hn (map empty_entry ks) s c h (q_wf _ _ _ Q)) as G.
    assert (E : map e_key (map empty_entry ks) = ks) by (rewrite map_map; cbn; now rewrite map_id). rewrite E in G. apply G; [|exact HC].
    intros e _. apply (look_visible (fun _ => True) T M s m now Q Sh HT); exact Logic.I.
Qed.
Lemma bcall_counts T M s m now c h a : quiet T M s -> shows (fun _ => True) T m s -> (T <= now)%Z -> sane_clock now -> M + 1 < 2 ^ 64 ->
  legal_ask a -> ~ unfit now m (AskBinary a) -> counted c h -> counted (count_brequest now s (brequest_of now a) c) (bmoves now m (a_call a) ++ h).
Proof.
  intros Q Sh HT Hn HM Hl Hu HC.
  destruct (bfine_ask (fun _ => True) T M s m now now Q Sh HT Hn Hn HM a ltac:(destruct (a_call a); exact I) Hl Hu) as (s1 & m1 & y & Hrun & _).
  destruct a as [q op k]. destruct Hl as (_ & Hl). cbn [a_call a_quiet] in *.
  assert (X : forall x, x < 2 ^ 32 -> (0 <= Z.of_N x < 2 ^ 63)%Z) by (intros; lia).
  destruct k as [md k f x d|k f x d t|k x|k x|k|up k v i|wk k| | | |]; cbn [bmoves brequest_of a_call a_quiet count_brequest counterpart moves]; try exact HC.
  - destruct Hl as (_ & Hf & Hx & Hd).
    set (e := match md with Append | Prepend => mkEntry k 0 0%Z (blen d) 0 0 d | _ => mkEntry k f (due now (Z.of_N x)) (blen d) 0 0 d end).
    assert (He : wf_entry e).
    { destruct md; (split; [first [exact Hf|reflexivity]|]; split; [first [apply (due_i64 M now Hn HM); now apply X|unfold is_i64; cbn; lia]|]; split; [reflexivity|]; split; [reflexivity|exact Hd]). }
    assert (Hb : opcode_behavior (opcode_of q (QStore md k f x d)) false = cmd_behavior (mode_cmd md)) by (destruct md, q; reflexivity).
    assert (Hi : opcode_ident (opcode_of q (QStore md k f x d)) = s2b "set") by (destruct md, q; reflexivity).
    assert (Hb' : brequest_of now (mkAsk q op (QStore md k f x d)) = BStore (opcode_of q (QStore md k f x d)) false e) by (destruct md; reflexivity).
    assert (Hset : exists o, set s now e (cmd_behavior (mode_cmd md)) = Some o).
    { rewrite Hb' in Hrun. cbn [run_brequest] in Hrun. unfold run_bstore in Hrun. rewrite Hb in Hrun. destruct (set s now e _); [eauto|discriminate]. }
    destruct Hset as (o & Hset).
    pose proof (store_counts T M s m now Q Sh HT HM c h HC (s2b "set") md e o He ltac:(destruct md; reflexivity) eq_refl eq_refl Hset) as G.
    assert (Ek : e_key e = k) by (destruct md; reflexivity). rewrite Ek in G.
    destruct md; cbn [counterpart moves]; unfold count_brequest; rewrite Hi, Hb; exact G.
  - destruct Hl as (_ & Hf & Hx & Hd & Ht).
    assert (He : wf_entry (mkEntry k f (due now (Z.of_N x)) (blen d) t 0 d)).
    { split; [exact Hf|]; split; [apply (due_i64 M now Hn HM); now apply X|]; split; [apply Ht|]; split; [reflexivity|exact Hd]. }
    assert (Hb : opcode_behavior (opcode_of q (QCas k f x d t)) true = cmd_behavior CmdCas) by (destruct q; reflexivity).
    unfold brequest_of in Hrun. cbn [a_call a_quiet run_brequest] in Hrun. unfold run_bstore in Hrun. rewrite Hb in Hrun |- *.
    destruct (set s now _ (cmd_behavior CmdCas)) as [o|] eqn:Hset; [|discriminate].
    exact (cas_counts T M s m now Q Sh HT HM c h HC _ _ o He Hset).
  - exact (touch_counts T M s m now Q Sh HT Hn HM c h HC (s2b "touch") k (Z.of_N x) false (X _ (proj1 (proj2 Hl))) (or_introl eq_refl)).
  - replace (opcode_ident (opcode_of q (QGat k x))) with (s2b "gat") by (destruct q; reflexivity).
    exact (touch_counts T M s m now Q Sh HT Hn HM c h HC (s2b "gat") k (Z.of_N x) false (X _ (proj2 Hl)) (or_intror eq_refl)).
  - exact (delete_counts T M s m now Q Sh HT c h HC k false).
  - assert (Hup : forall i, nmem (opcode_of q (QCount up k v i)) [5; 21] = up) by (intros; destruct up, q; reflexivity).
    destruct i as [[i x]|]; cbn [count_brequest]; rewrite Hup; match goal with |- counted (count_incr _ _ _ ?e _ _) _ => exact (incr_counts T M s m now Q Sh HT Hn HM c h HC up e v false eq_refl (proj1 (proj2 Hl))) end.
  - pose proof (gets_counts now m Hn [empty_entry k] s c h (q_wf _ _ _ Q)) as G. apply G; [|exact HC].
    intros e _. apply (look_visible (fun _ => True) T M s m now Q Sh HT); exact Logic.I.
Qed.
