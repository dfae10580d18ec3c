(** Lemmas on a node that joins a partition: the storage operations. *)
From Coq Require Import String.
From stdpp Require Import gmap.
From Coq Require Import Lia ZifyBool ZifyNat ZifyN.
From Verif Require Import Base BaseLemmas StorageModel StorageSpec StorageProofs StorageProofs2 StorageProofs3 StorageProofs4 StorageProofs5 StorageProofs6
  TextModel TextSpec TextProofs TextProofs2 TextProofs3 SessionModel SessionProofs ServerModel ServerProofs ServerProofs2 KeyResolverModel
  DumpModel DumpSpec DumpProofs DumpProofs2 ReplicaModel ReplicaSpec ReplicaProofs ReplicaProofs2 ReplicationModel ReplicationSpec ReplicationProofs2 JoinModel JoinSpec.
Local Open Scope N_scope.
Local Open Scope list_scope.

(** * The rounds of the two loops are those of DumpModel *)
Lemma dump_loop_turn cfg ext alg part psize s e t ts last stop : t_stop t = false -> t_sent t = None ->
  dump_loop cfg ext alg part psize s e (t :: ts) last stop =
  match dump_turn cfg ext alg part psize s e (t_now t) (t_key t) with
  | Ok (s1, e1, b) => let '(s', out, x) := dump_loop cfg ext alg part psize s1 e1 ts last stop in (s', b ++ out, x)
  | _ => (s, [], Undefined)
  end.
Proof.
  intros A B. cbn [dump_loop]. rewrite A, B. unfold dump_turn. destruct (selected _ _ _ _ _ _) as [[]|]; [|now destruct (dump_loop _ _ _ _ _ _ _ _ _ _) as [[? ?] ?]|reflexivity].
  destruct (_ || _); [|reflexivity]. now destruct (dump_loop _ _ _ _ _ _ _ _ _ _) as [[? ?] ?].
Qed.
Lemma dump_client_round rd rs s str : no_stop rd ->
  dump_client (rd :: rs) s str =
  match dump_round (r_now rd) s str with
  | LUndef => DUndef | LFail => DFail s | LEnd rest => DDone s rest | LStored s' rest => dump_client rs s' rest
  end.
Proof.
  intros [A B]. cbn [dump_client]. rewrite A, B. unfold dump_round. destruct (get_line str) as [| |[line str1]]; try reflexivity.
  destruct (beq _ _); [reflexivity|]. destruct (call_word BUFSIZ line) as [| |[w p]]; try reflexivity. destruct (negb _); [reflexivity|].
  destruct (parse_entry _ _ _) as [| |e]; try reflexivity. destruct (get_bytes _ _) as [| |[d str2]]; try reflexivity. destruct (set _ _ _ _); reflexivity.
Qed.
Lemma round_block now s k r str : portable k r -> wf_rec r ->
  dump_round now s (record_block k r ++ str) = match set s now (sent_entry k r) behavior_dump with None => LUndef | Some o => LStored (o_store o) str end.
Proof.
  intros P W. rewrite block_split. rewrite <- !app_assoc. rewrite (app_assoc (s2b "VALUE")). unfold dump_round. rewrite get_line_ok by (now apply head_no_lf).
  replace (beq (TextModel.cstr ((s2b "VALUE" ++ head_line k r) ++ [10])) (s2b "END" ++ [10])) with false by (vm_compute; reflexivity).
  rewrite <- app_assoc. change (s2b "VALUE" ++ head_line k r ++ [10]) with (repeat 32 0 ++ s2b "VALUE" ++ (head_line k r ++ [10])).
  rewrite call_word_token.
  2:{ vm_compute; repeat constructor; discriminate. } 2:{ discriminate. } 2:{ vm_compute; discriminate. }
  2:{ unfold head_line. cbn [app]. unfold word_byte. lia. }
  cbn [negb]. change (negb (beq (s2b "VALUE") (s2b "VALUE"))) with false. cbn match.
  assert (EP : parse_entry now parse_get (head_line k r ++ [10]) = Ok (with_data (seen response_dump (sent_entry k r)) [])).
  { rewrite <- (value_line now response_dump (sent_entry k r) (sent_sendable k r P W)). f_equal. unfold head_line. cbn [e_key e_flag e_size e_version e_expire sent_entry]. repeat (rewrite <- ?app_assoc; cbn [app]). reflexivity. }
  rewrite EP. change (e_size (with_data (seen response_dump (sent_entry k r)) [])) with (blen (r_data r)).
  assert (blen (r_data r) <= 2147483645) by (destruct W as (_ & _ & _ & W & _); lia). rewrite app_assoc. rewrite <- app_assoc. rewrite get_bytes_ok by lia.
  rewrite firstn_blen. reflexivity.
Qed.
Lemma round_end now s : dump_round now s (last_line Ended) = LEnd [].
Proof. reflexivity. Qed.
Lemma record_blocks_app a b : record_blocks (a ++ b) = record_blocks a ++ record_blocks b.
Proof. unfold record_blocks. now rewrite map_app, concat_app. Qed.

(** * What a node knows *)
Lemma knows_other k k' s s' v : touches_only k' s s' -> k <> k' -> keeps k s s' -> knows s k v -> knows s' k v.
Proof.
  intros (_ & _ & H) N K. destruct (H k N) as (Hd & Ht). assert (Hh : forall o, holds s' k o <-> holds s k o) by (intros o; unfold holds; now rewrite Hd).
  intros [(r & A & B)|[(A & x & B)|(A & B & C)]].
  - left. exists r. rewrite Hh. auto.
  - right. left. split; [now apply Hh|]. exists x. destruct Ht as [Ht|Ht]; [congruence|]. exfalso.
    destruct K as [(r & K)|K]; [right; congruence| |contradiction]. apply Hh in K. unfold holds in *. cbn in *. congruence.
  - right. right. split; [now apply Hh|]. split; [|exact C]. destruct Ht; congruence.
Qed.
(** A position of the key: what is stored, and the version known. *)
Definition pos : Type := option rec * N.
Definition pos_ok (p : pos) : Prop := forall r, fst p = Some r -> wf_rec r /\ r_version r = snd p.
Definition at_pos (k : key) (s : store) (p : pos) : Prop := holds s k (fst p) /\ knows s k (snd p).
Lemma at_pos_version k s p r : pos_ok p -> at_pos k s p -> holds s k (Some r) -> wf_rec r -> r_version r = snd p.
Proof.
  intros Hp [A _] B W. destruct p as [[r'|] v]; cbn [fst snd] in *; [|unfold holds in *; cbn in *; congruence].
  destruct (Hp r' eq_refl) as (W' & E). cbn [snd] in E. assert (r = r') by exact (holds_some_fun _ _ _ _ W W' B A). congruence.
Qed.
Lemma at_pos_other k k' s s' p : touches_only k' s s' -> k <> k' -> keeps k s s' -> at_pos k s p -> at_pos k s' p.
Proof. intros H N K [A B]. split; [|eapply knows_other; eauto]. unfold holds in *. destruct H as (_ & _ & H). rewrite <- A. now apply H. Qed.
Lemma at_pos_insert k s r : wf_rec r -> at_pos k (set_db s (<[k := encode_rec r]> (db s))) (Some r, r_version r).
Proof.
  intros W. assert (H : holds (set_db s (<[k := encode_rec r]> (db s))) k (Some r)) by (unfold holds; cbn; now rewrite lookup_insert).
  split; [exact H|]. left. exists r. auto.
Qed.

(** * The operations of the node that joins *)
(** set with a version *)
Lemma set_plain s now e : wf_store s -> wf_rec (rec_of e) -> e_size e = blen (e_data e) -> 0 < e_version e ->
  exists o, set s now e (cmd_behavior CmdSet) = Some o /\ o_ret o = 0%Z /\ o_res o <> None /\
    ((o_store o = set_db s (<[e_key e := encode_rec (rec_of e)]> (db s)) /\ (forall r, live s now (e_key e) r -> r_version r < e_version e)) \/
     (o_store o = s /\ exists r, live s now (e_key e) r /\ e_version e <= r_version r)).
Proof.
  intros W Wr Sz V. unfold set, current_entry. change (has (cmd_behavior CmdSet) _) with false. cbn match.
  set (ge := get_header s (e_key e) (empty_entry [])).
  assert (C : (exists r, holds s (e_key e) (Some r) /\ wf_rec r /\ ge = (fill (empty_entry []) r, true)) \/ (holds s (e_key e) None /\ snd ge = false)).
  { destruct (wf_holds s (e_key e) W) as ([r0|] & Ho & Hr).
    - specialize (Hr r0 eq_refl). left. exists r0. split; [exact Ho|]. split; [exact Hr|]. unfold ge. now rewrite (get_header_some _ _ _ _ Ho Hr).
    - right. split; [exact Ho|]. unfold ge. rewrite get_header_none by exact Ho. reflexivity. }
  destruct ge as [cur ex]. change (has (cmd_behavior CmdSet) behavior_add) with false. change (has (cmd_behavior CmdSet) behavior_replace) with false. change (has (cmd_behavior CmdSet) behavior_touch) with false.
  cbn [andb]. unfold next_version. change (has (cmd_behavior CmdSet) behavior_cas) with false. change (has (cmd_behavior CmdSet) behavior_touch) with false.
  change (has (cmd_behavior CmdSet) behavior_skip_version) with false. change (has (cmd_behavior CmdSet) behavior_dump) with false. rewrite orb_false_r.
  replace (e_version e =? 0) with false by lia. cbn [negb andb].
  destruct (cur_state_eqb (current_state now (cmd_behavior CmdSet) cur ex) st_alive && (e_version e <=? e_version cur)) eqn:L.
  - eexists. split; [reflexivity|]. cbn [o_ret o_res o_store]. split; [reflexivity|]. split; [discriminate|]. right. split; [reflexivity|].
    apply andb_prop in L as [L1 L2]. destruct C as [(r & Ho & Hr & E)|(Ho & E)].
    + exists r. injection E as -> ->. unfold current_state in L1. change (negb (has (cmd_behavior CmdSet) behavior_skip_timestamp)) with true in L1. cbn [andb fill e_expire] in L1.
      destruct (expired_at now (r_expire r)) eqn:X; [discriminate|]. split; [|cbn [fill e_version] in L2; lia]. split; [exact Ho|]. split; [exact Hr|]. rewrite <- expired_at_spec. congruence.
    + cbn [snd] in E. subst ex. unfold current_state in L1. destruct (_ && _) in L1; discriminate.
  - cbv zeta. change (has (cmd_behavior CmdSet) (N.lor behavior_append behavior_prepend)) with false. cbn match.
    change (with_version e (e_version e)) with (mkEntry (e_key e) (e_flag e) (e_expire e) (e_size e) (e_version e) (e_option e) (e_data e)).
    cbn [e_data e_size e_key]. rewrite Sz, memcpy_all. rewrite <- Sz. 
    rewrite (ser_header_encode _ (e_data e)); [|destruct Wr as (_ & _ & _ & W4 & _); cbn [rec_of r_data] in W4; lia|exact Sz].
    cbn [e_flag e_expire e_version]. change (mkRec (e_flag e) (e_expire e) (e_version e) (e_data e)) with (rec_of e).
    unfold db_put. rewrite blen_encode. pose proof Wr as (W1 & W2 & W3 & W4 & W5). replace (28 + blen (r_data (rec_of e)) <=? 2147483647) with true by lia.
    eexists. split; [reflexivity|]. cbn [o_ret o_res o_store]. split; [reflexivity|]. split; [discriminate|]. left. split; [reflexivity|].
    intros r (A & B & D). destruct C as [(r0 & Ho & Hr & E)|(Ho & E)]; [|unfold holds in *; cbn in *; congruence].
    assert (r0 = r) by exact (holds_some_fun _ _ _ _ Hr B Ho A). subst r0. injection E as -> ->. unfold current_state in L.
    change (negb (has (cmd_behavior CmdSet) behavior_skip_timestamp)) with true in L. cbn [andb fill e_expire] in L.
    destruct (expired_at now (r_expire r)) eqn:X; [exfalso; apply D, expired_at_spec, X|]. cbn [cur_state_eqb andb fill e_version] in L. lia.
Qed.
(** delete with a version *)
Lemma remove_plain s now e : wf_store s -> is_i64 now -> is_i64 (e_expire e) -> e_version e < 2 ^ 64 -> 1 <= hcache_size s -> 0 < e_version e ->
  let o := remove s now e 0 in
  o_ret o = 0%Z /\ o_res o <> None /\
  (at_pos (e_key e) (o_store o) (None, e_version e) \/ (o_store o = s /\ exists v, knows s (e_key e) v /\ e_version e < v)).
Proof.
  intros W Hn Hx Hv Hs V. cbv zeta. destruct (wf_holds s (e_key e) W) as ([r|] & Ho & Hr).
  - specialize (Hr r eq_refl). rewrite (remove_some _ _ _ _ r Ho Hr). change (has 0 behavior_skip_version) with false. change (has 0 behavior_version_equal) with false. replace (e_version e =? 0) with false by lia.
    cbn [negb andb orb]. rewrite orb_false_r. destruct (e_version e <? r_version r) eqn:L; cbn [o_ret o_res o_store]; (split; [reflexivity|]; split; [discriminate|]).
    + right. split; [reflexivity|]. exists (r_version r). split; [left; eauto|lia].
    + left. assert (Hh : holds (removed s now (e_key e) e) (e_key e) None) by (unfold holds; cbn; apply lookup_delete). split; [exact Hh|]. right. left. split; [exact Hh|].
      eexists. unfold removed. apply shc_kept; [now apply delete_wf|exact Hs].
  - rewrite remove_none by exact Ho. cbv zeta. change (has 0 behavior_skip_version) with false. change (has 0 behavior_version_equal) with false. replace (e_version e =? 0) with false by lia.
    cbn [negb andb orb]. rewrite orb_false_r. destruct (e_version e <? _) eqn:L; cbn [o_ret o_res o_store]; (split; [reflexivity|]; split; [discriminate|]).
    + right. split; [reflexivity|]. eexists. split; [|apply N.ltb_lt, L]. right. destruct (tomb s (e_key e)) as [[x v]|] eqn:T; [left|right]; eauto.
    + left. assert (Hh : holds (set_header_cache s now (e_key e) e) (e_key e) None) by exact Ho. split; [exact Hh|]. right. left. split; [exact Hh|].
      eexists. now apply shc_kept.
Qed.

(** * Deletes of the master *)
Lemma delete_forward now s e p f : wf_store s -> sane_clock now -> run_request now s (RDelete e) = Ok p -> p_forward p = Some f ->
  fst f = s2b "delete" /\ e_key (snd f) = e_key e /\ holds (p_store p) (e_key e) None /\
  (exists r, holds s (e_key e) (Some r) /\ wf_rec r /\ r_version r <= e_version (snd f)) /\
  (tomb (p_store p) (e_key e) = None \/ exists x, tomb (p_store p) (e_key e) = Some (x, e_version (snd f))).
Proof.
  intros W Hn H Hf. cbn [run_request] in H. unfold run_delete in H. pose proof (sane_i64 _ Hn) as Hi.
  destruct (wf_holds s (e_key e) W) as ([r|] & Ho & Hr).
  - specialize (Hr r eq_refl). rewrite (remove_some _ _ _ _ r Ho Hr) in H. set (c := negb (has 0 behavior_skip_version) && _ && _) in H. destruct c eqn:C.
    { unfold finish in H. cbn [o_ret o_res o_store o_entry Z.ltb Z.compare] in H. injection H as <-. discriminate Hf. }
    cbv zeta in H. unfold finish in H. cbn [o_ret o_res o_store o_entry Z.ltb Z.compare] in H. injection H as <-. cbn [p_forward p_store] in *.
    set (e' := if e_version e =? 0 then _ else _) in *. destruct (is_deleted _); [|discriminate]. injection Hf as <-. cbn [fst snd]. split; [reflexivity|].
    assert (Ek : e_key e' = e_key e) by (unfold e'; destruct (_ =? _); reflexivity). split; [exact Ek|].
    split; [unfold holds; cbn; apply lookup_delete|]. split.
    + exists r. split; [exact Ho|]. split; [exact Hr|]. unfold c in C. change (has 0 behavior_skip_version) with false in C. change (has 0 behavior_version_equal) with false in C. cbn [negb andb orb] in C. rewrite orb_false_r in C.
      unfold e'. destruct (e_version e =? 0) eqn:Z; cbn [with_version e_version negb andb] in *; lia.
    + unfold removed. destruct W as (W1 & W2 & W3 & W4). destruct (shc_tomb_same (set_db s (delete (e_key e) (db s))) now (e_key e) e' W2) as [H|H]; eauto.
  - rewrite remove_none in H by exact Ho. cbv zeta in H. destruct (_ && _) in H; unfold finish in H; cbn [o_ret o_res o_store o_entry Z.ltb Z.compare] in H; injection H as <-; discriminate Hf.
Qed.
