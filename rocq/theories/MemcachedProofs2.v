(** Every request of a text session does what the abstract memory says. *)
From Coq Require Import String.
From stdpp Require Import gmap.
From Coq Require Import ZifyBool ZifyNat ZifyN.
From Verif Require Import Base BaseLemmas StorageModel StorageSpec StorageProofs StorageProofs2 StorageProofs3 StorageProofs4
  TextModel TextSpec TextProofs TextProofs2 TextProofs3 TextProofs4 ClientSpec SessionModel SessionProofs ServerModel ServerProofs ServerProofs2 ReplicaProofs ReplicaProofs2
  MemcachedSpec MemcachedProofs OtherProofs StorageProofs6.
Local Open Scope N_scope.
Local Open Scope list_scope.

(** The store [s] shows the memory [m] as far as the keys in [P] are concerned. *)
Definition shows (P : bytes -> Prop) (T : Z) (m : memory) (s : store) : Prop := forall k, P k -> sees T s k (m k).
Lemma look_at m now k : look m now k = at_time now (m k).
Proof. reflexivity. Qed.
Lemma shows_visible P T m s now k : shows P T m s -> P k -> (T <= now)%Z -> visible s now k (look m now k).
Proof. intros H Hk HT. rewrite look_at. now apply H. Qed.
Lemma shows_live P T m s now k r : shows P T m s -> P k -> (T <= now)%Z -> look m now k = Some r -> live s now k r.
Proof. intros H Hk HT E. pose proof (shows_visible P T m s now k H Hk HT) as V. now rewrite E in V. Qed.
Lemma live_shows P T m s now k r : shows P T m s -> P k -> (T <= now)%Z -> live s now k r -> look m now k = Some r.
Proof. intros H Hk HT L. eapply visible_fun; [eapply shows_visible; eauto|exact L]. Qed.
Lemma shows_unchanged P T m s s' now : shows P T m s -> (T <= now)%Z -> unchanged_from now s s' -> shows P now m s'.
Proof. intros H HT U k Hk. eapply sees_unchanged; eauto. Qed.
Lemma shows_update P T m s s' now k o : shows P T m s -> (T <= now)%Z -> touches_only k s s' -> holds s' k o -> (forall r, o = Some r -> wf_rec r) ->
  shows P now (update m k o) s'.
Proof.
  intros H HT (_ & _ & F) Hh W k' Hk'. unfold update. destruct (beq k k') eqn:E.
  - apply beq_eq in E. subst k'. destruct o as [r|]; [apply sees_some; auto|now apply sees_none].
  - assert (k' <> k) as Hne by (intros ->; rewrite beq_refl in E; discriminate).
    eapply sees_frame; [apply F; auto|]. eapply sees_mono; eauto.
Qed.
Lemma noreply_opt e nr : e_option e = opt nr -> noreply e = nr.
Proof. unfold noreply. intros ->. destruct nr; reflexivity. Qed.
Lemma answer_say (nr : bool) r : (if nr then [] else answer_line r) = say nr (result_word r).
Proof. destruct nr; reflexivity. Qed.

Lemma print_item (tk : bool) k e r : e_key e = k -> legal_key k -> rec_of e = r -> e_size e = blen (e_data e) ->
  print_response (if tk then response_gets else response_get) e = item_lines tk k r.
Proof.
  intros <- Hk <- Hs. unfold print_response, item_lines. rewrite (cstr_key (e_key e)) by apply Hk. rewrite Hs. cbn [rec_of r_flag r_data r_version].
  replace (N.to_nat (blen (e_data e))) with (length (e_data e)) by (unfold blen; lia). rewrite firstn_all.
  unfold space, sp, line_end, crlf. change (s2b "VALUE ") with (s2b "VALUE" ++ [32]). rewrite <- !app_assoc. destruct tk; cbn [app]; rewrite <- ?app_assoc; reflexivity.
Qed.

(** The request of a call read at the clock value [asked]. *)
Definition request_of (asked : Z) (c : call) : request :=
  match c with
  | Store md k f x d nr => RStore (mode_word md) (mkEntry k f (due asked x) (blen d) 0 (opt nr) d)
  | Cas k f x d t nr => RStore (s2b "cas") (mkEntry k f (due asked x) (blen d) t (opt nr) d)
  | Touch k x nr => RTouch (s2b "touch") (mkEntry k 0 (due asked x) 0 0 (opt nr) [])
  | Gat k x nr => RTouch (s2b "gat") (mkEntry k 0 (due asked x) 0 0 (opt nr) [])
  | Delete k nr => RDelete (mkEntry k 0 0%Z 0 0 (opt nr) [])
  | Count up k v nr => RIncr (if up then s2b "incr" else s2b "decr") (mkEntry k 0 0%Z 0 0 (opt nr) []) v
  | Get tk ks => RGet (if tk then s2b "gets" else s2b "get") ks
  | Flush nr => RFlush nr
  | Verbosity _ nr => RVerbosity nr
  | Ping => RPlain (s2b "ping")
  | Version => RPlain (s2b "version")
  | Quit => RPlain (s2b "quit")
  | Unknown w _ => ROther w
  end.
Definition word_of (c : call) : bytes :=
  match c with
  | Store md _ _ _ _ _ => mode_word md
  | Cas _ _ _ _ _ _ => s2b "cas"
  | Touch _ _ _ => s2b "touch"
  | Gat _ _ _ => s2b "gat"
  | Delete _ _ => s2b "delete"
  | Count up _ _ _ => if up then s2b "incr" else s2b "decr"
  | Get tk _ => if tk then s2b "gets" else s2b "get"
  | Flush _ => s2b "flush_all"
  | Verbosity _ _ => s2b "verbosity"
  | Ping => s2b "ping"
  | Version => s2b "version"
  | Quit => s2b "quit"
  | Unknown w _ => w
  end.
(** Requests that are understood. *)
Definition known (c : call) : Prop := match c with Unknown _ _ => False | _ => True end.
Definition keys_of (c : call) : list bytes :=
  match c with
  | Store _ k _ _ _ _ | Cas k _ _ _ _ _ | Touch k _ _ | Gat k _ _ | Delete k _ | Count _ k _ _ => [k]
  | Get _ ks => ks
  | _ => []
  end.
Lemma mode_ident md : In (mode_word md) store_idents /\ mode_word md <> s2b "cas".
Proof. destruct md; cbn; (split; [tauto|discriminate]). Qed.
Lemma too_long_size now m c : ~ too_long now m c -> match c with Store _ _ _ _ d _ | Cas _ _ _ d _ _ => blen d <= max_value | _ => True end.
Proof. destruct c as [md k f x d nr|k f x d t nr| | | | | | | | | | |]; auto; cbn; intros H; (destruct (N.le_gt_cases (blen d) max_value); auto; elim H; auto). Qed.
Lemma served asked c rest now m : legal_call c -> known c -> ~ too_long now m c ->
  serve_request asked (wire c ++ rest) = Ok (mkCommand false [] (word_of c), request_of asked c, rest).
Proof.
  intros Hc Hkn Hl. apply too_long_size in Hl. unfold max_value in Hl.
  destruct c as [md k f x d nr|k f x d t nr|k x nr|k x nr|k nr|up k v nr|tk ks|nr|v nr| | |w r|]; cbn [request_of word_of].
  - destruct Hc as (Hk & Hf & Hx & Hd). assert (Hd' : blen d <= 2147483645) by (clear - Hl; lia).
    exact (client_store_served asked (mode_word md) k f x d None nr rest (proj1 (mode_ident md)) Hk Hf Hx Hd' (proj2 (mode_ident md))).
  - destruct Hc as (Hk & Hf & Hx & Hd & Ht). assert (Hd' : blen d <= 2147483645) by (clear - Hl; lia). assert (Hid : In (s2b "cas") store_idents) by (cbn; tauto).
    exact (client_store_served asked (s2b "cas") k f x d (Some t) nr rest Hid Hk Hf Hx Hd' Ht).
  - destruct Hc as (Hk & Hx). assert (Hid : In (s2b "touch") [s2b "touch"; s2b "gat"]) by (cbn; tauto). exact (client_touch_served asked (s2b "touch") k x nr rest Hid Hk Hx).
  - destruct Hc as (Hk & Hx). assert (Hid : In (s2b "gat") [s2b "touch"; s2b "gat"]) by (cbn; tauto). exact (client_touch_served asked (s2b "gat") k x nr rest Hid Hk Hx).
  - exact (client_delete_served asked k None nr rest Hc I).
  - destruct Hc as (Hk & Hv). set (w := if up then s2b "incr" else s2b "decr"). set (e := mkEntry k 0 0%Z 0 0 (opt nr) []).
    assert (Hw : In w [s2b "incr"; s2b "decr"]) by (subst w; destruct up; cbn; tauto).
    replace (wire (Count up k v nr)) with (incr_request [] w e v).
    + apply (incr_roundtrip asked [] w e v rest (List.Forall_nil _) Hw Hk Hv). cbn [e_option e]. destruct nr; reflexivity.
    + unfold incr_request, wire. cbn [e_key e e_option]. rewrite (cstr_key k) by apply Hk. rewrite noreply_print. cbn [proxy_ident app].
      unfold space, sp, line_end, crlf. rewrite <- ?app_assoc. reflexivity.
  - destruct Hc as (Hne & Hk). set (w := if tk then s2b "gets" else s2b "get").
    assert (Hw : In w [s2b "get"; s2b "gets"]) by (subst w; destruct tk; cbn; tauto). exact (get_roundtrip asked w ks rest Hw Hne Hk).
  - apply flush_served.
  - now apply verbosity_served.
  - apply (plain_served asked (s2b "ping")). cbn; tauto.
  - apply (plain_served asked (s2b "version")). cbn; tauto.
  - elim Hkn.
  - apply (plain_served asked (s2b "quit")). cbn; tauto.
Qed.

Section Step.
Context (P : bytes -> Prop) (T : Z) (M : N) (s : store) (m : memory) (asked now : Z).
Context (Q : quiet T M s) (Sh : shows P T m s) (HT : (T <= now)%Z) (Hasked : sane_clock asked) (Hn : sane_clock now) (HM : M + 1 < 2 ^ 64).

Definition fine (c : call) : Prop := exists p m', run_request now s (request_of asked c) = Ok p
  /\ does asked now m c m' (p_answer p) /\ quiet now (M + 1) (p_store p) /\ shows P now m' (p_store p).

Lemma look_live k r : P k -> look m now k = Some r -> live s now k r.
Proof. intros H. exact (shows_live P T m s now k r Sh H HT). Qed.
Lemma live_look k r : P k -> live s now k r -> look m now k = Some r.
Proof. intros H. exact (live_shows P T m s now k r Sh H HT). Qed.
Lemma look_none k : P k -> look m now k = None -> forall r, ~ live s now k r.
Proof. intros H E r L. rewrite (live_look _ _ H L) in E. discriminate. Qed.

Lemma due_i64 x : (0 <= x < 2 ^ 63)%Z -> is_i64 (due asked x).
Proof.
  intros H. unfold due, is_i64, sane_clock in *. destruct (x =? 0)%Z eqn:E0; [lia|]. destruct (x <=? 30 * 24 * 60 * 60)%Z eqn:E; lia.
Qed.
Lemma clock_i64 : is_i64 now. Proof. exact (sane_i64 _ Hn). Qed.
Lemma HM64 : M < 2 ^ 64. Proof. lia. Qed.
Lemma clock_pos : (0 <= now)%Z. Proof. unfold sane_clock in Hn. lia. Qed.

Definition mode_cmd (md : mode) : cmd := match md with Set_ => CmdSet | Add => CmdAdd | Replace => CmdReplace | Append => CmdAppend | Prepend => CmdPrepend end.
Lemma mode_behavior md : store_behavior (mode_word md) = cmd_behavior (mode_cmd md).
Proof. destruct md; reflexivity. Qed.

Lemma can_store_stores md e : P (e_key e) -> e_version e = 0 -> (can_store (mode_cmd md) s now e <-> stores md (look m now (e_key e)) = true).
Proof.
  intros Pk Hv. destruct (look m now (e_key e)) as [r|] eqn:L.
  - pose proof (look_live _ _ Pk L) as Lv. destruct md; cbn; (split; intros H; auto; try discriminate).
    + destruct H as [H _]. elim (H r Lv).
    + exists r. auto.
    + exists r. auto.
    + exists r. auto.
  - pose proof (look_none _ Pk L) as Lv. destruct md; cbn; (split; intros H; auto; try discriminate).
    + split; [auto|]. eapply quiet_not_pending; eauto.
    + destruct H as (r & H & _). elim (Lv r H).
    + destruct H as (r & H & _). elim (Lv r H).
    + destruct H as (r & H & _). elim (Lv r H).
Qed.
Lemma knows_next_nonzero k cv : knows s k cv -> u64 (cv + 1) = cv + 1.
Proof. intros H. pose proof (quiet_knows _ _ _ _ _ Q H). unfold u64. rewrite N.mod_small by lia. reflexivity. Qed.

Lemma fine_store md k f x d nr : f < 2 ^ 32 -> (0 <= x < 2 ^ 63)%Z -> wf_bytes d -> P k -> ~ too_long now m (Store md k f x d nr) -> fine (Store md k f x d nr).
Proof.
  intros Hf Hx Hd Pk Hl. unfold too_long in Hl. pose proof (q_wf _ _ _ Q) as Hwf.
  assert (Hlen : blen d <= max_value) by (destruct (N.le_gt_cases (blen d) max_value); auto; elim Hl; auto). unfold max_value in Hlen.
  set (e := mkEntry k f (due asked x) (blen d) 0 (opt nr) d).
  assert (He : wf_entry e) by (split; [exact Hf|]; split; [now apply due_i64|]; split; [reflexivity|]; split; [reflexivity|exact Hd]).
  destruct (set_defined s now e (cmd_behavior (mode_cmd md)) Hwf He (cmd_sane _)) as [o Hset]; [exact Hlen| |].
  { intros Ha r Hr. cbn [e_data e]. apply (live_look k r Pk) in Hr.
    destruct (N.le_gt_cases (blen (r_data r) + blen d) max_value) as [Hle|Hgt]; [exact Hle|].
    elim Hl. right. split; [|exists r; auto]. destruct md; auto; cbn in Ha; destruct Ha; discriminate. }
  assert (Hrun : run_request now s (request_of asked (Store md k f x d nr)) = finish o is_stored (mode_word md) answer_line).
  { cbn [run_request request_of]. fold e. unfold run_store. rewrite mode_behavior, Hset. reflexivity. }
  assert (Hq : quiet now (M + 1) (o_store o)) by exact (quiet_set T M s now Q HT clock_i64 HM64 (mode_cmd md) e o He (or_introl eq_refl) HM Hset).
  assert (Hnr : noreply (o_entry o) = nr) by (apply noreply_opt; rewrite (set_option _ _ _ _ _ Hset); reflexivity).
  assert (Hto : touches_only k s (o_store o)).
  { apply (run_op_local s (OSet now e (cmd_behavior (mode_cmd md))) o); cbn; auto using clock_i64, cmd_sane. }
  destruct (command_conditions (mode_cmd md) s now e o Hwf He Hset) as [(Hret & Hres & Hcan)|(r & Hret & Hres & Href & Hcan & _ & Hun & _)].
  - assert (Hans : store_answer (mode_cmd md) = result_stored) by (destruct md; reflexivity). rewrite Hans in Hres.
    assert (Hres' : o_res o = Some result_stored \/ o_res o = Some result_touched) by auto.
    destruct (store_then_get _ _ _ _ _ Hwf He (cmd_sane _) Hset Hres') as (_ & W & Hh & (cv & Hcv & Hav) & (old & Hnew & Hold) & _).
    set (t := r_version (rec_of (o_entry o))) in *.
    assert (Ht : t = cv + 1).
    { rewrite Hav. transitivity (u64 (cv + 1)); [destruct md; reflexivity|exact (knows_next_nonzero _ _ Hcv)]. }
    assert (Hst : stores md (look m now k) = true) by (apply (can_store_stores md e Pk eq_refl); exact Hcan).
    eexists (mkReply (o_store o) (say nr (s2b "STORED")) (Some (mode_word md, o_entry o))), (update m k (Some (written md (look m now k) f (due asked x) d t))).
    split; [|split; [|split]]; cbn [p_answer p_store].
    + rewrite Hrun. unfold finish. rewrite Hret, Hres, Hnr. cbn [Z.ltb Z.compare bind is_stored]. rewrite answer_say. reflexivity.
    + apply stored; auto. destruct (look m now k) as [r|] eqn:L; [|exact I]. cbn.
      eapply (stored_version (mode_cmd md) s now e o); eauto; [destruct md; discriminate|congruence| |].
      { change (t <> 0). rewrite Ht. clear. lia. }
      eapply look_live; eauto.
    + exact Hq.
    + eapply shows_update; eauto.
      2:{ intros r [= <-]. replace (written _ _ _ _ _ _) with (rec_of (o_entry o)); [exact W|]. rewrite Hnew. fold t.
          destruct md; try reflexivity; unfold written, new_record; cbn; specialize (Hold eq_refl); change (e_key e) with k in Hold; rewrite (live_look _ _ Pk Hold); reflexivity. }
      replace (written _ _ _ _ _ _) with (rec_of (o_entry o)); [exact Hh|]. rewrite Hnew. fold t.
      destruct md; try reflexivity; unfold written, new_record; cbn; specialize (Hold eq_refl); change (e_key e) with k in Hold; rewrite (live_look _ _ Pk Hold); reflexivity.
  - assert (r = result_not_stored) as -> by (destruct md; exact Href).
    assert (Hst : stores md (look m now k) = false).
    { destruct (stores md (look m now k)) eqn:E; auto. elim Hcan. now apply (can_store_stores md e Pk eq_refl). }
    eexists (mkReply (o_store o) (say nr (s2b "NOT_STORED")) None), m.
    split; [|split; [|split]]; cbn [p_answer p_store].
    + rewrite Hrun. unfold finish. rewrite Hret, Hres, Hnr. cbn [Z.ltb Z.compare bind is_stored]. rewrite answer_say. reflexivity.
    + now apply not_stored.
    + exact Hq.
    + eapply shows_unchanged; eauto.
Qed.

Lemma fine_cas k f x d t nr : f < 2 ^ 32 -> (0 <= x < 2 ^ 63)%Z -> wf_bytes d -> t < 2 ^ 64 -> P k -> ~ too_long now m (Cas k f x d t nr) -> fine (Cas k f x d t nr).
Proof.
  intros Hf Hx Hd Ht Pk Hl. unfold too_long in Hl. pose proof (q_wf _ _ _ Q) as Hwf.
  assert (Hlen : blen d <= max_value) by (destruct (N.le_gt_cases (blen d) max_value); auto; elim Hl; auto). unfold max_value in Hlen.
  set (e := mkEntry k f (due asked x) (blen d) t (opt nr) d).
  assert (He : wf_entry e) by (split; [exact Hf|]; split; [now apply due_i64|]; split; [exact Ht|]; split; [reflexivity|exact Hd]).
  destruct (set_defined s now e (cmd_behavior CmdCas) Hwf He (cmd_sane _)) as [o Hset]; [exact Hlen| |].
  { intros [Ha|Ha]; discriminate Ha. }
  assert (Hrun : run_request now s (request_of asked (Cas k f x d t nr)) = finish o is_stored (s2b "cas") answer_line).
  { cbn [run_request request_of]. fold e. unfold run_store. change (store_behavior (s2b "cas")) with (cmd_behavior CmdCas). rewrite Hset. reflexivity. }
  assert (Hq : quiet now (M + 1) (o_store o)) by exact (quiet_set T M s now Q HT clock_i64 HM64 CmdCas e o He (or_intror eq_refl) HM Hset).
  assert (Hnr : noreply (o_entry o) = nr) by (apply noreply_opt; rewrite (set_option _ _ _ _ _ Hset); reflexivity).
  assert (Hto : touches_only k s (o_store o)).
  { apply (run_op_local s (OSet now e (cmd_behavior CmdCas)) o); cbn; auto using clock_i64. exact (cmd_sane CmdCas). }
  destruct (command_conditions CmdCas s now e o Hwf He Hset) as [(Hret & Hres & Hcan)|(r & Hret & Hres & Href & Hcan & _ & Hun & _)].
  - cbn [store_answer] in Hres. assert (Hres' : o_res o = Some result_stored \/ o_res o = Some result_touched) by auto.
    destruct (store_then_get _ _ _ _ _ Hwf He (cmd_sane _) Hset Hres') as (_ & W & Hh & (cv & Hcv & Hav) & (old & Hnew & _) & _).
    destruct Hcan as ([(r & Hr)|Hp] & Hkn); [|elim (quiet_not_pending _ _ _ _ _ Q HT Hp)].
    change (e_key e) with k in *. change (e_version e) with t in *.
    assert (Hv : r_version r = t). { eapply knows_fun; [|exact Hkn]. left. exists r. destruct Hr as (? & ? & _). auto. }
    assert (Hav' : r_version (rec_of (o_entry o)) = t + 1).
    { rewrite Hav. exact (knows_next_nonzero _ _ Hkn). }
    assert (Enew : rec_of (o_entry o) = mkRec f (due asked x) (t + 1) d) by (rewrite Hnew, Hav'; reflexivity).
    rewrite Enew in *.
    eexists (mkReply (o_store o) (say nr (s2b "STORED")) (Some (s2b "cas", o_entry o))), (update m k (Some (mkRec f (due asked x) (t + 1) d))).
    split; [|split; [|split]]; cbn [p_answer p_store].
    + rewrite Hrun. unfold finish. rewrite Hret, Hres, Hnr. cbn [Z.ltb Z.compare bind is_stored]. rewrite answer_say. reflexivity.
    + apply cas_stored with r; [exact (live_look _ _ Pk Hr)|exact Hv|lia].
    + exact Hq.
    + eapply shows_update; eauto. intros r' [= <-]. exact W.
  - change (e_key e) with k in *. change (e_version e) with t in *.
    assert (exists r', r = r' /\ does asked now m (Cas k f x d t nr) m (say nr (result_word r')) /\ is_stored r' = false) as (r' & <- & Hdo & Hns).
    { destruct Href as [(-> & Hnl & _)|(-> & [(r0 & Hr0)|Hp] & Hkn)]; [exists result_not_found; split; [reflexivity|]; split| |].
      - apply cas_missing. destruct (look m now k) as [r0|] eqn:L; auto. elim (Hnl r0). eapply look_live; eauto.
      - reflexivity.
      - eexists; split; [reflexivity|]. split; [|reflexivity]. apply cas_exists with r0; [exact (live_look _ _ Pk Hr0)|].
        intros E. apply Hkn. left. exists r0. destruct Hr0 as (? & ? & _). auto.
      - elim (quiet_not_pending _ _ _ _ _ Q HT Hp). }
    eexists (mkReply (o_store o) (say nr (result_word r)) None), m.
    split; [|split; [|split]]; cbn [p_answer p_store].
    + rewrite Hrun. unfold finish. rewrite Hret, Hres, Hnr. cbn [Z.ltb Z.compare bind]. rewrite Hns, answer_say. reflexivity.
    + exact Hdo.
    + exact Hq.
    + eapply shows_unchanged; eauto.
Qed.


(** touch and gat *)
Lemma touch_state k x nr : P k -> (0 <= x < 2 ^ 63)%Z ->
  let e := mkEntry k 0 (due asked x) 0 0 (opt nr) [] in
  exists o, set s now e behavior_touch = Some o /\ o_ret o = 0%Z /\ noreply (o_entry o) = nr /\ quiet now (M + 1) (o_store o)
  /\ match look m now k with
     | Some r => o_res o = Some result_touched /\ shows P now (update m k (Some (mkRec (r_flag r) (due asked x) (r_version r) (r_data r)))) (o_store o)
         /\ e_key (o_entry o) = k /\ rec_of (o_entry o) = mkRec (r_flag r) (due asked x) (r_version r) (r_data r) /\ e_size (o_entry o) = blen (e_data (o_entry o))
     | None => o_res o = Some result_not_found /\ shows P now m (o_store o)
     end.
Proof.
  intros Pk Hx e. pose proof (q_wf _ _ _ Q) as Hwf.
  assert (He : wf_entry e) by (split; [reflexivity|]; split; [now apply due_i64|]; split; [reflexivity|]; split; [reflexivity|constructor]).
  destruct (set_defined s now e (cmd_behavior CmdTouch) Hwf He (cmd_sane _)) as [o Hset]; [cbn; lia| |].
  { intros [Ha|Ha]; discriminate Ha. }
  assert (Hq : quiet now (M + 1) (o_store o)) by exact (quiet_set T M s now Q HT clock_i64 HM64 CmdTouch e o He (or_introl eq_refl) HM Hset).
  assert (Hnr : noreply (o_entry o) = nr) by (apply noreply_opt; rewrite (set_option _ _ _ _ _ Hset); reflexivity).
  assert (Hto : touches_only k s (o_store o)).
  { apply (run_op_local s (OSet now e (cmd_behavior CmdTouch)) o); cbn; auto using clock_i64. exact (cmd_sane CmdTouch). }
  exists o. split; [exact Hset|].
  destruct (command_conditions CmdTouch s now e o Hwf He Hset) as [(Hret & Hres & Hcan)|(r & Hret & Hres & Href & Hcan & _ & Hun & _)];
    (split; [exact Hret|]); (split; [exact Hnr|]); (split; [exact Hq|]).
  - cbn [store_answer] in Hres. destruct Hcan as (r & Hr). change (e_key e) with k in Hr. rewrite (live_look _ _ Pk Hr).
    split; [exact Hres|]. assert (Hres' : o_res o = Some result_stored \/ o_res o = Some result_touched) by auto.
    destruct (store_then_get _ _ _ _ _ Hwf He (cmd_sane CmdTouch) Hset Hres') as (_ & W & Hh & (cv & Hcv & Hav) & (old & Hnew & Hold) & _).
    destruct (set_inv _ _ _ _ _ Hwf He (cmd_sane CmdTouch) Hset) as (s1 & cur & st & _ & [(_ & [(_ & r0 & Hr0 & _ & _ & N1 & N2)|(_ & Hr0 & _)])|(r0 & _ & _ & _ & _ & Hr0 & Hkey & Hsz & _)]).
    { rewrite Hres in Hr0. apply Some_inv in Hr0; subst r0. congruence. } { congruence. }
    specialize (Hold eq_refl). change (e_key e) with k in *.
    assert (old = r) as ->. { destruct Hold as (A1 & A2 & _), Hr as (B1 & B2 & _). exact (holds_some_fun _ _ _ _ A2 B2 A1 B1). }
    assert (Ev : r_version (rec_of (o_entry o)) = r_version r).
    { rewrite Hav. change (assigned_version (cmd_behavior CmdTouch) e cv) with cv. eapply knows_fun; [exact Hcv|]. left. exists r. destruct Hr as (? & ? & ?). auto. }
    assert (Enew : rec_of (o_entry o) = mkRec (r_flag r) (due asked x) (r_version r) (r_data r)) by (rewrite Hnew, Ev; reflexivity).
    rewrite Enew in W, Hh, Hav. split; [|split; [exact Hkey|split; [exact Enew|]]].
    + eapply shows_update; eauto. intros r' [= <-]. exact W.
    + change (e_data (o_entry o)) with (r_data (rec_of (o_entry o))). congruence.
  - cbn in Href. subst r. destruct (look m now k) as [r|] eqn:L.
    + elim Hcan. exists r. eapply look_live; eauto.
    + split; [exact Hres|]. eapply shows_unchanged; eauto.
Qed.
Lemma fine_touch k x nr : (0 <= x < 2 ^ 63)%Z -> P k -> fine (Touch k x nr).
Proof.
  intros Hx Pk. destruct (touch_state k x nr Pk Hx) as (o & Hset & Hret & Hnr & Hq & Hm).
  destruct (look m now k) as [r|] eqn:L.
  - destruct Hm as (Hres & Hs & _). eexists (mkReply (o_store o) (say nr (s2b "TOUCHED")) (Some (s2b "touch", o_entry o))), _.
    split; [|split; [|split; [exact Hq|exact Hs]]]; cbn [p_answer p_store].
    + cbn [run_request request_of]. unfold run_touch. rewrite Hset. unfold finish. rewrite Hret, Hres, Hnr.
      cbn [Z.ltb Z.compare bind is_stored]. change (beq (s2b "touch") (s2b "gat")) with false. cbn [andb]. rewrite answer_say. reflexivity.
    + now apply touched.
  - destruct Hm as (Hres & Hs). eexists (mkReply (o_store o) (say nr (s2b "NOT_FOUND")) None), m.
    split; [|split; [|split; [exact Hq|exact Hs]]]; cbn [p_answer p_store].
    + cbn [run_request request_of]. unfold run_touch. rewrite Hset. unfold finish. rewrite Hret, Hres, Hnr.
      cbn [Z.ltb Z.compare bind is_stored]. change (beq (s2b "touch") (s2b "gat")) with false. cbn [andb]. rewrite answer_say. reflexivity.
    + now apply touch_missing.
Qed.
Lemma fine_gat k x nr : legal_call (Gat k x nr) -> P k -> fine (Gat k x nr).
Proof.
  intros (Hk & Hx) Pk. destruct (touch_state k x nr Pk Hx) as (o & Hset & Hret & Hnr & Hq & Hm).
  destruct (look m now k) as [r|] eqn:L.
  - destruct Hm as (Hres & Hs & Hkey & Hrec & Hsz). eexists (mkReply (o_store o) (if nr then [] else item_lines false k r) (Some (s2b "gat", o_entry o))), _.
    split; [|split; [|split; [exact Hq|exact Hs]]]; cbn [p_answer p_store].
    + cbn [run_request request_of]. unfold run_touch. rewrite Hset. unfold finish. rewrite Hret, Hres, Hnr.
      cbn [Z.ltb Z.compare bind is_stored]. change (beq (s2b "gat") (s2b "gat")) with true. cbn [andb].
      rewrite (print_item false k (o_entry o) _ Hkey Hk Hrec Hsz). reflexivity.
    + now apply gat_found.
  - destruct Hm as (Hres & Hs). eexists (mkReply (o_store o) (say nr (s2b "NOT_FOUND")) None), m.
    split; [|split; [|split; [exact Hq|exact Hs]]]; cbn [p_answer p_store].
    + cbn [run_request request_of]. unfold run_touch. rewrite Hset. unfold finish. rewrite Hret, Hres, Hnr.
      cbn [Z.ltb Z.compare bind is_stored]. rewrite andb_false_r. cbn [andb]. rewrite answer_say. reflexivity.
    + now apply gat_missing.
Qed.
Lemma fine_delete k nr : P k -> fine (Delete k nr).
Proof.
  intros Pk. pose proof (q_wf _ _ _ Q) as Hwf. set (e := mkEntry k 0 0%Z 0 0 (opt nr) []).
  assert (He : wf_entry e) by (split; [reflexivity|]; split; [unfold is_i64; cbn; lia|]; split; [reflexivity|]; split; [reflexivity|constructor]).
  destruct (remove_exact s now e 0 Hwf eq_refl eq_refl eq_refl) as (Hret & H1 & H2). change (e_key e) with k in *.
  assert (Hq : quiet now (M + 1) (o_store (remove s now e 0))).
  { eapply quiet_mono with (M := M); [apply Z.le_refl|lia|]. exact (quiet_remove T M s now Q HT clock_i64 clock_pos HM64 e eq_refl eq_refl). }
  assert (Hto : touches_only k s (o_store (remove s now e 0))).
  { apply (run_op_local s (ORemove now e 0) (remove s now e 0)); cbn; auto using clock_i64. }
  assert (Hnr : noreply (o_entry (remove s now e 0)) = nr).
  { apply noreply_opt. destruct (remove_entry s now e 0) as (_ & -> & _). reflexivity. }
  destruct (look m now k) as [r|] eqn:L.
  - destruct (H1 r (look_live _ _ Pk L)) as [Ha _]. destruct Ha as [Hres Hh]; [auto|].
    eexists (mkReply _ (say nr (s2b "DELETED")) (Some (s2b "delete", _))), (update m k None).
    split; [|split; [|split; [exact Hq|]]]; cbn [p_answer p_store].
    + cbn [run_request request_of]. fold e. unfold run_delete, finish. rewrite Hret, Hres, Hnr.
      cbn [Z.ltb Z.compare bind is_deleted]. rewrite answer_say. reflexivity.
    + now apply deleted with r.
    + eapply shows_update; eauto. discriminate.
  - destruct (H2 (look_none _ Pk L)) as [Hres Hun].
    eexists (mkReply _ (say nr (s2b "NOT_FOUND")) None), m.
    split; [|split; [|split; [exact Hq|]]]; cbn [p_answer p_store].
    + cbn [run_request request_of]. fold e. unfold run_delete, finish. rewrite Hret, Hres, Hnr.
      cbn [Z.ltb Z.compare bind is_deleted]. rewrite answer_say. reflexivity.
    + now apply delete_missing.
    + eapply shows_unchanged; eauto.
Qed.
Lemma u64_lt n : n < M + 1 -> u64 (n + 1) = n + 1.
Proof. intros H. unfold u64. apply N.mod_small. clear - H HM. change (2 ^ 64) with 18446744073709551616 in *. lia. Qed.
(** The entry of an incr may carry more than the key (the initial value of the binary protocol). *)
Lemma count_state up e v nr : e_option e = opt nr -> v < 2 ^ 64 -> P (e_key e) ->
  let k := e_key e in
  exists o, incr s now e v up 0 = Some o /\ o_ret o = 0%Z /\ noreply (o_entry o) = nr /\ quiet now (M + 1) (o_store o)
  /\ match look m now k with
     | Some r => exists n d t, o_res o = Some result_stored /\ starts_with_number (r_data r) n
         /\ is_numeral d (if up then N.min (n + v) (2 ^ 64 - 1) else n - v) /\ r_version r < t
         /\ firstn (N.to_nat (e_size (o_entry o))) (e_data (o_entry o)) = d
         /\ shows P now (update m k (Some (mkRec (r_flag r) (r_expire r) t d))) (o_store o)
     | None => o_res o = Some result_not_found /\ shows P now m (o_store o)
     end.
Proof.
  intros Ho0 Hv Pk k. pose proof (q_wf _ _ _ Q) as Hwf.
  destruct (incr_defined s now e v up 0 Hwf Hv) as [o Ho].
  destruct (incr_exact s now e v up 0 o Hwf Hv eq_refl Ho) as (Hret & H1 & H2). fold k in H1, H2.
  assert (Hq : quiet now (M + 1) (o_store o)) by exact (quiet_incr T M s now Q HT clock_i64 HM64 e v up o Hv HM Ho).
  assert (Hto : touches_only k s (o_store o)).
  { exact (incr_local s now e v up 0 o Hwf clock_i64 Hv Ho). }
  exists o. split; [exact Ho|]. split; [exact Hret|].
  destruct (look m now k) as [r|] eqn:L.
  - pose proof (look_live _ _ Pk L) as Hlv.
    destruct (H1 r _ Hlv (leading_number_spec _)) as (Hres & d & Hd & Hh & Hrec).
    pose proof Hlv as (Hr1 & Hr2 & Hr3).
    assert (Hver : r_version r < M + 1). { pose proof (q_recs _ _ _ Q _ _ Hr1 Hr2) as HH. clear - HH. lia. }
    rewrite (u64_lt _ Hver) in *.
    rewrite (incr_some s now e v up 0 r Hr1 Hr2 Hv) in Ho.
    change (negb (has 0 behavior_skip_timestamp) && expired_at now (r_expire r)) with (expired_at now (r_expire r)) in Ho.
    destruct (expired_at now (r_expire r)) eqn:Ex.
    { apply Some_inv in Ho. subst o. discriminate Hres. }
    apply Some_inv in Ho.
    assert (Ee : o_entry o = incr_entry e r v up) by (rewrite <- Ho || rewrite Ho; reflexivity).
    assert (Hnr : noreply (o_entry o) = nr) by (apply noreply_opt; rewrite Ee; exact Ho0).
    split; [exact Hnr|]. split; [exact Hq|].
    exists (leading_number (r_data r)), d, (r_version r + 1). split; [exact Hres|]. split; [apply leading_number_spec|]. split; [exact Hd|].
    split; [clear; lia|]. split.
    { assert (e_data (o_entry o) = d) as Ed by exact (f_equal r_data Hrec).
      rewrite Ed. rewrite Ee in *. cbn [e_size incr_entry]. cbn [e_data incr_entry] in Ed. rewrite Ed.
      replace (N.to_nat (blen d)) with (length d) by (unfold blen; lia). apply firstn_all. }
    eapply shows_update; [exact Sh|exact HT|exact Hto|exact Hh|]. intros r' [= <-].
    assert (W : wf_rec (rec_of (incr_entry e r v up))) by (apply incr_entry_wf; auto).
    rewrite <- Ee, Hrec in W. exact W.
  - destruct (H2 (look_none _ Pk L)) as [Hres Hun].
    split; [|split; [exact Hq|split; [exact Hres|eapply shows_unchanged; eauto]]].
    { apply noreply_opt. destruct (wf_holds s k Hwf) as ([r|] & Hr & Hrw).
    + rewrite (incr_some s now e v up 0 r Hr (Hrw r eq_refl) Hv) in Ho. destruct (_ && _); apply Some_inv in Ho; subst o; exact Ho0.
    + rewrite (incr_none s now e v up 0 Hr) in Ho. apply Some_inv in Ho; subst o; exact Ho0. }
Qed.
Lemma fine_count up k v nr : v < 2 ^ 64 -> P k -> fine (Count up k v nr).
Proof.
  intros Hv Pk. set (e := mkEntry k 0 0%Z 0 0 (opt nr) []).
  set (w := if up then s2b "incr" else s2b "decr").
  assert (Hwu : beq w (s2b "incr") = up) by (subst w; destruct up; reflexivity).
  destruct (count_state up e v nr eq_refl Hv Pk) as (o & Ho & Hret & Hnr & Hq & Hm). change (e_key e) with k in Hm.
  destruct (look m now k) as [r|] eqn:L.
  - destruct Hm as (n & d & t & Hres & Hn1 & Hd & Ht & Hdd & Hs).
    eexists (mkReply (o_store o) (say nr d) (Some (w, o_entry o))), _.
    split; [|split; [|split; [exact Hq|exact Hs]]]; cbn [p_answer p_store].
    + cbn [run_request request_of]. fold e w. unfold run_incr. rewrite Hwu, Ho. unfold finish. rewrite Hret, Hres, Hnr, Hdd.
      cbn [Z.ltb Z.compare bind is_stored]. unfold say. destruct nr; reflexivity.
    + exact (counted asked now m up k v nr r n d t L Hn1 Hd Ht).
  - destruct Hm as (Hres & Hs).
    eexists (mkReply (o_store o) (say nr (s2b "NOT_FOUND")) None), m.
    split; [|split; [|split; [exact Hq|exact Hs]]]; cbn [p_answer p_store].
    + cbn [run_request request_of]. fold e w. unfold run_incr. rewrite Hwu, Ho.
      unfold finish. rewrite Hret, Hres, Hnr. cbn [Z.ltb Z.compare bind is_stored]. rewrite answer_say. reflexivity.
    + now apply count_missing.
Qed.
Lemma look_visible k : P k -> visible s now k (look m now k).
Proof.
  intros Pk.   destruct (look m now k) as [r|] eqn:L; cbn [visible]; [eapply look_live; eauto|].
  destruct (visible_total s now k (q_wf _ _ _ Q)) as ([r|] & Hv); [|exact Hv]. elim (look_none _ Pk L r Hv).
Qed.
Lemma fine_get tk ks : legal_call (Get tk ks) -> (forall k, In k ks -> P k) -> fine (Get tk ks).
Proof.
  intros (Hne & Hk) Pk. pose proof (q_wf _ _ _ Q) as Hwf.
  set (w := if tk then s2b "gets" else s2b "get").
  set (t := if tk then response_gets else response_get).
  assert (Ht : (if beq w (s2b "gets") then response_gets else response_get) = t) by (subst w t; destruct tk; reflexivity).
  pose proof (run_get_answer now s t ks (look m now) Hwf clock_i64 (fun k I => look_visible k (Pk k I))) as Ha.
  destruct (run_get_unchanged now t ks s Hwf clock_i64) as [_ Hun].
  pose proof (quiet_run_get T M s now Q HT clock_i64 HM64 t ks) as Hq.
  destruct (run_get now s t ks) as [s' out] eqn:Er. cbn [fst snd] in *.
  exists (mkReply s' out None), m. split; [|split; [|split; [|]]]; cbn [p_answer p_store].
  - cbn [run_request request_of]. fold w. rewrite Ht, Er. reflexivity.
  - replace out with (flat_map (found_lines m now tk) ks ++ s2b "END" ++ line_end); [apply got|].
    rewrite Ha. f_equal. clear - Hk. induction Hk as [|k ks H1 _ IH]; [reflexivity|]. cbn [flat_map]. rewrite IH. f_equal.
    unfold found_lines, value_block. destruct (look m now k) as [r|]; [|reflexivity]. subst t. symmetry.
    apply (print_item tk k _ r); auto. destruct r; reflexivity.
  - eapply quiet_mono; [| |exact Hq]; [apply Z.le_refl|lia].
  - eapply shows_unchanged; eauto.
Qed.

Lemma quiet_still : quiet now (M + 1) s.
Proof. eapply quiet_mono; [exact HT| |exact Q]. lia. Qed.
Lemma shows_still : shows P now m s.
Proof. intros k Hk t Ht. apply Sh; [exact Hk|lia]. Qed.
Lemma fine_still c a : run_request now s (request_of asked c) = Ok (mkReply s a None) -> does asked now m c m a -> fine c.
Proof. intros H D. exists (mkReply s a None), m. split; [exact H|]. split; [exact D|]. split; [exact quiet_still|exact shows_still]. Qed.
Lemma fine_flush nr : fine (Flush nr).
Proof.
  exists (mkReply (truncate s) (ok_line nr) None), (fun _ => None). split; [reflexivity|]. split; [apply flushed|]. split; cbn [p_store].
  - split; [apply truncate_wf|discriminate|]. intros k r H. unfold holds in H. cbn in H. rewrite lookup_empty in H. discriminate.
  - intros k _ t _. cbn. left. apply truncate_empty.
Qed.

Lemma fine_call c : legal_call c -> known c -> (forall k, In k (keys_of c) -> P k) -> ~ too_long now m c -> fine c.
Proof.
  intros H Hkn Pk Hl. destruct c; cbn [keys_of] in Pk; try (assert (P k) by (apply Pk; now left));
    [apply fine_store; auto; apply H|apply fine_cas; auto; apply H|apply fine_touch; auto; apply H|now apply fine_gat|now apply fine_delete|apply fine_count; auto; apply H|now apply fine_get|
     apply fine_flush|eapply fine_still; [reflexivity|apply verbose]|eapply fine_still; [reflexivity|apply pinged]|eapply fine_still; [reflexivity|apply versioned]|elim Hkn|
     eapply fine_still; [reflexivity|apply left]].
Qed.
End Step.

(** ** Whole sessions *)
Lemma too_long_dec now m c : {too_long now m c} + {~ too_long now m c}.
Proof.
  destruct c as [md k f x d nr|k f x d t nr| | | | | | | | | | |]; cbn; auto.
  - destruct (N.ltb max_value (blen d)) eqn:E; [left; left; now apply N.ltb_lt|apply N.ltb_ge in E].
    assert (K : {exists r, look m now k = Some r /\ max_value < blen (r_data r) + blen d} + {~ exists r, look m now k = Some r /\ max_value < blen (r_data r) + blen d}).
    { destruct (look m now k) as [r|]; [|right; intros (r & H & _); discriminate].
      destruct (N.ltb max_value (blen (r_data r) + blen d)) eqn:E2; [left; exists r; split; [reflexivity|now apply N.ltb_lt]|right].
      apply N.ltb_ge in E2. intros (r' & [= <-] & H). apply N.lt_nge in H. contradiction. }
    assert (D : {md = Append \/ md = Prepend} + {~ (md = Append \/ md = Prepend)}) by (destruct md; auto; right; intros [H|H]; discriminate).
    apply N.le_ngt in E. destruct K, D; try (right; tauto). left. auto.
  - destruct (N.ltb max_value (blen d)) eqn:E; [left; now apply N.ltb_lt|right; apply N.ltb_ge in E; now apply N.le_ngt].
Qed.
(** One round of a session. *)
Lemma quits_call now c rest m : legal_call c -> ~ too_long now m c -> quits now (wire c ++ rest) = match c with Quit => true | _ => false end.
Proof.
  intros Hc Hl. unfold quits. assert (D : {known c} + {exists w r, c = Unknown w r}) by (destruct c; try (left; exact I); right; eauto).
  destruct D as [Hk|(w & r & ->)].
  - pose proof (served now c rest now m Hc Hk Hl) as H. apply next_accepted in H. rewrite H. destruct c as [| | | | | |[]| | | | | |]; try reflexivity; elim Hk.
  - rewrite unknown_served by exact Hc. reflexivity.
Qed.
Lemma line_call P T M s m now c : quiet T M s -> shows P T m s -> (T <= now)%Z -> sane_clock now -> M + 1 < 2 ^ 64 ->
  legal_call c -> (forall k, In k (keys_of c) -> P k) -> ~ too_long now m c ->
  exists p m1, (forall rest, run_line now s (wire c ++ rest) = Ok (p, rest)) /\ does now now m c m1 (p_answer p) /\ quiet now (M + 1) (p_store p) /\ shows P now m1 (p_store p).
Proof.
  intros Q Sh HT Hsn HM1 Hc HP Hshort. assert (D : {known c} + {exists w r, c = Unknown w r}) by (destruct c; try (left; exact I); right; eauto).
  destruct D as [Hk|(w & r & ->)].
  - destruct (fine_call P T M s m now now Q Sh HT Hsn Hsn HM1 c Hc Hk HP Hshort) as (p & m1 & Hreq & Hdo & Q1 & Sh1).
    exists p, m1. split; [|auto]. intros rest. rewrite (run_line_request _ _ _ _ _ _ (served now c rest now m Hc Hk Hshort)), Hreq. reflexivity.
  - exists (mkReply s (s2b "ERROR" ++ crlf) None), m. split; [intros rest; unfold run_line; rewrite unknown_served by exact Hc; reflexivity|].
    split; [apply unknown|]. split; [eapply quiet_still; eauto|eapply shows_still; eauto].
Qed.
Lemma session_spec l : forall T M s m rest, quiet T M s -> shows (fun _ => True) T m s -> sane_clock T -> rising T l -> Forall (fun p => legal_call (snd p)) l ->
  M + N.of_nat (length l) < 2 ^ 64 ->
  exists l1 l2 s' m' out, l = l1 ++ l2
    /\ run_session (map fst l1) s (sent l1 ++ rest) = Ok (s', out)
    /\ conversation m l1 m' out
    /\ match l2 with [] => exists T', shows (fun _ => True) T' m' s' | (now, c) :: _ => too_long now m' c end.
Proof.
  induction l as [|[now c] l IH]; intros T M s m rest Q Sh HT Hr Hl HM.
  - exists [], [], s, m, []. split; [reflexivity|]. split; [reflexivity|]. split; [constructor|eauto].
  - destruct (too_long_dec now m c) as [Hlong|Hshort].
    { exists [], ((now, c) :: l), s, m, []. split; [reflexivity|]. split; [reflexivity|]. split; [constructor|exact Hlong]. }
    destruct Hr as (Hnow & Hr). inversion Hl as [|? ? Hc Hl']; subst. cbn [snd] in Hc.
    assert (HM1 : M + 1 < 2 ^ 64). { cbn [length] in HM. clear - HM. change (2 ^ 64) with 18446744073709551616 in *. lia. }
    assert (Hsn : sane_clock now) by (unfold sane_clock in *; lia).
    destruct (line_call (fun _ => True) T M s m now c Q Sh (proj1 Hnow) Hsn HM1 Hc (fun _ _ => I) Hshort) as (p & m1 & Hrun & Hdo & Q1 & Sh1).
    assert (Dq : {c = Quit} + {c <> Quit}) by (destruct c; try (right; discriminate); now left).
    destruct Dq as [-> |Hnq].
    { exists ((now, Quit) :: l), [], (p_store p), m1, (p_answer p). split; [now rewrite app_nil_r|].
      assert (m1 = m) as -> by (inversion Hdo; reflexivity). split; [|split; [apply conv_quit; exact Hdo|eauto]].
      cbn [map fst sent flat_map snd]. rewrite <- app_assoc. cbn [run_session].
      change (flat_map (fun p0 => wire (snd p0)) l) with (sent l). rewrite Hrun. cbn [bind].
      rewrite (quits_call now Quit (sent l ++ rest) m Hc Hshort). reflexivity. }
    destruct (IH now (M + 1) (p_store p) m1 rest Q1 Sh1 Hsn Hr Hl') as (l1 & l2 & s' & m' & out & -> & Hses & Hcon & Hend).
    { cbn [length] in HM. clear - HM. change (2 ^ 64) with 18446744073709551616 in *. lia. }
    exists ((now, c) :: l1), l2, s', m', (p_answer p ++ out). split; [reflexivity|].
    split; [|split; [econstructor; eauto|exact Hend]].
    cbn [map fst sent flat_map snd]. rewrite <- app_assoc. cbn [run_session]. rewrite Hrun. cbn [bind].
    rewrite (quits_call now c _ m Hc Hshort). replace (match c with Quit => true | _ => false end) with false by (destruct c; try reflexivity; congruence).
    change (flat_map (fun p0 => wire (snd p0)) l1) with (sent l1). rewrite Hses. reflexivity.
Qed.
Lemma quiet_init n T : quiet T 0 (init_store n).
Proof.
  split; [apply init_wf|discriminate|]. intros k r H. unfold holds in H. cbn in H. rewrite lookup_empty in H. discriminate.
Qed.
Lemma shows_init n T : shows (fun _ => True) T (fun _ => None) (init_store n).
Proof. intros k _ now _. cbn. left. unfold holds. cbn. apply lookup_empty. Qed.
Lemma session_init n l rest : rising 2592000 l -> Forall (fun p => legal_call (snd p)) l -> N.of_nat (length l) < 2 ^ 64 ->
  exists l1 l2 s' m' out, l = l1 ++ l2
    /\ run_session (map fst l1) (init_store n) (sent l1 ++ rest) = Ok (s', out)
    /\ conversation (fun _ => None) l1 m' out
    /\ match l2 with [] => exists T', shows (fun _ => True) T' m' s' | (now, c) :: _ => too_long now m' c end.
Proof.
  intros Hr Hl Hn. apply (session_spec l 2592000 0 (init_store n) (fun _ => None) rest (quiet_init _ _) (shows_init _ _)); auto.
  unfold sane_clock. change (2 ^ 62)%Z with 4611686018427387904%Z. lia.
Qed.
