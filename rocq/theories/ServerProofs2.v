(** What a write request does to the record of its key, and what is forwarded. *)
From Coq Require Import String.
From stdpp Require Import gmap.
From Coq Require Import ZifyBool ZifyNat ZifyN.
From Verif Require Import Base BaseLemmas StorageModel StorageSpec StorageProofs StorageProofs2 StorageProofs3 StorageProofs4
  TextModel TextSpec SessionModel ServerModel ServerProofs.
Local Open Scope N_scope.
Local Open Scope list_scope.

Lemma unser_option raw e : e_option (fst (unser_header raw e)) = e_option e.
Proof. unfold unser_header. repeat match goal with |- context [if ?c then _ else _] => destruct c end; reflexivity. Qed.
Lemma set_option s now e b o : set s now e b = Some o -> e_option (o_entry o) = e_option e.
Proof.
  unfold set. destruct (current_entry s now (e_key e) b) as [[s1 cur] ex].
  repeat match goal with
  | |- context [if ?c then _ else _] => destruct c
  | |- context [match next_version ?a ?b ?c ?d with _ => _ end] => destruct (next_version a b c d)
  | |- context [match memcpy ?a ?b with _ => _ end] => destruct (memcpy a b)
  | |- context [match db_put ?a ?b ?c with _ => _ end] => destruct (db_put a b c)
  end; intros E; try discriminate E; apply Some_inv in E; subst o; reflexivity.
Qed.
Lemma remove_entry s now e b : e_key (o_entry (remove s now e b)) = e_key e /\ e_option (o_entry (remove s now e b)) = e_option e
  /\ e_expire (o_entry (remove s now e b)) = e_expire e.
Proof.
  unfold remove. destruct (get_header s (e_key e) (empty_entry [])) as [cur ex].
  repeat match goal with |- context [if ?c then _ else _] => destruct c end; cbn; auto.
Qed.

Definition request_key (r : request) : bytes :=
  match r with RStore _ e | RDelete e | RTouch _ e | RIncr _ e _ => e_key e | _ => [] end.
Definition is_write (r : request) : Prop := match r with RStore _ _ | RDelete _ | RTouch _ _ | RIncr _ _ _ => True | _ => False end.

Inductive kind := KStore | KDelete | KTouch.
Definition kind_of (ident : bytes) : kind :=
  if beq ident (s2b "delete"%string) then KDelete
  else if mem ident [s2b "touch"%string; s2b "gat"%string] then KTouch else KStore.

(** The forwarded operation [f] and what it says about the step from [s] to [s']. *)
Definition effect (now : Z) (s s' : store) (f : bytes * entry) : Prop :=
  let e := snd f in let k := e_key e in
  match kind_of (fst f) with
  | KStore => holds s' k (Some (rec_of e)) /\ wf_rec (rec_of e) /\ e_size e = blen (e_data e)
      /\ (e_version e <> 0 -> forall r, live s now k r -> r_version r < e_version e)
      /\ (absolute_expire (e_expire e) \/ exists r, live s now k r /\ r_expire r = e_expire e)
      /\ e_option e < 8
  | KDelete => holds s' k None /\ (exists r, live s now k r /\ (e_version e = 0 \/ r_version r <= e_version e))
      /\ e_version e < 2 ^ 64 /\ absolute_expire (e_expire e) /\ e_option e < 8
  | KTouch => exists r, live s now k r /\ holds s' k (Some (mkRec (r_flag r) (e_expire e) (r_version r) (r_data r)))
      /\ absolute_expire (e_expire e) /\ (e_option e = 0 \/ e_option e = 1)
  end.

Lemma store_cmd ident : In ident store_idents -> exists c, c <> CmdTouch /\ store_behavior ident = cmd_behavior c /\ kind_of ident = KStore.
Proof.
  intros H. cbn in H. destruct H as [<-|[<-|[<-|[<-|[<-|[<-|[]]]]]]];
    [exists CmdSet|exists CmdAdd|exists CmdReplace|exists CmdCas|exists CmdAppend|exists CmdPrepend]; (split; [discriminate|split; reflexivity]).
Qed.
Lemma cmd_sane c : sane_behavior (cmd_behavior c).
Proof. destruct c; intros H; try discriminate H; repeat split. Qed.

Lemma set_touch_cases c s now e o : wf_store s -> wf_entry e -> set s now e (cmd_behavior c) = Some o ->
  o_ret o = 0%Z /\ exists r, o_res o = Some r /\
  ((r = store_answer c /\ can_store c s now e) \/ (is_stored r = false /\ unchanged_from now s (o_store o))).
Proof.
  intros Hwf He Hs. destruct (command_conditions c s now e o Hwf He Hs) as [(H1 & H2 & H3)|(r & H1 & H2 & H3 & H4 & _ & H5 & _)].
  - split; auto. exists (store_answer c). auto.
  - split; auto. exists r. split; auto. right. split; auto.
    destruct c; cbn in H3; try (subst r; reflexivity). destruct H3 as [(-> & _)|(-> & _)]; reflexivity.
Qed.

Lemma u64_succ n : n < 2 ^ 64 -> u64 (n + 1) <> 0 -> n < u64 (n + 1).
Proof.
  unfold u64. intros H. destruct (N.eq_dec (n + 1) (2 ^ 64)) as [->|]; [rewrite N.mod_same by lia; congruence|].
  rewrite N.mod_small by lia. lia.
Qed.
Lemma stored_version c s now e o : wf_store s -> wf_entry e -> c <> CmdTouch -> set s now e (cmd_behavior c) = Some o ->
  o_res o = Some (store_answer c) -> can_store c s now e ->
  e_version (o_entry o) <> 0 -> forall r, live s now (e_key e) r -> r_version r < e_version (o_entry o).
Proof.
  intros Hwf He Hc Hs Hr Hcan Hv r (Hh & Hw & Hn).
  assert (Hres : o_res o = Some result_stored \/ o_res o = Some result_touched) by (destruct c; auto).
  destruct (store_then_get _ _ _ _ _ Hwf He (cmd_sane c) Hs Hres) as (_ & _ & _ & (cv & Hk & Hav) & _).
  cbn [r_version rec_of] in Hav.
  assert (cv = r_version r) as ->. { eapply knows_fun; [exact Hk|]. left. exists r; auto. }
  assert (Hx : r_version r < 2 ^ 64) by apply Hw.
  assert (W : forall n, n < 2 ^ 64 -> u64 (n + 1) <> 0 -> n < u64 (n + 1)).
  { intros n Hn64. unfold u64. destruct (N.eq_dec (n + 1) (2 ^ 64)) as [->|]; [rewrite N.mod_same by lia; congruence|].
    rewrite N.mod_small by lia. lia. }
  rewrite Hav in *. clear Hav.
  unfold assigned_version in *. destruct c; cbn in Hcan; try congruence;
    change (has (cmd_behavior _) behavior_cas) with false in * || change (has (cmd_behavior _) behavior_cas) with true in *;
    change (has (cmd_behavior _) behavior_touch) with false in *; cbn match in *.
  - destruct (e_version e =? 0) eqn:E; [apply W; auto|]. destruct Hcan as [?|Hcan]; [lia|]. apply Hcan. repeat split; auto; apply Hw.
  - destruct Hcan as [Hcan _]. exfalso. apply (Hcan r). repeat split; auto; apply Hw.
  - destruct (e_version e =? 0) eqn:E; [apply W; auto|]. destruct Hcan as (r2 & (Hh2 & Hw2 & _) & [?|?]); [lia|].
    now rewrite (holds_some_fun _ _ _ _ Hw Hw2 Hh Hh2).
  - destruct Hcan as (_ & Hkn). assert (E : e_version e = r_version r). { eapply knows_fun; [exact Hkn|]. left. exists r; auto. }
    rewrite E in *. now apply W.
  - destruct (e_version e =? 0) eqn:E; [apply W; auto|]. destruct Hcan as (r2 & (Hh2 & Hw2 & _) & [?|?]); [lia|].
    now rewrite (holds_some_fun _ _ _ _ Hw Hw2 Hh Hh2).
  - destruct (e_version e =? 0) eqn:E; [apply W; auto|]. destruct Hcan as (r2 & (Hh2 & Hw2 & _) & [?|?]); [lia|].
    now rewrite (holds_some_fun _ _ _ _ Hw Hw2 Hh Hh2).
Qed.

Lemma sane_i64 now : sane_clock now -> is_i64 now.
Proof. unfold sane_clock, is_i64. lia. Qed.
Lemma finish_inv o done ident answer p : o_ret o = 0%Z -> finish o done ident answer = Ok p ->
  exists r, o_res o = Some r /\ p = mkReply (o_store o) (if noreply (o_entry o) then [] else answer r)
                                 (if done r then Some (ident, o_entry o) else None).
Proof.
  unfold finish. intros ->. cbn. destruct (o_res o) as [r|]; [|discriminate]. intros [= <-]. eauto.
Qed.

Lemma write_effect now s r p : wf_store s -> request_ok r -> is_write r -> sane_clock now -> run_request now s r = Ok p ->
  touches_only (request_key r) s (p_store p)
  /\ match p_forward p with
     | None => unchanged_from now s (p_store p)
     | Some f => e_key (snd f) = request_key r /\ effect now s (p_store p) f
     end.
Proof.
  intros Hwf Hok Hwr Hn. pose proof (sane_i64 _ Hn) as Hi. destruct r as [ident e|e|ident e|ident e v|? ?|?|?|?|?]; cbn [is_write] in Hwr; try contradiction; cbn [run_request request_key].
  - destruct Hok as (Hid & He & Hk & Hx & Ho). destruct (store_cmd _ Hid) as (c & Hc & Hb & Hkd).
    unfold run_store. rewrite Hb. destruct (set s now e (cmd_behavior c)) as [o|] eqn:Hs; [|discriminate].
    destruct (set_touch_cases _ _ _ _ _ Hwf He Hs) as (Hret & r & Hr & Hcase).
    intros Hf. apply finish_inv in Hf; auto. destruct Hf as (r' & Hr' & ->). rewrite Hr in Hr'. apply Some_inv in Hr'; subst r'. cbn [p_store p_forward].
    split. { apply (run_op_local s (OSet now e (cmd_behavior c)) o); cbn; auto using cmd_sane. }
    destruct Hcase as [(-> & Hcan)|(E & Hu)]; [|now rewrite E].
    replace (is_stored (store_answer c)) with true by (destruct c; reflexivity).
    assert (Hres : o_res o = Some result_stored \/ o_res o = Some result_touched) by (destruct c; auto).
    destruct (store_then_get _ _ _ _ _ Hwf He (cmd_sane c) Hs Hres) as (_ & W & Hh & _ & (old & Hnew & Hold) & Hget).
    destruct (set_inv _ _ _ _ _ Hwf He (cmd_sane c) Hs) as (s1 & cur & st & _ & [(_ & [(_ & r0 & Hr0 & _ & _ & N1 & N2)|(_ & Hr0 & _)])|(r0 & _ & _ & _ & _ & Hr0 & Hkey & Hsz & _)]).
    { rewrite Hr in Hr0. apply Some_inv in Hr0; subst r0. destruct c; cbn in *; congruence. } { congruence. }
    cbn [snd]. split; [exact Hkey|]. unfold effect. cbn [fst snd]. rewrite Hkd, Hkey. rewrite <- Hr0 in Hsz. cbn [rec_of r_data] in Hsz.
    split; [exact Hh|]. split; [exact W|]. split; [exact Hsz|].
    split. { intros Hv r1 Hl. eapply stored_version; eauto. }
    split; [|rewrite (set_option _ _ _ _ _ Hs); exact Ho].
    assert (Hex : r_expire (rec_of (o_entry o)) = e_expire (o_entry o)) by reflexivity. rewrite <- Hex. rewrite Hnew.
    destruct c; try congruence; unfold new_record; cbn; auto; right; exists old; (split; [apply Hold; reflexivity|reflexivity]).
  - destruct Hok as (He & Hk & Hx & Ho). unfold run_delete.
    destruct (remove_exact s now e 0 Hwf eq_refl eq_refl eq_refl) as (Hret & H1 & H2).
    intros Hf. apply finish_inv in Hf; auto. destruct Hf as (r & Hr & ->). cbn [p_store p_forward].
    split. { apply (run_op_local s (ORemove now e 0) (remove s now e 0)); cbn; auto. }
    destruct (visible_total s now (e_key e) Hwf) as ([r0|] & Hv).
    + destruct (H1 r0 Hv) as [Ha Hb]. destruct (N.eq_dec (e_version e) 0) as [Hz|Hz].
      * destruct Ha as [Ha1 Ha2]; auto. rewrite Hr in Ha1. apply Some_inv in Ha1. subst r. cbn [is_deleted].
        destruct (remove_entry s now e 0) as (Ek & Eo & Ex). cbn [snd]. split; [exact Ek|]. unfold effect. cbn [fst snd kind_of]. change (kind_of (s2b "delete")) with KDelete. cbn match.
        rewrite Ek, Eo, Ex. split; [exact Ha2|].
        assert (Ev : e_version (o_entry (remove s now e 0)) = r_version r0).
        { destruct Hv as (Hh & Hw & _). rewrite (remove_some _ _ _ _ r0) by auto. cbn. rewrite Hz. reflexivity. }
        rewrite Ev. split; [|split; [apply Hv|auto]]. exists r0. split; [exact Hv|]. right. apply N.le_refl.
      * destruct (N.le_gt_cases (r_version r0) (e_version e)) as [Hle|Hlt].
        -- destruct Ha as [Ha1 Ha2]; auto. rewrite Hr in Ha1. apply Some_inv in Ha1. subst r. cbn [is_deleted].
           destruct (remove_entry s now e 0) as (Ek & Eo & Ex). cbn [snd]. split; [exact Ek|]. unfold effect. cbn [fst snd]. change (kind_of (s2b "delete")) with KDelete. cbn match.
           rewrite Ek, Eo, Ex. split; [exact Ha2|].
           assert (Ev : e_version (o_entry (remove s now e 0)) = e_version e).
           { destruct Hv as (Hh & Hw & _). rewrite (remove_some _ _ _ _ r0) by auto.
             destruct (N.eqb_spec (e_version e) 0) as [|_]; [contradiction|]. match goal with |- context [if ?c then _ else _] => destruct c end; reflexivity. }
           rewrite Ev. split; [|split; [apply He|auto]]. exists r0. split; [exact Hv|]. right. exact Hle.
        -- destruct Hb as [Hb1 Hb2]; auto. rewrite Hr in Hb1. apply Some_inv in Hb1. subst r. cbn [is_deleted]. rewrite Hb2. apply unchanged_refl.
    + assert (Hnl : forall r, ~ live s now (e_key e) r).
      { destruct Hv as [Hv|(r1 & Hv1 & Hv2 & Hv3)]; [now apply not_live_none|]. eapply not_live_expired; eauto. }
      destruct (H2 Hnl) as [H3 H4]. rewrite Hr in H3. apply Some_inv in H3. subst r. exact H4.
  - destruct Hok as (Hid & He & Hk & Hx & Ho).
    unfold run_touch. change behavior_touch with (cmd_behavior CmdTouch). destruct (set s now e (cmd_behavior CmdTouch)) as [o|] eqn:Hs; [|discriminate].
    destruct (set_touch_cases _ _ _ _ _ Hwf He Hs) as (Hret & r & Hr & Hcase).
    intros Hf. apply finish_inv in Hf; auto. destruct Hf as (r' & Hr' & ->). rewrite Hr in Hr'. apply Some_inv in Hr'; subst r'. cbn [p_store p_forward].
    split. { apply (run_op_local s (OSet now e (cmd_behavior CmdTouch)) o); cbn; auto using (cmd_sane CmdTouch). }
    destruct Hcase as [(-> & Hcan)|(E & Hu)]; [|now rewrite E]. cbn [store_answer is_stored].
    assert (Hres : o_res o = Some result_stored \/ o_res o = Some result_touched) by auto.
    destruct (store_then_get _ _ _ _ _ Hwf He (cmd_sane CmdTouch) Hs Hres) as (_ & W & Hh & (cv & Hcv & Hav) & (old & Hnew & Hold) & _).
    destruct (set_inv _ _ _ _ _ Hwf He (cmd_sane CmdTouch) Hs) as (s1 & cur & st & _ & [(_ & [(_ & r0 & Hr0 & _ & _ & N1 & N2)|(_ & Hr0 & _)])|(r0 & _ & _ & _ & _ & Hr0 & Hkey & Hsz & _)]).
    { rewrite Hr in Hr0. apply Some_inv in Hr0; subst r0. cbn in *; congruence. } { congruence. }
    specialize (Hold eq_refl). cbn [snd]. split; [exact Hkey|]. unfold effect. cbn [fst snd].
    replace (kind_of ident) with KTouch by (destruct Hid as [<-|[<-|[]]]; reflexivity). rewrite Hkey, (set_option _ _ _ _ _ Hs).
    assert (Ev : r_version (rec_of (o_entry o)) = r_version old).
    { rewrite Hav. change (assigned_version (cmd_behavior CmdTouch) e cv) with cv. eapply knows_fun; [exact Hcv|]. left. exists old. destruct Hold as (? & ? & ?). auto. }
    assert (Enew : rec_of (o_entry o) = mkRec (r_flag old) (e_expire e) (r_version old) (r_data old)) by (rewrite Hnew, Ev; reflexivity).
    assert (Ex : e_expire (o_entry o) = e_expire e) by (change (r_expire (rec_of (o_entry o)) = e_expire e); rewrite Enew; reflexivity).
    exists old. rewrite Ex. split; [exact Hold|]. split; [rewrite <- Enew; exact Hh|]. auto.
  - destruct Hok as (Hid & He & Hk & Ho & Hv). unfold run_incr.
    destruct (incr s now e v (beq ident (s2b "incr"%string)) 0) as [o|] eqn:Hs; [|discriminate].
    destruct (incr_exact _ _ _ _ _ 0 _ Hwf Hv eq_refl Hs) as (Hret & H1 & H2).
    intros Hf. apply finish_inv in Hf; auto. destruct Hf as (r & Hr & ->). cbn [p_store p_forward].
    split. { apply (run_op_local s (OIncr now e v (beq ident (s2b "incr"%string)) 0) o); cbn; auto. }
    destruct (visible_total s now (e_key e) Hwf) as ([r0|] & Hvis).
    + pose proof Hvis as (Hh & Hw & Hne).
      pose proof (leading_number_spec (r_data r0)) as Hln. destruct (H1 r0 _ Hvis Hln) as (Ha & d & Hd & Hh' & Hrec).
      rewrite Hr in Ha. apply Some_inv in Ha. subst r. cbn [is_stored].
      rewrite (incr_some _ _ _ _ _ _ r0 Hh Hw Hv) in Hs.
      assert (Hex : expired_at now (r_expire r0) = false). { destruct (expired_at now (r_expire r0)) eqn:E; auto. apply expired_at_spec in E. contradiction. }
      rewrite Hex, andb_false_r in Hs. apply Some_inv in Hs; subst o. cbn [o_entry o_store snd] in *.
      split; [reflexivity|]. unfold effect. cbn [fst snd].
      replace (kind_of ident) with KStore by (destruct Hid as [<-|[<-|[]]]; reflexivity).
      change (e_key (incr_entry e r0 v (beq ident (s2b "incr")))) with (e_key e).
      split; [rewrite <- Hrec in Hh'; exact Hh'|]. split; [apply incr_entry_wf; auto|]. split; [reflexivity|].
      split. { intros Hnz r1 (Hh1 & Hw1 & _). rewrite (holds_some_fun _ _ _ _ Hw1 Hw Hh1 Hh).
        change (e_version (incr_entry e r0 v (beq ident (s2b "incr")))) with (u64 (r_version r0 + 1)) in *.
        apply u64_succ; [apply Hw|exact Hnz]. }
      split; [right; exists r0; split; [exact Hvis|reflexivity]|]. exact Ho.
    + assert (Hnl : forall r, ~ live s now (e_key e) r).
      { destruct Hvis as [Hvis|(r1 & Hv1 & Hv2 & Hv3)]; [now apply not_live_none|]. eapply not_live_expired; eauto. }
      destruct (H2 Hnl) as [H3 H4]. rewrite Hr in H3. apply Some_inv in H3. subst r. exact H4.
Qed.
