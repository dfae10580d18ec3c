From Coq Require Import String.
From stdpp Require Import gmap.
From Coq Require Import ZifyBool ZifyNat ZifyN.
From Verif Require Import Base BaseLemmas StorageModel StorageSpec StorageProofs StorageProofs2 StorageProofs3 StorageProofs4
  TextModel TextSpec TextProofs3 SessionModel SessionProofs ServerModel ServerProofs ServerProofs2 ReplicaModel ReplicaSpec ReplicaProofs.
Local Open Scope N_scope.
Local Open Scope list_scope.

(** * One forwarded operation *)
(** What [f] does to the view of its key: from [v] to [v'], for a replica that gets it at [T] or later. *)
Definition link (T : Z) (v : option rec) (f : bytes * entry) (v' : option rec) : Prop :=
  let e := snd f in legal_key (e_key e) /\
  match kind_of (fst f) with
  | KStore => v' = Some (rec_of e) /\ wf_rec (rec_of e) /\ sendable e
      /\ (e_version e <> 0 -> forall r, at_time T v = Some r -> r_version r < e_version e)
  | KDelete => v' = None /\ e_version e < 2 ^ 64 /\ absolute_expire (e_expire e) /\ e_option e < 8
      /\ (forall r, at_time T v = Some r -> e_version e = 0 \/ r_version r <= e_version e)
  | KTouch => absolute_expire (e_expire e) /\ (e_option e = 0 \/ e_option e = 1)
      /\ exists r, v = Some r /\ wf_rec r /\ v' = Some (mkRec (r_flag r) (e_expire e) (r_version r) (r_data r))
  end.
Lemma link_mono T T' v f v' : (T <= T')%Z -> link T v f v' -> link T' v f v'.
Proof.
  unfold link. intros HT. destruct (kind_of (fst f)).
  - intros (H0 & H1 & H2 & H3 & H4). repeat split; auto; try apply H0; try apply H2; try apply H3. intros Hv r Hr. eapply H4; eauto using at_time_earlier.
  - intros (H0 & H1 & H2 & H3 & H4 & H5). repeat split; auto; try apply H0. intros r Hr. eapply H5; eauto using at_time_earlier.
  - auto.
Qed.

Lemma run_line_request now s stream c r rest : serve_request now stream = Ok (c, r, rest) ->
  run_line now s stream = match run_request now s r with Ok p => Ok (p, rest) | Err => Err | Undef => Undef end.
Proof. intros H. apply next_accepted in H. unfold run_line. rewrite H. cbn [bind]. destruct (run_request now s r); reflexivity. Qed.

(** What the replica understands. *)
Definition received (f : bytes * entry) : request :=
  let e := snd f in
  match kind_of (fst f) with
  | KStore => RStore (s2b "set"%string) e
  | KDelete => RDelete (mkEntry (e_key e) 0 (e_expire e) 0 (e_version e) (e_option e) [])
  | KTouch => RTouch (s2b "touch"%string) (mkEntry (e_key e) 0 (e_expire e) 0 0 (e_option e) [])
  end.
Lemma forward_received now trail T v f v' : Forall legal_node_name trail -> link T v f v' ->
  exists c, serve_request now (forward_request trail f) = Ok (c, received f, []).
Proof.
  intros Ht. destruct f as [ident e]. unfold link, forward_request, received, kind_of. cbn [fst snd].
  destruct (beq ident (s2b "delete"%string)).
  - intros (Hk & _ & Hv & Hx & Ho & _). eexists. rewrite <- (app_nil_r (delete_request trail e)). now apply delete_roundtrip.
  - destruct (mem ident _).
    + intros (Hk & Hx & Ho & _). eexists. rewrite <- (app_nil_r (touch_request trail _ e)). apply touch_roundtrip; auto. now left.
    + intros (Hk & _ & _ & Hs & _). eexists. rewrite <- (app_nil_r (store_request trail _ e)). apply store_roundtrip; auto. now left.
Qed.

Lemma sendable_wf e : sendable e -> wf_rec (rec_of e) -> wf_entry e.
Proof. intros [] (H1 & H2 & H3 & H4 & H5). repeat split; auto; apply H2. Qed.
Lemma wf_short k x v o : absolute_expire x -> v < 2 ^ 64 -> wf_entry (mkEntry k 0 x 0 v o []).
Proof. intros Hx Hv. split; [reflexivity|]. split; [now apply absolute_i64|]. split; [exact Hv|]. split; [reflexivity|constructor]. Qed.

Lemma finish_ok o done ident answer : o_ret o = 0%Z -> o_res o <> None -> exists p, finish o done ident answer = Ok p.
Proof. unfold finish. intros -> H. cbn. destruct (o_res o); [eauto|congruence]. Qed.

Lemma apply_forward now s T v f v' : wf_store s -> link T v f v' -> (T <= now)%Z -> sane_clock now ->
  sees T s (e_key (snd f)) v \/ sees T s (e_key (snd f)) v' ->
  (kind_of (fst f) = KTouch -> exists r, live s now (e_key (snd f)) r) ->
  (kind_of (fst f) = KStore -> e_version (snd f) <> 0) ->
  exists p, run_request now s (received f) = Ok p /\ touches_only (e_key (snd f)) s (p_store p)
    /\ sees now (p_store p) (e_key (snd f)) v'.
Proof.
  intros Hwf HL HT Hn Hsee Htouch Hver. pose proof (sane_i64 _ Hn) as Hi. destruct f as [ident e]. cbn [fst snd] in *.
  unfold link in HL. unfold received. cbn [fst snd] in *. destruct HL as (Hk & HL). destruct (kind_of ident).
  - destruct HL as (-> & W & Hs & Hlt). specialize (Hver eq_refl). specialize (Hlt Hver).
    pose proof (sendable_wf _ Hs W) as He. cbn [run_request]. unfold run_store. change (store_behavior (s2b "set")) with (cmd_behavior CmdSet).
    destruct (set_defined s now e (cmd_behavior CmdSet) Hwf He (cmd_sane CmdSet)) as [o Ho].
    { apply W. } { intros [E|E]; discriminate E. }
    rewrite Ho.
    assert (HO : touches_only (e_key e) s (o_store o)) by (apply (run_op_local s (OSet now e (cmd_behavior CmdSet)) o); cbn; auto using (cmd_sane CmdSet)).
    destruct (command_conditions CmdSet s now e o Hwf He Ho) as [(R1 & R2 & R3)|(r & R1 & R2 & R3 & R4 & _ & R5 & _)].
    + destruct (finish_ok o is_stored (s2b "set"%string) answer_line R1) as [p Hp]; [congruence|]. exists p. split; [exact Hp|].
      apply finish_inv in Hp; auto. destruct Hp as (r & _ & ->). cbn [p_store]. split; [exact HO|].
      destruct (store_then_get _ _ _ _ _ Hwf He (cmd_sane CmdSet) Ho (or_introl R2)) as (_ & W' & Hh & (cv & _ & Hav) & (old & Hnew & _) & _).
      assert (E : rec_of (o_entry o) = rec_of e).
      { rewrite Hnew. rewrite Hav. change (assigned_version (cmd_behavior CmdSet) e cv) with (if e_version e =? 0 then u64 (cv + 1) else e_version e).
        destruct (N.eqb_spec (e_version e) 0); [contradiction|]. reflexivity. }
      rewrite <- E. now apply sees_some.
    + destruct (finish_ok o is_stored (s2b "set"%string) answer_line R1) as [p Hp]; [congruence|]. exists p. split; [exact Hp|].
      apply finish_inv in Hp; auto. destruct Hp as (r' & _ & ->). cbn [p_store]. split; [exact HO|].
      destruct Hsee as [Hsee|Hsee]; [|eapply sees_unchanged; eauto].
      exfalso. apply R4. right. intros r1 Hl. destruct (sees_live _ _ _ _ _ _ Hsee HT Hl) as [_ E]. apply Hlt. exact E.
  - destruct HL as (-> & Hv & Hx & Ho & Hle). cbn [run_request]. unfold run_delete.
    set (e' := mkEntry (e_key e) 0 (e_expire e) 0 (e_version e) (e_option e) []).
    pose proof (wf_short (e_key e) _ _ (e_option e) Hx Hv) as He. fold e' in He.
    destruct (remove_exact s now e' 0 Hwf eq_refl eq_refl eq_refl) as (Hret & H1 & H2).
    assert (HO : touches_only (e_key e) s (o_store (remove s now e' 0))) by (apply (run_op_local s (ORemove now e' 0) (remove s now e' 0)); cbn; auto).
    assert (Hres : o_res (remove s now e' 0) <> None).
    { unfold remove. destruct (get_header s (e_key e') (empty_entry [])) as [cur ex].
      repeat match goal with |- context [if ?c then _ else _] => destruct c end; discriminate. }
    destruct (finish_ok (remove s now e' 0) is_deleted (s2b "delete"%string) answer_line Hret Hres) as [p Hp]. exists p. split; [exact Hp|].
    apply finish_inv in Hp; auto. destruct Hp as (r & _ & ->). cbn [p_store]. split; [exact HO|].
    change (e_key e') with (e_key e) in *. change (e_version e') with (e_version e) in *.
    destruct (visible_total s now (e_key e) Hwf) as ([r0|] & Hvis).
    + destruct Hsee as [Hsee|Hsee].
      * destruct (sees_live _ _ _ _ _ _ Hsee HT Hvis) as [_ E]. destruct (H1 r0 Hvis) as [Ha _].
        destruct Ha as [_ Ha]; [destruct (Hle r0 E); auto|]. now apply sees_none.
      * destruct (sees_live _ _ _ _ _ _ Hsee HT Hvis) as [E _]. discriminate.
    + assert (Hnl : forall r, ~ live s now (e_key e) r).
      { destruct Hvis as [Hvis|(r1 & Hv1 & Hv2 & Hv3)]; [now apply not_live_none|]. eapply not_live_expired; eauto. }
      destruct (H2 Hnl) as [_ H4]. destruct Hsee as [Hsee|Hsee].
      * pose proof (sees_unchanged _ _ _ _ _ _ HT Hsee H4) as H5. intros now' Hn'. cbn.
        assert (E0 : at_time now v = None). { eapply visible_fun; [apply Hsee; auto|exact Hvis]. }
        pose proof (H5 now' Hn') as H6. now rewrite (at_time_none _ _ _ Hn' E0) in H6.
      * eapply sees_unchanged; eauto.
  - destruct HL as (Hx & Ho & r & -> & W & ->). cbn [run_request]. unfold run_touch.
    set (e' := mkEntry (e_key e) 0 (e_expire e) 0 0 (e_option e) []). change behavior_touch with (cmd_behavior CmdTouch).
    assert (He : wf_entry e') by (apply wf_short; [auto|reflexivity]).
    destruct (set_defined s now e' (cmd_behavior CmdTouch) Hwf He (cmd_sane CmdTouch)) as [o Hset].
    { cbn. lia. } { intros [E|E]; discriminate E. }
    rewrite Hset.
    assert (HO : touches_only (e_key e) s (o_store o)) by (apply (run_op_local s (OSet now e' (cmd_behavior CmdTouch)) o); cbn; auto using (cmd_sane CmdTouch)).
    specialize (Htouch eq_refl). destruct Htouch as [r1 Hl].
    destruct (command_conditions CmdTouch s now e' o Hwf He Hset) as [(R1 & R2 & R3)|(r2 & R1 & R2 & R3 & R4 & _ & R5 & _)].
    2:{ exfalso. apply R4. exists r1. exact Hl. }
    match goal with |- context [finish o is_stored ?i ?a] => destruct (finish_ok o is_stored i a R1) as [p Hp]; [congruence|] end.
    exists p. split; [exact Hp|]. apply finish_inv in Hp; auto. destruct Hp as (r2 & _ & ->). cbn [p_store]. split; [exact HO|].
    destruct (store_then_get _ _ _ _ _ Hwf He (cmd_sane CmdTouch) Hset (or_intror R2)) as (_ & W' & Hh & (cv & Hcv & Hav) & (old & Hnew & Hold) & _).
    specialize (Hold eq_refl). change (e_key e') with (e_key e) in *.
    assert (Eo : old = r1). { destruct Hold as (A1 & A2 & _), Hl as (B1 & B2 & _). exact (holds_some_fun _ _ _ _ A2 B2 A1 B1). } subst old.
    assert (Ev : r_version (rec_of (o_entry o)) = r_version r1).
    { rewrite Hav. change (assigned_version (cmd_behavior CmdTouch) e' cv) with cv. eapply knows_fun; [exact Hcv|]. left. exists r1. destruct Hl as (? & ? & ?). auto. }
    assert (Enew : rec_of (o_entry o) = mkRec (r_flag r1) (e_expire e) (r_version r1) (r_data r1)) by (rewrite Hnew, Ev; reflexivity).
    assert (E : mkRec (r_flag r1) (e_expire e) (r_version r1) (r_data r1) = mkRec (r_flag r) (e_expire e) (r_version r) (r_data r)).
    { destruct Hsee as [Hsee|Hsee]; destruct (sees_live _ _ _ _ _ _ Hsee HT Hl) as [E _]; apply Some_inv in E; subst r1; reflexivity. }
    rewrite <- E, <- Enew. now apply sees_some.
Qed.

(** A step of the master, seen as a link. *)
Lemma effect_link now s s' f T v : wf_store s -> wf_store s' -> legal_key (e_key (snd f)) -> (T <= now)%Z ->
  sees T s (e_key (snd f)) v -> (forall r, v = Some r -> absolute_expire (r_expire r)) ->
  effect now s s' f -> exists v', link now v f v' /\ sees now s' (e_key (snd f)) v' /\ (forall r, v' = Some r -> absolute_expire (r_expire r)).
Proof.
  intros Hwf Hwf' Hk HT Hs Hab. destruct f as [ident e]. unfold effect, link. cbn [fst snd] in *. destruct (kind_of ident).
  - intros (Hh & W & Hsz & Hv & Hx & Ho). exists (Some (rec_of e)).
    assert (Hx' : absolute_expire (e_expire e)).
    { destruct Hx as [Hx|(r & Hl & Er)]; [auto|]. rewrite <- Er. apply Hab. exact (proj1 (sees_live _ _ _ _ _ _ Hs HT Hl)). }
    split; [|split; [now apply sees_some|intros r E; apply Some_inv in E; subst r; exact Hx']]. split; [auto|].
    split; [reflexivity|]. split; [exact W|]. split.
    + destruct W as (W1 & W2 & W3 & W4 & W5). cbn [rec_of r_data r_flag r_version] in *. split; auto. lia.
    + intros Hnz r Hr. apply Hv; auto. pose proof (Hs now HT) as H. rewrite Hr in H. exact H.
  - intros (Hh & (r & Hl & Hle) & Hv & Hx & Ho). exists None. split; [|split; [now apply sees_none|discriminate]]. split; [auto|].
    split; [reflexivity|]. split; [auto|]. split; [auto|]. split; [auto|].
    intros r1 Hr1. pose proof (Hs now HT) as H. rewrite Hr1 in H. destruct H as (A1 & A2 & _), Hl as (B1 & B2 & _).
    now rewrite (holds_some_fun _ _ _ _ A2 B2 A1 B1).
  - intros (r & Hl & Hh & Hx & Ho). destruct (sees_live _ _ _ _ _ _ Hs HT Hl) as [-> _].
    assert (W : wf_rec (mkRec (r_flag r) (e_expire e) (r_version r) (r_data r))).
    { destruct Hl as (_ & (A1 & A2 & A3 & A4 & A5) & _). repeat split; auto; apply absolute_i64; auto. }
    eexists. split; [split; [auto|split; [auto|split; [auto|exists r; split; [reflexivity|split; [apply Hl|reflexivity]]]]]|].
    split; [now apply sees_some|]. intros r1 E. apply Some_inv in E; subst r1. exact Hx.
Qed.
