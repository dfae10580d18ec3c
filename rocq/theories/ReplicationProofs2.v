From Coq Require Import String.
From stdpp Require Import gmap.
From Coq Require Import Lia ZifyBool ZifyNat ZifyN.
From Verif Require Import Base BaseLemmas StorageModel StorageSpec StorageProofs StorageProofs2 StorageProofs3 StorageProofs4
  TextModel TextSpec TextProofs TextProofs3 ClientSpec TextProofs4 SessionModel SessionProofs ServerModel ServerProofs ServerProofs2 KeyResolverModel
  DumpModel DumpSpec DumpProofs DumpProofs2 ReplicaModel ReplicaSpec ReplicaProofs ReplicaProofs2 ReplicaProofs3 ReplicationModel ReplicationSpec.
Local Open Scope N_scope.
Local Open Scope list_scope.

(** * Mode duplicate *)
Definition anytime (i : nat) (s : store) : Prop := i = 0%nat.
Lemma duplicated_inv T0 st0 l T st : synchronized T0 st0 -> duplicated T0 st0 l T st -> inv anytime T st.
Proof.
  intros Y H. induction H as [T st|T st l T1 st1 trail ev st2 out H IH Ht Hle Hlt Hadm Hstep].
  - destruct Y as [Y1 Y2 Y3 Y4 Y5 Y6]. split; [split; auto|]. intros k. exists 0%nat. unfold keys_at. rewrite Y6.
    destruct (sees_total T (master st) k Y2) as (v & Hv & Hh & Hw). exists 0%nat, v, v.
    split. { constructor. exists (master st). split; [reflexivity|exact Hv]. }
    split; [auto|]. split. { intros x ->. apply (Y4 k); auto. }
    left. split; [reflexivity|]. intros now Hnow. apply (Y5 k); auto.
  - specialize (IH Y). pose proof (i_time _ _ _ (proj1 IH)) as Hc. assert (Hn : sane_clock (event_time ev)) by (unfold sane_clock in *; lia).
    eapply goes_on_inv; [exact IH|]. destruct ev as [now stream|now t keys|now i|now i]; cbn [event_time] in *.
    + eapply (inv_client trail anytime anytime 0%nat); eauto; [reflexivity|]. intros i s ->. lia.
    + eapply inv_read; eauto.
    + exact (inv_deliver trail anytime anytime _ _ _ _ false _ _ Ht IH ltac:(auto) Hle Hn Hadm Hstep).
    + exact (inv_deliver trail anytime anytime _ _ _ _ true _ _ Ht IH ltac:(auto) Hle Hn Hadm Hstep).
Qed.
Lemma duplicated_catches_up T0 st0 l T st : synchronized T0 st0 -> duplicated T0 st0 l T st -> pending st = [] ->
  (forall k, agree_from T k (master st) (replica st))
  /\ forall now t keys, (T <= now < 2 ^ 62)%Z -> snd (run_get now (replica st) t keys) = snd (run_get now (master st) t keys).
Proof.
  intros Y H Hp. pose proof (duplicated_inv _ _ _ _ _ Y H) as [I K].
  assert (A : forall k, agree_from T k (master st) (replica st)).
  { intros k. destruct (K k) as (p & i & v0 & vn & H1 & H2 & H3 & H4). rewrite Hp in *.
    inversion H1; subst. destruct H4 as [[_ H4]|(f & q' & v1 & H5 & _)]; [|discriminate H5]. eapply sees_agree; eauto. }
  split; [auto|]. intros now t keys Hn. symmetry. apply run_get_agree; try apply I.
  - pose proof (i_time _ _ _ I) as C. unfold sane_clock in C. unfold is_i64. lia.
  - intros k _ n o Hno. apply A. lia.
Qed.

(** * The requests of the dump *)
Lemma set_client_sent k r : TextModel.cstr k = k -> set_client (sent_entry k r) = Ok (set_block (k, r)).
Proof.
  intros E. unfold set_client, memcpy, sent_entry. cbn [e_data e_size]. replace (blen (r_data r) <=? blen (r_data r)) with true by lia.
  f_equal. unfold store_request, set_block, proxy_ident. cbn [e_key e_flag e_expire e_size e_version e_option e_data].
  rewrite E. unfold sp. change (s2b " ") with [32]. change (beq (s2b "set") (s2b "cas")) with false. rewrite orb_false_r.
  replace (0 <? r_version r) with (negb (r_version r =? 0)) by lia. rewrite firstn_all2 by (unfold blen; lia).
  change (print_options 0) with (@nil N). destruct (r_version r =? 0); cbn [negb app]; rewrite <- ?app_assoc; reflexivity.
Qed.
Lemma dump_read_live s now e r : wf_store s -> is_i64 now -> e_option e = 0 -> TextModel.cstr (e_key e) = e_key e -> live s now (e_key e) r ->
  dump_read s now e = Ok (s, sent_entry (e_key e) r, Some (set_block (e_key e, r))).
Proof.
  intros W I O C L. unfold dump_read. destruct (get_dump s now e W I O) as [(r' & L' & E1 & E2 & _ & E3)|(N & _)]; [|now destruct (N r)].
  assert (r' = r). { destruct L as (A1 & A2 & _), L' as (B1 & B2 & _). exact (holds_some_fun _ _ _ _ B2 A2 B1 A1). } subst r'.
  rewrite E1, E2, E3. cbn [Z.ltb Z.compare]. now rewrite set_client_sent.
Qed.

Section Dump.
  Variables (cfg : config) (ext : hash_algorithm -> bytes -> Z) (alg : hash_algorithm) (part : Z).
  Lemma dump_prefix l : forall sent e, owed cfg ext alg part l sent -> e_option e = 0 ->
    Forall (fun v => wf_store (v_store v) /\ is_i64 (v_now v) /\ no_nul (v_key v) /\ resolvable cfg ext alg part (v_size v) (v_key v)) l ->
    exists n, dump_visits cfg ext alg part e l = Ok (map set_block (firstn n sent)) /\ (Forall smooth l -> firstn n sent = sent).
  Proof.
    induction l as [|v l IH]; intros sent e H O F.
    - inversion H; subst. exists 0%nat. split; reflexivity.
    - inversion F as [|? ? (W & I & C & R) F']; subst. cbn [dump_visits]. destruct (v_stop v) eqn:St.
      { exists 0%nat. split; [reflexivity|]. intros Sm. inversion Sm as [|? ? [S1 _] _]; subst. congruence. }
      assert (C' : TextModel.cstr (v_key v) = v_key v) by (eapply no_nul_cstr; eauto). rewrite C'. cbn [with_key e_key]. set (e0 := with_key e (v_key v)).
      destruct (selected cfg ext alg part (v_size v) (v_key v)) as [b|] eqn:E.
      2:{ exfalso. eapply selected_resolvable; eauto. }
      inversion H as [|? ? ? P NA H'|? ? sent' r A L H']; subst.
      + destruct b; [exfalso; apply NA, selected_asked; exact E|]. destruct (IH sent e0 H' O F') as (n & E1 & E2). exists n. split; [exact E1|].
        intros Sm. inversion Sm; subst. auto.
      + apply selected_asked in A. rewrite A in E. apply Some_inv in E. subst b.
        rewrite (dump_read_live (v_store v) (v_now v) e0 r W I O C' L). cbn [bind snd]. change (e_key e0) with (v_key v).
        destruct (v_answered v) eqn:An; cbn [negb].
        * destruct (IH sent' (sent_entry (v_key v) r) H' eq_refl F') as (n & E1 & E2). exists (S n). rewrite E1. split; [reflexivity|].
          intros Sm. inversion Sm; subst. cbn [firstn]. f_equal. auto.
        * exists 1%nat. split; [reflexivity|]. intros Sm. inversion Sm as [|? ? [_ S2] _]; subst. congruence.
  Qed.
End Dump.

(** * The dump while clients write *)
(** [r'] is [r] or an earlier record of the key. *)
Definition upto (r' r : rec) : Prop := r' = r \/ r_version r' < r_version r.
Definition behind (o : option rec) (c : option rec) : Prop := forall r', o = Some r' -> exists r, c = Some r /\ upto r' r.

(** What a versioned set does at the destination. *)
Lemma dest_set now s T d e r : wf_store s -> wf_rec (rec_of e) -> sendable e -> e_version e <> 0 -> (T <= now)%Z -> sane_clock now ->
  sees T s (e_key e) d -> behind d (Some r) -> upto (rec_of e) r -> ~ expired now r ->
  exists p d', run_request now s (RStore (s2b "set") e) = Ok p /\ touches_only (e_key e) s (p_store p) /\ sees now (p_store p) (e_key e) d'
    /\ behind d' (Some r) /\ (d = Some r -> d' = Some r) /\ (rec_of e = r -> d' = Some r).
Proof.
  intros Hwf W Hs Hver HT Hn Hsee Hb Hup Hex. pose proof (sane_i64 _ Hn) as Hi. pose proof (sendable_wf _ Hs W) as He.
  cbn [run_request]. unfold run_store. change (store_behavior (s2b "set")) with (cmd_behavior CmdSet).
  destruct (set_defined s now e (cmd_behavior CmdSet) Hwf He (cmd_sane CmdSet)) as [o Ho].
  { apply W. } { intros [E|E]; discriminate E. }
  rewrite Ho.
  assert (HO : touches_only (e_key e) s (o_store o)) by (apply (run_op_local s (OSet now e (cmd_behavior CmdSet)) o); cbn; auto using (cmd_sane CmdSet)).
  assert (Hl : d = Some r -> live s now (e_key e) r).
  { intros ->. pose proof (Hsee now HT) as V. cbn [at_time] in V. destruct (expired_at now (r_expire r)) eqn:E; [exfalso; apply Hex, expired_at_spec, E|exact V]. }
  destruct (command_conditions CmdSet s now e o Hwf He Ho) as [(R1 & R2 & R3)|(q & R1 & R2 & R3 & R4 & _ & R5 & _)].
  - destruct (finish_ok o is_stored (s2b "set"%string) answer_line R1) as [p Hp]; [congruence|]. exists p, (Some (rec_of e)). split; [exact Hp|].
    apply finish_inv in Hp; auto. destruct Hp as (q & _ & ->). cbn [p_store]. split; [exact HO|].
    destruct (store_then_get _ _ _ _ _ Hwf He (cmd_sane CmdSet) Ho (or_introl R2)) as (_ & W' & Hh & (cv & _ & Hav) & (old & Hnew & _) & _).
    assert (E : rec_of (o_entry o) = rec_of e).
    { rewrite Hnew. rewrite Hav. change (assigned_version (cmd_behavior CmdSet) e cv) with (if e_version e =? 0 then u64 (cv + 1) else e_version e).
      destruct (N.eqb_spec (e_version e) 0); [contradiction|]. reflexivity. }
    split; [rewrite <- E; now apply sees_some|]. split; [intros r' E'; apply Some_inv in E'; subst r'; exists r; auto|]. split; [|intros ->; reflexivity].
    intros Hd. specialize (Hl Hd). destruct R3 as [R3|R3]; [contradiction|]. specialize (R3 r Hl). destruct Hup as [->|Hup]; [reflexivity|].
    change (r_version (rec_of e)) with (e_version e) in Hup. lia.
  - destruct (finish_ok o is_stored (s2b "set"%string) answer_line R1) as [p Hp]; [congruence|]. exists p, d. split; [exact Hp|].
    apply finish_inv in Hp; auto. destruct Hp as (r' & _ & ->). cbn [p_store]. split; [exact HO|].
    split; [eapply sees_unchanged; eauto|]. split; [exact Hb|]. split; [auto|].
    intros Er. destruct d as [rd|].
    + destruct (Hb rd eq_refl) as (r0 & E0 & [->|Hlt]); [congruence|]. apply Some_inv in E0. subst r0. exfalso. apply R4. right.
      intros r1 H1. destruct (sees_live _ _ _ _ _ _ Hsee HT H1) as [E1 _]. apply Some_inv in E1. subst r1. rewrite <- Er in Hlt. exact Hlt.
    + exfalso. apply R4. right. intros r1 H1. destruct (sees_live _ _ _ _ _ _ Hsee HT H1) as [E1 _]. discriminate E1.
Qed.

(** The entry of the dump. *)
Record dumpable (e : entry) : Prop := {
  d_flag : e_flag e < 2 ^ 32; d_expire : wire_time (e_expire e); d_size : e_size e <= 2147483619;
  d_version : e_version e < 2 ^ 64; d_option : e_option e = 0; d_data : wf_bytes (e_data e) }.
Lemma wf_bytes_firstn n d : wf_bytes d -> wf_bytes (firstn n d).
Proof. intros H. now apply Forall_take. Qed.
(** Its request changes nothing but its key. *)
Lemma land_other now s e rq p rest : wf_store s -> sane_clock now -> legal_key (e_key e) -> dumpable e -> set_client e = Ok rq ->
  run_line now s rq = Ok (p, rest) -> touches_only (e_key e) s (p_store p).
Proof.
  intros W Hn Hk [D1 D2 D3 D4 D5 D6] Hc Hr. unfold set_client in Hc. destruct (memcpy (e_data e) (e_size e)) as [d|] eqn:M; [|discriminate].
  unfold memcpy in M. destruct (e_size e <=? blen (e_data e)) eqn:Sz; [|discriminate]. apply Some_inv in M. symmetry in M. injection Hc as <-.
  assert (Ld : blen d = e_size e). { rewrite <- M. unfold blen in *. rewrite firstn_length. lia. }
  assert (ER : store_request [] (s2b "set") e = client_store (s2b "set") (e_key e) (e_flag e) (e_expire e) d (if 0 <? e_version e then Some (e_version e) else None) false).
  { unfold store_request, client_store, proxy_ident, space, line_end, sp, noreply_word. rewrite (legal_cstr _ Hk), D5, M, Ld.
    change (beq (s2b "set") (s2b "cas")) with false. rewrite orb_false_r. change (print_options 0) with (@nil N).
    destruct (0 <? e_version e); cbn [app]; rewrite <- ?app_assoc; cbn [app]; reflexivity. }
  rewrite ER in Hr. rewrite <- (app_nil_r (client_store _ _ _ _ _ _ _)) in Hr.
  erewrite run_line_request in Hr.
  2:{ apply client_store_served; auto; [now left|lia|]. destruct (0 <? e_version e); [exact D4|discriminate]. }
  match type of Hr with context [run_request now s ?q] => set (q0 := q) in *; destruct (run_request now s q0) as [| |p'] eqn:R; try discriminate end.
  assert (p' = p) as <- by congruence.
  assert (Hok : request_ok q0).
  { unfold q0. cbn [request_ok]. split; [now left|].
    assert (Hx : absolute_expire (due now (e_expire e))).
    { unfold absolute_expire, due, wire_time, sane_clock in *. change (30 * 24 * 60 * 60)%Z with 2592000%Z. destruct (e_expire e =? 0)%Z eqn:?; [now left|]. destruct (e_expire e <=? 2592000)%Z eqn:?; lia. }
    split; [|split; [exact Hk|split; [exact Hx|reflexivity]]].
    split; [exact D1|]. split; [now apply absolute_i64|]. split; [cbn [e_version]; destruct (0 <? e_version e); [exact D4|reflexivity]|]. split; [reflexivity|]. cbn [e_data]. rewrite <- M. now apply wf_bytes_firstn. }
  destruct (write_effect now s q0 p' W Hok I Hn R) as (HO & _). exact HO.
Qed.

(** A visit. *)
Lemma dump_read_cases s now e p sent : wf_store s -> sane_clock now -> legal_key (e_key e) -> dumpable e ->
  (forall r, live s now (e_key e) r -> wire_time (r_expire r)) -> dump_read s now e = Ok (p, sent) ->
  exists rq, sent = Some rq /\ set_client (snd p) = Ok rq /\ dumpable (snd p) /\ e_key (snd p) = e_key e /\ wf_store (fst p) /\ unchanged_from now s (fst p)
    /\ (forall r, live s now (e_key e) r -> snd p = sent_entry (e_key e) r).
Proof.
  intros W Hn Hk D Hx H. pose proof (sane_i64 _ Hn) as Hi. destruct (get_unchanged now s e W Hi) as [G1 G2]. unfold dump_read in H.
  assert (R : o_ret (get s now e 0) = 0%Z /\ dumpable (o_entry (get s now e 0)) /\ e_key (o_entry (get s now e 0)) = e_key e
    /\ forall r, live s now (e_key e) r -> o_entry (get s now e 0) = sent_entry (e_key e) r).
  { destruct (wf_holds s (e_key e) W) as ([r|] & Ho & Hr).
    - specialize (Hr r eq_refl). rewrite (get_some _ _ _ _ r Ho Hr) in *. change (negb (has 0 behavior_skip_timestamp)) with true in *. cbn [andb] in *.
      pose proof Hr as (F1 & F2 & F3 & F4 & F5). destruct D as [D1 D2 D3 D4 D5 D6].
      destruct (expired_at now (r_expire r)) eqn:E; cbn [o_store o_ret o_res o_entry] in *; (split; [reflexivity|]).
      + apply expired_at_spec in E. split.
        { split; cbn [fill e_flag e_expire e_size e_version e_option e_data]; auto. unfold wire_time, expired, is_i64 in *. lia. }
        split; [reflexivity|]. intros r' (A & A2 & B). assert (r = r') by eauto using holds_some_fun. subst r'. contradiction.
      + assert (L : live s now (e_key e) r). { split; [exact Ho|]. split; [exact Hr|]. rewrite <- expired_at_spec. congruence. }
        split. { split; cbn [fill with_data e_flag e_expire e_size e_version e_option e_data]; auto. }
        split; [reflexivity|]. intros r' (A & A2 & B). assert (r = r') by eauto using holds_some_fun. subst r'.
        unfold sent_entry, with_data, fill. cbn [e_key e_flag e_expire e_size e_version e_option e_data]. now rewrite D5.
    - rewrite get_none in * by exact Ho. cbn [o_store o_ret o_res o_entry] in *. split; [reflexivity|]. split; [exact D|]. split; [reflexivity|].
      intros r' L. exfalso. eapply not_live_none; eauto. }
  destruct R as (R1 & R2 & R3 & R4). rewrite R1 in H. cbn [Z.ltb Z.compare] in H.
  destruct (set_client (o_entry (get s now e 0))) as [| |rq] eqn:Ec; cbn [bind] in H; try discriminate.
  assert (p = (o_store (get s now e 0), o_entry (get s now e 0)) /\ sent = Some rq) as (-> & ->) by (split; congruence).
  exists rq. cbn [fst snd]. auto 10.
Qed.

Lemma forward_kind now s r p f : run_request now s r = Ok p -> p_forward p = Some f -> request_ok r ->
  match r with RStore _ _ | RIncr _ _ _ => kind_of (fst f) = KStore | _ => True end.
Proof.
  destruct r as [ident e|e|ident e|ident e v|? ?|?|?|?|?]; auto; cbn [run_request]; intros H Hf Hok.
  - unfold run_store in H. destruct (set s now e (store_behavior ident)) as [o|]; [|discriminate].
    unfold finish in H. destruct (o_ret o <? 0)%Z; [injection H as <-; discriminate Hf|]. destruct (o_res o); [|discriminate]. injection H as <-. cbn [p_forward] in Hf.
    destruct (is_stored r); [|discriminate]. injection Hf as <-. destruct Hok as (Hid & _). destruct (store_cmd _ Hid) as (c & _ & _ & Hkd). exact Hkd.
  - unfold run_incr in H. destruct (incr s now e v _) as [o|]; [|discriminate].
    unfold finish in H. destruct (o_ret o <? 0)%Z; [injection H as <-; discriminate Hf|]. destruct (o_res o); [|discriminate]. injection H as <-. cbn [p_forward] in Hf.
    destruct (is_stored r); [|discriminate]. injection Hf as <-. destruct Hok as ([<-|[<-|[]]] & _); reflexivity.
Qed.

Lemma received_ok T v f v' : link T v f v' -> request_ok (received f) /\ is_write (received f) /\ request_key (received f) = e_key (snd f).
Proof.
  unfold link, received. destruct (kind_of (fst f)); intros (Hk & H).
  - destruct H as (_ & W & Hs & _). split; [|split; [exact I|reflexivity]]. split; [now left|]. split; [now apply sendable_wf|]. split; [exact Hk|]. split; apply Hs.
  - destruct H as (_ & Hv & Hx & Ho & _). split; [|split; [exact I|reflexivity]]. split; [now apply wf_short|]. split; [exact Hk|]. split; [exact Hx|exact Ho].
  - destruct H as (Hx & Ho & _). split; [|split; [exact I|reflexivity]]. split; [now left|]. split; [apply wf_short; [exact Hx|reflexivity]|]. split; [exact Hk|]. split; [exact Hx|exact Ho].
Qed.

(** * The invariant *)
Section Key.
Context (k : key) (Hlegal : legal_key k) (st0 : transfer).
Definition visited (l : list incident) : Prop := exists now, In (ReplicationModel.Visit now k) l.
Record at_source (T : Z) (s : store) (cur : option rec) : Prop := {
  as_sees : sees T s k cur;
  as_holds : forall r, cur = Some r -> holds s k (Some r) /\ wf_rec r /\ absolute_expire (r_expire r) /\ r_version r <> 0 }.
Definition linked (f : bytes * entry) : Prop := exists T v v', link T v f v'.
Record way_ok (cur : option rec) (x : list bytes * (bytes * entry)) : Prop := {
  wo_trail : Forall legal_node_name (fst x);
  wo_link : linked (snd x);
  wo_key : e_key (snd (snd x)) = k -> kind_of (fst (snd x)) = KStore /\ e_version (snd (snd x)) <> 0 /\ behind (Some (rec_of (snd (snd x)))) cur }.
Definition dump_ok (cur : option rec) (e : entry) (rq : bytes) : Prop :=
  legal_key (e_key e) /\ set_client e = Ok rq /\
  (e_key e = k -> exists r, e = sent_entry k r /\ wf_rec r /\ absolute_expire (r_expire r) /\ r_version r <> 0 /\ behind (Some r) cur).
Definition covered (l : list incident) (st : transfer) (d cur : option rec) : Prop :=
  forall r, cur = Some r -> d = Some r
    \/ (exists x, In x (on_way st) /\ e_key (snd (snd x)) = k /\ rec_of (snd (snd x)) = r)
    \/ (dump_request st <> None /\ e_key (dump_entry st) = k /\ rec_of (dump_entry st) = r)
    \/ (~ visited l /\ holds (source_store st0) k (Some r)).
Record tinv (l : list incident) (T : Z) (st : transfer) : Prop := {
  ti_time : sane_clock T;
  ti_source : wf_store (source_store st);
  ti_dest : wf_store (dest_store st);
  ti_abs : forall k', exists v, sees T (source_store st) k' v /\ forall r, v = Some r -> absolute_expire (r_expire r);
  ti_dump : dumpable (dump_entry st);
  ti_key : exists cur d, at_source T (source_store st) cur /\ sees T (dest_store st) k d /\ behind d cur
    /\ (forall x, In x (on_way st) -> way_ok cur x)
    /\ (forall rq, dump_request st = Some rq -> dump_ok cur (dump_entry st) rq)
    /\ covered l st d cur }.

Lemma behind_later o c r : behind o c -> (forall r', c = Some r' -> r_version r' < r_version r) -> behind o (Some r).
Proof. intros H Hc r' E. destruct (H r' E) as (r1 & E1 & U). exists r. split; [reflexivity|]. right. specialize (Hc r1 E1). destruct U as [->|U]; lia. Qed.
Lemma way_later c r x : way_ok c x -> (forall r', c = Some r' -> r_version r' < r_version r) -> way_ok (Some r) x.
Proof. intros [A B C] Hc. split; auto. intros E. destruct (C E) as (C1 & C2 & C3). split; [auto|]. split; [auto|]. eapply behind_later; eauto. Qed.
Lemma dump_later c r e rq : dump_ok c e rq -> (forall r', c = Some r' -> r_version r' < r_version r) -> dump_ok (Some r) e rq.
Proof. intros (A & B & C) Hc. split; [auto|]. split; [auto|]. intros E. destruct (C E) as (r1 & C1 & C2 & C3 & C4 & C5). exists r1. split; [auto|]. split; [auto|]. split; [auto|]. split; [auto|]. eapply behind_later; eauto. Qed.

Lemma at_source_live T s cur now r : at_source T s cur -> (forall r, holds s k (Some r) -> wf_rec r -> ~ expired now r) -> cur = Some r -> live s now k r.
Proof. intros [A B] Hx E. destruct (B r E) as (H1 & H2 & _). split; [exact H1|]. split; [exact H2|]. now apply Hx. Qed.
Lemma at_source_unchanged T s s' cur now : at_source T s cur -> (T <= now)%Z -> (forall r, holds s k (Some r) -> wf_rec r -> ~ expired now r) ->
  unchanged_from now s s' -> at_source now s' cur.
Proof.
  intros A HT Hx U. split; [eapply sees_unchanged; eauto; apply A|]. intros r E. pose proof (at_source_live _ _ _ _ _ A Hx E) as L.
  destruct A as [_ B]. destruct (B r E) as (H1 & H2 & H3 & H4). split; [|auto]. assert (V : visible s' now k (Some r)) by (apply U; [lia|exact L]). apply V.
Qed.
Lemma at_source_frame T s s' cur now : at_source T s cur -> (T <= now)%Z -> db s' !! k = db s !! k -> at_source now s' cur.
Proof.
  intros [A B] HT E. split; [eapply sees_frame; [exact E|]; eapply sees_mono; eauto|]. intros r Er. destruct (B r Er) as (H1 & H2). split; [|exact H2].
  unfold holds in *. congruence.
Qed.
Lemma visited_app l h : visited l -> visited (l ++ [h]).
Proof. intros (n & H). exists n. apply in_or_app. now left. Qed.
Lemma visited_other l h : (forall now, h <> ReplicationModel.Visit now k) -> visited (l ++ [h]) -> visited l.
Proof. intros Hh (n & H). apply in_app_or in H as [H|[H|[]]]; [now exists n|]. now destruct (Hh n). Qed.

Lemma tinv_start T : prepared k T st0 -> tinv [] T st0.
Proof.
  intros [P1 P2 P3 P4 P5 P6 P7 P8 P9].
  split; auto.
  - intros k'. destruct (sees_total T (source_store st0) k' P2) as (v & Hv & Hh & Hw). exists v. split; [auto|]. intros r ->. apply (P4 k'); auto.
  - rewrite P8. split; cbn [empty_entry e_flag e_expire e_size e_version e_option e_data]; try reflexivity; try (unfold wire_time; lia); try lia; constructor.
  - destruct (sees_total T (source_store st0) k P2) as (cur & Hv & Hh & Hw). destruct (sees_total T (dest_store st0) k P3) as (d & Dv & Dh & Dw).
    exists cur, d. split.
    { split; [exact Hv|]. intros r ->. split; [auto|]. split; [auto|]. split; [apply (P4 k); auto|]. apply P5; auto. }
    split; [exact Dv|]. split.
    { intros r' ->. destruct (P6 r' Dh (Dw _ eq_refl)) as (r & Hr & Wr & U). exists r. split; [|exact U].
      destruct cur as [rc|]; [f_equal; exact (holds_some_fun _ _ _ _ (Hw _ eq_refl) Wr Hh Hr)|]. unfold holds in *. cbn in *. congruence. }
    split; [rewrite P7; intros x []|]. split; [rewrite P9; discriminate|].
    intros r ->. right. right. right. split; [intros (n & [])|exact Hh].
Qed.

Lemma tinv_client l T st now stream st2 out : tinv l T st -> (T <= now)%Z -> sane_clock now -> allowed k st (ReplicationModel.Client now stream) ->
  transfer_step st (ReplicationModel.Client now stream) = Ok (st2, out) -> unwrapped k (source_store st2) -> tinv (l ++ [ReplicationModel.Client now stream]) now st2.
Proof.
  intros [I1 I2 I3 I4 I5 (cur & d & K1 & K2 & K3 & K4 & K5 & K6)] HT Hn (Hx & Hb & Hreq) Hstep Hunw. cbn [incident_time] in Hx. cbn [transfer_step] in Hstep.
  assert (V : forall st', on_way st' = on_way st -> dump_entry st' = dump_entry st -> dump_request st' = dump_request st ->
    covered (l ++ [ReplicationModel.Client now stream]) st' d cur).
  { intros st' E1 E2 E3 r Er. rewrite E1, E2, E3. destruct (K6 r Er) as [C|[C|[C|(C1 & C2)]]]; auto. right. right. right. split; [|exact C2].
    intros V. apply C1. eapply visited_other; [|exact V]. discriminate. }
  assert (K2' : sees now (dest_store st) k d) by (eapply sees_mono; eauto).
  assert (I4' : forall k', exists v, sees now (source_store st) k' v /\ forall r, v = Some r -> absolute_expire (r_expire r)).
  { intros k'. destruct (I4 k') as (v & A & B). exists v. split; [eapply sees_mono; eauto|auto]. }
  destruct (serve_next now stream) as [| |[v rest]] eqn:S; cbn [bind] in Hstep; try discriminate. unfold run_line in Hstep. rewrite S in Hstep. cbn [bind] in Hstep.
  destruct v as [c r|]; cbn [bind] in Hstep.
  2:{ injection Hstep as <- <-. cbn [p_store p_forward]. rewrite app_nil_r. split; cbn [source_store dest_store dump_entry]; auto.
      exists cur, d. cbn [source_store dest_store on_way dump_entry dump_request]. split; [eapply at_source_frame; eauto|]. split; [exact K2'|]. split; [exact K3|]. split; [exact K4|]. split; [exact K5|]. now apply V. }
  destruct (Hreq c r rest eq_refl) as (Htrail & Hsp). apply next_accepted in S. apply serve_request_ok in S as [Hok _]; auto.
  destruct (run_request now (source_store st) r) as [| |pr] eqn:R; cbn [bind] in Hstep; try discriminate. injection Hstep as <- <-.
  assert (Hw : is_write r \/ (exists ident keys, r = RGet ident keys) \/ p_store pr = source_store st /\ p_forward pr = None).
  { destruct r; cbn [is_write]; eauto; try (cbn [run_request] in R; injection R as <-; now auto); first [discriminate R|destruct Hsp]. }
  (* nothing visible changed *)
  assert (Same : p_forward pr = None -> wf_store (p_store pr) -> unchanged_from now (source_store st) (p_store pr) ->
    tinv (l ++ [ReplicationModel.Client now stream]) now (mkTransfer (p_store pr) (dest_store st) (on_way st ++ match p_forward pr with Some f => [(c_trail c, f)] | None => [] end) (dump_entry st) (dump_request st))).
  { intros -> W' U. rewrite app_nil_r. split; cbn [source_store dest_store dump_entry]; auto.
    - intros k'. destruct (I4 k') as (v & A & B). exists v. split; [eapply sees_unchanged; eauto|auto].
    - exists cur, d. cbn [source_store dest_store on_way dump_entry dump_request]. split; [eapply at_source_unchanged; eauto|]. split; [exact K2'|]. split; [exact K3|]. split; [exact K4|]. split; [exact K5|]. now apply V. }
  destruct Hw as [Hw|[(ident & keys & ->)|(Q1 & Q2)]].
  3:{ apply Same; [exact Q2|now rewrite Q1|rewrite Q1; apply unchanged_refl]. }
  2:{ cbn [run_request] in R.
      destruct (run_get_unchanged now (if beq ident (s2b "gets"%string) then response_gets else response_get) keys (source_store st) I2 (sane_i64 _ Hn)) as [G1 G2].
      destruct (run_get now (source_store st) _ keys) as [s' o']. injection R as <-. cbn [fst p_store p_forward] in *. now apply Same. }
  destruct (write_effect now (source_store st) r pr I2 Hok Hw Hn R) as (HO & HF).
  destruct (p_forward pr) as [f|] eqn:F; [|apply Same; [reflexivity|apply HO|exact HF]]. clear Same.
  destruct HF as (Hk & HE).
  assert (Hlk : legal_key (e_key (snd f))) by (rewrite Hk; destruct r; cbn in Hok, Hw |- *; try contradiction; apply Hok).
  destruct (I4' (e_key (snd f))) as (v & Sv & Av).
  destruct (effect_link now (source_store st) (p_store pr) f now v I2 (proj1 HO) Hlk ltac:(lia) Sv Av HE) as (v' & L1 & L2 & L3).
  assert (I4'' : forall k', exists v, sees now (p_store pr) k' v /\ forall r, v = Some r -> absolute_expire (r_expire r)).
  { intros k'. destruct (List.list_eq_dec N.eq_dec k' (e_key (snd f))) as [->|Hne]; [exists v'; auto|].
    destruct (I4' k') as (u & A & B). exists u. split; [|exact B]. destruct HO as (_ & _ & HO). eapply sees_frame; [|exact A]. apply HO. congruence. }
  split; cbn [source_store dest_store dump_entry]; auto; [apply HO|].
  destruct (List.list_eq_dec N.eq_dec (e_key (snd f)) k) as [Ek|Ek].
  - (* the key itself *)
    assert (Kd : kind_of (fst f) = KStore).
    { pose proof (forward_kind now _ r pr f R F Hok) as FK. destruct r; cbn [is_write request_key spares] in *; try contradiction; auto; congruence. }
    unfold effect in HE. rewrite Kd in HE. destruct HE as (Hh & W & Hsz & Hv & Hxx & Ho). unfold link in L1. rewrite Kd in L1. destruct L1 as (_ & Ev' & _ & Hsend & Hlink4).
    rewrite Ek in *. subst v'. assert (Hver : e_version (snd f) <> 0) by (exact (Hunw _ Hh W)).
    assert (Hlt : forall r', cur = Some r' -> r_version r' < r_version (rec_of (snd f))).
    { intros r' E. apply (Hv Hver). eapply at_source_live; eauto. }
    exists (Some (rec_of (snd f))), d. cbn [source_store dest_store on_way dump_entry dump_request].
    split. { split; [exact L2|]. intros r' E. apply Some_inv in E. subst r'. split; [exact Hh|]. split; [exact W|]. split; [now apply L3|exact Hver]. }
    split; [exact K2'|]. split; [eapply behind_later; eauto|].
    split. { intros x Hin. apply in_app_or in Hin as [Hin|[<-|[]]]; [eapply way_later; eauto|]. split; cbn [fst snd]; [exact Htrail| |].
             - exists now, v, (Some (rec_of (snd f))). unfold link. rewrite Kd. rewrite Ek. repeat (split; [auto|]). exact Hlink4.
             - intros _. split; [exact Kd|]. split; [exact Hver|]. intros r' E. apply Some_inv in E. subst r'. eexists. split; [reflexivity|now left]. }
    split; [intros rq E; eapply dump_later; eauto|].
    intros r' E. apply Some_inv in E. subst r'. right. left. exists (c_trail c, f). split; [apply in_or_app; right; now left|]. cbn [snd]. auto.
  - (* another key *)
    exists cur, d. cbn [source_store dest_store on_way dump_entry dump_request].
    assert (Edb : db (p_store pr) !! k = db (source_store st) !! k) by (apply HO; congruence).
    split; [eapply at_source_frame; eauto|]. split; [exact K2'|]. split; [exact K3|].
    split. { intros x Hin. apply in_app_or in Hin as [Hin|[<-|[]]]; [now apply K4|]. split; cbn [fst snd]; [exact Htrail|eexists _, _, _; exact L1|intros E; contradiction]. }
    split; [exact K5|]. intros r' E. destruct (K6 r' E) as [C|[(x & C1 & C2)|[C|(C1 & C2)]]]; auto.
    + right. left. exists x. split; [apply in_or_app; now left|exact C2].
    + right. right. right. split; [|exact C2]. intros Vi. apply C1. eapply visited_other; [|exact Vi]. discriminate.
Qed.

Lemma tinv_visit l T st now k' st2 out : tinv l T st -> (T <= now)%Z -> sane_clock now -> allowed k st (ReplicationModel.Visit now k') ->
  transfer_step st (ReplicationModel.Visit now k') = Ok (st2, out) -> tinv (l ++ [ReplicationModel.Visit now k']) now st2.
Proof.
  intros [I1 I2 I3 I4 I5 (cur & d & K1 & K2 & K3 & K4 & K5 & K6)] HT Hn (Hx & Hk' & Hvis) Hstep. cbn [incident_time] in Hx. cbn [transfer_step] in Hstep.
  destruct (dump_request st) as [rq0|] eqn:Dr; [discriminate|]. rewrite (legal_cstr _ Hk') in Hstep. set (e0 := with_key (dump_entry st) k') in *.
  destruct (dump_read (source_store st) now e0) as [| |[p sent]] eqn:R; cbn [bind] in Hstep; try discriminate. injection Hstep as <- <-.
  destruct (dump_read_cases (source_store st) now e0 p sent I2 Hn Hk') as (rq & -> & C1 & C2 & C3 & C4 & C5 & C6); [| |exact R|].
  { destruct I5. split; auto. }
  { intros r L. change (e_key e0) with k' in L. destruct (I4 k') as (v & A & B). destruct (sees_live _ _ _ _ _ _ A HT L) as [-> _]. specialize (B r eq_refl). unfold absolute_expire, wire_time in *. lia. }
  change (e_key e0) with k' in *. split; cbn [source_store dest_store dump_entry]; auto.
  - intros k2. destruct (I4 k2) as (v & A & B). exists v. split; [eapply sees_unchanged; eauto|auto].
  - exists cur, d. cbn [source_store dest_store on_way dump_entry dump_request].
    split; [eapply at_source_unchanged; eauto|]. split; [eapply sees_mono; eauto|]. split; [exact K3|]. split; [exact K4|].
    assert (Cur : k' = k -> forall r, live (source_store st) now k r -> cur = Some r /\ snd p = sent_entry k r).
    { intros -> r L. split; [|now apply C6]. exact (proj1 (sees_live _ _ _ _ _ _ (as_sees _ _ _ K1) HT L)). }
    split.
    + intros rq' E. apply Some_inv in E. subst rq'. split; [now rewrite C3|]. split; [exact C1|]. rewrite C3. intros E. destruct (Hvis E) as (r & L). destruct (Cur E r L) as (E1 & E2).
      exists r. split; [exact E2|]. destruct (as_holds _ _ _ K1 r E1) as (H1 & H2 & H3 & H4). split; [auto|]. split; [auto|]. split; [auto|]. intros r' Er. apply Some_inv in Er. subst r'. exists r. split; [exact E1|now left].
    + intros r E. cbn [on_way dump_request dump_entry]. destruct (List.list_eq_dec N.eq_dec k' k) as [Ek|Ek].
      * destruct (Hvis Ek) as (r1 & L). destruct (Cur Ek r1 L) as (E1 & E2). assert (r1 = r) by congruence. subst r1.
        right. right. left. split; [discriminate|]. rewrite E2. cbn [sent_entry e_key]. split; [reflexivity|]. destruct r; reflexivity.
      * destruct (K6 r E) as [C|[C|[(C & _)|(D1 & D2)]]]; auto; [congruence|]. right. right. right. split; [|exact D2]. intros Vi. apply D1. eapply visited_other; [|exact Vi]. intros n [= _ En]. contradiction.
Qed.

Lemma set_client_store e rq : set_client e = Ok rq -> rq = store_request [] (s2b "set") e.
Proof. unfold set_client. destruct (memcpy _ _); [|discriminate]. congruence. Qed.

Lemma tinv_land l T st now st2 out : tinv l T st -> (T <= now)%Z -> sane_clock now -> allowed k st (ReplicationModel.Land now) ->
  transfer_step st (ReplicationModel.Land now) = Ok (st2, out) -> tinv (l ++ [ReplicationModel.Land now]) now st2.
Proof.
  intros [I1 I2 I3 I4 I5 (cur & d & K1 & K2 & K3 & K4 & K5 & K6)] HT Hn (Hx & _) Hstep. cbn [incident_time] in Hx. cbn [transfer_step] in Hstep.
  destruct (dump_request st) as [rq|] eqn:Dr; [|discriminate]. destruct (K5 rq eq_refl) as (Hk & Hc & Hown).
  destruct (run_line now (dest_store st) rq) as [| |[p rest]] eqn:R; cbn [bind] in Hstep; try discriminate. injection Hstep as <- <-.
  pose proof (land_other _ _ _ _ _ _ I3 Hn Hk I5 Hc R) as HO.
  assert (I4' : forall k', exists v, sees now (source_store st) k' v /\ forall r, v = Some r -> absolute_expire (r_expire r)).
  { intros k'. destruct (I4 k') as (v & A & B). exists v. split; [eapply sees_mono; eauto|auto]. }
  split; cbn [source_store dest_store dump_entry]; auto; [apply HO|].
  assert (V : ~ visited l -> ~ visited (l ++ [ReplicationModel.Land now])) by (intros NV Vi; apply NV; eapply visited_other; [|exact Vi]; discriminate).
  destruct (List.list_eq_dec N.eq_dec (e_key (dump_entry st)) k) as [Ek|Ek].
  - destruct (Hown Ek) as (r & Er & Wr & Ax & Vr & Br). destruct (Br r eq_refl) as (rc & Ec & U). rewrite Er in *.
    assert (Hs : sendable (sent_entry k r)). { pose proof Wr as (W1 & W2 & W3 & W4 & W5). constructor; cbn [sent_entry e_key e_flag e_expire e_size e_data e_version e_option]; [exact Hlegal|exact W1|exact Ax|reflexivity|clear - W4; lia|exact W3|reflexivity]. }
    assert (Hre : rec_of (sent_entry k r) = r) by (destruct r; reflexivity).
    rewrite (set_client_store _ _ Hc) in R. rewrite <- (app_nil_r (store_request _ _ _)) in R.
    erewrite run_line_request in R by (apply store_roundtrip; [constructor|now left|exact Hs]).
    destruct (dest_set now (dest_store st) T d (sent_entry k r) rc) as (p' & d' & P1 & P2 & P3 & P4 & P5 & P6); [exact I3|rewrite Hre; exact Wr|exact Hs|exact Vr|exact HT|exact Hn|exact K2|rewrite <- Ec; exact K3|rewrite Hre; exact U| |].
    { destruct (as_holds _ _ _ K1 rc Ec) as (H1 & H2 & _). now apply Hx. }
    rewrite P1 in R. assert (p' = p) by congruence. subst p'. change (e_key (sent_entry k r)) with k in *. rewrite Hre in P6.
    exists cur, d'. cbn [source_store dest_store on_way dump_entry dump_request].
    split; [eapply at_source_frame; eauto|]. split; [exact P3|]. split; [now rewrite Ec|]. split; [exact K4|]. split; [discriminate|].
    intros r' E. cbn [on_way dump_entry dump_request]. assert (r' = rc) by congruence. subst r'. destruct (K6 rc E) as [C|[C|[(_ & _ & C)|(D1 & D2)]]]; auto 10.
    left. apply P6. rewrite <- C. rewrite Er. now rewrite Hre.
  - exists cur, d. cbn [source_store dest_store on_way dump_entry dump_request].
    split; [eapply at_source_frame; eauto|]. split; [eapply sees_frame; [apply HO; congruence|]; eapply sees_mono; eauto|]. split; [exact K3|]. split; [exact K4|]. split; [discriminate|].
    intros r' E. cbn [on_way dump_entry dump_request]. destruct (K6 r' E) as [C|[C|[(_ & C & _)|(D1 & D2)]]]; auto 10. contradiction.
Qed.

Lemma tinv_deliver l T st now i (done : bool) st2 out (h := if done then ReplicationModel.Deliver now i else ReplicationModel.Attempt now i) :
  tinv l T st -> (T <= now)%Z -> sane_clock now -> allowed k st h -> transfer_step st h = Ok (st2, out) -> tinv (l ++ [h]) now st2.
Proof.
  intros [I1 I2 I3 I4 I5 (cur & d & K1 & K2 & K3 & K4 & K5 & K6)] HT Hn (Hx & _) Hstep.
  assert (Ht : incident_time h = now) by (unfold h; destruct done; reflexivity). rewrite Ht in Hx.
  destruct (nth_error (on_way st) i) as [[trail f]|] eqn:Hnth.
  2:{ unfold h in Hstep. destruct done; cbn [transfer_step] in Hstep; rewrite Hnth in Hstep; discriminate. }
  pose proof (nth_error_In _ _ Hnth) as Hin. destruct (K4 _ Hin) as [W1 (T1 & v & v' & L) W3]. cbn [fst snd] in *.
  destruct (forward_received now trail T1 v f v' W1 L) as (c & Hrec).
  assert (exists p, run_request now (dest_store st) (received f) = Ok p /\
    st2 = mkTransfer (source_store st) (p_store p) (if done then firstn i (on_way st) ++ skipn (S i) (on_way st) else on_way st) (dump_entry st) (dump_request st)) as (p & R & ->).
  { unfold h in Hstep. destruct done; cbn [transfer_step] in Hstep; rewrite Hnth, (run_line_request _ _ _ _ _ _ Hrec) in Hstep;
      (destruct (run_request now (dest_store st) (received f)) as [| |p]; cbn [bind] in Hstep; try discriminate; exists p; split; [reflexivity|congruence]). }
  clear Hstep. destruct (received_ok _ _ _ _ L) as (Q1 & Q2 & Q3). destruct (write_effect now (dest_store st) _ p I3 Q1 Q2 Hn R) as (HO & _). rewrite Q3 in HO.
  assert (I4' : forall k', exists v, sees now (source_store st) k' v /\ forall r, v = Some r -> absolute_expire (r_expire r)).
  { intros k'. destruct (I4 k') as (u & A & B). exists u. split; [eapply sees_mono; eauto|auto]. }
  assert (V : ~ visited l -> ~ visited (l ++ [h])) by (intros NV Vi; apply NV; eapply visited_other; [|exact Vi]; unfold h; destruct done; discriminate).
  assert (Sub : forall x, In x (if done then firstn i (on_way st) ++ skipn (S i) (on_way st) else on_way st) -> In x (on_way st)).
  { intros x Hi. destruct done; [|exact Hi]. apply in_app_or in Hi as [Hi|Hi]; [rewrite <- (firstn_skipn i (on_way st))|rewrite <- (firstn_skipn (S i) (on_way st))]; apply in_or_app; auto. }
  assert (Sup : forall x, In x (on_way st) -> In x (if done then firstn i (on_way st) ++ skipn (S i) (on_way st) else on_way st) \/ x = (trail, f)).
  { intros x Hi. destruct done; [|now left]. rewrite (nth_split _ _ _ Hnth) in Hi. apply in_app_or in Hi as [Hi|[Hi|Hi]]; [left; apply in_or_app; now left|right; now symmetry|left; apply in_or_app; now right]. }
  split; cbn [source_store dest_store dump_entry]; auto; [apply HO|].
  destruct (List.list_eq_dec N.eq_dec (e_key (snd f)) k) as [Ek|Ek].
  - destruct (W3 Ek) as (Kd & Hver & Hb). destruct (Hb _ eq_refl) as (rc & Ec & U).
    unfold link in L. rewrite Kd in L. destruct L as (Hlk & -> & Wf & Hs & _). assert (Er : received f = RStore (s2b "set") (snd f)) by (unfold received; now rewrite Kd). rewrite Er in R.
    destruct (dest_set now (dest_store st) T d (snd f) rc) as (p' & d' & P1 & P2 & P3 & P4 & P5 & P6); [exact I3|exact Wf|exact Hs|exact Hver|exact HT|exact Hn|rewrite Ek; exact K2|rewrite <- Ec; exact K3|exact U| |].
    { destruct (as_holds _ _ _ K1 rc Ec) as (H1 & H2 & _). now apply Hx. }
    rewrite P1 in R. assert (p' = p) by congruence. subst p'. rewrite Ek in *.
    exists cur, d'. cbn [source_store dest_store on_way dump_entry dump_request].
    split; [eapply at_source_frame; eauto|]. split; [exact P3|]. split; [now rewrite Ec|]. split; [intros x Hi; apply K4; auto|]. split; [exact K5|].
    intros r' E. cbn [on_way dump_entry dump_request]. assert (r' = rc) by congruence. subst r'. destruct (K6 rc E) as [C|[(x & C1 & C2 & C3)|[C|(D1 & D2)]]]; auto 10.
    destruct (Sup x C1) as [Hi| ->]; [right; left; exists x; auto|]. left. apply P6. exact C3.
  - exists cur, d. cbn [source_store dest_store on_way dump_entry dump_request].
    split; [eapply at_source_frame; eauto|]. split; [eapply sees_frame; [apply HO; congruence|]; eapply sees_mono; eauto|]. split; [exact K3|]. split; [intros x Hi; apply K4; auto|]. split; [exact K5|].
    intros r' E. cbn [on_way dump_entry dump_request]. destruct (K6 r' E) as [C|[(x & C1 & C2 & C3)|[C|(D1 & D2)]]]; auto 10.
    destruct (Sup x C1) as [Hi| ->]; [right; left; exists x; auto|]. cbn [snd] in C2. contradiction.
Qed.

Lemma transferred_inv T0 l T st : prepared k T0 st0 -> transferred k T0 st0 l T st -> tinv l T st.
Proof.
  intros Hp H. remember st0 as s0 eqn:E0. induction H as [|T1 s1 l T2 s2 h s3 out H IH Ht Ha Hs Hu]; [subst; now apply tinv_start|].
  subst s1. specialize (IH eq_refl Hp). assert (Hn : sane_clock (incident_time h)) by (pose proof (ti_time _ _ _ IH); unfold sane_clock in *; lia).
  destruct h as [now stream|now k'|now|now i|now i]; cbn [incident_time] in *.
  - eapply tinv_client; eauto; lia.
  - eapply tinv_visit; eauto; lia.
  - eapply tinv_land; eauto; lia.
  - exact (tinv_deliver _ _ _ _ _ false _ _ IH (proj1 Ht) Hn Ha Hs).
  - exact (tinv_deliver _ _ _ _ _ true _ _ IH (proj1 Ht) Hn Ha Hs).
Qed.

Lemma transfer_converges T0 l T st : prepared k T0 st0 -> transferred k T0 st0 l T st -> on_way st = [] -> dump_request st = None ->
  visited l \/ (forall r, holds (source_store st0) k (Some r) -> ~ holds (source_store st) k (Some r)) ->
  agree_from T k (source_store st) (dest_store st).
Proof.
  intros Hp H Hw Hd Hv. destruct (transferred_inv _ _ _ _ Hp H) as [I1 I2 I3 I4 I5 (cur & d & K1 & K2 & K3 & K4 & K5 & K6)].
  assert (E : d = cur).
  { destruct cur as [r|].
    - destruct (K6 r eq_refl) as [C|[(x & C & _)|[(C & _)|(C1 & C2)]]]; [exact C|rewrite Hw in C; destruct C|contradiction|].
      destruct Hv as [Hv|Hv]; [contradiction|]. destruct (Hv r C2). exact (proj1 (as_holds _ _ _ K1 r eq_refl)).
    - destruct d as [r'|]; [|reflexivity]. destruct (K3 r' eq_refl) as (r & E & _). discriminate E. }
  subst d. eapply sees_agree; [apply K1|exact K2].
Qed.
End Key.
