(** The bytes on the wire, and the rows after a history. *)
From Coq Require Import String.
From stdpp Require Import gmap.
From Coq Require Import ZArith ZifyBool ZifyNat ZifyN.
From Verif Require Import Base BaseLemmas StorageModel StorageSpec StorageProofs StorageProofs2 StorageProofs3 StorageProofs4
  TextModel TextSpec TextProofs TextProofs3 SessionModel SessionProofs ServerModel ServerProofs ServerProofs2 ReplicaProofs
  MysqlModel MysqlSpec MysqlProofs.
Ltac Zify.zify_post_hook ::= Z.div_mod_to_equations.
Local Open Scope N_scope.
Local Open Scope list_scope.

Lemma next_id id : u32 (id + 1) mod 256 = (id mod 256 + 1) mod 256.
Proof. unfold u32. lia. Qed.
Lemma write_reads fuel id p s id' rest : (N.to_nat (blen p / max_packet) < fuel)%nat -> blen p mod max_packet <> 0 ->
  write_packets fuel id p = (s, id') -> reads (id mod 256) (s ++ rest) p (id' mod 256) rest.
Proof.
  revert id p s id'. induction fuel as [|fuel IH]; intros id p s id' Hf Hm; [inversion Hf|]. cbn [write_packets].
  destruct p as [|c p]; [exfalso; apply Hm; reflexivity|]. set (q := c :: p) in *. clearbody q. clear c p.
  destruct (N.ltb_spec max_packet (blen q)) as [H|H]; cbv zeta.
  - assert (H1 : blen (firstn (N.to_nat max_packet) q) = max_packet).
    { unfold blen in *. rewrite firstn_length. clear - H. lia. }
    assert (H2 : blen (skipn (N.to_nat max_packet) q) = blen q - max_packet).
    { unfold blen in *. rewrite skipn_length. clear - H. lia. }
    assert (M : max_packet <> 0) by discriminate.
    assert (D : blen q / max_packet = (blen q - max_packet) / max_packet + 1 /\ (blen q - max_packet) mod max_packet = blen q mod max_packet).
    { clear - H. change max_packet with 16777215 in *. lia. }
    destruct D as [D1 D2].
    destruct (write_packets fuel (u32 (id + 1)) (skipn (N.to_nat max_packet) q)) as [s1 id1] eqn:E. intros Eq; pose proof (f_equal fst Eq) as X1; pose proof (f_equal snd Eq) as X2; cbn [fst snd] in X1, X2; clear Eq; subst s id'.
    pose proof (firstn_skipn (N.to_nat max_packet) q) as J.
    apply (IH _ _ _ id1) in E; [|rewrite H2; rewrite D1 in Hf; clear - Hf; set (x := (blen q - max_packet) / max_packet) in *; clearbody x; lia|rewrite H2, D2; exact Hm]. rewrite next_id in E.
    pose proof (reads_more (id mod 256) _ _ _ _ _ H1 E) as G. rewrite J in G.
    repeat rewrite <- app_assoc. exact G.
  - destruct fuel as [|fuel]; cbn [write_packets]; intros Eq; pose proof (f_equal fst Eq) as X1; pose proof (f_equal snd Eq) as X2; cbn [fst snd] in X1, X2; clear Eq; subst s id'; rewrite app_nil_r; repeat rewrite <- app_assoc; rewrite next_id; apply reads_last;
      change (2 ^ 24 - 1) with max_packet; (destruct (N.eq_dec (blen q) max_packet) as [E|E]; [rewrite E in Hm; exfalso; apply Hm; reflexivity|clear - E H; lia]).
Qed.

Lemma le_enc_u32 x : le_enc 4 (u32 x) = le_enc 4 x.
Proof.
  assert (G : forall k x, le_enc k (x mod 256 ^ N.of_nat k) = le_enc k x).
  { clear x. induction k as [|k IH]; intros x; [reflexivity|]. cbn [le_enc]. rewrite Nat2N.inj_succ, N.pow_succ_r'.
    assert (P : 256 ^ N.of_nat k <> 0) by (apply N.pow_nonzero; discriminate). rewrite N.mod_mul_r by (auto; discriminate).
    set (y := (x / 256) mod 256 ^ N.of_nat k). f_equal.
    - rewrite (N.mul_comm 256), N.mod_add, N.mod_mod by discriminate. reflexivity.
    - rewrite (N.mul_comm 256), N.div_add by discriminate. rewrite (N.div_small (x mod 256)) by (apply N.mod_upper_bound; discriminate).
      rewrite N.add_0_l. apply IH. }
  exact (G 4%nat x).
Qed.
Lemma le_enc_1 x : x < 256 -> le_enc 1 x = [x].
Proof. intros H. cbn [le_enc]. f_equal. lia. Qed.
Lemma le_blen k v : blen (le_enc k v) = N.of_nat k.
Proof. unfold blen. now rewrite le_enc_length. Qed.
Lemma event_blen stamp server next thread db q : blen (query_event stamp server next thread db q) = 1 + (33 + blen db + blen q).
Proof. unfold query_event. repeat rewrite blen_app. repeat rewrite le_blen. unfold blen. cbn [length]. lia. Qed.
Lemma log_event_ok db server stamp thread pos q : Forall (fun c => c <> 0) db -> blen db < 256 -> blen q < 2 ^ 30 + 2 ^ 21 ->
  log_event db server stamp thread (u32 pos) q = Ok (query_event stamp server (pos + (33 + blen db + blen q)) thread db q, u32 (pos + (33 + blen db + blen q))).
Proof.
  intros Hz Hd Hq. unfold log_event. rewrite (cstr_id _ Hz).
  match goal with |- context [if ?c then _ else _] => destruct c eqn:E end; [unfold BUFSIZ, int_max in E; lia|].
  assert (En : u32 (u32 pos + (19 + 13 + blen db + 1 + blen q)) = u32 (pos + (33 + blen db + blen q))) by (unfold u32; lia).
  rewrite En. do 2 f_equal. unfold query_event. rewrite le_enc_u32, le_enc_1 by exact Hd.
  match goal with |- context [19 + blen ?b] => assert (Eb : 19 + blen b = 19 + 13 + blen db + 1 + blen q) end.
  { repeat rewrite blen_app. repeat rewrite le_blen. unfold blen. cbn [length]. lia. }
  rewrite Eb. reflexivity.
Qed.

(** ** What the operations of a node say. *)
Lemma touch_forwarded now s ident e p f : wf_store s -> request_ok (RTouch ident e) -> run_request now s (RTouch ident e) = Ok p -> p_forward p = Some f ->
  fst f = ident /\ holds (p_store p) (e_key (snd f)) (Some (rec_of (snd f))) /\ wf_rec (rec_of (snd f)) /\ e_size (snd f) = blen (e_data (snd f)).
Proof.
  intros Hwf Hok R F. destruct Hok as (Hid & He & Hk & Hx & Ho). cbn [run_request] in R.
  unfold run_touch in R. change behavior_touch with (cmd_behavior CmdTouch) in R. destruct (set s now e (cmd_behavior CmdTouch)) as [o|] eqn:Hs; [|discriminate].
  destruct (set_touch_cases _ _ _ _ _ Hwf He Hs) as (Hret & r & Hr & Hcase).
  apply finish_inv in R; auto. destruct R as (r' & Hr' & ->). rewrite Hr in Hr'. apply Some_inv in Hr'; subst r'. cbn [p_store p_forward] in *.
  destruct Hcase as [(-> & Hcan)|(E & Hu)]; [|rewrite E in F; discriminate F]. cbn [store_answer is_stored] in F. apply Some_inv in F. subst f. cbn [fst snd].
  assert (Hres : o_res o = Some result_stored \/ o_res o = Some result_touched) by auto.
  destruct (store_then_get _ _ _ _ _ Hwf He (cmd_sane CmdTouch) Hs Hres) as (_ & W & Hh & _).
  destruct (set_inv _ _ _ _ _ Hwf He (cmd_sane CmdTouch) Hs) as (s1 & cur & st & _ & [(_ & [(_ & r0 & Hr0 & _ & _ & N1 & N2)|(_ & Hr0 & _)])|(r0 & _ & _ & _ & _ & Hr0 & Hkey & Hsz & _)]).
  { rewrite Hr in Hr0. apply Some_inv in Hr0; subst r0. cbn in *; congruence. } { congruence. }
  split; [reflexivity|]. rewrite Hkey. rewrite <- Hr0 in Hsz. auto.
Qed.

Lemma finish_ident o done ident answer p f : finish o done ident answer = Ok p -> p_forward p = Some f -> fst f = ident.
Proof.
  unfold finish. destruct (o_ret o <? 0)%Z; [intros [= <-]; discriminate|]. destruct (o_res o) as [r|]; [|discriminate].
  intros [= <-]. cbn [p_forward]. destruct (done r); [|discriminate]. intros [= <-]. reflexivity.
Qed.
Definition leaves (s' : store) (f : bytes * entry) : Prop :=
  if beq (fst f) (s2b "delete") then holds s' (e_key (snd f)) None
  else holds s' (e_key (snd f)) (Some (rec_of (snd f))) /\ wf_rec (rec_of (snd f)) /\ e_size (snd f) = blen (e_data (snd f)).
Lemma write_leaves now s r p : wf_store s -> request_ok r -> is_write r -> sane_clock now -> run_request now s r = Ok p ->
  touches_only (request_key r) s (p_store p)
  /\ match p_forward p with
     | None => unchanged_from now s (p_store p)
     | Some f => e_key (snd f) = request_key r /\ leaves (p_store p) f
     end.
Proof.
  intros Hwf Hok Hw Hn R. destruct (write_effect now s r p Hwf Hok Hw Hn R) as [HT HF]. split; [exact HT|].
  destruct (p_forward p) as [f|] eqn:F; [|exact HF]. destruct HF as [Hk HE]. split; [exact Hk|].
  unfold effect in HE. unfold leaves. unfold kind_of in HE. destruct (beq (fst f) (s2b "delete")) eqn:B; [apply HE|].
  destruct (TextModel.mem (fst f) [s2b "touch"; s2b "gat"]) eqn:M.
  - destruct r as [ident e|e|ident e|ident e v|? ?|?|?|?|?]; cbn [is_write] in Hw; try contradiction.
    + exfalso. cbn [run_request] in R. unfold run_store in R. destruct (set s now e (store_behavior ident)) as [o|]; [|discriminate].
      destruct Hok as (Hid & _). apply (finish_ident _ _ _ _ _ _ R) in F. rewrite F in B, M.
      destruct (store_cmd _ Hid) as (c & _ & _ & E). unfold kind_of in E. rewrite B, M in E. discriminate.
    + exfalso. cbn [run_request] in R. apply (finish_ident _ _ _ _ _ _ R) in F. rewrite F in B. discriminate B.
    + apply (touch_forwarded now s ident e p f); auto.
    + exfalso. cbn [run_request] in R. unfold run_incr in R. destruct (incr s now e v _ 0) as [o|]; [|discriminate].
      destruct Hok as (Hid & _). apply (finish_ident _ _ _ _ _ _ R) in F. rewrite F in M. destruct Hid as [<-|[<-|[]]]; discriminate M.
  - destruct HE as (H1 & H2 & H3 & _). auto.
Qed.

(** ** Rows *)
Section Rows.
  Variable time_text : Z -> bytes.
  Definition shows_row (T : Z) (s : store) (t : rows) (k : bytes) : Prop := exists v, t k = option_map (row_of time_text) v /\ sees T s k v.
  Lemma mirrors_shows T s t : mirrors time_text T s t <-> forall k, shows_row T s t k.
  Proof.
    split; intros H k.
    - specialize (H k). destruct (t k) as [w|] eqn:E.
      + destruct H as (r & -> & H). exists (Some r). split; [exact E|]. intros n Hn. destruct (H n Hn) as [H1 H2]. cbn [at_time].
        destruct (expired_at n (r_expire r)) eqn:X; [apply H2; now apply expired_at_spec|apply H1; intros Y; apply expired_at_spec in Y; congruence].
      + exists None. split; [exact E|]. exact H.
    - destruct (H k) as (v & E & S). destruct v as [r|]; rewrite E; cbn [option_map].
      + exists r. split; [reflexivity|]. intros n Hn. specialize (S n Hn). cbn [at_time] in S.
        destruct (expired_at n (r_expire r)) eqn:X; (split; intros Y; [|]).
        * elim Y. now apply expired_at_spec.
        * exact S.
        * exact S.
        * apply expired_at_spec in Y. congruence.
      + exact S.
  Qed.
  Lemma mirrors_unchanged T now s s' t : (T <= now)%Z -> mirrors time_text T s t -> unchanged_from now s s' -> mirrors time_text now s' t.
  Proof.
    intros HT H U. apply mirrors_shows. intros k. apply mirrors_shows with (k := k) in H. destruct H as (v & E & S). exists v. split; [exact E|].
    eapply sees_unchanged; eauto.
  Qed.
  Lemma mirrors_write T now s s' t f : (T <= now)%Z -> mirrors time_text T s t -> touches_only (e_key (snd f)) s s' -> leaves s' f ->
    mirrors time_text now s' (execute t (meant time_text f)).
  Proof.
    intros HT H HO HL. apply mirrors_shows. intros k. apply mirrors_shows with (k := k) in H. unfold shows_row, meant, leaves in *.
    destruct HO as (_ & _ & HO).
    assert (F : k <> e_key (snd f) -> forall v, sees T s k v -> sees now s' k v).
    { intros Hk v Hv. apply sees_mono with (T := T); [exact HT|]. eapply sees_frame; [|exact Hv]. now apply HO. }
    destruct H as (v & E & S).
    destruct (beq (fst f) (s2b "delete")) eqn:B; cbn [execute].
    - destruct (beq (e_key (snd f)) k) eqn:K; cbn [orb existsb].
      + apply beq_eq in K. subst k. exists None. split; [reflexivity|]. now apply sees_none.
      + exists v. split; [exact E|]. apply F; auto. intros ->. now rewrite beq_refl in K.
    - destruct (beq (e_key (snd f)) k) eqn:K.
      + apply beq_eq in K. subst k. exists (Some (rec_of (snd f))). split; [reflexivity|]. apply sees_some; apply HL.
      + exists v. split; [exact E|]. apply F; auto. intros ->. now rewrite beq_refl in K.
  Qed.

  Definition sendable (f : bytes * entry) : Prop :=
    blen (e_key (snd f)) < 2 ^ 20 /\ (beq (fst f) (s2b "delete") = false -> e_size (snd f) = blen (e_data (snd f)) /\ e_flag (snd f) < 2 ^ 32 /\ e_version (snd f) < 2 ^ 64).
  Lemma served_mirrors T s l T' s' fs t : served T s l T' s' fs -> wf_store s -> (2592000 <= T)%Z -> mirrors time_text T s t ->
    mirrors time_text T' s' (fold_left execute (map (meant time_text) fs) t) /\ Forall sendable fs.
  Proof.
    intros H. revert t. induction H as [|T s now stream p rest l T' s' fs Ht Hb Hfl R H IH]; intros t Hwf HT HM; [split; [exact HM|constructor]|].
    assert (Hn : sane_clock now) by (unfold sane_clock; lia).
    unfold run_line in R. destruct (serve_next now stream) as [| |[v rest']] eqn:S; cbn [bind] in R; try discriminate R.
    destruct v as [c r|]; cbn [bind] in R.
    2:{ injection R as <- <-. cbn [p_store p_forward app] in *. apply IH; auto; [lia|]. eapply mirrors_unchanged; [|exact HM|apply unchanged_refl]. lia. }
    assert (Hnf : forall nr, r <> RFlush nr) by (intros nr ->; eapply Hfl; reflexivity). clear Hfl.
    apply next_accepted in S. apply serve_request_ok in S as [Hok _]; auto.
    destruct (run_request now s r) as [| |pr] eqn:Q; cbn [bind] in R; try discriminate R. injection R as <- <-.
    assert (Hw : is_write r \/ (exists ident keys, r = RGet ident keys) \/ p_store pr = s /\ p_forward pr = None).
    { destruct r; cbn [is_write]; eauto; try (cbn [run_request] in Q; injection Q as <-; now auto); [|discriminate Q]. exfalso; now apply (Hnf noreply). }
    destruct Hw as [Hw|[(ident & keys & ->)|(Q1 & Q2)]].
    - destruct (write_leaves now s r pr Hwf Hok Hw Hn Q) as (HO & HF).
      assert (Hwf' : wf_store (p_store pr)) by apply HO.
      destruct (p_forward pr) as [f|] eqn:F; cbn [app map fold_left].
      + destruct HF as [Hk HL]. rewrite <- Hk in HO.
        destruct (IH (execute t (meant time_text f)) Hwf') as [A B]; [lia|eapply mirrors_write; eauto; lia|]. split; [exact A|].
        apply List.Forall_cons; [|exact B]. split.
        * rewrite Hk. assert (K : legal_key (request_key r)) by (destruct r; cbn in Hok, Hw |- *; try contradiction; apply Hok).
          clear - K. destruct K as (_ & _ & K). revert K. unfold blen. lia.
        * unfold leaves in HL. intros E. rewrite E in HL. destruct HL as (_ & W & Z). split; [exact Z|]. destruct W as (W1 & W2 & W3 & _). cbn in W1, W3. tauto.
      + apply IH; auto; [lia|]. eapply mirrors_unchanged; [|exact HM|exact HF]. lia.
    - cbn [run_request] in Q.
      destruct (run_get_unchanged now (if beq ident (s2b "gets"%string) then response_gets else response_get) keys s Hwf (sane_i64 _ Hn)) as [G1 G2].
      destruct (run_get now s _ keys) as [s1 o1]. injection Q as <-. cbn [fst p_store p_forward app] in *.
      apply IH; auto; [lia|]. eapply mirrors_unchanged; [|exact HM|exact G2]. lia.
    - rewrite Q2. cbn [app]. rewrite Q1 in *. apply IH; auto; [lia|]. eapply mirrors_unchanged; [|exact HM|apply unchanged_refl]. lia.
  Qed.
End Rows.
