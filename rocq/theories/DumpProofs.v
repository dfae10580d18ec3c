From stdpp Require Import gmap.
From Coq Require Import String Lia ZifyBool ZifyNat ZifyN.
From Verif Require Import Base BaseLemmas StorageModel StorageSpec StorageProofs StorageProofs2 StorageProofs3 StorageProofs4 StorageProofs5 TextModel TextSpec TextProofs TextProofs2 TextProofs3 KeyResolverModel DumpModel DumpSpec.
Local Open Scope N_scope.

Definition sent_entry (k : key) (r : rec) : entry := mkEntry k (r_flag r) (r_expire r) (blen (r_data r)) (r_version r) 0 (r_data r).
Lemma cstr_idem k : TextModel.cstr (TextModel.cstr k) = TextModel.cstr k.
Proof. induction k as [|c k IH]; [reflexivity|]. cbn. destruct (c =? 0) eqn:E; [reflexivity|]. cbn. now rewrite E, IH. Qed.
Lemma print_sent k r : TextModel.cstr k = k -> print_response response_dump (sent_entry k r) = record_block k r.
Proof.
  intros E. unfold print_response, record_block, sent_entry. cbn [e_key e_flag e_size e_version e_expire e_data]. rewrite E. unfold sp.
  change (s2b " ") with [32]. rewrite firstn_all2 by (unfold blen; lia). rewrite <- !app_assoc. reflexivity.
Qed.

(** * What the loop sends *)
Section Loop.
  Variables (cfg : config) (ext : hash_algorithm -> bytes -> Z) (alg : hash_algorithm) (part : Z) (psize : nat).
  Notation sel := (selected cfg ext alg part psize).
  Notation loop := (dump_loop cfg ext alg part psize).

  Lemma get_dump s now e : wf_store s -> is_i64 now -> e_option e = 0 ->
    let o := get s now e 0 in
    (exists r, live s now (e_key e) r /\ o_store o = s /\ o_ret o = 0%Z /\ o_res o = Some result_none /\ o_entry o = sent_entry (e_key e) r) \/
    ((forall r, ~ live s now (e_key e) r) /\ o_ret o = 0%Z /\ o_res o = Some result_not_found /\ e_option (o_entry o) = 0 /\
     wf_store (o_store o) /\ (forall k, k <> e_key e -> db (o_store o) !! k = db s !! k) /\
     (o_store o = s \/ (exists r, holds s (e_key e) (Some r) /\ expired now r) /\ db (o_store o) !! e_key e = None)).
  Proof.
    intros W I O. cbv zeta. destruct (get_local s now e 0 W I) as (L1 & _ & L2). destruct (wf_holds s (e_key e) W) as ([r|] & Ho & Hr).
    - specialize (Hr r eq_refl). rewrite (get_some _ _ _ _ r Ho Hr) in *. change (negb (has 0 behavior_skip_timestamp)) with true in *. cbn [andb] in *.
      destruct (expired_at now (r_expire r)) eqn:E; cbn [o_store o_ret o_res o_entry] in *.
      + right. apply expired_at_spec in E. split.
        { intros r' (A & A2 & B). assert (r = r') by eauto using holds_some_fun. subst r'. auto. }
        split; [reflexivity|]. split; [reflexivity|]. split; [exact O|]. split; [exact L1|]. split; [intros k K; apply (L2 k K)|].
        right. split; [eauto|]. cbn. now rewrite lookup_delete.
      + left. exists r. split.
        { split; [exact Ho|]. split; [exact Hr|]. rewrite <- expired_at_spec. congruence. }
        split; [reflexivity|]. split; [reflexivity|]. split; [reflexivity|]. unfold sent_entry, with_data, fill. cbn. now rewrite O.
    - rewrite get_none in * by exact Ho. right. cbn in *. split; [intros r' H; eapply not_live_none; eauto|]. split; [reflexivity|]. split; [reflexivity|]. split; [exact O|]. split; [exact W|]. split; [reflexivity|now left].
  Qed.

  (** [sent] is what the rounds send. *)
  Record sends (s s' : store) (ts : list turn) (out : bytes) (x : ending) (sent : list (key * rec)) (tail : bytes) : Prop := {
    sn_out : out = record_blocks sent ++ tail;
    sn_wf : wf_store s';
    sn_from : forall k r, In (k, r) sent -> exists t, In t ts /\ turn_key t = k /\ owes sel s t r;
    sn_tail : tail = [] \/ (x = Broken /\ exists t r n, In t ts /\ owes sel s t r /\ tail = firstn n (record_block (turn_key t) r));
    sn_sub : sublist (map fst sent) (map turn_key ts);
    sn_all : x = Ended -> List.NoDup (map turn_key ts) -> forall t r, In t ts -> owes sel s t r -> In (turn_key t, r) sent;
    sn_store : same_or_gone s s' ts;
  }.
  Lemma live_db s s' now k r : db s' !! k = db s !! k -> live s' now k r -> live s now k r.
  Proof. intros E (A & B & C). split; [unfold holds in *; congruence|auto]. Qed.
  Lemma loop_ok last stop ts : forall s e, wf_store s -> e_option e = 0 -> Forall (fun t => is_i64 (t_now t)) ts ->
    let '(s', out, x) := loop s e ts last stop in exists sent tail, sends s s' ts out x sent tail.
  Proof.
    induction ts as [|t ts IH]; intros s e W O I; cbn [dump_loop].
    - exists [], []. split; [reflexivity|exact W|intros k r []|now left|constructor|intros _ _ t r []|intros k; now left].
    - destruct (t_stop t).
      { exists [], []. split; [reflexivity|exact W|intros k r []|now left|apply sublist_nil_l|discriminate|intros k; now left]. }
      set (e0 := with_key e (TextModel.cstr (t_key t))). change (e_key e0) with (turn_key t). inversion I as [|? ? It Its]; subst.
      assert (O0 : e_option e0 = 0) by exact O.
      destruct (sel (turn_key t)) as [[|]|] eqn:S0.
      3:{ exists [], []. split; [reflexivity|exact W|intros k r []|now left|apply sublist_nil_l|discriminate|intros k; now left]. }
      2:{ specialize (IH s e0 W O0 Its). destruct (loop s e0 ts last stop) as [[s' out] x]. destruct IH as (sent & tail & [A B C D E F G]). exists sent, tail. split; auto.
          - intros k r H. destruct (C k r H) as (t' & ? & ? & ?). exists t'. split; [now right|auto].
          - destruct D as [D|(D & t' & r & n & X & Y & Z)]; [now left|]. right. split; [exact D|]. exists t', r, n. split; [now right|auto].
          - cbn. now apply sublist_cons.
          - intros X ND t' r [<-|H] Ow; [destruct Ow; congruence|]. apply F; auto. now inversion ND.
          - intros k. destruct (G k) as [X|(X & t' & r & Y & Z)]; [now left|]. right. split; [exact X|]. exists t', r. split; [now right|auto]. }
      destruct (get_dump s (t_now t) e0 W It O0) as [(r & L & Es & Er & Ere & Ee)|(NL & Er & Ere & Eo & W' & Fr & St)]; cbv zeta in *; rewrite Er, Ere; cbn [Z.ltb Z.compare orb].
      + (* a record *)
        rewrite Es, Ee. change (e_key e0) with (turn_key t) in *.
        assert (PB : print_response response_dump (sent_entry (turn_key t) r) = record_block (turn_key t) r) by (apply print_sent; apply cstr_idem).
        destruct (t_sent t) as [n|].
        * exists [], (firstn n (record_block (turn_key t) r)). rewrite PB. split; [reflexivity|exact W|intros k r' []| |apply sublist_nil_l|discriminate|intros k; now left].
          right. split; [reflexivity|]. exists t, r, n. split; [now left|]. split; [split; auto|reflexivity].
        * specialize (IH s (sent_entry (turn_key t) r) W eq_refl Its). destruct (loop s (sent_entry (turn_key t) r) ts last stop) as [[s' out] x].
          destruct IH as (sent & tail & [A B C D E F G]). exists ((turn_key t, r) :: sent), tail. rewrite PB. split; auto.
          -- rewrite A. change (record_blocks ((turn_key t, r) :: sent)) with (record_block (turn_key t) r ++ record_blocks sent). now rewrite <- app_assoc.
          -- intros k r' [[= <- <-]|H]; [exists t; split; [now left|]; split; [reflexivity|split; auto]|]. destruct (C k r' H) as (t' & ? & ? & ?). exists t'. split; [now right|auto].
          -- destruct D as [D|(D & t' & r' & n & X & Y & Z)]; [now left|]. right. split; [exact D|]. exists t', r', n. split; [now right|auto].
          -- cbn. now apply sublist_skip.
          -- intros X ND t' r' [<-|H] Ow.
             ++ left. f_equal. destruct Ow as [_ (H1 & H1w & _)]. destruct L as (H2 & H2w & _). eauto using holds_some_fun.
             ++ right. apply F; auto. now inversion ND.
          -- intros k. destruct (G k) as [X|(X & t' & r' & Y & Z)]; [now left|]. right. split; [exact X|]. exists t', r'. split; [now right|auto].
      + (* nothing *)
        change (e_key e0) with (turn_key t) in *. set (o := get s (t_now t) e0 0) in *.
        specialize (IH (o_store o) (o_entry o) W' Eo Its). destruct (loop (o_store o) (o_entry o) ts last stop) as [[s' out] x].
        destruct IH as (sent & tail & [A B C D E F G]). exists sent, tail.
        assert (LV : forall k now r, live (o_store o) now k r -> live s now k r).
        { intros k now r H. destruct (List.list_eq_dec N.eq_dec k (turn_key t)) as [->|Nk]; [|eapply live_db; [apply Fr; exact Nk|exact H]].
          destruct St as [St|[_ St]]; [rewrite St in H; exact H|]. destruct H as (H & _). unfold holds in H. rewrite St in H. discriminate. }
        split; auto.
        * intros k r H. destruct (C k r H) as (t' & X & Y & Z1 & Z2). exists t'. split; [now right|]. split; [exact Y|]. split; auto.
        * destruct D as [D|(D & t' & r & n & X & [Y1 Y2] & Z)]; [now left|]. right. split; [exact D|]. exists t', r, n. split; [now right|]. split; [split; auto|exact Z].
        * cbn. now apply sublist_cons.
        * intros X ND t' r [<-|H] Ow; [destruct Ow as [_ Ow]; destruct (NL r Ow)|]. cbn in ND. apply NoDup_cons_iff in ND as [N1 N2].
          apply F; auto. destruct Ow as [Y1 Y2]. split; auto. eapply live_db; [|exact Y2]. symmetry. apply Fr. intros Eq. apply N1. rewrite <- Eq. apply in_map. exact H.
        * intros k. destruct (List.list_eq_dec N.eq_dec k (turn_key t)) as [->|Nk].
          -- destruct St as [St|[(r & Hr & Ex) St]].
             ++ rewrite St in G. destruct (G (turn_key t)) as [X|(X & t' & r & Y & Z)]; [now left|]. right. split; [exact X|]. exists t', r. split; [now right|auto].
             ++ right. split; [|exists t, r; split; [now left|]; auto]. destruct (G (turn_key t)) as [X|(X & _)]; congruence.
          -- destruct (G k) as [X|(X & t' & r & Y & Z1 & Z2 & Z3)].
             ++ left. rewrite X. now apply Fr.
             ++ right. split; [exact X|]. exists t', r. split; [now right|]. split; [exact Z1|]. split; [|exact Z3]. unfold holds in *. now rewrite <- Fr.
  Qed.
  (** When does it end regularly? *)
  Lemma loop_ended ts : forall s e, wf_store s -> e_option e = 0 -> Forall (fun t => is_i64 (t_now t) /\ t_stop t = false /\ t_sent t = None /\ sel (turn_key t) <> None) ts ->
    snd (loop s e ts iteration_end false) = Ended.
  Proof.
    induction ts as [|t ts IH]; intros s e W O I; [reflexivity|]. cbn [dump_loop]. apply Forall_cons in I as [(I1 & I2 & I3 & I4) I]. rewrite I2.
    set (e0 := with_key e (TextModel.cstr (t_key t))). change (e_key e0) with (turn_key t). assert (O0 : e_option e0 = 0) by exact O.
    destruct (sel (turn_key t)) as [[|]|] eqn:S0; [|now apply IH|congruence].
    destruct (get_dump s (t_now t) e0 W I1 O0) as [(r & L & Es & Er & Ere & Ee)|(NL & Er & Ere & Eo & W' & Fr & St)]; cbv zeta in *; rewrite Er, Ere; cbn [Z.ltb Z.compare orb].
    - rewrite Es, Ee, I3. specialize (IH s (sent_entry (e_key e0) r) W eq_refl I). destruct (loop s (sent_entry (e_key e0) r) ts iteration_end false) as [[s' out] x]. exact IH.
    - apply IH; auto.
  Qed.
End Loop.

(** * What the receiver does *)
Lemma has_dump : has behavior_dump behavior_add = false /\ has behavior_dump behavior_replace = false /\ has behavior_dump behavior_touch = false /\
  has behavior_dump behavior_cas = false /\ has behavior_dump behavior_append = false /\ has behavior_dump behavior_prepend = false /\
  has behavior_dump behavior_skip_version = false /\ has behavior_dump behavior_dump = true /\ has behavior_dump behavior_skip_timestamp = false /\
  has behavior_dump (N.lor behavior_append (N.lor behavior_prepend behavior_touch)) = false /\ has behavior_dump (N.lor behavior_append behavior_prepend) = false.
Proof. repeat split; reflexivity. Qed.
Lemma set_dump s now k r : wf_store s -> wf_rec r -> 0 < r_version r -> exists o v, set s now (sent_entry k r) behavior_dump = Some o /\ wf_store (o_store o) /\ knows s k v /\
  o_store o = if v <? r_version r then set_db s (<[k := encode_rec r]> (db s)) else s.
Proof.
  intros W Wr V. unfold set. destruct has_dump as (H1 & H2 & H3 & H4 & H5 & H6 & H7 & H8 & H9 & H10 & H11).
  cbn [e_key sent_entry]. unfold current_entry. rewrite H10.
  assert (KN : knows s k (e_version (fst (get_header s k (empty_entry []))))).
  { destruct (wf_holds s k W) as ([r0|] & Ho & Hr).
    - specialize (Hr r0 eq_refl). rewrite (get_header_some _ _ _ _ Ho Hr). left. exists r0. auto.
    - rewrite get_header_none by exact Ho. right. cbn [fst]. destruct (tomb s k) as [[x v]|] eqn:T; [left|right]; eauto. }
  destruct (get_header s k (empty_entry [])) as [cur ex]. cbn [fst] in KN. rewrite H1, H2, H3, H11. cbn [andb].
  unfold next_version. rewrite H4, H3, H7, H8. cbn [e_version sent_entry]. replace (r_version r =? 0) with false by lia. cbn [negb andb]. rewrite orb_true_r. cbn [andb].
  destruct (r_version r <=? e_version cur) eqn:L.
  - exists (mkOut s 0 (Some result_not_stored) (sent_entry k r)), (e_version cur). split; [reflexivity|]. split; [exact W|]. split; [exact KN|]. cbn. replace (e_version cur <? r_version r) with false by lia. reflexivity.
  - cbv zeta. change (with_version (sent_entry k r) (r_version r)) with (sent_entry k r). change (e_data (sent_entry k r)) with (r_data r). change (e_size (sent_entry k r)) with (blen (r_data r)).
    rewrite memcpy_all. rewrite (ser_header_encode (sent_entry k r) (r_data r)); [|apply wf_rec_len; exact Wr|reflexivity].
    change (e_flag (sent_entry k r)) with (r_flag r). change (e_expire (sent_entry k r)) with (r_expire r). change (e_version (sent_entry k r)) with (r_version r).
    replace (mkRec (r_flag r) (r_expire r) (r_version r) (r_data r)) with r by now destruct r.
    unfold db_put. rewrite blen_encode. pose proof Wr as Wr0. destruct Wr as (W1 & W2 & W3 & W4 & W5). replace (28 + blen (r_data r) <=? 2147483647) with true by lia.
    do 2 eexists. split; [reflexivity|]. split; [cbn; apply insert_wf; assumption|]. split; [exact KN|]. cbn. replace (e_version cur <? r_version r) with true by lia. reflexivity.
Qed.
Lemma sent_sendable k r : portable k r -> wf_rec r -> sendable (sent_entry k r).
Proof. intros (P1 & P2 & P3) (W1 & W2 & W3 & W4 & W5). split; cbn [e_key e_flag e_expire e_size e_version e_option e_data sent_entry]; [exact P1|exact W1|exact P2|reflexivity|clear - W4; lia|exact W3|reflexivity]. Qed.
Lemma legal_cstr k : legal_key k -> TextModel.cstr k = k. Proof. intros H. apply cstr_key. apply H. Qed.

(** header line and data of a block *)
Definition head_line (k : key) (r : rec) : bytes :=
  32 :: k ++ 32 :: dec (r_flag r) ++ 32 :: dec (blen (r_data r)) ++ 32 :: dec (r_version r) ++ 32 :: decZ (r_expire r).
Lemma block_split k r : record_block k r = (s2b "VALUE" ++ head_line k r) ++ crlf ++ (r_data r ++ crlf).
Proof. unfold record_block, head_line. change (s2b "VALUE ") with (s2b "VALUE" ++ [32]). change (s2b " ") with [32]. repeat (rewrite <- ?app_assoc; cbn [app]). reflexivity. Qed.
Lemma head_no_lf k r : portable k r -> wf_rec r -> no_lf (s2b "VALUE" ++ head_line k r).
Proof.
  intros (Hl & _) W. destruct Hl as (_ & Hl & _). apply Forall_app. split; [vm_compute; repeat constructor; discriminate|]. unfold head_line. nolf.
Qed.
Lemma client_line rs rd s k r str : portable k r -> wf_rec r -> no_stop rd ->
  dump_client (rd :: rs) s ((s2b "VALUE" ++ head_line k r) ++ crlf ++ str) =
  match get_bytes (blen (r_data r) + 2) str with
  | Undef => DUndef | Err => DFail s
  | Ok (d, str) => match set s (r_now rd) (with_data (sent_entry k r) (firstn (N.to_nat (blen (r_data r))) d)) behavior_dump with None => DUndef | Some o => dump_client rs (o_store o) str end
  end.
Proof.
  intros P W [N1 N2]. cbn [dump_client]. rewrite N1, get_line_ok by (now apply head_no_lf). rewrite N2.
  replace (beq (TextModel.cstr ((s2b "VALUE" ++ head_line k r) ++ [10])) (s2b "END" ++ [10])) with false by (vm_compute; reflexivity).
  rewrite <- app_assoc. change (s2b "VALUE" ++ head_line k r ++ [10]) with (repeat 32 0 ++ s2b "VALUE" ++ (head_line k r ++ [10])).
  rewrite call_word_token.
  2:{ vm_compute; repeat constructor; discriminate. } 2:{ discriminate. } 2:{ vm_compute; discriminate. }
  2:{ unfold head_line. cbn [app]. unfold word_byte. lia. }
  cbn [negb]. change (negb (beq (s2b "VALUE") (s2b "VALUE"))) with false. cbn match.
  assert (EP : parse_entry (r_now rd) parse_get (head_line k r ++ [10]) = Ok (with_data (seen response_dump (sent_entry k r)) [])).
  { rewrite <- (value_line (r_now rd) response_dump (sent_entry k r) (sent_sendable k r P W)). f_equal. unfold head_line. cbn [e_key e_flag e_size e_version e_expire sent_entry]. repeat (rewrite <- ?app_assoc; cbn [app]). reflexivity. }
  rewrite EP. reflexivity.
Qed.
Lemma client_block rs rd s k r str : portable k r -> wf_rec r -> no_stop rd ->
  dump_client (rd :: rs) s (record_block k r ++ str) = match set s (r_now rd) (sent_entry k r) behavior_dump with None => DUndef | Some o => dump_client rs (o_store o) str end.
Proof.
  intros P W NS. rewrite block_split. rewrite <- !app_assoc. rewrite (app_assoc (s2b "VALUE")). rewrite client_line by auto.
  assert (blen (r_data r) <= 2147483645) by (destruct W as (_ & _ & _ & W & _); lia). rewrite app_assoc. rewrite <- app_assoc. rewrite get_bytes_ok by lia.
  rewrite firstn_blen. reflexivity.
Qed.
Lemma get_line_none s : no_lf s -> get_line s = Err.
Proof. unfold get_line. intros H. replace (cut_line s) with (@None (bytes * bytes)); [reflexivity|]. symmetry. induction H as [|c s Hc Hs IH]; [reflexivity|]. cbn. replace (c =? 10) with false by lia. now rewrite IH. Qed.
Lemma client_no_lf rs s str : Forall no_stop rs -> no_lf str -> forall s' rest, dump_client rs s str <> DDone s' rest.
Proof. intros F H s' rest. destruct rs as [|rd rs]; [discriminate|]. apply Forall_cons in F as [[N1 N2] _]. cbn [dump_client]. rewrite N1, get_line_none by exact H. discriminate. Qed.
Lemma no_lf_firstn n s : no_lf s -> no_lf (firstn n s). Proof. intros H. now apply Forall_take. Qed.
Lemma firstn_app_cases {A} n (a b : list A) : ((n < List.length a)%nat /\ firstn n (a ++ b) = firstn n a) \/ ((List.length a <= n)%nat /\ firstn n (a ++ b) = a ++ firstn (n - List.length a) b).
Proof. destruct (Nat.lt_ge_cases n (List.length a)); [left|right]; (split; [assumption|]); rewrite firstn_app; [replace (n - List.length a)%nat with 0%nat by lia; cbn; now rewrite app_nil_r|now rewrite firstn_all2]. Qed.
(** a block that does not arrive completely *)
Lemma client_cut_block rs s k r n : Forall no_stop rs -> portable k r -> wf_rec r -> (n < List.length (record_block k r))%nat ->
  forall s' rest, dump_client rs s (firstn n (record_block k r)) <> DDone s' rest.
Proof.
  intros F P W L s' rest. rewrite block_split in *. destruct (firstn_app_cases n (s2b "VALUE" ++ head_line k r) (crlf ++ r_data r ++ crlf)) as [[H E]|[H E]]; rewrite E.
  - apply client_no_lf; auto. apply no_lf_firstn. now apply head_no_lf.
  - rewrite app_length in L. remember (n - List.length (s2b "VALUE" ++ head_line k r))%nat as m0 eqn:Em. destruct m0 as [|[|m]].
    + apply client_no_lf; auto. rewrite firstn_O, app_nil_r. now apply head_no_lf.
    + apply client_no_lf; auto. apply Forall_app. split; [now apply head_no_lf|]. cbn. repeat constructor. discriminate.
    + destruct rs as [|rd rs]; [discriminate|]. apply Forall_cons in F as [NS F]. change (firstn (S (S m)) (crlf ++ r_data r ++ crlf)) with (crlf ++ firstn m (r_data r ++ crlf)).
      rewrite client_line by auto. assert (Lm : (m < List.length (r_data r ++ crlf))%nat) by (cbn [List.length app crlf] in L; lia).
      unfold get_bytes. assert (blen (r_data r) <= 2147483645) by (destruct W as (_ & _ & _ & W & _); lia). unfold int_max. replace (2147483647 <? blen (r_data r) + 2) with false by lia.
      replace (blen (r_data r) + 2 <=? blen (firstn m (r_data r ++ crlf))) with false; [discriminate|]. symmetry. apply N.leb_gt. unfold blen. rewrite firstn_length. rewrite app_length in *. cbn [List.length crlf] in *. lia.
Qed.

(** All records of a list, one after the other. *)
Record received (s : store) (sent : list (key * rec)) (s' : store) : Prop := {
  rc_wf : wf_store s';
  rc_new : forall k r v, In (k, r) sent -> knows s k v -> v < r_version r -> holds s' k (Some r);
  rc_old : forall k r v, In (k, r) sent -> knows s k v -> r_version r <= v -> db s' !! k = db s !! k;
  rc_other : forall k, ~ In k (map fst sent) -> db s' !! k = db s !! k;
}.
Lemma knows_frame s k r k' v : k' <> k -> knows s k' v -> knows (set_db s (<[k := encode_rec r]> (db s))) k' v.
Proof.
  intros N0. assert (E : forall o, holds (set_db s (<[k := encode_rec r]> (db s))) k' o <-> holds s k' o) by (intros o; unfold holds; cbn; now rewrite lookup_insert_ne by congruence).
  intros [(r' & A & B)|[(A & B)|(A & B)]]; [left; exists r'|right; left|right; right]; rewrite E; auto.
Qed.
Lemma client_blocks sent : forall rs s str, wf_store s -> Forall no_stop rs -> List.NoDup (map fst sent) -> (forall k r, In (k, r) sent -> portable k r /\ wf_rec r) ->
  (List.length sent <= List.length rs)%nat -> exists s', received s sent s' /\ dump_client rs s (record_blocks sent ++ str) = dump_client (skipn (List.length sent) rs) s' str.
Proof.
  induction sent as [|[k r] sent IH]; intros rs s str W F ND P L.
  - exists s. split; [|reflexivity]. split; auto; intros ? ? ? [].
  - destruct rs as [|rd rs]; [cbn in L; lia|]. apply Forall_cons in F as [NS F]. destruct (P k r (or_introl eq_refl)) as [Pk Wr]. cbn [map fst] in ND. apply NoDup_cons_iff in ND as [N1 N2].
    change (record_blocks ((k, r) :: sent)) with (record_block k r ++ record_blocks sent). rewrite <- app_assoc. rewrite client_block by auto.
    destruct (set_dump s (r_now rd) k r W Wr) as (o & v & E & W' & Kn & Es); [apply Pk|]. rewrite E.
    destruct (IH rs (o_store o) str W' F N2) as (s' & R & D); [intros k' r' H; apply P; now right|cbn in L; lia|]. exists s'. split; [|exact D]. destruct R as [R1 R2 R3 R4].
    assert (Fk : forall k' w, k' <> k -> knows s k' w -> knows (o_store o) k' w). { intros k' w X Y. rewrite Es. destruct (v <? r_version r); [now apply knows_frame|exact Y]. }
    assert (Fd : forall k', k' <> k -> db (o_store o) !! k' = db s !! k'). { intros k' X. rewrite Es. destruct (v <? r_version r); [cbn; now rewrite lookup_insert_ne by congruence|reflexivity]. }
    split; auto.
    + intros k' r' w [[= <- <-]|H] K Lt.
      * unfold holds. rewrite R4 by exact N1. rewrite Es. rewrite (knows_fun _ _ _ _ K Kn) in Lt. replace (v <? r_version r) with true by lia. cbn. now rewrite lookup_insert.
      * assert (k' <> k) by (intros ->; apply N1; apply (in_map fst) in H; exact H). eapply R2; eauto.
    + intros k' r' w [[= <- <-]|H] K Lt.
      * rewrite R4 by exact N1. rewrite Es. rewrite (knows_fun _ _ _ _ K Kn) in Lt. replace (v <? r_version r) with false by lia. reflexivity.
      * assert (k' <> k) by (intros ->; apply N1; apply (in_map fst) in H; exact H). rewrite <- Fd by auto. eapply R3; eauto.
    + intros k' H. cbn in H. rewrite R4 by tauto. apply Fd. intros ->. tauto.
Qed.
Lemma client_few sent : forall rs s str, wf_store s -> Forall no_stop rs -> (forall k r, In (k, r) sent -> portable k r /\ wf_rec r) ->
  (List.length rs <= List.length sent)%nat -> forall s' rest, dump_client rs s (record_blocks sent ++ str) <> DDone s' rest.
Proof.
  induction sent as [|[k r] sent IH]; intros rs s str W F P L s' rest.
  - destruct rs; [discriminate|cbn in L; lia].
  - destruct rs as [|rd rs]; [discriminate|]. apply Forall_cons in F as [NS F]. destruct (P k r (or_introl eq_refl)) as [Pk Wr].
    change (record_blocks ((k, r) :: sent)) with (record_block k r ++ record_blocks sent). rewrite <- app_assoc. rewrite client_block by auto.
    destruct (set_dump s (r_now rd) k r W Wr) as (o & v & E & W' & Kn & Es); [apply Pk|]. rewrite E. apply IH; auto; [intros; apply P; now right|cbn in L; lia].
Qed.
(** the end of the stream *)
Lemma client_end rs rd s : no_stop rd -> dump_client (rd :: rs) s (last_line Ended) = DDone s [].
Proof. intros [N1 N2]. cbn [dump_client]. rewrite N1. change (get_line (last_line Ended)) with (Ok (s2b "END" ++ [10], @nil N)). now rewrite N2. Qed.
Lemma client_error rs s x : Forall no_stop rs -> x <> Ended -> forall s' rest, dump_client rs s (last_line x) <> DDone s' rest.
Proof.
  intros F N0 s' rest. destruct rs as [|rd rs]; [discriminate|]. apply Forall_cons in F as [[N1 N2] _]. cbn [dump_client]. rewrite N1. destruct x; try congruence.
  - change (get_line (last_line Interrupted)) with (Ok (s2b "SERVER_ERROR operation interrupted" ++ [10], @nil N)). rewrite N2. vm_compute. discriminate.
  - change (get_line (last_line Canceled)) with (Ok (s2b "SERVER_ERROR iteration canceled" ++ [10], @nil N)). rewrite N2. vm_compute. discriminate.
  - discriminate.
  - discriminate.
Qed.
Lemma last_cut n x : (n < List.length (last_line x))%nat -> no_lf (firstn n (last_line x)).
Proof.
  intros L. assert (E : last_line x = (removelast (last_line x)) ++ [10] \/ last_line x = []) by (destruct x; vm_compute; auto).
  destruct E as [E|E]; [|rewrite E in L; cbn in L; lia]. rewrite E in *. rewrite app_length in L. cbn in L. rewrite firstn_app. replace (n - List.length (removelast (last_line x)))%nat with 0%nat by lia.
  cbn. rewrite app_nil_r. apply no_lf_firstn. destruct x; vm_compute; repeat constructor; discriminate.
Qed.
(** a stream that does not arrive completely *)
Lemma client_cut sent : forall rs s n str, wf_store s -> Forall no_stop rs -> (forall k r, In (k, r) sent -> portable k r /\ wf_rec r) ->
  (n < List.length (record_blocks sent ++ str))%nat ->
  (forall rs s m, Forall no_stop rs -> wf_store s -> (m < List.length str)%nat -> forall s' rest, dump_client rs s (firstn m str) <> DDone s' rest) ->
  forall s' rest, dump_client rs s (firstn n (record_blocks sent ++ str)) <> DDone s' rest.
Proof.
  induction sent as [|[k r] sent IH]; intros rs s n str W F P L T s' rest.
  - now apply T.
  - destruct (P k r (or_introl eq_refl)) as [Pk Wr]. change (record_blocks ((k, r) :: sent)) with (record_block k r ++ record_blocks sent) in *. rewrite <- app_assoc in *.
    destruct (firstn_app_cases n (record_block k r) (record_blocks sent ++ str)) as [[H E]|[H E]]; rewrite E.
    + now apply client_cut_block.
    + destruct rs as [|rd rs]; [discriminate|]. apply Forall_cons in F as [NS F]. rewrite client_block by auto.
      destruct (set_dump s (r_now rd) k r W Wr) as (o & v & Eo & W' & Kn & Es); [apply Pk|]. rewrite Eo. apply IH; auto; [intros; apply P; now right|]. rewrite app_length in L. lia.
Qed.

(** * Both ends together *)
Section Both.
  Variables (cfg : config) (ext : hash_algorithm -> bytes -> Z) (alg : hash_algorithm) (part : Z) (psize : nat).
  Notation sel := (selected cfg ext alg part psize).
  Notation server := (dump_server cfg ext alg part psize).

  Lemma sublist_NoDup {A} (l k : list A) : sublist l k -> List.NoDup k -> List.NoDup l.
  Proof.
    induction 1 as [|x l k S0 IH|x l k S0 IH]; intros H; [constructor| |inversion H; auto]. inversion H as [|? ? H1 H2]; subst. constructor; [|auto].
    intros X. apply H1. apply elem_of_list_In. eapply elem_of_submseteq; [|apply sublist_submseteq; exact S0]. now apply elem_of_list_In.
  Qed.

  Lemma reconstruct_complete s ts last stop s' out x n rs s2 s2' rest :
    wf_store s -> wf_store s2 -> Forall (fun t => is_i64 (t_now t)) ts -> List.NoDup (map turn_key ts) ->
    (forall t r, In t ts -> owes sel s t r -> portable (turn_key t) r) ->
    server s ts last stop = (s', out, x) -> Forall no_stop rs ->
    dump_client rs s2 (firstn n out) = DDone s2' rest ->
    x = Ended /\ rest = [] /\
    (forall t r v, In t ts -> owes sel s t r -> knows s2 (turn_key t) v -> v < r_version r -> holds s2' (turn_key t) (Some r)) /\
    (forall t r v, In t ts -> owes sel s t r -> knows s2 (turn_key t) v -> r_version r <= v -> db s2' !! turn_key t = db s2 !! turn_key t) /\
    (forall k, (forall t r, In t ts -> turn_key t = k -> ~ owes sel s t r) -> db s2' !! k = db s2 !! k).
  Proof.
    intros W W2 I ND P Sv NS D. unfold dump_server in Sv. pose proof (loop_ok cfg ext alg part psize last stop ts s (empty_entry []) W eq_refl I) as L.
    destruct (dump_loop cfg ext alg part psize s (empty_entry []) ts last stop) as [[s0 out0] x0]. injection Sv as -> <- ->. destruct L as (sent & tail & [A B C T E F G]).
    assert (PW : forall k r, In (k, r) sent -> portable k r /\ wf_rec r).
    { intros k r H. destruct (C k r H) as (t & H1 & <- & H2). split; [now apply P|]. destruct H2 as [_ (_ & H2 & _)]. exact H2. }
    assert (NDs : List.NoDup (map fst sent)) by (eapply sublist_NoDup; eauto).
    assert (CUT : forall rs s m, Forall no_stop rs -> wf_store s -> (m < List.length (tail ++ last_line x))%nat -> forall s' rest, dump_client rs s (firstn m (tail ++ last_line x)) <> DDone s' rest).
    { intros rs0 s1 m F0 W1 Lm s1' rest'. destruct T as [-> |(-> & t & r & n0 & H1 & H2 & ->)].
      - cbn [app] in *. apply client_no_lf; auto. now apply last_cut.
      - cbn [last_line app] in *. rewrite app_nil_r in *. rewrite firstn_firstn. apply client_cut_block; auto; [apply H2|]. rewrite firstn_length in Lm. lia. }
    rewrite A in D. rewrite <- app_assoc in D. destruct (Nat.lt_ge_cases n (List.length (record_blocks sent ++ tail ++ last_line x))) as [Lt|Ge].
    { exfalso. exact (client_cut sent rs s2 n _ W2 NS PW Lt CUT _ _ D). }
    rewrite firstn_all2 in D by exact Ge. destruct (Nat.le_gt_cases (List.length rs) (List.length sent)) as [Le|Gt].
    { exfalso. exact (client_few sent rs s2 _ W2 NS PW Le _ _ D). }
    destruct (client_blocks sent rs s2 (tail ++ last_line x) W2 NS NDs PW) as (s3 & R & E3); [lia|]. rewrite E3 in D.
    assert (NS' : Forall no_stop (skipn (List.length sent) rs)) by now apply Forall_drop.
    assert (x = Ended) as ->.
    { destruct T as [-> |(-> & t & r & n0 & H1 & H2 & ->)].
      - destruct x; auto; exfalso; refine (client_error _ _ _ NS' _ _ _ D); discriminate.
      - exfalso. cbn [last_line app] in D. rewrite app_nil_r in D. destruct H2 as [H2 H3]. destruct (Nat.lt_ge_cases n0 (List.length (record_block (turn_key t) r))) as [X|X].
        + refine (client_cut_block _ _ _ _ _ NS' (P t r H1 (conj H2 H3)) _ X _ _ D). apply H3.
        + rewrite firstn_all2 in D by exact X. destruct (skipn (List.length sent) rs) as [|rd rs']; [discriminate|]. apply Forall_cons in NS' as [N1 N2].
          rewrite <- (app_nil_r (record_block _ _)) in D. rewrite client_block in D; [|apply P; [exact H1|split; auto]|apply H3|exact N1].
          destruct (set _ _ _ _) as [o|]; [|discriminate]. refine (client_no_lf _ _ _ N2 _ _ _ D). constructor. }
    assert (tail = []) as -> by (destruct T as [T|(T & _)]; [exact T|discriminate]). cbn [app] in D.
    destruct (skipn (List.length sent) rs) as [|rd rs'] eqn:SK; [apply (f_equal List.length) in SK; rewrite skipn_length in SK; cbn in SK; lia|].
    apply Forall_cons in NS' as [N1 N2]. rewrite client_end in D by exact N1. injection D as <- <-. destruct R as [R1 R2 R3 R4].
    split; [reflexivity|]. split; [reflexivity|]. split; [|split].
    - intros t r v H1 H2 K V. eapply R2; eauto.
    - intros t r v H1 H2 K V. eapply R3; eauto.
    - intros k H. apply R4. intros X. apply in_map_iff in X as ([k' r] & E1 & X). cbn in E1. subst k'. destruct (C k r X) as (t & Y & Z & V). exact (H t r Y Z V).
  Qed.

  Lemma reconstruct_succeeds s ts s' out rs s2 :
    wf_store s -> wf_store s2 -> List.NoDup (map turn_key ts) ->
    Forall (fun t => is_i64 (t_now t) /\ t_stop t = false /\ t_sent t = None /\ sel (turn_key t) <> None) ts ->
    (forall t r, In t ts -> owes sel s t r -> portable (turn_key t) r) ->
    (exists x, server s ts iteration_end false = (s', out, x)) -> Forall no_stop rs -> (List.length ts < List.length rs)%nat ->
    exists s2', dump_client rs s2 out = DDone s2' [].
  Proof.
    intros W W2 ND I P (x & Sv) NS Lr. unfold dump_server in Sv.
    assert (I' : Forall (fun t => is_i64 (t_now t)) ts) by (eapply Forall_impl; [exact I|]; cbn; tauto).
    pose proof (loop_ok cfg ext alg part psize iteration_end false ts s (empty_entry []) W eq_refl I') as L.
    pose proof (loop_ended cfg ext alg part psize ts s (empty_entry []) W eq_refl I) as X.
    destruct (dump_loop cfg ext alg part psize s (empty_entry []) ts iteration_end false) as [[s0 out0] x0]. cbn [snd] in X. assert (Eo : out = out0 ++ last_line x0) by congruence. clear Sv. subst x0 out. destruct L as (sent & tail & [A B C T E F G]).
    assert (tail = []) as -> by (destruct T as [T|(T & _)]; [exact T|discriminate]). rewrite app_nil_r in A. subst out0.
    assert (PW : forall k r, In (k, r) sent -> portable k r /\ wf_rec r).
    { intros k r H. destruct (C k r H) as (t & H1 & <- & H2). split; [now apply P|]. destruct H2 as [_ (_ & H2 & _)]. exact H2. }
    assert (Ls : (List.length sent <= List.length ts)%nat) by (apply sublist_length in E; now rewrite !map_length in E).
    destruct (client_blocks sent rs s2 (last_line Ended) W2 NS) as (s3 & R & E3); [eapply sublist_NoDup; eauto|exact PW|lia|]. rewrite E3.
    assert (NS' : Forall no_stop (skipn (List.length sent) rs)) by now apply Forall_drop.
    destruct (skipn (List.length sent) rs) as [|rd rs'] eqn:SK; [apply (f_equal List.length) in SK; rewrite skipn_length in SK; cbn in SK; lia|].
    apply Forall_cons in NS' as [N1 N2]. exists s3. now apply client_end.
  Qed.
End Both.
