(** C79: a record that cannot be read. *)
From stdpp Require Import gmap.
From Coq Require Import String Lia.
From Coq Require Import ZifyBool ZifyNat ZifyN.
From Verif Require Import Base BaseLemmas StorageModel StorageSpec TextModel ServerModel FailModel FailSpec BlindModel Props_Fail.
Local Open Scope N_scope.

(** The requests that do nothing to a key without a record. *)
Definition needs_record (r : request) (k : bytes) : Prop :=
  match r with
  | RStore ident e => In ident [s2b "replace"; s2b "append"; s2b "prepend"] /\ e_key e = k
  | RDelete e | RTouch _ e | RIncr _ e _ => e_key e = k
  | RGet _ keys => keys = [k]
  | _ => False
  end.
Lemma blind_none s k : db (blind s k) !! k = None.
Proof. unfold blind, set_db. cbn [db]. apply lookup_delete. Qed.
Lemma kept_blind s k c h : db (kept s k (mkStore (delete k (db s)) c h)) = db s.
Proof.
  unfold kept, set_db. cbn [db]. rewrite lookup_delete. destruct (db s !! k) eqn:E; cbn [db]; [now rewrite insert_delete|]. now apply delete_notin.
Qed.
Definition same_db (s : store) (k : bytes) (t : store) : Prop := db t = delete k (db s).
Lemma kept_same s k t : same_db s k t -> db (kept s k t) = db s.
Proof. intros E. destruct t as [d c h]. unfold same_db in E. cbn [db] in E. subst d. apply kept_blind. Qed.
Lemma header_db s now k e : db (set_header_cache s now k e) = db s.
Proof. unfold set_header_cache. repeat match goal with |- context [if ?c then _ else _] => destruct c | |- context [match ?c with _ => _ end] => destruct c end; reflexivity. Qed.
(** What [set] does without the record, if it must be there. *)
Lemma set_blind s now e b : has b behavior_replace = true \/ has b behavior_touch = true ->
  exists o, set_f (writes fine) (blind s (e_key e)) now e b = Some (o, false) /\ o_store o = blind s (e_key e) /\ o_ret o = 0%Z /\
    (o_res o = Some result_not_stored \/ o_res o = Some result_not_found).
Proof.
  intros H. unfold set_f. assert (C : exists cur, current_entry_f (writes fine) (blind s (e_key e)) now (e_key e) b = (blind s (e_key e), cur, false, false)).
  { unfold current_entry_f, get_f, get_header. change (e_key (empty_entry (e_key e))) with (e_key e). rewrite blind_none. destruct (has b (N.lor behavior_append _)); eexists; reflexivity. }
  destruct C as (cur & ->). assert (A : cur_state_eqb (current_state now b cur false) st_alive = false) by (unfold current_state; destruct (_ && _); reflexivity).
  rewrite A. destruct (has b behavior_add && _); [eexists; split; [reflexivity|]; cbn; auto|].
  destruct (has b behavior_replace) eqn:R; cbn [negb andb]; [eexists; split; [reflexivity|]; cbn; auto|].
  destruct H as [H|H]; [discriminate H|]. rewrite H. cbn [negb andb]. eexists. split; [reflexivity|]. cbn. auto.
Qed.

(** A request that needs the record of its key is answered as if there were none; the records stay as they are, nothing is sent to
    the replicas; and the failure is not noted: pings are answered as before. *)
Theorem c79_unread now n r k : needs_record r k -> exists p n', serve_blind now n r = Ok (p, n') /\
  p_store p = n_store n' /\ db (n_store n') = db (n_store n) /\ p_forward p = None /\ n_healthy n' = n_healthy n /\
  match r with RGet _ _ => p_answer p = s2b "END" ++ crlf | _ => In (p_answer p) refusals end.
Proof.
  intros Hn. assert (K : only_key r = Some k) by (destruct r; cbn [needs_record only_key] in *; try contradiction; subst; try reflexivity; destruct Hn as [_ <-]; reflexivity).
  unfold serve_blind. rewrite K. destruct n as [s h]. cbn [n_store n_healthy] in *.
  assert (G : exists q t, serve fine now (mkNode (blind s k) h) r = Ok (q, t) /\ same_db s k (p_store q) /\ p_forward q = None /\ n_healthy t = h /\ match r with RGet _ _ => p_answer q = s2b "END" ++ crlf | _ => In (p_answer q) refusals end).
  { unfold refusals. destruct r as [ident e|e|ident e|ident e v|ident keys|w|nr|nr|w]; cbn [needs_record only_key] in Hn, K; try contradiction; try discriminate K.
    - injection K as <-. assert (B : has (store_behavior ident) behavior_replace = true) by (destruct Hn as [Hn _]; cbn [In] in Hn; decompose [or] Hn; subst; try contradiction; reflexivity).
      destruct (set_blind s now e (store_behavior ident) (or_introl B)) as (o & S & O1 & O2 & O3). cbn [serve n_store]. rewrite S. unfold with_outcome, finish. rewrite O2. cbn [Z.ltb Z.compare].
      destruct O3 as [O3|O3]; rewrite O3; cbn [told bind n_healthy negb]; do 2 eexists; (split; [reflexivity|]); cbn [p_store p_forward p_answer n_healthy is_stored]; rewrite O1, andb_true_r; (split; [reflexivity|]); (split; [reflexivity|]); (split; [reflexivity|]);
        destruct (noreply _); cbn [In]; auto.
    - injection K as <-. cbn [serve n_store]. unfold with_outcome, remove_f, get_header. rewrite blind_none.
      assert (X : forall t, same_db s (e_key e) t -> exists q u, told (mkNode (blind s (e_key e)) h) (finish (mkOut t 0 (Some result_not_found) e) is_deleted (s2b "delete") answer_line) false = Ok (q, u) /\
        same_db s (e_key e) (p_store q) /\ p_forward q = None /\ n_healthy u = h /\ In (p_answer q) [[]; answer_line result_not_stored; answer_line result_not_found]).
      { intros t T. unfold finish. cbn [o_ret o_res o_store o_entry Z.ltb Z.compare told bind]. do 2 eexists. split; [reflexivity|]. cbn [p_store p_forward p_answer n_healthy is_deleted negb]. rewrite andb_true_r.
        repeat (split; [first [exact T|reflexivity]|]). destruct (noreply e); cbn [In]; auto. }
      destruct (_ && _ && _); [apply X; reflexivity|]. cbn [negb]. cbv iota. apply X. destruct (negb (e_version e =? 0)); [|reflexivity]. unfold same_db. rewrite header_db. reflexivity.
    - injection K as <-. destruct (set_blind s now e behavior_touch (or_intror eq_refl)) as (o & S & O1 & O2 & O3). cbn [serve n_store]. rewrite S. unfold with_outcome, finish. rewrite O2. cbn [Z.ltb Z.compare].
      destruct O3 as [O3|O3]; rewrite O3; cbn [told bind n_healthy negb]; do 2 eexists; (split; [reflexivity|]); cbn [p_store p_forward p_answer n_healthy is_stored]; rewrite O1, !andb_true_r, ?andb_false_r; (split; [reflexivity|]); (split; [reflexivity|]); (split; [reflexivity|]);
        destruct (noreply _); cbn [In]; auto.
    - injection K as <-. cbn [serve n_store]. unfold with_outcome, incr_f. rewrite blind_none. unfold finish. cbn [o_ret o_res o_store o_entry Z.ltb Z.compare told bind]. do 2 eexists. split; [reflexivity|].
      cbn [p_store p_forward p_answer n_healthy is_stored negb]. rewrite andb_true_r. repeat (split; [reflexivity|]). destruct (noreply e); cbn [In]; auto.
    - destruct keys as [|k' [|? ?]]; try discriminate K. injection K as ->. cbn [serve n_store run_get_f]. unfold get_f. change (e_key (empty_entry k)) with k. rewrite blind_none.
      cbn [o_store o_res told bind]. do 2 eexists. split; [reflexivity|]. cbn [p_store p_forward p_answer n_healthy orb negb]. rewrite andb_true_r. repeat (split; [reflexivity|]). reflexivity. }
  destruct G as (q & t & S & D & F & Hh & A). rewrite S. cbn [bind]. do 2 eexists. split; [reflexivity|]. cbn [n_store n_healthy p_store p_forward p_answer]. split; [reflexivity|]. split; [now apply kept_same|auto].
Qed.
Print Assumptions c79_unread.
Example c79_unread_met : let r := RIncr (s2b "incr") (mkEntry key_a 0 0 0 0 0 []) 1 in needs_record r key_a /\
  exists p n', serve_blind 100 (mkNode stored_a true) r = Ok (p, n') /\ p_answer p = s2b "NOT_FOUND" ++ crlf.
Proof. split; [reflexivity|]. do 2 eexists. split; [vm_compute; reflexivity|reflexivity]. Qed.
(** Otherwise the record is lost: an add is stored over a record that is there, the client is told STORED, its version starts again, and pings
    are answered OK; a replica that is sent the new record keeps its own, which is newer by its version. *)
Theorem c79_unread_refuted : exists n p n' e, serve_blind 100 n add_a = Ok (p, n') /\ live (n_store n) 100 key_a (mkRec 7 0 3 (s2b "one")) /\
  p_answer p = answer_line result_stored /\ n_healthy n' = true /\ live (n_store n') 100 key_a (mkRec 0 0 1 (s2b "new")) /\
  p_forward p = Some (s2b "add", e) /\ run_request 100 (n_store n) (RStore (s2b "set") e) = Ok (mkReply (n_store n) (answer_line result_not_stored) None).
Proof.
  exists (mkNode stored_a true). do 3 eexists. split; [vm_compute; reflexivity|]. split; [split; [vm_compute; reflexivity|split; [unfold wf_rec, is_i64, wf_bytes; cbn [r_flag r_expire r_version r_data]; repeat split; try (vm_compute; congruence); repeat constructor|intros X; unfold expired in X; cbn in X; lia]]|]. split; [reflexivity|]. split; [reflexivity|].
  split; [split; [vm_compute; reflexivity|split; [unfold wf_rec, is_i64, wf_bytes; cbn [r_flag r_expire r_version r_data]; repeat split; try (vm_compute; congruence); repeat constructor|intros X; unfold expired in X; cbn in X; lia]]|]. split; [reflexivity|]. vm_compute. reflexivity.
Qed.
Print Assumptions c79_unread_refuted.
(** It is so for every node, every record and every set or add of a client: what is stored starts again with the version 1, the
    client is told STORED, pings are answered as before, and a replica with the same records refuses what it is sent. *)
Theorem c79_overwritten_refuted now n ident e : In ident [s2b "set"; s2b "add"] -> wf_entry e -> e_version e = 0 -> blen (e_data e) <= 2147483619 -> tomb (n_store n) (e_key e) = None ->
  exists p n', serve_blind now n (RStore ident e) = Ok (p, n') /\ p_store p = n_store n' /\ n_healthy n' = n_healthy n /\
  db (n_store n') = <[e_key e := encode_rec (mkRec (e_flag e) (e_expire e) 1 (e_data e))]> (db (n_store n)) /\
  p_answer p = (if noreply e then [] else answer_line result_stored) /\ p_forward p = Some (ident, with_version e 1) /\
  forall r, live (n_store n) now (e_key e) r -> 1 <= r_version r ->
    run_request now (n_store n) (RStore (s2b "set") (with_version e 1)) = Ok (mkReply (n_store n) (if noreply e then [] else answer_line result_not_stored) None).
Proof.
  intros I (W1 & W2 & W3 & W4 & W5) V L T. destruct n as [s h]. cbn [n_store n_healthy] in *. rewrite StorageProofs.tomb_hc_get in T.
  assert (HB : store_behavior ident = behavior_add \/ store_behavior ident = 0) by (cbn [In] in I; decompose [or] I; subst; try contradiction; auto).
  assert (B : has (store_behavior ident) (N.lor behavior_append (N.lor behavior_prepend behavior_touch)) = false /\ has (store_behavior ident) behavior_replace = false /\ has (store_behavior ident) behavior_touch = false /\
    has (store_behavior ident) behavior_cas = false /\ has (store_behavior ident) (N.lor behavior_append behavior_prepend) = false /\ has (store_behavior ident) behavior_skip_version = false) by (destruct HB as [-> | ->]; repeat split).
  destruct B as (B1 & B2 & B3 & B4 & B5 & B6).
  assert (C : get_header (blind s (e_key e)) (e_key e) (empty_entry []) = (empty_entry [], false)).
  { unfold get_header. rewrite blind_none. unfold get_header_cache, blind, set_db. cbn [hcache]. now rewrite T. }
  set (raw := ser_header (with_version e 1) ++ e_data e).
  assert (E : raw = encode_rec (mkRec (e_flag e) (e_expire e) 1 (e_data e))).
  { unfold raw, ser_header, encode_rec. rewrite <- !app_assoc. change (e_size (with_version e 1)) with (e_size e). rewrite W4. reflexivity. }
  assert (G : set_f (writes fine) (blind s (e_key e)) now e (store_behavior ident) =
    Some (mkOut (set_db (blind s (e_key e)) (<[e_key e := raw]> (db (blind s (e_key e))))) 0 (Some result_stored) (with_version e 1), false)).
  { unfold set_f, current_entry_f. rewrite B1, C. assert (S : current_state now (store_behavior ident) (empty_entry []) false = st_gone) by (unfold current_state; cbn; now rewrite andb_false_r). rewrite S. cbn [cur_state_eqb negb]. rewrite andb_false_r, B2, B3. cbn [andb].
    unfold next_version. rewrite B4, B3, V, B6. cbn [N.eqb negb andb]. change (u64 (e_version (empty_entry []) + 1)) with 1. rewrite B5.
    unfold memcpy. replace (e_size (with_version e 1)) with (blen (e_data e)) by (destruct e; cbn in *; auto). change (e_data (with_version e 1)) with (e_data e). rewrite N.leb_refl.
    assert (F : firstn (N.to_nat (blen (e_data e))) (e_data e) = e_data e) by (unfold blen; rewrite Nat2N.id; apply firstn_all). rewrite F. fold raw.
    unfold put_f, db_put. assert (X : blen raw <=? 2147483647 = true). { rewrite E, StorageProofs.blen_encode. cbn [r_data]. lia. } rewrite X. reflexivity. }
  unfold serve_blind. cbn [only_key serve n_store]. rewrite G. unfold with_outcome, finish. cbn [o_ret o_res o_store o_entry Z.ltb Z.compare told bind n_healthy negb is_stored].
  do 2 eexists. split; [reflexivity|]. cbn [n_store n_healthy p_store p_answer p_forward]. split; [reflexivity|]. split; [now rewrite andb_true_r|].
  split. { unfold kept, set_db. cbn [db]. rewrite lookup_insert. cbn [db blind set_db]. rewrite insert_delete_insert. now rewrite E. }
  split; [reflexivity|]. split; [reflexivity|].
  intros r (Hr & Wr & Xr) Vr. cbn [run_request]. unfold run_store. change (store_behavior (s2b "set")) with 0.
  unfold StorageModel.set, current_entry. change (has 0 (N.lor behavior_append (N.lor behavior_prepend behavior_touch))) with false. cbv iota.
  change (e_key (with_version e 1)) with (e_key e). rewrite (StorageProofs.get_header_some _ _ _ _ Hr Wr).
  assert (S : current_state now 0 (StorageProofs.fill (empty_entry []) r) true = st_alive).
  { unfold current_state. change (has 0 behavior_skip_timestamp) with false. cbn [negb andb]. destruct (expired_at now _) eqn:Y; [|reflexivity]. exfalso. apply Xr. apply StorageProofs.expired_at_spec in Y. exact Y. }
  rewrite S. change (has 0 behavior_add) with false. change (has 0 behavior_replace) with false. change (has 0 behavior_touch) with false. cbn [andb]. unfold next_version.
  change (has 0 behavior_cas) with false. change (has 0 behavior_touch) with false. change (has 0 behavior_skip_version) with false. change (e_version (with_version e 1)) with 1. cbn [N.eqb negb andb cur_state_eqb orb]. cbv iota.
  change (e_version (StorageProofs.fill (empty_entry []) r)) with (r_version r). destruct (1 <=? r_version r) eqn:Y; [|lia]. reflexivity.
Qed.
Print Assumptions c79_overwritten_refuted.
(** A cas is refused as if there were no record; the record stays. *)
Theorem c79_unread_cas now n e : tomb (n_store n) (e_key e) = None -> exists p n', serve_blind now n (RStore (s2b "cas") e) = Ok (p, n') /\
  p_store p = n_store n' /\ db (n_store n') = db (n_store n) /\ n_healthy n' = n_healthy n /\ p_forward p = None /\ p_answer p = (if noreply e then [] else answer_line result_not_found).
Proof.
  intros T. destruct n as [s h]. cbn [n_store n_healthy] in *. rewrite StorageProofs.tomb_hc_get in T.
  assert (G : set_f (writes fine) (blind s (e_key e)) now e (store_behavior (s2b "cas")) = Some (mkOut (blind s (e_key e)) 0 (Some result_not_found) e, false)).
  { change (store_behavior (s2b "cas")) with behavior_cas. unfold set_f, current_entry_f. change (has behavior_cas (N.lor behavior_append (N.lor behavior_prepend behavior_touch))) with false. cbv iota.
    unfold get_header. rewrite blind_none. unfold get_header_cache, blind, set_db. cbn [hcache]. rewrite T. reflexivity. }
  unfold serve_blind. cbn [only_key serve n_store]. rewrite G. unfold with_outcome, finish. cbn [o_ret o_res o_store o_entry Z.ltb Z.compare told bind n_healthy negb is_stored].
  do 2 eexists. split; [reflexivity|]. cbn [n_store n_healthy p_store p_answer p_forward]. split; [reflexivity|]. split; [now apply kept_same|]. split; [now rewrite andb_true_r|]. split; reflexivity.
Qed.
Print Assumptions c79_unread_cas.
Example c79_overwritten_met : let e := mkEntry key_a 0 0 3 0 0 (s2b "new") in wf_entry e /\ tomb stored_a key_a = None /\ live stored_a 100 key_a (mkRec 7 0 3 (s2b "one")).
Proof.
  cbv zeta. split; [unfold wf_entry, is_i64, wf_bytes; cbn; repeat split; try lia; repeat constructor|]. split; [reflexivity|].
  split; [vm_compute; reflexivity|split; [unfold wf_rec, is_i64, wf_bytes; cbn [r_flag r_expire r_version r_data]; repeat split; try (vm_compute; congruence); repeat constructor|intros X; unfold expired in X; cbn in X; lia]].
Qed.

(** A request for several keys: it is served as one for the keys whose records can be read; the client is not told which were missed,
    and the failure is not noted. *)
Theorem c79_unread_keys now n ident keys : serve_gets now n ident keys = serve fine now n (RGet ident (map fst (List.filter snd keys))).
Proof.
  assert (U : forall s k, exists e, get_unread now s k = (mkOut s 0 (Some result_not_found) e, false)).
  { intros s k. unfold get_unread, get_f. change (e_key (empty_entry k)) with k. rewrite blind_none. cbn [o_store o_ret o_res o_entry].
    assert (K : kept s k (blind s k) = s).
    { destruct s as [d c h]. unfold kept, blind, set_db. cbn [db hcache hcache_size]. rewrite lookup_delete. destruct (d !! k) eqn:E; cbn [db]; [now rewrite insert_delete|]. now rewrite delete_notin. }
    rewrite K. eexists. reflexivity. }
  assert (G : forall t s, run_get_blind now s t keys = run_get_f (writes fine) now s t (map fst (List.filter snd keys))).
  { intros t. induction keys as [|[k [|]] ks IH]; intros s; cbn [run_get_blind List.filter snd map fst run_get_f]; [reflexivity| |].
    - destruct (get_f _ s now (empty_entry k) 0) as [o err]. now rewrite IH.
    - destruct (U s k) as (e & ->). cbn [o_store o_res]. rewrite IH. destruct (run_get_f _ _ _ _ _) as [[s' out] err]. reflexivity. }
  unfold serve_gets. cbn [serve]. rewrite G. reflexivity.
Qed.
Print Assumptions c79_unread_keys.
Example c79_unread_keys_met : exists p n', serve_gets 100 (mkNode stored_a true) (s2b "get") [(s2b "b", true); (key_a, true); (key_a, false)] = Ok (p, n') /\
  p_answer p = s2b "VALUE a 7 3" ++ crlf ++ s2b "one" ++ crlf ++ s2b "END" ++ crlf.
Proof. do 2 eexists. split; vm_compute; reflexivity. Qed.
