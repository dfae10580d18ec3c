(** Proofs about a database that fails: reading, the status, and the copy of another node's records. *)
From stdpp Require Import gmap.
From Coq Require Import String Lia ZifyBool ZifyNat ZifyN.
From Verif Require Import Base BaseLemmas StorageModel StorageSpec StorageProofs TextModel SessionModel ServerModel DumpModel FailModel FailSpec FailProofs.
Local Open Scope N_scope.

(** * Reading *)
Definition sound_db (s : store) : Prop := forall k raw, db s !! k = Some raw -> exists r, wf_rec r /\ raw = encode_rec r.
Definition value_of (k : key) (r : rec) : entry := with_data (fill (empty_entry k) r) (r_data r).
Lemma removed_db s now k e : db (removed s now k e) = delete k (db s).
Proof. reflexivity. Qed.
Lemma same_refl now s : same_records now s s. Proof. intros k r. reflexivity. Qed.
Lemma same_trans now a b c : same_records now a b -> same_records now b c -> same_records now a c.
Proof. intros A B k r. rewrite (A k r). apply B. Qed.
Lemma same_delete now s s' k : (forall r, ~ live s now k r) -> db s' = delete k (db s) -> same_records now s s'.
Proof.
  intros N0 D k' r. unfold live, holds. rewrite D. destruct (decide (k = k')) as [<-|X].
  - rewrite lookup_delete. split; [intro H; destruct (N0 r H)|intros [H _]; discriminate H].
  - rewrite lookup_delete_ne by exact X. reflexivity.
Qed.
Lemma sound_delete s s' k : sound_db s -> db s' = delete k (db s) -> sound_db s'.
Proof. intros H D k' raw. rewrite D. intro E. apply lookup_delete_Some in E as [_ E]. exact (H k' raw E). Qed.
Lemma get_seen s now k : sound_db s -> let o := get s now (empty_entry k) 0 in
  sound_db (o_store o) /\ same_records now s (o_store o) /\
  ((exists r, live s now k r /\ o_res o = Some result_none /\ o_entry o = value_of k r)
   \/ ((forall r, ~ live s now k r) /\ o_res o = Some result_not_found)).
Proof.
  intros H. cbv zeta. destruct (db s !! k) as [raw|] eqn:E.
  - destruct (H k raw E) as (r & Wr & ->). assert (Ho : holds s (e_key (empty_entry k)) (Some r)) by (unfold holds; exact E).
    rewrite (get_some s now (empty_entry k) 0 r Ho Wr). change (has 0 behavior_skip_timestamp) with false. cbn [negb andb].
    assert (Only : forall r', live s now k r' -> r' = r).
    { intros r' (A & B & _). unfold holds in A. rewrite E in A. assert (A' : encode_rec r = encode_rec r') by (change (Some (encode_rec r) = Some (encode_rec r')) in A; congruence).
      symmetry. exact (encode_inj r r' Wr B A'). }
    destruct (expired_at now (r_expire r)) eqn:X.
    + assert (N0 : forall r', ~ live s now k r').
      { intros r' L. pose proof (Only r' L) as ->. destruct L as (_ & _ & L). apply L. unfold expired, expired_at in *. lia. }
      cbn [o_store o_res o_entry]. split; [|split].
      * apply (sound_delete s _ k H). apply removed_db.
      * apply (same_delete now s _ k N0). apply removed_db.
      * right. auto.
    + cbn [o_store o_res o_entry]. split; [exact H|]. split; [apply same_refl|]. left. exists r. split; [|auto]. split; [exact E|]. split; [exact Wr|]. unfold expired, expired_at in *. lia.
  - rewrite get_none by exact E. cbn [o_store o_res]. split; [exact H|]. split; [apply same_refl|]. right. split; [|reflexivity].
    intros r (A & _). unfold holds in A. rewrite E in A. discriminate A.
Qed.

Lemma get_f_seen ok s now k : sound_db s -> let '(o, err) := get_f ok s now (empty_entry k) 0 in
  sound_db (o_store o) /\ same_records now s (o_store o) /\
  ((exists r, live s now k r /\ o_res o = Some result_none /\ o_entry o = value_of k r)
   \/ ((forall r, ~ live s now k r) /\ o_res o = Some result_not_found)).
Proof.
  intros H. pose proof (get_seen s now k H) as G. cbv zeta in G. destruct (get_cases ok s now (empty_entry k) 0) as [-> | (e' & -> & _ & R)]; [exact G|].
  cbn [o_store o_res o_entry]. split; [exact H|]. split; [apply same_refl|]. destruct G as (_ & _ & [(r & _ & X & _)|[X _]]); [congruence|]. right. auto.
Qed.
Lemma live_one s now k r r' : live s now k r -> live s now k r' -> r = r'.
Proof. intros (A & Wa & _) (B & Wb & _). unfold holds in *. apply encode_inj; [exact Wa|exact Wb|]. rewrite A in B. change (Some (encode_rec r) = Some (encode_rec r')) in B. congruence. Qed.
Lemma run_get_same ok now t keys : forall s s', sound_db s -> sound_db s' -> same_records now s s' ->
  let '(s1, out, err) := run_get_f ok now s t keys in let '(s2, out') := run_get now s' t keys in
  out = out' /\ sound_db s1 /\ same_records now s s1.
Proof.
  induction keys as [|k keys IH]; intros s s' H H' S; cbn [run_get_f run_get]; [split; [reflexivity|]; split; [exact H|apply same_refl]|].
  pose proof (get_f_seen ok s now k H) as G. destruct (get_f ok s now (empty_entry k) 0) as [o err]. destruct G as (G1 & G2 & G3).
  pose proof (get_seen s' now k H') as G'. cbv zeta in G'. destruct G' as (G1' & G2' & G3'). set (o' := get s' now (empty_entry k) 0) in *.
  assert (S1 : same_records now (o_store o) (o_store o')).
  { intros x r. rewrite <- (G2 x r), <- (G2' x r). apply S. }
  specialize (IH (o_store o) (o_store o') G1 G1' S1). destruct (run_get_f ok now (o_store o) t keys) as [[s1 out] err'].
  destruct (run_get now (o_store o') t keys) as [s2 out']. destruct IH as (-> & I2 & I3). split; [|split; [exact I2|exact (same_trans now _ _ _ G2 I3)]].
  f_equal. destruct G3 as [(r & L & -> & ->)|[N0 ->]]; destruct G3' as [(r' & L' & -> & ->)|[N0' ->]]; try reflexivity.
  - apply S in L. rewrite (live_one s' now k r r' L L'). reflexivity.
  - destruct (N0' r). apply S. exact L.
  - destruct (N0 r'). apply S. exact L'.
Qed.

(** * The status *)
Lemma told_healthy n x err p n' : told n x err = Ok (p, n') -> n_healthy n' = n_healthy n && negb err.
Proof. unfold told. destruct x; cbn [bind]; try discriminate. intro E. injection E as _ <-. reflexivity. Qed.
Lemma serve_sick m now n r p n' : serve m now n r = Ok (p, n') -> n_healthy n = false -> n_healthy n' = false.
Proof.
  intros E H. assert (G : forall x err, told n x err = Ok (p, n') -> n_healthy n' = false) by (intros x err X; apply told_healthy in X; rewrite X, H; reflexivity).
  destruct r as [ident e|e|ident e|ident e v|ident keys|w|nr|nr|w]; cbn [serve] in E; try discriminate E; try exact (G _ _ E).
  - unfold with_outcome in E. destruct (set_f _ _ _ _ _) as [[o err]|]; [exact (G _ _ E)|discriminate E].
  - unfold with_outcome in E. destruct (remove_f _ _ _ _ _) as [o err]. exact (G _ _ E).
  - unfold with_outcome in E. destruct (set_f _ _ _ _ _) as [[o err]|]; [exact (G _ _ E)|discriminate E].
  - unfold with_outcome in E. destruct (incr_f _ _ _ _ _ _ _) as [[o err]|]; [exact (G _ _ E)|discriminate E].
  - destruct (run_get_f _ _ _ _ _) as [[s' out] err]. exact (G _ _ E).
  - destruct (empties m); exact (G _ _ E).
Qed.
Lemma serve_all_sick l : forall n n' out, serve_all n l = Ok (n', out) -> n_healthy n = false -> n_healthy n' = false.
Proof.
  induction l as [|[[m now] r] l IH]; intros n n' out E H; cbn [serve_all] in E; [injection E as <- _; exact H|].
  destruct (serve m now n r) as [| |[p n1]] eqn:S; cbn [bind] in E; try discriminate E. destruct (serve_all n1 l) as [| |[n2 o2]] eqn:A; cbn [bind] in E; try discriminate E.
  injection E as <- _. exact (IH n1 n2 o2 A (serve_sick m now n r p n1 S H)).
Qed.

(** * Copies *)
Lemma set_local s s' now e : hcache s = hcache s' -> db s !! e_key e = db s' !! e_key e ->
  match set s now e behavior_dump, set s' now e behavior_dump with
  | None, None => True
  | Some o, Some o' => (o_store o = s /\ o_store o' = s')
      \/ exists raw, o_store o = set_db s (<[e_key e := raw]> (db s)) /\ o_store o' = set_db s' (<[e_key e := raw]> (db s'))
  | _, _ => False
  end.
Proof.
  intros C D. unfold set, current_entry. change (has behavior_dump (N.lor behavior_append (N.lor behavior_prepend behavior_touch))) with false. cbv iota.
  assert (G : get_header s (e_key e) (empty_entry []) = get_header s' (e_key e) (empty_entry [])) by (unfold get_header, get_header_cache; rewrite D, C; reflexivity).
  rewrite G. destruct (get_header s' (e_key e) (empty_entry [])) as [cur ex]. change (has behavior_dump behavior_add) with false. change (has behavior_dump behavior_replace) with false.
  change (has behavior_dump behavior_touch) with false. change (has behavior_dump (N.lor behavior_append behavior_prepend)) with false. cbn [andb].
  destruct (next_version _ cur e behavior_dump); [cbn; auto|]. cbv zeta. destruct (memcpy _ _); [|exact Logic.I]. unfold db_put.
  destruct (_ <=? _); [|exact Logic.I]. cbn [o_store]. right. eexists. split; reflexivity.
Qed.
Lemma set_shape s now e o : set s now e behavior_dump = Some o -> o_store o = s \/ exists raw, o_store o = set_db s (<[e_key e := raw]> (db s)).
Proof. intro E. pose proof (set_local s s now e eq_refl eq_refl) as H. rewrite E in H. destruct H as [[H _]|(raw & H & _)]; eauto. Qed.
Definition apart (missed : list bytes) (a b : store) : Prop := hcache a = hcache b /\ forall k, ~ In k missed -> db a !! k = db b !! k.
Definition alike (missed : list bytes) (x y : dres) : Prop :=
  match x, y with
  | DRunning a, DRunning b | DFail a, DFail b => apart missed a b
  | DDone a r, DDone b r' => apart missed a b /\ r = r'
  | _, _ => False
  end.
Lemma copy_alike rs : forall a b str missed x M, copy_f rs a str missed = (x, M) -> apart missed a b -> x <> DUndef -> dump_client (map fst rs) b str <> DUndef ->
  alike M x (dump_client (map fst rs) b str) /\ (forall k, In k missed -> In k M).
Proof.
  induction rs as [|[r w] rs IH]; intros a b str missed x M E J N1 N2; cbn [copy_f map fst dump_client] in *.
  { injection E as <- <-. split; [exact J|auto]. }
  destruct (r_stop1 r). { injection E as <- <-. split; [split; [exact J|reflexivity]|auto]. }
  destruct (get_line str) as [| |[line str1]]; [injection E as <- <-; congruence|injection E as <- <-; split; [exact J|auto]|].
  destruct (r_stop2 r). { injection E as <- <-. split; [split; [exact J|reflexivity]|auto]. }
  destruct (beq (TextModel.cstr line) _). { injection E as <- <-. split; [split; [exact J|reflexivity]|auto]. }
  destruct (call_word BUFSIZ line) as [| |[q p]]; [injection E as <- <-; congruence|injection E as <- <-; split; [exact J|auto]|].
  destruct (negb (beq q _)). { injection E as <- <-. split; [exact J|auto]. }
  destruct (parse_entry (r_now r) parse_get p) as [| |e0]; [injection E as <- <-; congruence|injection E as <- <-; split; [exact J|auto]|].
  destruct (get_bytes (e_size e0 + 2) str1) as [| |[d str2]]; [injection E as <- <-; congruence|injection E as <- <-; split; [exact J|auto]|].
  set (e := with_data e0 (firstn (N.to_nat (e_size e0)) d)) in *. clearbody e. clear e0 d.
  destruct (set b (r_now r) e behavior_dump) as [ob|] eqn:B; [|congruence].
  destruct (set_cases (fun _ => w) a (r_now r) e behavior_dump usual_dump) as [[X _] | (o & X & F)]; rewrite X in E.
  - destruct (set a (r_now r) e behavior_dump) as [oa|] eqn:A; cbn [as_usual] in E; [|injection E as <- <-; congruence].
    apply (IH _ (o_store ob) _ _ _ _ E); [|exact N1|exact N2]. destruct J as [J1 J2]. destruct (in_dec (List.list_eq_dec N.eq_dec) (e_key e) missed) as [I|NI].
    + split; [|intros k Hk].
      * destruct (set_shape _ _ _ _ A) as [-> | (? & ->)]; destruct (set_shape _ _ _ _ B) as [-> | (? & ->)]; exact J1.
      * assert (Kn : e_key e <> k) by congruence.
        destruct (set_shape _ _ _ _ A) as [-> | (? & ->)]; destruct (set_shape _ _ _ _ B) as [-> | (? & ->)]; cbn [db set_db]; rewrite ?lookup_insert_ne by exact Kn; exact (J2 k Hk).
    + pose proof (set_local a b (r_now r) e J1 (J2 _ NI)) as L. rewrite A, B in L. destruct L as [[-> ->]|(raw & -> & ->)]; [split; assumption|].
      split; [exact J1|]. intros k Hk. cbn [db set_db]. destruct (decide (e_key e = k)) as [<-|Kn]; [rewrite !lookup_insert; reflexivity|]. rewrite !lookup_insert_ne by exact Kn. exact (J2 k Hk).
  - destruct F as [F _]. rewrite F in E.
    destruct (IH a (o_store ob) _ _ _ _ E) as [G1 G2]; [|exact N1|exact N2|split; [exact G1|intros k Hk; apply G2, in_or_app; now left]].
    destruct J as [J1 J2]. split.
    + destruct (set_shape _ _ _ _ B) as [-> | (? & ->)]; exact J1.
    + intros k Hk. assert (Hk1 : ~ In k missed) by (intro Y; apply Hk, in_or_app; now left).
      assert (Kn : e_key e <> k) by (intro Y; apply Hk, in_or_app; right; left; exact Y).
      destruct (set_shape _ _ _ _ B) as [-> | (? & ->)]; cbn [db set_db]; rewrite ?lookup_insert_ne by exact Kn; exact (J2 k Hk1).
Qed.
