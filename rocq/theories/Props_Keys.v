(** C62: "keys" shows the first keys with a prefix, in order, of the node that the prefix belongs to. *)
From Coq Require Import String Sorted.
From stdpp Require Import gmap.
From Coq Require Import ZifyBool ZifyNat ZifyN.
From Verif Require Import Base BaseLemmas StorageModel TextModel TextSpec SessionModel ServerModel
  KeyResolverModel ClusterModel NodeModel RoutingModel GatewaySpec Props_Cluster Props_Node Props_Routing Props_Gateway KeysModel KeysSpec KeysProofs KeysProofs2.
Local Open Scope string_scope.
Local Open Scope N_scope.
Local Open Scope list_scope.

(** Any node of the cluster is asked for the keys with the prefixes [ps].  For each prefix, the answer has the first
    [n] keys, in order, of those that begin with it and are held by the node that the prefix, taken as a key, belongs to; and
    nothing else.  That node is the one asked, or it gets the request at one of four tries.
    Missing to the full property: the keys that begin with the prefix and belong to other nodes; keys that are
    not held any more are told from those that are; an answer in the case that the node is not reached. *)
Theorem c62_node_partial c s tab hash owner capable stores links pick hops x ps n rest :
  settled c s tab hash owner -> x <> [] -> ps <> [] -> Forall legal_key ps -> (0 < n <= 2147483647)%Z ->
  (forall p, In p ps -> capable (owner p) = true
    /\ (x = owner p \/ exists i tries, (i < 4)%nat /\ links x (owner p) p = repeat Down i ++ Up :: tries)
    /\ forall k, held (stores (owner p)) k -> begins p k -> ~ In 0 k /\ (x <> owner p -> legal_key k)) ->
  exists ls, node_keys c tab hash capable stores links pick (S (S hops)) x (keys_request ps n ++ rest) = Ok (shows_keys ls, rest)
    /\ Forall2 (fun p l => listing (held (stores (owner p))) p n l) ps ls.
Proof.
  intros Hs Hx Hps Hl Hn H. exists (map (fun p => get_keys (stores (owner p)) p n) ps).
  assert (N0 : forall k, ~ In 0 k -> cstr k = k).
  { induction k as [|b k IH]; intros Hk; [reflexivity|]. cbn [cstr]. destruct (b =? 0) eqn:E; [exfalso; apply Hk; left; lia|].
    rewrite IH; [reflexivity|]. intros Hi. apply Hk. now right. }
  assert (F : forall p, In p ps -> get_keys (stores (owner p)) p n = forward_keys (stores (owner p)) p n).
  { intros p Hp. destruct (H p Hp) as (_ & _ & Hk). apply forward_legal; [|lia]. intros k K1 K2. apply N0. now apply Hk. }
  split.
  - apply (node_settled c s tab hash owner Hs); auto. apply List.Forall_forall. intros p Hp. rewrite List.Forall_forall in Hl.
    destruct (H p Hp) as (Hc & Hr & Hk). split; [auto|]. split; [exact Hc|]. split; [exact Hr|]. intros NE.
    rewrite (F p Hp). apply List.Forall_forall. intros k Hk'. destruct (l_sound _ _ _ _ (forward_listing (stores (owner p)) p n ltac:(lia)) k Hk') as [K1 K2].
    now apply Hk.
  - clear Hps Hl H. induction ps as [|p ps IH]; cbn [map]; constructor.
    + rewrite (F p (or_introl eq_refl)). apply forward_listing. lia.
    + apply IH. intros q Hq. apply F. now right.
Qed.
Print Assumptions c62_node_partial.

(** A request without a prefix or without a positive limit is refused. *)
Theorem c62_refused c tab hash capable stores links pick hops x ws rest :
  Forall legal_key ws -> (length ws < 2)%nat \/ (forall n, lex_i32 (List.last ws []) = Ok n -> (n <= 0)%Z) ->
  node_keys c tab hash capable stores links pick (S hops) x (s2b "keys" ++ flat_map (fun k => 32 :: k) ws ++ [13; 10] ++ rest) = Ok (s2b "ERROR" ++ [13; 10], rest).
Proof.
  intros Hw H. destruct (bad_line ws rest Hw H) as (line & p & G & P & K).
  replace (s2b "keys" ++ flat_map (fun k => 32 :: k) ws ++ [13; 10] ++ rest) with (raw_request ws ++ rest) by (unfold raw_request; now rewrite <- !app_assoc).
  cbn [node_keys]. rewrite G. cbn [bind]. rewrite P. cbn [bind c_word]. replace (negb (beq (s2b "keys") (s2b "keys"))) with false by reflexivity. now rewrite K.
Qed.
Print Assumptions c62_refused.
Example c62_refused_meets : (forall n, lex_i32 (List.last [s2b "x"; s2b "0"] []) = Ok n -> (n <= 0)%Z) /\
  (forall n, lex_i32 (List.last [s2b "x"; s2b "y"] []) = Ok n -> (n <= 0)%Z) /\ (forall n, lex_i32 (List.last [s2b "x"; s2b "4294967297"] []) = Ok n -> (n <= 0)%Z).
Proof. repeat split; vm_compute; intros n H; try discriminate; injection H as <-; discriminate. Qed.

(** There is only one such list. *)
Theorem c62_unique ks p n l l' : listing ks p n l -> listing ks p n l' -> l = l'.
Proof. exact (listing_unique ks p n l l'). Qed.
Print Assumptions c62_unique.

(** The request can be read by a client: it gets the keys and the end of the answer. *)
Theorem c62_read ls : Forall (Forall legal_key) ls -> read_keys (S (length (shows_keys ls))) (shows_keys ls) = Ok (List.concat ls, true).
Proof.
  intros H. apply (read_answer (List.concat ls)). induction H as [|l ls Hl _ IH]; cbn [List.concat]; [constructor|]. apply Forall_app. now split.
Qed.
Print Assumptions c62_read.

(** A key that begins with the prefix and can be read is in the list, or the list is full with smaller ones. *)
Theorem c62_visible s p n l k now : listing (held s) p n l -> begins p k -> o_res (get s now (empty_entry k) 0) = Some result_none ->
  In k l \/ Z.of_nat (length l) = n /\ forall k', In k' l -> before k' k.
Proof.
  intros L B G. apply (l_complete _ _ _ _ L); auto. unfold get in G. cbn [e_key empty_entry] in G. destruct (db s !! k) as [v|] eqn:E; [now exists v|discriminate].
Qed.
Print Assumptions c62_visible.

(** If all keys belong to the same node, it lists the keys of the whole cluster. *)
Theorem c62_one_partition_partial (owner : bytes -> bytes) stores y p n l : (forall k, owner k = y) -> (forall z k, held (stores z) k -> held (stores (owner k)) k) ->
  listing (held (stores (owner p))) p n l -> listing (fun k => exists z, held (stores z) k) p n l.
Proof.
  intros Ho Hp [L1 L2 L3 L4]. split; auto.
  - intros k Hk. destruct (L2 k Hk) as [H1 H2]. split; auto. now exists (owner p).
  - intros k [z Hz] B. apply L4; auto. apply Hp in Hz. rewrite (Ho k) in Hz. rewrite (Ho p). exact Hz.
Qed.
Print Assumptions c62_one_partition_partial.

(** ** The cluster of Props_Gateway: keys of odd length belong to a, of even length to b. *)
Definition filled (l : list (bytes * Z)) : store :=
  fold_left (fun s ke => match set s 1600000000 (mkEntry (fst ke) 0 (snd ke) 1 1 0 (s2b "v")) 0 with Some o => o_store o | None => s end) l (init_store 8).
Definition places (a b : list (bytes * Z)) (x : bytes) : store :=
  if beq x (K "a") then filled a else if beq x (K "b") then filled b else init_store 8.
Definition keep (l : list string) : list (bytes * Z) := map (fun k => (s2b k, 0%Z)) l.
Definition kx_stores : bytes -> store := places (keep ["xcc"; "abc"; "x"; "xbb"; "xaa"]) (keep ["yy"; "yyyy"; "x1"]).
Definition asked_at (capable : bytes -> bool) (stores : bytes -> store) (tries : list link) (x : string) (ps : list string) (n : Z) : res (bytes * bytes) :=
  node_keys cfg16 se_tab se_hash capable stores (fun _ _ _ => tries) (fun _ _ => O) 2 (K x) (keys_request (map s2b ps) n).
Definition all_capable (_ : bytes) : bool := true.
Definition good_link : list link := [Up; Up; Up; Up].

Ltac legal := split; [vm_compute; discriminate|]; split; [vm_compute; repeat (apply List.Forall_cons; [unfold word_byte; lia|]); apply List.Forall_nil|vm_compute; congruence].
(** The request goes to the slave c, for a prefix of each partition; b is reached at the second try. *)
Example c62_meets :
  settled cfg16 se_state se_tab se_hash se_owner /\ Forall legal_key [s2b "x"; s2b "yy"; s2b "x"] /\
  (forall p, In p [s2b "x"; s2b "yy"; s2b "x"] -> all_capable (se_owner p) = true
    /\ (K "c" = se_owner p \/ exists i tries, (i < 4)%nat /\ [Down; Up; Up; Up] = repeat Down i ++ Up :: tries)
    /\ forall k, held (kx_stores (se_owner p)) k -> begins p k -> ~ In 0 k /\ (K "c" <> se_owner p -> legal_key k)).
Proof.
  split; [exact se_settled|]. split; [repeat (apply List.Forall_cons; [legal|]); apply List.Forall_nil|].
  intros p Hp. split; [reflexivity|]. split; [right; exists 1%nat, [Up; Up]; split; [lia|reflexivity]|]. intros k Hk _.
  assert (G : forallb (fun k => negb (existsb (N.eqb 0) k) && negb (existsb (N.eqb 10) k) && negb (existsb (N.eqb 32) k) && negb (beq k []) && (blen k <? 8192))
     (map fst (map_to_list (db (kx_stores (se_owner p))))) = true).
  { destruct Hp as [<-|[<-|[<-|[]]]]; vm_compute; reflexivity. }
  apply stored_in in Hk. rewrite forallb_forall in G. specialize (G _ Hk). rewrite !andb_true_iff, !negb_true_iff in G. destruct G as ((((G1 & G2) & G3) & G4) & G5).
  assert (In0 : forall b, existsb (N.eqb b) k = false -> ~ In b k).
  { intros b Hb Hi. assert (existsb (N.eqb b) k = true) by (apply existsb_exists; exists b; split; [exact Hi|apply N.eqb_refl]). congruence. }
  split; [auto|]. intros _. split; [|split; [|lia]].
  - intros ->. rewrite beq_refl in G4. discriminate.
  - apply List.Forall_forall. intros b Hb. unfold word_byte. repeat split; intros ->; first [exact (In0 0 G1 Hb) | exact (In0 10 G2 Hb) | exact (In0 32 G3 Hb)].
Qed.
Example c62_answer : asked_at all_capable kx_stores [Down; Up; Up; Up] "c" ["x"; "yy"; "x"] 3 =
  Ok (lines ["KEY x"; "KEY xaa"; "KEY xbb"; "KEY yy"; "KEY yyyy"; "KEY x"; "KEY xaa"; "KEY xbb"; "END"], []).
Proof. vm_compute. reflexivity. Qed.

(** Keys of other partitions are not shown: "x1" is in the cluster, can be read and begins with "x"; no node shows it for the prefix "x",
    although fewer keys are shown than were asked for. *)
Theorem c62_partitions_refuted : settled cfg16 se_state se_tab se_hash se_owner /\
  o_res (get (kx_stores (se_owner (s2b "x1"))) 1600000000 (empty_entry (s2b "x1")) 0) = Some result_none /\
  forall x, In x ["a"; "b"; "c"; "d"] -> asked_at all_capable kx_stores good_link x ["x"] 10 = Ok (lines ["KEY x"; "KEY xaa"; "KEY xbb"; "KEY xcc"; "END"], []).
Proof.
  split; [exact se_settled|]. split; [vm_compute; reflexivity|]. intros x H. repeat (destruct H as [<-|H]; [vm_compute; reflexivity|]). destruct H.
Qed.
Print Assumptions c62_partitions_refuted.
(** A node that cannot reach the owner answers with the prefix as if it were a key. *)
Theorem c62_phantom_refuted : (forall y, ~ held (kx_stores y) (s2b "yyy")) /\
  asked_at all_capable kx_stores [Down; Down; Down; Down] "d" ["yyy"%string] 10 = Ok (lines ["KEY yyy"; "END"], []).
Proof.
  split; [|vm_compute; reflexivity]. intros y H. apply stored_in in H. unfold kx_stores, places in H.
  destruct (beq y (K "a")); [|destruct (beq y (K "b"))]; vm_compute in H; repeat (destruct H as [H|H]; [discriminate|]); exact H.
Qed.
Print Assumptions c62_phantom_refuted.
(** An answer that breaks off after the first key: the keys read so far are asked for as prefixes, and the answer, which ends in END, is
    incomplete, although the node was reached at the second try; or has a key twice. *)
Theorem c62_broken_refuted : 
  asked_at all_capable (places (keep ["xbb"; "xaa"]) []) [Cut 10; Up; Up; Up] "d" ["x"%string] 10 = Ok (lines ["KEY xaa"; "END"], []) /\
  asked_at all_capable (places (keep ["xbb"; "xaa"]) []) good_link "d" ["x"%string] 10 = Ok (lines ["KEY xaa"; "KEY xbb"; "END"], []) /\
  asked_at all_capable (places (keep ["x"; "xaa"]) []) [Cut 19; Up; Up; Up] "d" ["x"%string] 10 = Ok (lines ["KEY x"; "KEY xaa"; "KEY xaa"; "END"], []).
Proof. repeat split; vm_compute; reflexivity. Qed.
Print Assumptions c62_broken_refuted.
(** A key that has expired, and can not be read, is shown. *)
Theorem c62_expired_refuted : let stores := places [(s2b "x", 1600000005%Z)] [] in
  o_res (get (stores (K "a")) 1600000010 (empty_entry (s2b "x")) 0) = Some result_not_found /\
  asked_at all_capable stores good_link "a" ["x"%string] 10 = Ok (lines ["KEY x"; "END"], []).
Proof. split; vm_compute; reflexivity. Qed.
Print Assumptions c62_expired_refuted.
(** The owner's storage cannot search for prefixes: it says so, but another node answers that there are no such keys. *)
Theorem c62_engine_refuted : let hash_at_b x := negb (beq x (K "b")) in
  asked_at hash_at_b kx_stores good_link "b" ["yy"%string] 10 = Ok (lines ["SERVER_ERROR not available on current storage type"], []) /\
  asked_at hash_at_b kx_stores good_link "a" ["yy"%string] 10 = Ok (lines ["END"], []).
Proof. split; vm_compute; reflexivity. Qed.
Print Assumptions c62_engine_refuted.
(** Keys of binary clients: one with a blank is shown in full by the owner, and up to the blank by the others; one with a NUL is
    cut there by all. *)
Theorem c62_binary_keys_refuted :
  (let stores := places (keep ["x y z"]) [] in
   asked_at all_capable stores good_link "a" ["x"%string] 10 = Ok (lines ["KEY x y z"; "END"], []) /\
   asked_at all_capable stores good_link "d" ["x"%string] 10 = Ok (lines ["KEY x"; "END"], [])) /\
  (let stores := places [([120; 0; 121], 0%Z)] [] in
   ~ held (stores (K "a")) (s2b "x") /\ asked_at all_capable stores good_link "a" ["x"%string] 10 = Ok (lines ["KEY x"; "END"], [])).
Proof.
  split; [split; vm_compute; reflexivity|]. split; [|vm_compute; reflexivity].
  intros H. apply stored_in in H. vm_compute in H. destruct H as [H|[]]. discriminate.
Qed.
Print Assumptions c62_binary_keys_refuted.
