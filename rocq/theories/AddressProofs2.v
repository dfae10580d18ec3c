(** Reading lists of servers, and which coordinator is made: lemmas for C77. *)
From Coq Require Import NArith ZArith List Bool String Lia ZifyBool ZifyNat ZifyN.
From Verif Require Import Base BaseLemmas TextModel AmountProofs AddressModel AddressSpec AddressProofs.
Import ListNotations.
Local Open Scope N_scope.

(** ** The authorities of zookeeper_coordinator::ext_uri *)
Definition ext_body (s : bytes) (c : caps) : option caps :=
  match rest_of s with Some (a, q, f) => Some (add 9 f (add 8 q ((7%nat, a) :: c))) | None => None end.
Definition seg (s : bytes) : bytes * bytes := AddressProofs.span (none_of [comma; slash]) s.
Fixpoint parse_more (ns : list nat) (s : bytes) (c : caps) : option caps :=
  match after comma s with
  | None => ext_body s c
  | Some t => match ns with [] => None | n :: ns' => parse_more ns' (snd (seg t)) ((n, fst (seg t)) :: c) end
  end.
Lemma more_plain ns s c : after comma s = None -> parse_more ns s c = ext_body s c.
Proof. intro H. destruct ns; cbn; rewrite H; reflexivity. Qed.
Lemma body_comma t c : ext_body (comma :: t) c = None.
Proof.
  unfold ext_body. destruct (rest_of (comma :: t)) as [r|] eqn:E; [|reflexivity].
  assert (N0 : rest_of (comma :: t) <> None) by congruence. apply rest_starts in N0. destruct N0 as [u Q]. discriminate.
Qed.
Lemma more_caps ns : forall s c c', parse_more ns s c = None -> parse_more ns s c' = None.
Proof.
  induction ns as [|n ns IH]; intros s c c'; cbn; destruct (after comma s).
  - auto.
  - unfold ext_body. destruct (rest_of s) as [[[a q] f]|]; [discriminate|reflexivity].
  - apply IH.
  - unfold ext_body. destruct (rest_of s) as [[[a q] f]|]; [discriminate|reflexivity].
Qed.
Lemma more_fewer ns : forall (n : nat) (m : list nat) s c c', List.length m = S (List.length ns) -> parse_more m s c = None -> parse_more ns s c' = None.
Proof.
  induction ns as [|k ns IH]; intros n m s c c' L H; destruct m as [|j m]; try discriminate; cbn in *.
  - destruct (after comma s); [reflexivity|]. unfold ext_body in *. destruct (rest_of s) as [[[a q] f]|]; [discriminate|reflexivity].
  - destruct (after comma s); [|unfold ext_body in *; destruct (rest_of s) as [[[a q] f]|]; [discriminate|reflexivity]].
    eapply (IH n m); [lia|exact H].
Qed.
Definition chain (ns : list nat) : re := fold_right (fun n r => Seq (more_re n) r) (body_re 7 8 9) ns.
Lemma chain_go ns : forall s c, go (chain ns) s c fin = parse_more ns s c.
Proof.
  induction ns as [|n ns IH]; intros s c.
  - cbn [chain fold_right]. rewrite body_go. cbn [parse_more]. destruct (after comma s) as [t|] eqn:E; [|reflexivity].
    apply after_some in E. subst s. exact (body_comma t c).
  - cbn [chain fold_right]. fold (chain ns). rewrite go_seq. unfold more_re. rewrite go_opt, go_seq, go_lit, after_strip, IH.
    cbn [parse_more]. destruct (after comma s) as [t|] eqn:E; [|apply more_plain; exact E].
    unfold segment_re. rewrite go_grp, go_star.
    + rewrite taken_span, IH. fold (seg t).
      destruct (parse_more ns (snd (seg t)) ((n, fst (seg t)) :: c)) as [y|] eqn:P; [reflexivity|].
      apply (more_fewer ns n (n :: ns) s c c); [reflexivity|]. cbn [parse_more]. rewrite E. exact P.
    + intros x u H. rewrite IH. apply none_in in H. rewrite more_plain.
      * unfold ext_body. destruct (rest_of (x :: u)) as [r|] eqn:R; [|reflexivity].
        assert (N0 : rest_of (x :: u) <> None) by congruence. apply rest_starts in N0. destruct N0 as [v Q].
        injection Q as -> _. exfalso. apply H. cbn. auto.
      * cbn. destruct (x =? comma) eqn:Q; [|reflexivity]. apply N.eqb_eq in Q. subst x. exfalso. apply H. cbn. auto.
Qed.
Definition ext_parsed (s : bytes) : option caps :=
  match scheme_of s with
  | Some (sc, t) => parse_more [3; 4; 5; 6]%nat (snd (seg t)) [(2%nat, fst (seg t)); (1%nat, sc)]
  | None => None
  end.
Lemma ext_go s : regex_match ext_re s = ext_parsed s.
Proof.
  rewrite regex_go. unfold ext_re, ext_parsed. rewrite go_seq, scheme_go. destruct (scheme_of s) as [[sc t]|]; [|reflexivity].
  rewrite go_seq, go_opt. unfold segment_re. rewrite go_grp. fold (chain [3; 4; 5; 6]%nat).
  change (Seq (more_re 3) (Seq (more_re 4) (Seq (more_re 5) (Seq (more_re 6) (body_re 7 8 9))))) with (chain [3; 4; 5; 6]%nat).
  rewrite go_star.
  - rewrite taken_span, chain_go. fold (seg t).
    destruct (parse_more [3; 4; 5; 6]%nat (snd (seg t)) [(2%nat, fst (seg t)); (1%nat, sc)]) as [y|] eqn:P; [reflexivity|].
    rewrite chain_go. destruct t as [|x t]; [reflexivity|].
    destruct (none_of [comma; slash] x) eqn:Q.
    + rewrite more_plain.
      * unfold ext_body. destruct (rest_of (x :: t)) as [r|] eqn:R; [|reflexivity]. apply none_in in Q.
        assert (N0 : rest_of (x :: t) <> None) by congruence. apply rest_starts in N0. destruct N0 as [v E].
        injection E as -> _. exfalso. apply Q. cbn. auto.
      * cbn. destruct (x =? comma) eqn:E; [|reflexivity]. apply N.eqb_eq in E. subst x. discriminate.
    + unfold seg in P. cbn [AddressProofs.span] in P. rewrite Q in P. cbn [snd] in P. eapply more_caps. exact P.
  - intros x u H. rewrite chain_go. apply none_in in H. rewrite more_plain.
    + unfold ext_body. destruct (rest_of (x :: u)) as [r|] eqn:R; [|reflexivity].
      assert (N0 : rest_of (x :: u) <> None) by congruence. apply rest_starts in N0. destruct N0 as [v Q].
      injection Q as -> _. exfalso. apply H. cbn. auto.
    + cbn. destruct (x =? comma) eqn:Q; [|reflexivity]. apply N.eqb_eq in Q. subst x. exfalso. apply H. cbn. auto.
Qed.

(** ** A list of servers that is written down *)
Fixpoint commas (l : list bytes) : bytes := match l with [] => [] | w :: l => comma :: w ++ commas l end.
Lemma comma_list_cons w l : comma_list (w :: l) = w ++ commas l.
Proof.
  revert w. induction l as [|v l IH]; intro w; [cbn; rewrite app_nil_r; reflexivity|].
  change (comma_list (w :: v :: l)) with (w ++ s2b "," ++ comma_list (v :: l)). rewrite IH. reflexivity.
Qed.
Lemma commas_stop l r : (exists t, r = slash :: t) -> stops (none_of [comma; slash]) (commas l ++ r).
Proof. intros [t ->]. destruct l; reflexivity. Qed.
Lemma seg_app w l r : without ",/" w -> (exists t, r = slash :: t) -> seg (w ++ commas l ++ r) = (w, commas l ++ r).
Proof. intros W R. apply span_app; [exact (without_all ",/" w W)|apply commas_stop; exact R]. Qed.
Lemma more_text l : forall ns r c, Forall (without ",/") l -> (exists t, r = slash :: t) -> (List.length l <= List.length ns)%nat ->
  parse_more ns (commas l ++ r) c = ext_body r (rev (combine ns l) ++ c).
Proof.
  induction l as [|w l IH]; intros ns r c W R L.
  - cbn [commas app]. rewrite more_plain by (destruct R as [t ->]; reflexivity). destruct ns; reflexivity.
  - destruct ns as [|n ns]; cbn in L; [lia|]. inversion W as [|? ? W1 W2]; subst. cbn [commas parse_more].
    change (after comma ((comma :: w ++ commas l) ++ r)) with (Some ((w ++ commas l) ++ r)). cbv iota beta.
    rewrite <- app_assoc, (seg_app w l r W1 R). cbn [fst snd].
    rewrite IH by (auto; lia). cbn [combine rev]. rewrite <- app_assoc. reflexivity.
Qed.
Lemma more_many l : forall ns r c, Forall (without ",/") l -> (exists t, r = slash :: t) -> (List.length ns < List.length l)%nat ->
  parse_more ns (commas l ++ r) c = None.
Proof.
  induction l as [|w l IH]; intros ns r c W R L; [cbn in L; lia|].
  inversion W as [|? ? W1 W2]; subst. destruct ns as [|n ns]; [reflexivity|]. cbn [commas parse_more].
  change (after comma ((comma :: w ++ commas l) ++ r)) with (Some ((w ++ commas l) ++ r)). cbv iota beta.
  rewrite <- app_assoc, (seg_app w l r W1 R). cbn [fst snd]. apply IH; auto. cbn in L. lia.
Qed.

(** ** One server *)
Lemma authority_read s : authority_of s =
  match server_of s with Some (us, h, d, []) => (opt us, h, port_of (opt d)) | _ => ([], [], 0%Z) end.
Proof.
  unfold authority_of. rewrite regex_go, server_go by (intros; reflexivity).
  destruct (server_of s) as [[[[us h] d] [|x t]]|]; [|reflexivity|reflexivity]. destruct us, d; reflexivity.
Qed.
Lemma port_dec n : n < 2147483648 -> port_of (dec n) = Z.of_N n.
Proof.
  intro H. unfold port_of. pose proof (lex_i32_decZ (Z.of_N n)) as E. unfold decZ in E.
  destruct (Z.of_N n <? 0)%Z eqn:S0; [lia|]. rewrite N2Z.id in E. rewrite E.
  change (2 ^ 31)%Z with 2147483648%Z. replace ((- (2147483648) <=? Z.of_N n) && (Z.of_N n <? 2147483648))%Z with true by lia.
  reflexivity.
Qed.
Lemma without_fewer l l' w : (forall x, In x (s2b l') -> In x (s2b l)) -> without l w -> without l' w.
Proof. intros H W x I. apply W, H, I. Qed.
Lemma good_zk_server x : good_zk x -> good_server (s_user x) (s_host x) (Some (dec (s_port x))).
Proof.
  intros (U & H & P). repeat split.
  - destruct (s_user x); [|exact Logic.I]. cbn in *. eapply without_fewer; [|exact U]. cbn. tauto.
  - eapply without_fewer; [|exact H]. cbn. tauto.
  - apply dec_nonnil.
  - apply dec_digits.
Qed.
Lemma authority_written x : good_zk x -> authority_of (written x) = (opt (s_user x), s_host x, Z.of_N (s_port x)).
Proof.
  intro G. rewrite authority_read. unfold written. rewrite <- (app_nil_r (server_text _ _ _)).
  rewrite server_back; [|apply good_zk_server; exact G|auto]. cbn [opt]. rewrite port_dec; [reflexivity|]. apply G.
Qed.
Lemma written_plain x : good_zk x -> without ",/" (written x).
Proof.
  intros (U & H & P) y I J. unfold written, server_text in J. rewrite !in_app_iff in J. destruct J as [J|[J|J]].
  - destruct (s_user x) as [u|]; [|contradiction]. cbn in J. apply in_app_iff in J. destruct J as [J|[J|[]]].
    + apply (U y); [|exact J]. cbn in *. tauto.
    + subst y. cbn in I. intuition discriminate.
  - apply (H y); [|exact J]. cbn in *. tauto.
  - cbn in J. destruct J as [J|J]; [subst y; cbn in I; intuition discriminate|].
    pose proof (dec_digits (s_port x)) as D. rewrite Forall_forall in D. specialize (D y J). cbn beta in D.
    cbn in I. destruct I as [I|[I|[]]]; subst y; discriminate.
Qed.
Lemma host_port_named x : host_port (opt (s_user x), s_host x, Z.of_N (s_port x)) = named x.
Proof. unfold host_port, named, decZ. cbn [fst snd]. destruct (Z.of_N (s_port x) <? 0)%Z eqn:E; [lia|]. rewrite N2Z.id. reflexivity. Qed.

Lemma zk_scheme t : scheme_of (s2b "zookeeper://" ++ t) = Some (s2b "zookeeper", t).
Proof. reflexivity. Qed.
Lemma zk_read x l p q f : Forall good_zk (x :: l) -> (List.length l <= 4)%nat -> good_rest p q -> (f <> None -> q <> None) ->
  connstring (ext_of (zk_text (x :: l) (rest_text p q f))) = comma_list (map named (x :: l)) ++ p.
Proof.
  intros G L R F. unfold ext_of. rewrite ext_go. unfold ext_parsed, zk_text. rewrite zk_scheme. cbn [map].
  rewrite !comma_list_cons, <- app_assoc.
  assert (R0 : exists t, rest_text p q f = slash :: t) by (destruct R as ((t & ->) & _); unfold rest_text; eexists; reflexivity).
  assert (W : Forall (without ",/") (map written l)).
  { apply Forall_map. eapply Forall_impl; [|inversion G; eassumption]. exact written_plain. }
  inversion G as [|? ? G1 G2]; subst.
  rewrite (seg_app (written x) (map written l) _ (written_plain x G1) R0). cbn [fst snd].
  rewrite more_text by (auto; rewrite map_length; cbn; lia).
  unfold ext_body. rewrite (rest_back p q f R F). unfold connstring. cbn [e_authorities e_path].
  assert (E : forall y, good_zk y -> host_port (authority_of (written y)) = named y).
  { intros y Y. rewrite (authority_written y Y). apply host_port_named. }
  assert (K : forall y, authority_of y = authority_of y) by reflexivity. clear K.
  repeat match goal with
  | H : Forall good_zk (_ :: _) |- _ => inversion H; clear H; subst
  end.
  destruct l as [|a [|b [|d [|e [|z l]]]]]; cbn [List.length] in L; try lia;
    repeat match goal with H : Forall good_zk (_ :: _) |- _ => inversion H; clear H; subst end;
    destruct q, f;
    cbn [map combine rev app add str matched find fst snd Nat.eqb segments flat_map commas];
    rewrite ?E by assumption; cbn [app]; rewrite ?app_nil_r, <- ?app_assoc; cbn [app]; rewrite <- ?app_assoc; reflexivity.
Qed.
Lemma zk_parts x l p q f : Forall good_zk (x :: l) -> (List.length l <= 4)%nat -> good_rest p q -> (f <> None -> q <> None) ->
  ext_of (zk_text (x :: l) (rest_text p q f))
  = mkExt (s2b "zookeeper") (map (fun y => (opt (s_user y), s_host y, Z.of_N (s_port y))) (x :: l)) p.
Proof.
  intros G L R F. unfold ext_of. rewrite ext_go. unfold ext_parsed, zk_text. rewrite zk_scheme. cbn [map].
  rewrite !comma_list_cons, <- app_assoc.
  assert (R0 : exists t, rest_text p q f = slash :: t) by (destruct R as ((t & ->) & _); unfold rest_text; eexists; reflexivity).
  assert (W : Forall (without ",/") (map written l)).
  { apply Forall_map. eapply Forall_impl; [|inversion G; eassumption]. exact written_plain. }
  inversion G as [|? ? G1 G2]; subst.
  rewrite (seg_app (written x) (map written l) _ (written_plain x G1) R0). cbn [fst snd].
  rewrite more_text by (auto; rewrite map_length; cbn; lia).
  unfold ext_body. rewrite (rest_back p q f R F). clear W G.
  destruct l as [|a [|b [|d [|e [|z l]]]]]; cbn [List.length] in L; try lia;
    repeat match goal with H : Forall good_zk (_ :: _) |- _ => inversion H; clear H; subst end;
    destruct q, f;
    cbn [map combine rev app add str matched find fst snd Nat.eqb segments flat_map];
    rewrite ?authority_written by assumption; reflexivity.
Qed.
Lemma zk_many x l p q f : Forall good_zk (x :: l) -> (4 < List.length l)%nat -> good_rest p q ->
  connstring (ext_of (zk_text (x :: l) (rest_text p q f))) = s2b ":0".
Proof.
  intros G L R. unfold ext_of. rewrite ext_go. unfold ext_parsed, zk_text. rewrite zk_scheme. cbn [map].
  rewrite !comma_list_cons, <- app_assoc.
  assert (R0 : exists t, rest_text p q f = slash :: t) by (destruct R as ((t & ->) & _); unfold rest_text; eexists; reflexivity).
  assert (W : Forall (without ",/") (map written l)).
  { apply Forall_map. eapply Forall_impl; [|inversion G; eassumption]. exact written_plain. }
  inversion G as [|? ? G1 G2]; subst.
  rewrite (seg_app (written x) (map written l) _ (written_plain x G1) R0). cbn [fst snd].
  rewrite more_many by (auto; rewrite map_length; cbn; lia). reflexivity.
Qed.

(** ** coordinator_factory *)
Lemma identifier_scheme s : str (regex_match identifier_re s) 1 = match scheme_of s with Some (sc, _ :: _) => sc | _ => [] end.
Proof.
  rewrite regex_go. unfold identifier_re. rewrite go_seq, scheme_go. destruct (scheme_of s) as [[sc [|x t]]|]; [reflexivity| |reflexivity].
  unfold go. cbn [run any]. change (pick fin (map (fun t0 => (t0, [(1%nat, sc)])) (lefts any t))) with (go (Star any) t [(1%nat, sc)] fin).
  rewrite (go_star_first any t _ fin [(1%nat, sc)]); [reflexivity|]. rewrite any_all. reflexivity.
Qed.
Lemma file_scheme t : scheme_of (s2b "file://" ++ t) = Some (s2b "file", t).
Proof. reflexivity. Qed.
Lemma create_file zk setup t : t <> [] -> create zk setup (s2b "file://" ++ t) = Some (File (u_path (uri_of (s2b "file://" ++ t)))).
Proof. intro N0. unfold create. rewrite identifier_scheme, file_scheme. destruct t; [congruence|]. reflexivity. Qed.
Lemma create_some zk setup s c : create zk setup s = Some c ->
  (exists t, t <> [] /\ s = s2b "file://" ++ t /\ c = File (u_path (uri_of s)))
  \/ (zk = true /\ exists t, t <> [] /\ s = s2b "zookeeper://" ++ t /\ setup (connstring (ext_of s)) = true /\ c = Zookeeper (connstring (ext_of s))).
Proof.
  unfold create. rewrite identifier_scheme. destruct (scheme_of s) as [[sc [|x t]]|] eqn:E.
  - intro H. cbn in H. rewrite andb_false_r in H. discriminate.
  - apply scheme_eq in E. destruct E as (E & _). destruct (beq sc (s2b "file")) eqn:B.
    + apply beq_eq in B. subst sc. intro H. injection H as <-. left. exists (x :: t). split; [discriminate|]. auto.
    + destruct (zk && beq sc (s2b "zookeeper")) eqn:Z; [|discriminate]. apply andb_true_iff in Z. destruct Z as [Z1 Z2].
      apply beq_eq in Z2. subst sc zk. destruct (setup (connstring (ext_of s))) eqn:U; [|discriminate]. intro H. injection H as <-.
      right. split; [reflexivity|]. exists (x :: t). split; [discriminate|]. auto.
  - intro H. cbn in H. rewrite andb_false_r in H. discriminate.
Qed.
Lemma create_zk setup t : t <> [] -> setup (connstring (ext_of (s2b "zookeeper://" ++ t))) = true ->
  create true setup (s2b "zookeeper://" ++ t) = Some (Zookeeper (connstring (ext_of (s2b "zookeeper://" ++ t)))).
Proof. intros N0 H. unfold create. rewrite identifier_scheme, zk_scheme, H. destruct t; [congruence|]. reflexivity. Qed.
