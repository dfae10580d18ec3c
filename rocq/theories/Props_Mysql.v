(** C63: a MySQL slave that follows a node. *)
From Coq Require Import String.
From stdpp Require Import gmap.
From Coq Require Import ZArith ZifyBool ZifyNat ZifyN.
From Verif Require Import Base BaseLemmas StorageModel StorageSpec StorageProofs TextModel TextSpec TextProofs SessionModel ServerModel
  MysqlModel MysqlSpec MysqlProofs MysqlProofs2 MysqlProofs3 Props_Replica.
Local Open Scope string_scope.
Local Open Scope N_scope.
Local Open Scope list_scope.

(** ** Statements *)
(** Whatever bytes a value has: the statement sent for a write stores exactly the record of the operation, as the row of its key. *)
Theorem c63_replace table time_text ident e : nameable table -> quotable (e_key e) -> legal_key (e_key e) -> ident <> s2b "delete" ->
  wf_rec (rec_of e) -> e_size e = blen (e_data e) -> blen (e_data e) <= 2 ^ 29 ->
  quotable (time_text (e_expire e)) -> blen (time_text (e_expire e)) <= 100 ->
  exists q, query table time_text (ident, e) = Ok q
    /\ statement_of table q = Some (Replace (e_key e) (mkRow (e_data e) (e_flag e) (e_version e) (if (0 <? e_expire e)%Z then Some (time_text (e_expire e)) else None))).
Proof.
  intros Ht Hq (_ & _ & Hk) Hi (W1 & _ & W3 & _) Hs Hl Hx Hy.
  assert (B : beq ident (s2b "delete") = false) by (destruct (beq ident (s2b "delete")) eqn:B; auto; apply beq_eq in B; contradiction).
  destruct (query_meant table time_text ident e) as (q & E1 & E2 & _); auto; [clear - Hk; lia|rewrite Hs; exact Hl|].
  exists q. split; [exact E1|]. rewrite E2. unfold meant. cbn [fst snd]. rewrite B. reflexivity.
Qed.
Print Assumptions c63_replace.
(** The statement for a delete removes the row of the key and no other. *)
Theorem c63_delete table time_text e : nameable table -> quotable (e_key e) -> legal_key (e_key e) -> e_size e <= 2 ^ 29 ->
  exists q, query table time_text (s2b "delete", e) = Ok q /\ exists st, statement_of table q = Some st
    /\ forall t k, execute t st k = if beq (e_key e) k then None else t k.
Proof.
  intros Ht Hq (_ & _ & Hk) Hs.
  destruct (query_meant table (fun _ => []) (s2b "delete") e) as (q & E1 & E2 & _); auto; [clear - Hk; lia|constructor|discriminate|discriminate|].
  exists q. split; [exact E1|]. exists (Delete (e_key e) []). split; [exact E2|]. intros t k. cbn. now destruct (beq (e_key e) k).
Qed.
Print Assumptions c63_delete.

Definition noon (_ : Z) : bytes := s2b "2020-09-13 12:26:40".
Lemma noon_good x : quotable (noon x) /\ blen (noon x) <= 100.
Proof. split; [|discriminate]. unfold noon, quotable. cbn. repeat (apply List.Forall_cons; [repeat split; discriminate|]). apply List.Forall_nil. Qed.
Definition nasty : entry := mkEntry (s2b "k"";--") 7 1600000100 8 3 0 [39; 0; 10; 13; 92; 34; 26; 200].
Ltac all_bytes := cbn; repeat (apply List.Forall_cons; [repeat split; try discriminate; lia|]); apply List.Forall_nil.
Example c63_replace_case : nameable (s2b "flare") /\ quotable (e_key nasty) /\ legal_key (e_key nasty) /\ wf_rec (rec_of nasty) /\
  query (s2b "flare") noon (s2b "set", nasty) = Ok (s2b "REPLACE INTO `flare` VALUES ('k"";--', '" ++ [92; 39; 92; 48; 92; 110; 92; 114; 92; 92; 92; 34; 92; 90; 200]
    ++ s2b "', 7, 3, '2020-09-13 12:26:40')").
Proof.
  split; [split; [all_bytes|discriminate]|]. split; [all_bytes|]. split; [split; [discriminate|split; [all_bytes|reflexivity]]|].
  split; [split; [reflexivity|split; [split; cbn; lia|split; [reflexivity|split; [discriminate|all_bytes]]]]|]. vm_compute. reflexivity.
Qed.

(** ** The way to the slave *)
(** A packet is read back whole, whatever its length, unless that is a multiple of 2^24 - 1; and in one way only. *)
Theorem c63_packet id p s id' rest : blen p mod (2 ^ 24 - 1) <> 0 -> write id p = (s, id') ->
  reads (id mod 256) (s ++ rest) p (id' mod 256) rest
  /\ forall p2 id2 rest2, reads (id mod 256) (s ++ rest) p2 id2 rest2 -> p2 = p /\ id2 = id' mod 256 /\ rest2 = rest.
Proof.
  intros Hm W. assert (R : reads (id mod 256) (s ++ rest) p (id' mod 256) rest) by (eapply write_reads; [|exact Hm|exact W]; lia).
  split; [exact R|]. intros p2 id2 rest2 R2. destruct (reads_det _ _ _ _ _ R _ _ _ R2) as (-> & -> & ->). auto.
Qed.
Print Assumptions c63_packet.

(** ** The rows *)
(** Whatever clients ask of the node from the time on when the rows were those of its store, short of flush_all: the operations it queues can be
    sent, the bytes sent are a binary log that can be read in one way, and with its statements the rows are those of the
    store again.
    Missing: keys with a quote, a backslash or a NUL, values of more than 2^29 bytes, events of k * (2^24 - 1) bytes; see the
    refutations below.  A slave that connects later has to be given the rows by other means. *)
Theorem c63_follows_partial table database server thread time_text T s l T' s' fs t q id pos :
  nameable table -> nameable database -> blen database < 256 -> (forall x, quotable (time_text x) /\ blen (time_text x) <= 100) ->
  wf_store s -> (2592000 <= T)%Z -> mirrors time_text T s t ->
  served T s l T' s' fs -> map snd q = fs -> pos < 2 ^ 32 ->
  Forall (fun f => quotable (e_key (snd f)) /\ e_size (snd f) <= 2 ^ 29
    /\ forall x, query table time_text f = Ok x -> (34 + blen database + blen x) mod (2 ^ 24 - 1) <> 0) fs ->
  exists b, send table database server time_text thread id pos q = Ok b
    /\ (exists qs, streams server thread database (id mod 256) pos qs b [])
    /\ forall qs, streams server thread database (id mod 256) pos qs b [] ->
       exists sts, map (fun x => statement_of table (snd x)) qs = map Some sts /\ mirrors time_text T' s' (fold_left execute sts t).
Proof.
  intros Ht Hd Hdl Hx Hwf HT HM HS Hq Hp Hf.
  pose proof (follows table database server time_text Ht (conj Hd Hdl) Hx T s l T' s' fs t q thread id pos Hwf HT HM HS Hq Hf) as G.
  replace (u32 pos) with pos in G by (unfold u32; symmetry; apply N.mod_small; exact Hp). exact G.
Qed.
Print Assumptions c63_follows_partial.

(** *** A history *)
Definition say (l : list bytes) : bytes := List.concat (map (fun b => b ++ crlf) l).
Fixpoint serve_all (T : Z) (s : store) (l : list (Z * bytes)) : option (Z * store * list (bytes * entry)) :=
  match l with
  | [] => Some (T, s, [])
  | (now, stream) :: l' =>
      if (T <=? now)%Z && (now <? 2 ^ 62)%Z && forallb (fun b => b <? 256) stream
         && match serve_next now stream with Ok (Accepted _ (RFlush _), _) => false | _ => true end
      then match run_line now s stream with
           | Ok (p, _) => match serve_all now (p_store p) l' with
                          | Some (T', s', fs) => Some (T', s', match p_forward p with Some f => [f] | None => [] end ++ fs)
                          | None => None
                          end
           | _ => None
           end
      else None
  end.
Lemma serve_all_ok T s l T' s' fs : serve_all T s l = Some (T', s', fs) -> served T s l T' s' fs.
Proof.
  revert T s T' s' fs. induction l as [|[now stream] l IH]; intros T s T' s' fs; cbn [serve_all]; [intros [= <- <- <-]; constructor|].
  match goal with |- context [if ?c then _ else _] => destruct c eqn:C end; [|discriminate].
  destruct (run_line now s stream) as [| |[p rest]] eqn:R; try discriminate. destruct (serve_all now (p_store p) l) as [[[T1 s1] fs1]|] eqn:E; [|discriminate].
  intros [= <- <- <-]. rewrite !andb_true_iff in C. destruct C as [[[C1 C2] C3] C4].
  eapply served_one; [lia| | |exact R|now apply IH].
  - apply List.Forall_forall. intros b Hb. rewrite forallb_forall in C3. apply C3 in Hb. now apply N.ltb_lt in Hb.
  - intros c nr rest' X. rewrite X in C4. discriminate.
Qed.
Definition day : list (Z * bytes) :=
  [(1600000000%Z, say [s2b "set a 5 0 8"; [39; 0; 10; 13; 92; 34; 26; 200]]);
   (1600000001%Z, say [s2b "set n 0 0 2"; s2b "41"]);
   (1600000002%Z, say [s2b "incr n 1"]);
   (1600000003%Z, say [s2b "get a n"]);
   (1600000004%Z, say [s2b "touch a 100"]);
   (1600000005%Z, say [s2b "set d 0 0 1"; s2b "x"]);
   (1600000006%Z, say [s2b "delete d"])].
Definition stamped (fs : list (bytes * entry)) : list (N * (bytes * entry)) := map (fun f => (1600000000, f)) fs.
Definition good_ops (fs : list (bytes * entry)) : bool :=
  forallb (fun f => forallb (fun c => negb (c =? 0) && negb (c =? 39) && negb (c =? 92)) (e_key (snd f)) && (e_size (snd f) <=? 1000)
    && match query (s2b "t") noon f with Ok x => negb ((34 + 1 + blen x) mod (2 ^ 24 - 1) =? 0) | _ => true end) fs.
Lemma good_ops_ok fs : good_ops fs = true -> Forall (fun f => quotable (e_key (snd f)) /\ e_size (snd f) <= 2 ^ 29
    /\ forall x, query (s2b "t") noon f = Ok x -> (34 + blen (s2b "d") + blen x) mod (2 ^ 24 - 1) <> 0) fs.
Proof.
  unfold good_ops. rewrite forallb_forall. intros H. apply List.Forall_forall. intros f Hf. specialize (H f Hf). rewrite !andb_true_iff in H. destruct H as [[H1 H2] H3].
  split; [|split].
  - apply List.Forall_forall. intros c Hc. rewrite forallb_forall in H1. specialize (H1 c Hc). rewrite !andb_true_iff, !negb_true_iff, !N.eqb_neq in H1. tauto.
  - apply N.leb_le in H2. clear - H2. lia.
  - intros x E. rewrite E in H3. apply negb_true_iff, N.eqb_neq in H3. exact H3.
Qed.
Definition statements (fs : list (bytes * entry)) : list (option statement) :=
  map (fun f => match query (s2b "t") noon f with Ok q => statement_of (s2b "t") q | _ => None end) fs.
Fixpoint all_some {X} (l : list (option X)) : option (list X) :=
  match l with [] => Some [] | Some x :: l' => option_map (cons x) (all_some l') | None :: _ => None end.
Definition statements_of (l : list (Z * bytes)) : option (list statement) :=
  match serve_all 1600000000 (init_store 8) l with Some (_, _, fs) => all_some (statements fs) | None => None end.
Definition table_after (sts : list statement) : rows := fold_left execute sts (fun _ => None).
Lemma empty_mirrors : mirrors noon 1600000000 (init_store 8) (fun _ => None).
Proof. intros k n Hn. apply visible_empty. reflexivity. Qed.
Example c63_follows_case : exists T' s' fs, served 1600000000 (init_store 8) day T' s' fs /\ List.length fs = 6%nat /\
  Forall (fun f => quotable (e_key (snd f)) /\ e_size (snd f) <= 2 ^ 29
    /\ forall x, query (s2b "t") noon f = Ok x -> (34 + blen (s2b "d") + blen x) mod (2 ^ 24 - 1) <> 0) fs
  /\ option_map (fun x => (table_after x (s2b "a"), table_after x (s2b "n"), table_after x (s2b "d"))) (statements_of day)
     = Some (Some (mkRow [39; 0; 10; 13; 92; 34; 26; 200] 5 1 (Some (noon 1600000104))), Some (mkRow (s2b "42") 0 2 None), None).
Proof.
  destruct (serve_all 1600000000 (init_store 8) day) as [[[T' s'] fs]|] eqn:E; [|vm_compute in E; discriminate E].
  exists T', s', fs. split; [now apply serve_all_ok|].
  assert (G : match serve_all 1600000000 (init_store 8) day with Some (_, _, fs) => (List.length fs =? 6)%nat && good_ops fs | None => false end = true) by (vm_compute; reflexivity).
  rewrite E in G. apply andb_true_iff in G as [G1 G2]. split; [now apply Nat.eqb_eq|]. split; [now apply good_ops_ok|]. vm_compute. reflexivity.
Qed.

(** ** Where the rows are wrong *)
Definition node_after (l : list (Z * bytes)) (now : Z) (k : bytes) : option rec :=
  match serve_all 1600000000 (init_store 8) l with
  | Some (_, s, _) => match o_res (get s now (empty_entry k) 0) with Some result_none => Some (rec_of (o_entry (get s now (empty_entry k) 0))) | _ => None end
  | None => None
  end.
Definition set_line (k : string) (v : string) (now : Z) : Z * bytes := (now, say [s2b "set " ++ s2b k ++ s2b " 0 0 1"; s2b v]).
(** A key is not escaped.  Deleting the key x'or'1 empties the table. *)
Theorem c63_key_refuted :
  let l := [set_line "a" "v" 1600000000; set_line "x'or'1" "w" 1600000001; (1600000002%Z, say [s2b "delete x'or'1"])] in
  node_after l 1600000003 (s2b "a") = Some (mkRec 0 0 1 (s2b "v"))
  /\ exists sts, statements_of l = Some sts /\ nth_error sts 2 = Some (Delete (s2b "x") [s2b "1"]) /\ forall k, table_after sts k = None.
Proof.
  cbv zeta. split; [vm_compute; reflexivity|]. eexists. split; [vm_compute; reflexivity|]. split; [reflexivity|].
  intros k. unfold table_after. cbn [fold_left execute]. match goal with |- context [existsb ?f ?l] => change (existsb f l) with true end. now rewrite orb_true_r.
Qed.
Print Assumptions c63_key_refuted.
(** A key can name another key and its value. *)
Theorem c63_value_refuted :
  let l := [set_line "x" "v" 1600000000; set_line "x','y',0,0,0)#" "w" 1600000001] in
  node_after l 1600000003 (s2b "x") = Some (mkRec 0 0 1 (s2b "v"))
  /\ option_map (fun x => table_after x (s2b "x")) (statements_of l) = Some (Some (mkRow (s2b "y") 0 0 None)).
Proof. vm_compute. split; reflexivity. Qed.
Print Assumptions c63_value_refuted.
(** The statement for a key that ends in a backslash is not one: a slave stops there. *)
Theorem c63_backslash_refuted :
  let l := [set_line "x\" "v" 1600000000] in
  node_after l 1600000003 (s2b "x\") = Some (mkRec 0 0 1 (s2b "v"))
  /\ option_map (fun x => statements (snd x)) (serve_all 1600000000 (init_store 8) l) = Some [None].
Proof. vm_compute. repeat split. Qed.
Print Assumptions c63_backslash_refuted.
(** flush_all is not sent. *)
Theorem c63_flush_refuted : exists s p rest fs T', serve_all 1600000000 (init_store 8) [set_line "a" "v" 1600000000] = Some (T', s, fs)
  /\ run_line 1600000001 s (say [s2b "flush_all"]) = Ok (p, rest) /\ p_answer p = s2b "OK" ++ crlf /\ p_forward p = None
  /\ (forall n, visible (p_store p) n (s2b "a") None)
  /\ option_map (fun x => table_after x (s2b "a")) (statements_of [set_line "a" "v" 1600000000]) = Some (Some (mkRow (s2b "v") 0 1 None)).
Proof.
  do 5 eexists. split; [vm_compute; reflexivity|]. split; [vm_compute; reflexivity|]. split; [reflexivity|]. split; [reflexivity|].
  split; [|vm_compute; reflexivity]. intros n. left. unfold holds. vm_compute. reflexivity.
Qed.
Print Assumptions c63_flush_refuted.

(** A packet of 2^24 - 1 bytes is not ended: the slave takes what follows for the rest of it. *)
Theorem c63_full_packet_refuted id p p' : blen p = 2 ^ 24 - 1 -> 0 < blen p' < 2 ^ 24 - 1 ->
  let '(s, id1) := write id p in let '(s', id2) := write id1 p' in
  (forall id' rest, ~ reads (id mod 256) s p id' rest)
  /\ reads (id mod 256) (s ++ s') (p ++ p') (id2 mod 256) [].
Proof.
  intros H H'.
  assert (W : write id p = (le_enc 3 (2 ^ 24 - 1) ++ [id mod 256] ++ p, u32 (id + 1))).
  { unfold write. rewrite H. change (2 ^ 24 - 1) with max_packet. replace (max_packet / max_packet) with 1 by reflexivity. cbn [N.to_nat Pos.to_nat Pos.iter_op Nat.add write_packets].
    change (2 ^ 24 - 1) with max_packet in H. destruct p as [|c p]; [discriminate H|]. set (q := c :: p) in *. clearbody q. rewrite H.
    rewrite N.ltb_irrefl. cbv zeta. change (Pos.to_nat 1) with 1%nat. cbn [write_packets]. now rewrite app_nil_r. }
  rewrite W. assert (W' : exists s', write (u32 (id + 1)) p' = (s', u32 (u32 (id + 1) + 1)) /\ s' = le_enc 3 (blen p') ++ [u32 (id + 1) mod 256] ++ p').
  { unfold write. change (2 ^ 24 - 1) with max_packet in H'. rewrite (N.div_small (blen p')) by apply H'. cbn [N.to_nat write_packets]. destruct p' as [|c p']; [destruct H' as [H' _]; discriminate H'|].
    set (q := c :: p') in *. clearbody q. destruct (N.ltb_spec max_packet (blen q)) as [X|_]; [clear - X H'; lia|]. cbv zeta. rewrite app_nil_r. eauto. }
  destruct W' as (s' & -> & Es). split.
  - intros id' rest R. apply reads_inv in R as [(X & _)|(p1 & q & s1 & E & X & Y & R)]; [rewrite H in X; clear - X; lia|].
    apply header_inj in Y as [_ Y]; [|lia|lia]. apply (f_equal blen) in Y, E. rewrite blen_app in Y, E. apply reads_nonnil in R. unfold blen in *. clear - Y E H X R. lia.
  - rewrite <- !app_assoc. rewrite next_id. rewrite next_id. apply reads_more; [exact H|]. rewrite Es. rewrite next_id.
    pose proof (reads_last ((id mod 256 + 1) mod 256) p' [] (proj2 H')) as G. rewrite app_nil_r in G. exact G.
Qed.
Print Assumptions c63_full_packet_refuted.
(** Such events there are: a value of letters of the right length. *)
Example c63_full_packet_case : exists e q, query (s2b "t") noon (s2b "set", e) = Ok q /\ legal_key (e_key e) /\ e_size e = blen (e_data e)
  /\ 34 + blen (s2b "d") + blen q = 2 ^ 24 - 1.
Proof.
  assert (L : forall n, escape (repeat 97 n) = repeat 97 n). { induction n as [|n IH]; [reflexivity|]. cbn [repeat escape flat_map]. fold (escape (repeat 97 n)). now rewrite IH. }
  assert (exists n, N.of_nat n = 16777138) as (n & Hn) by (exists (N.to_nat 16777138); apply N2Nat.id).
  exists (mkEntry (s2b "k") 0 0 (N.of_nat n) 1 0 (repeat 97 n)).
  set (q := s2b "REPLACE INTO `t` VALUES ('k', '" ++ repeat 97 n ++ s2b "', 0, 1, 0)").
  assert (Ln : blen (repeat 97 n) = N.of_nat n) by (unfold blen; now rewrite repeat_length).
  assert (Lq : blen q = 16777180).
  { unfold q. rewrite !blen_app, Ln, Hn. reflexivity. }
  exists q. split; [|split; [split; [discriminate|split; [all_bytes|reflexivity]]|split; [symmetry; exact Ln|rewrite Lq; reflexivity]]].
  unfold query. cbn [e_key e_size e_data e_flag e_version e_expire].
  assert (Eq : (s2b "REPLACE INTO `" ++ cstr (s2b "t") ++ s2b "` VALUES ('" ++ cstr (s2b "k") ++ s2b "', '")
               ++ escape (repeat 97 n) ++ s2b "', " ++ dec 0 ++ s2b ", " ++ dec 1 ++ s2b ", " ++ s2b "0)" = q) by (rewrite L; reflexivity).
  rewrite Hn. unfold memcpy. rewrite Ln, Hn. replace (firstn (N.to_nat 16777138) (repeat 97 n)) with (repeat 97 n).
  2:{ symmetry. apply firstn_all2. rewrite repeat_length. clear - Hn. lia. }
  change (16777138 <=? 16777138) with true. cbn match. change (beq (s2b "set") (s2b "delete")) with false. change (0 <? 0)%Z with false. cbn match.
  rewrite Eq, Lq. reflexivity.
Qed.

(** ** What is read from the slave *)
(** The three bytes of a length are taken for signed: a packet is read if and only if each is less than 128. *)
Lemma lor_shift a b : (0 <= b < 256)%Z -> Z.lor (Z.shiftl a 8) b = (a * 256 + b)%Z.
Proof.
  intros Hb. rewrite <- Z.lxor_lor, <- Z.add_nocarry_lxor; [now rewrite Z.shiftl_mul_pow2| |]; apply Z.bits_inj'; intros n Hn; rewrite Z.land_spec, Z.bits_0;
    (destruct (Z.lt_ge_cases n 8) as [L|L]; [rewrite Z.shiftl_spec_low by lia; reflexivity|]);
    (rewrite (Z.bits_above_log2 b); [apply andb_false_r|lia|]; destruct (Z.eq_dec b 0) as [->|]; [cbn; lia|]; apply Z.lt_le_trans with 8%Z; [|lia]; apply Z.log2_lt_pow2; lia).
Qed.
Theorem c63_read h0 h1 h2 id rest : h0 < 256 -> h1 < 256 -> h2 < 256 ->
  let n := h0 + 256 * h1 + 65536 * h2 in n <= blen rest ->
  read_packet (h0 :: h1 :: h2 :: id :: rest)
  = if (h0 <? 128) && (h1 <? 128) && (h2 <? 128) then Ok (firstn (N.to_nat n) rest, skipn (N.to_nat n) rest) else Err.
Proof.
  intros H0 H1 H2 n Hn. unfold read_packet.
  assert (G : get_bytes 4 (h0 :: h1 :: h2 :: id :: rest) = Ok ([h0; h1; h2; id], rest)).
  { unfold get_bytes. change (int_max <? 4) with false. cbn match. destruct (N.leb_spec 4 (blen (h0 :: h1 :: h2 :: id :: rest))) as [_|E]; [reflexivity|].
    exfalso. unfold blen in E. cbn [List.length] in E. lia. }
  rewrite G. cbn [bind].
  set (len := Z.lor _ _).
  assert (L : if (h0 <? 128) && (h1 <? 128) && (h2 <? 128) then len = Z.of_N n else (len < 0)%Z).
  { destruct ((h0 <? 128) && (h1 <? 128) && (h2 <? 128)) eqn:B.
    - rewrite !andb_true_iff in B. destruct B as [[B0 B1] B2]. unfold len, as_char. rewrite B0, B1, B2.
      replace (Z.shiftl (Z.of_N h2) 16) with (Z.shiftl (Z.shiftl (Z.of_N h2) 8) 8) by (rewrite Z.shiftl_shiftl; [reflexivity|lia]).
      rewrite <- Z.shiftl_lor. rewrite lor_shift by lia. rewrite lor_shift by lia. subst n. lia.
    - unfold len. rewrite !Z.lor_neg, !Z.shiftl_neg. unfold as_char.
      destruct (h0 <? 128) eqn:B0; [destruct (h1 <? 128) eqn:B1; [destruct (h2 <? 128) eqn:B2; [discriminate|]|]|]; lia. }
  clearbody len. destruct ((h0 <? 128) && (h1 <? 128) && (h2 <? 128)).
  - subst len. destruct (Z.ltb_spec (Z.of_N n) 0); [lia|]. rewrite N2Z.id. unfold get_bytes. destruct (N.ltb_spec int_max n) as [X|_]; [unfold int_max in X; subst n; lia|]. destruct (N.leb_spec n (blen rest)); [reflexivity|lia].
  - destruct (Z.ltb_spec len 0); [reflexivity|lia].
Qed.
Print Assumptions c63_read.
(** So a slave whose login takes 128 to 255 bytes is turned away. *)
Theorem c63_login_refuted : exists p, List.length p = 140%nat /\ read_packet (le_enc 3 (blen p) ++ [1] ++ p) = Err
  /\ read_packet (le_enc 3 (blen (firstn 100 p)) ++ [1] ++ firstn 100 p) = Ok (firstn 100 p, []).
Proof. exists (repeat 97 140). vm_compute. repeat split. Qed.
Print Assumptions c63_login_refuted.
(** An empty packet makes the server read through a null pointer. *)
Theorem c63_empty_refuted id rest : slave_command (0 :: 0 :: 0 :: id :: rest) = Undef.
Proof. unfold slave_command. rewrite (c63_read 0 0 0 id rest eq_refl eq_refl eq_refl); [reflexivity|]. apply N.le_0_l. Qed.
Print Assumptions c63_empty_refuted.

(** The commands: of a packet of at most 127 bytes with the command [c] the server reads all and no more, and takes [c] for
    the end of the session (COM_QUIT, 1), for a request for the log (COM_BINLOG_DUMP, 18) or for something else. *)
Theorem c63_command id c body rest : let n := blen (c :: body) in n < 128 ->
  slave_command ([n; 0; 0; id] ++ (c :: body) ++ rest) = Ok (match c with 1 => Quit | 18 => Dump | _ => Other end, rest).
Proof.
  intros n Hn. unfold slave_command. cbn [app].
  rewrite (c63_read n 0 0 id (c :: body ++ rest)); [|lia|reflexivity|reflexivity|].
  - replace (n <? 128) with true by (symmetry; now apply N.ltb_lt). cbn [N.ltb N.compare andb Pos.compare Pos.compare_cont].
    replace (n + 256 * 0 + 65536 * 0) with n by lia. unfold n, blen. rewrite Nat2N.id. change (c :: body ++ rest) with ((c :: body) ++ rest).
    rewrite firstn_app, skipn_app, Nat.sub_diag, firstn_all, skipn_all. cbn [firstn skipn app bind].
    f_equal. f_equal. destruct (N.eqb_spec c 1) as [->|E1]; [reflexivity|]. destruct (N.eqb_spec c 18) as [->|E2]; [reflexivity|].
    destruct c as [|c]; [reflexivity|]. do 5 (destruct c as [c|c|]; try reflexivity; try (now elim E1); try (now elim E2)).
  - unfold n, blen. cbn [List.length]. rewrite app_length. lia.
Qed.
Print Assumptions c63_command.
Example c63_command_nonvacuous : slave_command ([11; 0; 0; 0] ++ ([18; 4; 0; 0; 0; 0; 0; 2; 0; 0; 0]) ++ [1]) = Ok (Dump, [1]) /\ slave_command [1; 0; 0; 0; 1] = Ok (Quit, []).
Proof. split; vm_compute; reflexivity. Qed.
