(** How the answers read back, and whole sessions. *)
From Coq Require Import String.
From stdpp Require Import gmap.
From Coq Require Import ZifyBool ZifyNat ZifyN.
From Verif Require Import Base BaseLemmas StorageModel StorageSpec StorageProofs3 StorageProofs4 TextModel TextSpec ClientSpec SessionModel SessionProofs ServerModel ServerProofs ServerProofs2 ReplicaProofs MemcachedSpec
  MemcachedProofs MemcachedProofs2 MemcachedProofs3 OtherProofs TextProofs TextProofs2 TextProofs3 TextProofs4 StreamModel BinaryModel BinarySpec BinaryProofs BinaryProofs2 BinaryServerModel BinaryServerSpec BinaryServerProofs BinaryServerProofs2
  BinaryServerProofs3 ClusterModel NodeModel NodeSpec NodeProofs StatsModel StatsSpec StatsProofs.
Local Notation shows := MemcachedProofs2.shows.
Local Open Scope N_scope.
Local Open Scope list_scope.

(** ** Text *)
Definition readable (p : bytes * bytes) : Prop :=
  Forall (fun c => c <> 32 /\ c <> 10 /\ c <> 0) (fst p) /\ Forall (fun c => c <> 10) (snd p) /\ fst p <> [] /\ blen (fst p) < 2 ^ 16 /\ blen (fst p) + blen (snd p) < 2 ^ 32.
Lemma upto_crlf_cons c r : c <> 13 \/ hd 0 r <> 10 -> upto_crlf (c :: r) = match upto_crlf r with Some (x, y) => Some (c :: x, y) | None => None end.
Proof.
  intros H. destruct (N.eq_dec c 13) as [->|Hc].
  - destruct H as [H|H]; [congruence|]. destruct r as [|d r]; [reflexivity|]. cbn [hd] in H.
    destruct d as [|p]; [reflexivity|]. repeat (destruct p as [p|p|]; try reflexivity; try congruence).
  - clear H. destruct c as [|p]; [reflexivity|]. repeat (destruct p as [p|p|]; try reflexivity; try congruence).
Qed.
Lemma upto_blank_cons c r : c <> 32 -> upto_blank (c :: r) = match upto_blank r with Some (x, y) => Some (c :: x, y) | None => None end.
Proof. intros H. destruct c as [|p]; [reflexivity|]. repeat (destruct p as [p|p|]; try reflexivity; try congruence). Qed.
Lemma upto_crlf_ok x r : Forall (fun c => c <> 10) x -> upto_crlf (x ++ crlf ++ r) = Some (x, r).
Proof.
  induction 1 as [|c x Hc Hx IH]; [reflexivity|]. cbn [app]. rewrite upto_crlf_cons.
  - change (list N) with bytes in IH. rewrite IH. reflexivity.
  - right. destruct Hx as [|d x Hd _]; cbn; [lia|exact Hd].
Qed.
Lemma upto_blank_ok x r : Forall (fun c => c <> 32) x -> upto_blank (x ++ 32 :: r) = Some (x, r).
Proof. induction 1 as [|c x Hc _ IH]; [reflexivity|]. cbn [app]. rewrite upto_blank_cons by exact Hc. rewrite IH. reflexivity. Qed.
Lemma stat_line_length p : (1 <= List.length (stat_line p))%nat.
Proof. unfold stat_line. rewrite app_length. cbn. lia. Qed.
Lemma read_text f l : Forall readable l -> (List.length l < f)%nat -> read_stats f (text_stats l) = Some l.
Proof.
  intros H. revert f. induction H as [|[k v] l (Hk & Hv & Hne & _) _ IH]; intros f Hf.
  - destruct f as [|f]; [cbn in Hf; lia|reflexivity].
  - destruct f as [|f]; [cbn in Hf; lia|]. unfold text_stats. cbn [flat_map].
    replace ((stat_line (k, v) ++ flat_map stat_line l) ++ s2b "END" ++ crlf) with ((s2b "STAT " ++ k ++ [32] ++ v) ++ crlf ++ text_stats l)
      by (unfold stat_line, text_stats; cbn [fst snd]; rewrite <- !app_assoc; reflexivity).
    cbn [fst snd] in *. cbn [read_stats]. rewrite upto_crlf_ok.
    2:{ rewrite !List.Forall_app. split; [vm_compute; repeat constructor; discriminate|]. split; [eapply List.Forall_impl; [|exact Hk]; cbv beta; tauto|].
        split; [repeat constructor; discriminate|exact Hv]. }
    replace (beq (s2b "STAT " ++ k ++ [32] ++ v) (s2b "END")) with false by reflexivity.
    change (firstn 5 (s2b "STAT " ++ k ++ [32] ++ v)) with (s2b "STAT "). change (skipn 5 (s2b "STAT " ++ k ++ [32] ++ v)) with (k ++ 32 :: v).
    change (beq (s2b "STAT ") (s2b "STAT ")) with true. cbv iota.
    rewrite upto_blank_ok by (eapply List.Forall_impl; [|exact Hk]; cbv beta; tauto). rewrite IH by (cbn in Hf; lia). reflexivity.
Qed.
Lemma read_text_ok l : Forall readable l -> text_reads (text_stats l) = Some l.
Proof.
  intros H. apply read_text; [exact H|]. unfold text_stats. rewrite app_length.
  enough (List.length l <= List.length (flat_map stat_line l))%nat by (cbn; lia). clear H.
  induction l as [|p l IH]; [reflexivity|]. cbn [flat_map List.length]. rewrite app_length. pose proof (stat_line_length p). lia.
Qed.
(** ** Binary *)
Lemma no_nul k : Forall (fun c => c <> 32 /\ c <> 10 /\ c <> 0) k -> TextModel.cstr k = k.
Proof. induction 1 as [|c k Hc _ IH]; [reflexivity|]. cbn [cstr]. destruct (N.eqb_spec c 0); [tauto|]. now rewrite IH. Qed.
Lemma binary_stat_encode p : readable p -> binary_stat p = encode (stat_message p).
Proof.
  destruct p as [k v]. intros (Hk & _ & _ & HK & HT). cbn [fst snd] in *. unfold binary_stat, stat_message. cbn [fst snd]. rewrite (no_nul k Hk), blen_app.
  unfold encode, body, header. cbn [m_magic m_opcode m_status m_opaque m_cas m_extras m_key m_value app].
  unfold new_header, set_field. cbn [offset width]. rewrite (mod_fit (blen k)) by exact HK.
  assert (E : (blen k + blen v) mod 256 ^ N.of_nat 4 = blen [] + blen k + blen v).
  { change (256 ^ N.of_nat 4) with 4294967296. change (2 ^ 32) with 4294967296 in HT. rewrite N.mod_small, blen_nil; lia. }
  rewrite E. set (X := be_enc 4 (blen [] + blen k + blen v)). destruct (four_bytes (blen [] + blen k + blen v)) as (a & b & c & d & HX). fold X in HX. rewrite HX.
  destruct (two_bytes (blen k)) as (y & z & ->). reflexivity.
Qed.
Lemma read_binary_ok l : Forall readable l -> binary_reads (binary_stats l) l.
Proof.
  intros H. split.
  - unfold binary_stats. change (new_header magic_response 16) with (encode (stat_message ([], []))). f_equal.
    induction H as [|p l Hp _ IH]; [reflexivity|]. cbn [flat_map]. now rewrite IH, binary_stat_encode.
  - eapply List.Forall_impl; [|exact H]. intros p (_ & _ & Hne & _). exact Hne.
Qed.
(** ** The lines are readable *)
Definition plainb (k : bytes) : bool := forallb (fun c => negb (c =? 32) && negb (c =? 10) && negb (c =? 0)) k && (0 <? blen k) && (blen k <? 100).
Definition short (v : bytes) : Prop := Forall (fun c => c <> 10) v /\ blen v < 8192.
Lemma readable_plain k v : plainb k = true -> short v -> readable (k, v).
Proof.
  unfold plainb. rewrite !andb_true_iff, forallb_forall. intros ((H & H1) & H2) (Hv & Hl). split; cbn [fst snd].
  - apply List.Forall_forall. intros c I'. specialize (H c I'). lia.
  - split; [exact Hv|]. split; [intros ->; discriminate|]. change (2 ^ 16) with 65536. change (2 ^ 32) with 4294967296. lia.
Qed.
Lemma short_dec n : n < 2 ^ 64 -> short (dec n).
Proof.
  intros H. split.
  - eapply List.Forall_impl; [|apply dec_digits]. intros c Hc. apply is_digit_range in Hc. lia.
  - pose proof (numeral_length _ _ (dec_numeral n) H). lia.
Qed.
Lemma decZ_bytes z : Forall (fun c => c = 45 \/ 48 <= c <= 57) (decZ z).
Proof.
  assert (D : forall n, Forall (fun c => c = 45 \/ 48 <= c <= 57) (dec n)).
  { intros n. eapply List.Forall_impl; [|apply dec_digits]. intros c Hc. apply is_digit_range in Hc. now right. }
  unfold decZ. destruct (z <? 0)%Z; [constructor; [now left|apply D]|apply D].
Qed.
Lemma short_decZ z : is_i64 z -> short (decZ z).
Proof.
  intros H. split; [eapply List.Forall_impl; [|apply decZ_bytes]; cbv beta; lia|]. pose proof (decZ_length z H). lia.
Qed.
Lemma short_word v : forallb (fun c => negb (c =? 10)) v && (blen v <? 100) = true -> short v.
Proof.
  rewrite andb_true_iff, forallb_forall. intros (H & H1). split; [|lia]. apply List.Forall_forall. intros c I'. specialize (H c I'). lia.
Qed.
Lemma u32_small n : u32 n < 2 ^ 64.
Proof. unfold u32. eapply N.lt_trans; [apply N.mod_lt; discriminate|reflexivity]. Qed.
Lemma general_readable u s c v : fair u -> (forall x, c x < 2 ^ 64) -> v < 2 ^ 64 -> Forall readable (general_stats u s c v).
Proof.
  intros (F1 & F2 & F3 & F4 & F5 & F6 & F7 & F8 & F9 & F10 & F11) Hc Hv. unfold general_stats.
  repeat (apply List.Forall_cons; [apply readable_plain;
    [vm_compute; reflexivity|first [apply short_decZ; assumption | apply short_dec; first [assumption|apply Hc|apply u32_small] | exact F10 | exact F11 | apply short_word; vm_compute; reflexivity]]|]).
  apply List.Forall_nil.
Qed.
Lemma decZ_32 z : is_i32 z -> short (decZ z).
Proof. intros H. apply short_decZ. unfold is_i32, is_i64 in *. lia. Qed.
Lemma name_length n : int_node n -> blen (n_name n ++ s2b ":" ++ decZ (n_port n)) <= 1100 /\ Forall (fun c => c <> 32 /\ c <> 10 /\ c <> 0) (n_name n ++ s2b ":" ++ decZ (n_port n)).
Proof.
  intros ((Hne & Hw & Hl) & Hp & _). split.
  - rewrite !blen_app. change (blen (s2b ":")) with 1. assert (Hz : is_i64 (n_port n)) by (unfold is_i32, is_i64 in *; lia). pose proof (decZ_length _ Hz). lia.
  - rewrite !List.Forall_app. split; [eapply List.Forall_impl; [|exact Hw]; unfold word_byte; cbv beta; tauto|]. split; [repeat constructor; discriminate|].
    eapply List.Forall_impl; [|apply decZ_bytes]. cbv beta. lia.
Qed.
Lemma node_stats_lines n : int_node n -> node_stats n = node_lines n.
Proof.
  intros H. destruct (name_length n H) as (L & F). unfold node_stats, node_lines, to_node_key. change [58] with (s2b ":").
  rewrite (no_nul _ F).
  assert (E : forall x, blen x <= 100 -> snprintf ((n_name n ++ s2b ":" ++ decZ (n_port n)) ++ x) = (n_name n ++ s2b ":" ++ decZ (n_port n)) ++ x).
  { intros x Hx. apply snprintf_id. rewrite blen_app. lia. }
  rewrite !E by (vm_compute; discriminate).
  destruct (n_role n), (n_state n); reflexivity.
Qed.
Lemma node_readable n : int_node n -> Forall readable (node_lines n).
Proof.
  intros H. destruct (name_length n H) as (L & F). pose proof H as ((Hne & _) & _ & Hp & Hb & Ht). unfold node_lines.
  set (name := n_name n ++ s2b ":" ++ decZ (n_port n)) in *.
  assert (R : forall x v, plainb x = true -> short v -> readable (name ++ x, v)).
  { intros x v Hx Hv. destruct (readable_plain x v Hx Hv) as (X1 & X2 & X3 & _). destruct Hv as (Hv1 & Hv2). unfold plainb in Hx. rewrite !andb_true_iff in Hx.
    split; cbn [fst snd] in *; [apply List.Forall_app; auto|]. split; [exact X2|]. split; [intros E; apply app_eq_nil in E as (_ & E); contradiction|].
    rewrite blen_app. change (2 ^ 16) with 65536. change (2 ^ 32) with 4294967296. lia. }
  repeat (apply List.Forall_cons; [apply R; [vm_compute; reflexivity|first [now apply decZ_32|destruct (n_role n); apply short_word; vm_compute; reflexivity|destruct (n_state n); apply short_word; vm_compute; reflexivity]]|]).
  apply List.Forall_nil.
Qed.
Lemma nodes_readable m : Forall int_node (map snd m) -> nodes_stats m = flat_map node_lines (map snd m) /\ Forall readable (nodes_stats m).
Proof.
  intros H. assert (E : nodes_stats m = flat_map node_lines (map snd m)).
  { unfold nodes_stats. induction m as [|[k n] m IH]; [reflexivity|]. cbn [map flat_map snd] in *. inversion H; subst. rewrite IH by assumption. now rewrite node_stats_lines. }
  split; [exact E|]. rewrite E. clear E. induction H as [|n l Hn _ IH]; [constructor|]. cbn [flat_map]. apply List.Forall_app. split; [now apply node_readable|exact IH].
Qed.
(** ** They are right *)
Lemma few_items T s m now ks : shows (fun _ => True) T m s -> (T <= now)%Z -> List.NoDup ks -> (forall k, In k ks -> look m now k <> None) ->
  N.of_nat (List.length ks) <= N.of_nat (base.size (db s)).
Proof.
  intros Sh HT ND H. enough (List.length ks <= List.length (map fst (map_to_list (db s))))%nat as L.
  { rewrite map_length in L. unfold base.size, map_size. lia. }
  apply NoDup_incl_length; [exact ND|]. intros k Hk. specialize (H k Hk). destruct (look m now k) as [r|] eqn:E; [|congruence].
  destruct (look_live (fun _ => True) T s m now Sh HT k r Logic.I E) as (A & _). apply in_map_iff. exists (k, encode_rec r). split; [reflexivity|].
  apply elem_of_list_In, elem_of_map_to_list. exact A.
Qed.
Lemma counted_right T s m now u c h nodes v : shows (fun _ => True) T m s -> (T <= now)%Z -> counted c h -> right now m h nodes v General (general_stats u s c v).
Proof.
  intros Sh HT HC. split; [intros x Hx; rewrite <- (HC x); destruct x; try congruence; reflexivity|].
  split; [|split; [reflexivity|]].
  - assert (E : u32 (c TotalItems) = times TotalItems h mod 2 ^ 32).
    { rewrite (HC TotalItems). unfold u32. change (2 ^ 64) with (2 ^ 32 * 2 ^ 32). rewrite N.mod_mul_r by discriminate. rewrite (N.mul_comm (2 ^ 32) (_ mod _)), N.mod_add by discriminate. apply N.mod_mod. discriminate. }
    rewrite <- E. reflexivity.
  - exists (N.of_nat (base.size (db s))). split; [reflexivity|]. intros ks. now apply (few_items T).
Qed.
(** ** One request *)
Lemma command_read now s c r s' : serve_request now s = Ok (c, r, s') -> exists line s1 rest, get_line s = Ok (line, s1) /\ parse_command line = Ok (c, rest).
Proof.
  unfold serve_request. destruct (get_line s) as [| |[line s1]]; cbn [bind]; [discriminate..|].
  destruct (parse_command line) as [| |[c0 rest]] eqn:P; cbn [bind]; [discriminate..|]. intros H. exists line, s1, rest. split; [reflexivity|]. rewrite P. do 2 f_equal.
  destruct (mem (c_word c0) store_idents).
  { destruct (serve_store _ _ _ _) as [| |[? ?]]; cbn [bind] in H; [discriminate..|]. now injection H. }
  destruct (beq (c_word c0) (s2b "delete")).
  { destruct (serve_delete _ _); cbn [bind] in H; [discriminate..|]. now injection H. }
  destruct (mem (c_word c0) _).
  { destruct (serve_touch _ _); cbn [bind] in H; [discriminate..|]. now injection H. }
  destruct (mem (c_word c0) _).
  { destruct (serve_incr _) as [| |[? ?]]; cbn [bind] in H; [discriminate..|]. now injection H. }
  destruct (mem (c_word c0) _).
  { destruct (serve_get _); cbn [bind] in H; [discriminate..|]. now injection H. }
  destruct (serve_other _ _); cbn [bind] in H; [discriminate..|]. now injection H.
Qed.
Definition with_step (w : watched) (s : store) (c : counters) : watched := mkWatched s c (w_map w) (w_version w).
Lemma watch_ask T M m now u w h q : quiet T M (w_store w) -> shows (fun _ => True) T m (w_store w) -> (T <= now)%Z -> sane_clock now -> M + 1 < 2 ^ 64 ->
  ask_legal q -> ~ unfit now m q -> counted (w_counts w) h ->
  exists s1 c1 m1 out, (forall rest, watch_any u now w (ask_wire q ++ rest) = Ok (out, with_step w s1 c1, rest) /\ quits_any now (ask_wire q ++ rest) = ask_quits q)
  /\ ask_does plain_answer now m q m1 out /\ quiet now (M + 1) s1 /\ shows (fun _ => True) now m1 s1 /\ counted c1 (ask_moves now m q ++ h).
Proof.
  intros Q Sh HT Hn HM Hl Hu HC. destruct (ask_step T M (w_store w) m now q Q Sh HT Hn HM Hl Hu) as (s1 & m1 & out & Hrun & Hdo & Q1 & Sh1).
  destruct w as [s c mp v]. cbn [w_store w_counts] in *. unfold with_step. cbn [w_map w_version].
  destruct q as [k|a]; cbn [ask_legal ask_wire ask_moves] in *.
  - assert (D : {MemcachedProofs2.known k} + {exists w r, k = Unknown w r}) by (destruct k; try (left; exact Logic.I); right; eauto).
    destruct D as [Hk|(w & r & ->)].
    + exists s1, (count_request now s (request_of now k) c), m1, out. split; [|split; [exact Hdo|split; [exact Q1|split; [exact Sh1|exact (call_counts T M s m now c h k Q Sh HT Hn HM Hl Hk Hu HC)]]]].
      intros rest. destruct (Hrun rest) as (R & ->). split; [|reflexivity]. unfold watch_any. unfold run_any in R. rewrite (text_first k rest Hl) in R |- *.
      pose proof (served now k rest now m Hl Hk Hu) as S. destruct (command_read _ _ _ _ _ S) as (line & s2 & rr & G & P).
      unfold watch_line. rewrite G. cbn [bind]. rewrite P. cbn [bind c_word].
      replace (beq (word_of k) (s2b "stats")) with false by (destruct k as [[]| | | | |[]|[]| | | | | |]; try reflexivity; elim Hk).
      apply next_accepted in S. unfold run_line in R. rewrite S in R |- *. cbn [bind] in *. cbn [w_store w_counts w_map w_version].
      destruct (run_request now s (request_of now k)) as [| |p]; cbn [bind] in *; [discriminate..|]. injection R as <- <-. reflexivity.
    + exists s1, c, m1, out. split; [|split; [exact Hdo|split; [exact Q1|split; [exact Sh1|exact HC]]]].
      intros rest. destruct (Hrun rest) as (R & ->). split; [|reflexivity]. unfold watch_any. unfold run_any in R. rewrite (text_first _ rest Hl) in R |- *.
      pose proof (unknown_served now w r rest Hl) as S. pose proof Hl as (Hk & Hlen & Hnot & H60 & _ & Hr & H32).
      assert (Hw : plain_word w) by (split; [apply Hk|]; split; [apply Hk|]; split; [lia|exact H60]).
      destruct (command_any w r rest Hw Hr H32) as [G1 G2]. change line_end with crlf in *.
      unfold watch_line. assert (E : wire (Unknown w r) ++ rest = w ++ r ++ crlf ++ rest) by (cbn [wire]; rewrite <- !app_assoc; reflexivity).
      rewrite E in S, R |- *. rewrite G1. cbn [bind]. rewrite G2. cbn [bind c_word].
      replace (beq w (s2b "stats")) with false.
      2:{ symmetry. apply beq_neq. intros ->. apply Hnot. vm_compute. tauto. }
      unfold run_line in R. rewrite S in R |- *. cbn [bind] in *. injection R as <- <-. reflexivity.
  - exists s1, (count_brequest now s (brequest_of now a) c), m1, out.
    assert (Hf : fits a) by (unfold fits; apply N.nlt_ge; intros H; apply Hu; left; exact H).
    split; [|split; [exact Hdo|split; [exact Q1|split; [exact Sh1|exact (bcall_counts T M s m now c h a Q Sh HT Hn HM Hl Hu HC)]]]].
    intros rest. destruct (Hrun rest) as (R & ->). split; [|reflexivity]. unfold watch_any. unfold run_any in R. rewrite (binary_first a rest) in R |- *.
    unfold watch_binary. rewrite (bserved now a rest Hl Hf) in R |- *. cbn [bind] in *. cbn [w_store w_counts w_map w_version].
    transitivity (let* (s', o) := run_brequest now s (brequest_of now a) in Ok (o, mkWatched s' (count_brequest now s (brequest_of now a) c) mp v, rest)).
    { clear. destruct a as [q op b]. destruct b as [[]| | | | |? ? ? [[]|]| | | | |], q; reflexivity. }
    destruct (run_brequest now s (brequest_of now a)) as [| |[s2 o2]]; cbn [bind] in *; [discriminate..|]. injection R as <- <-. reflexivity.
Qed.
Definition asked_of (r : report) : asked := match r with General => AskGeneral | Nodes => AskNodes end.
Lemma report_right T m now u w h r : shows (fun _ => True) T m (w_store w) -> (T <= now)%Z -> fair u -> counted (w_counts w) h -> w_version w < 2 ^ 64 -> Forall int_node (map snd (w_map w)) ->
  exists l, stats_of_node u w (asked_of r) = Ok l /\ Forall readable l /\ right now m h (map snd (w_map w)) (w_version w) r l.
Proof.
  intros Sh HT Hu HC Hv Hm. destruct r; cbn [asked_of stats_of_node].
  - exists (general_stats u (w_store w) (w_counts w) (w_version w)). split; [reflexivity|]. split; [|now apply (counted_right T)].
    apply general_readable; auto. intros x. rewrite (HC x). apply N.mod_lt. discriminate.
  - destruct (nodes_readable (w_map w) Hm) as (E & R). exists (nodes_stats (w_map w)). auto.
Qed.
Lemma watch_text u now w r l rest : stats_of_node u w (asked_of r) = Ok l ->
  watch_any u now w (act_wire (SeeText r) ++ rest) = Ok (text_stats l, w, rest) /\ quits_any now (act_wire (SeeText r) ++ rest) = false.
Proof.
  intros H. set (tl := match r with General => [] | Nodes => space (s2b "nodes") end).
  assert (E : act_wire (SeeText r) ++ rest = s2b "stats" ++ tl ++ crlf ++ rest) by (cbn [act_wire]; fold tl; rewrite <- !app_assoc; reflexivity).
  rewrite E. assert (Hw : plain_word (s2b "stats")) by (apply plainb_ok; reflexivity).
  assert (H1 : Forall (fun c => c <> 10) tl) by (destruct r; repeat constructor; discriminate). assert (H2 : hd 32 tl = 32) by (destruct r; reflexivity).
  destruct (command_any (s2b "stats") tl rest Hw H1 H2) as [G1 G2].
  assert (B : is_binary (s2b "stats" ++ tl ++ crlf ++ rest) = false) by reflexivity. unfold watch_any, quits_any. rewrite B. split.
  - unfold watch_line. rewrite G1. cbn [bind]. rewrite G2. cbn [bind c_word]. change (beq (s2b "stats") (s2b "stats")) with true. cbv iota.
    assert (P : parse_asked (tl ++ [10]) = Ok (asked_of r)) by (destruct r; vm_compute; reflexivity). rewrite P, H. reflexivity.
  - unfold quits, serve_next. rewrite G1. cbn [bind]. rewrite G2. cbn [bind c_word]. change (mem (s2b "stats") store_idents) with false. cbv iota.
    rewrite (serve_word now (s2b "stats") tl rest Hw H1 H2) by reflexivity. change (serve_other (s2b "stats") (tl ++ [10])) with (Ok (ROther (s2b "stats"))). reflexivity.
Qed.
Lemma watch_message u now w r o l rest : o < 2 ^ 32 -> stats_of_node u w (asked_of r) = Ok l ->
  watch_any u now w (act_wire (SeeBinary r o) ++ rest) = Ok (binary_stats l, w, rest) /\ quits_any now (act_wire (SeeBinary r o) ++ rest) = false.
Proof.
  intros Ho H. cbn [act_wire]. set (mm := mkMsg 128 16 0 o 0 [] (report_word r) []).
  assert (Z : well_sized mm) by (constructor; cbn [mm m_magic m_opcode m_status m_opaque m_cas m_extras m_key m_value]; auto; destruct r; vm_compute; congruence).
  assert (N : binary_next now (encode mm ++ rest) = Ok (BAccepted (BOther 16 (report_word r)), rest)).
  { destruct (frame mm Z rest) as (b & B & D). unfold binary_next, encode. rewrite <- app_assoc, read_header_spec by apply header_length.
    pose proof (header_fields mm Z) as (HM & HO & _ & _ & _ & _ & HTot & _). rewrite HM. change (m_magic mm =? magic_request) with true. cbv iota. cbn [bind]. rewrite B, HO.
    unfold parse_binary. rewrite HO. change (m_opcode mm) with 16. cbn [nmem existsb op_sets op_appends op_deletes op_gets op_incrs op_touches N.eqb Pos.eqb orb bind].
    destruct D as [-> | (-> & D1 & D2)]; [cbn [bind]; unfold body, mm; cbn [m_extras m_key m_value app]; rewrite app_nil_r; reflexivity|].
    rewrite D2. cbn [N.ltb N.compare andb bind]. destruct r; [reflexivity|discriminate D1]. }
  assert (B : is_binary (encode mm ++ rest) = true) by reflexivity.
  unfold watch_any, quits_any. rewrite B. split.
  - unfold watch_binary. rewrite N. cbn [bind].
    assert (P : parse_asked (TextModel.cstr (report_word r)) = Ok (asked_of r)) by (destruct r; vm_compute; reflexivity). rewrite P, H. reflexivity.
  - rewrite N. reflexivity.
Qed.

(** ** Sessions *)
Lemma act_unfit_dec now m x : {act_unfit now m x} + {~ act_unfit now m x}.
Proof. destruct x as [q| |]; cbn [act_unfit]; [apply unfit_dec|right; tauto..]. Qed.
Lemma watch_spec l : forall us T M w m h rest, quiet T M (w_store w) -> shows (fun _ => True) T m (w_store w) -> sane_clock T -> counted (w_counts w) h ->
  w_version w < 2 ^ 64 -> Forall int_node (map snd (w_map w)) -> Forall fair us -> (List.length l <= List.length us)%nat ->
  rising_acts T l -> Forall (fun p => act_legal (snd p)) l -> M + N.of_nat (List.length l) < 2 ^ 64 ->
  exists l1 l2 w' m' h' outs, l = l1 ++ l2
    /\ watch_session (combine (map fst l1) us) w (sent_acts l1 ++ rest) = Ok (w', outs)
    /\ observed (map snd (w_map w)) (w_version w) m h l1 m' h' outs
    /\ w_map w' = w_map w /\ w_version w' = w_version w /\ (forall x, w_counts w' x = times x h' mod 2 ^ 64)
    /\ match l2 with [] => True | (now, x) :: _ => act_unfit now m' x end.
Proof.
  induction l as [|[now x] l IH]; intros us T M w m h rest Q Sh HT HC Hv Hm Hus Hlen Hr Hl HM.
  { exists [], [], w, m, h, []. split; [reflexivity|]. split; [reflexivity|]. split; [constructor|]. auto 8. }
  destruct (act_unfit_dec now m x) as [Hlong|Hshort].
  { exists [], ((now, x) :: l), w, m, h, []. split; [reflexivity|]. split; [reflexivity|]. split; [constructor|]. auto 8. }
  destruct us as [|u us]; [cbn in Hlen; lia|]. inversion Hus as [|? ? Hu Hus']; subst.
  destruct Hr as (Hnow & Hr). inversion Hl as [|? ? Hc Hl']; subst. cbn [snd] in Hc.
  assert (HM1 : M + 1 < 2 ^ 64). { cbn [List.length] in HM. clear - HM. change (2 ^ 64) with 18446744073709551616 in *. lia. }
  assert (HM2 : M + 1 + N.of_nat (List.length l) < 2 ^ 64). { cbn [List.length] in HM. clear - HM. change (2 ^ 64) with 18446744073709551616 in *. lia. }
  assert (HL2 : (List.length l <= List.length us)%nat) by (cbn in Hlen; lia).
  assert (Hsn : sane_clock now) by (unfold sane_clock in *; lia). destruct Hnow as (Hnow & _).
  assert (SEE : forall r l0, stats_of_node u w (asked_of r) = Ok l0 -> right now m h (map snd (w_map w)) (w_version w) r l0 -> Forall readable l0 ->
     (x = SeeText r \/ exists o, x = SeeBinary r o) ->
     exists l1 l2 w' m' h' outs, (now, x) :: l = l1 ++ l2
    /\ watch_session (combine (map fst l1) (u :: us)) w (sent_acts l1 ++ rest) = Ok (w', outs)
    /\ observed (map snd (w_map w)) (w_version w) m h l1 m' h' outs
    /\ w_map w' = w_map w /\ w_version w' = w_version w /\ (forall x, w_counts w' x = times x h' mod 2 ^ 64)
    /\ match l2 with [] => True | (now, x) :: _ => act_unfit now m' x end).
  { intros r l0 S R0 RD D.
    assert (Qn : quiet now (M + 1) (w_store w)) by (eapply quiet_mono; [exact Hnow| |exact Q]; clear; lia).
    assert (Shn : shows (fun _ => True) now m (w_store w)) by (intros k Hk t Ht; apply Sh; [exact Hk|clear - Ht Hnow; lia]).
    destruct (IH us now (M + 1) w m h rest Qn Shn Hsn HC Hv Hm Hus' HL2 Hr Hl' HM2)
      as (l1 & l2 & w' & m' & h' & outs & -> & Hses & Hobs & E1 & E2 & E3 & Hend).
    assert (W : exists out, watch_any u now w (act_wire x ++ sent_acts l1 ++ rest) = Ok (out, w, sent_acts l1 ++ rest) /\ quits_any now (act_wire x ++ sent_acts l1 ++ rest) = false
       /\ observed (map snd (w_map w)) (w_version w) m h ((now, x) :: l1) m' h' (out :: outs)).
    { destruct D as [-> | (o & ->)].
      - exists (text_stats l0). destruct (watch_text u now w r l0 (sent_acts l1 ++ rest) S) as (-> & ->). split; [reflexivity|]. split; [reflexivity|].
        eapply obs_text; [now apply read_text_ok|exact R0|exact Hobs].
      - exists (binary_stats l0). destruct (watch_message u now w r o l0 (sent_acts l1 ++ rest) Hc S) as (-> & ->). split; [reflexivity|]. split; [reflexivity|].
        eapply obs_binary; [now apply read_binary_ok|exact R0|exact Hobs]. }
    destruct W as (out & W1 & W2 & W3).
    exists ((now, x) :: l1), l2, w', m', h', (out :: outs). split; [reflexivity|]. split; [|split; [exact W3|auto]].
    cbn [map fst combine sent_acts flat_map snd]. rewrite <- app_assoc. cbn [watch_session].
    change (flat_map (fun p0 => act_wire (snd p0)) l1) with (sent_acts l1). rewrite W1, W2. cbn [bind]. rewrite Hses. reflexivity. }
  destruct x as [q|r|r o]; cbn [act_legal act_unfit] in *.
  2:{ destruct (report_right T m now u w h r Sh Hnow Hu HC Hv Hm) as (l0 & S & RD & R0). apply (SEE r l0 S R0 RD). now left. }
  2:{ destruct (report_right T m now u w h r Sh Hnow Hu HC Hv Hm) as (l0 & S & RD & R0). apply (SEE r l0 S R0 RD). right. eauto. }
  clear SEE. destruct (watch_ask T M m now u w h q Q Sh Hnow Hsn HM1 Hc Hshort HC) as (s1 & c1 & m1 & out1 & Hrun & Hdo & Q1 & Sh1 & HC1).
  destruct (ask_quits q) eqn:Eq.
  { exists ((now, Ask q) :: l), [], (with_step w s1 c1), m1, (ask_moves now m q ++ h), [out1]. split; [now rewrite app_nil_r|].
    split; [|split; [apply obs_quit; [exact Eq|exact Hdo]|cbn; auto]].
    cbn [map fst combine sent_acts flat_map snd act_wire]. rewrite <- app_assoc. cbn [watch_session].
    match goal with |- context [ask_wire q ++ ?X] => destruct (Hrun X) as (-> & ->) end. reflexivity. }
  destruct (IH us now (M + 1) (with_step w s1 c1) m1 (ask_moves now m q ++ h) rest Q1 Sh1 Hsn HC1 Hv Hm Hus' HL2 Hr Hl' HM2)
    as (l1 & l2 & w' & m' & h' & outs & -> & Hses & Hobs & E1 & E2 & E3 & Hend).
  exists ((now, Ask q) :: l1), l2, w', m', h', (out1 :: outs). split; [reflexivity|]. split; [|split; [eapply obs_ask; eauto|auto]].
  cbn [map fst combine sent_acts flat_map snd act_wire]. rewrite <- app_assoc. cbn [watch_session].
  change (flat_map (fun p0 => act_wire (snd p0)) l1) with (sent_acts l1).
  destruct (Hrun (sent_acts l1 ++ rest)) as (-> & ->). cbn [bind]. rewrite Hses. reflexivity.
Qed.
