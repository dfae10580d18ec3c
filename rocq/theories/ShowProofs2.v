(** Proofs for C80: the lines. *)
From Coq Require Import NArith ZArith List Bool String Lia.
From Coq Require Import ZifyBool ZifyNat ZifyN.
From Verif Require Import Base BaseLemmas TextModel TextSpec ClientSpec NodeModel NodeProofs BinaryProofs TextProofs StorageProofs4 MemcachedProofs3 OtherProofs TextProofs3 ClusterProofs9 SessionModel SessionProofs ServerModel ServerProofs StatsModel StatsSpec StatsProofs2 PoolModel PoolSpec ShowModel ShowSpec.
Import ListNotations.
Local Open Scope string_scope.
Local Open Scope N_scope.
Local Open Scope list_scope.

Definition traits : list trait := [TType; TPeer; TOp; TUptime; TState; TInfo; TQueue; TBehind].
Lemma dec_small n : n < 2 ^ 32 -> blen (dec n) <= 20.
Proof. intros H. apply (numeral_length (dec n) n (dec_numeral n)). eapply N.lt_trans; [exact H|reflexivity]. Qed.
Lemma dec_inj a b : dec a = dec b -> a = b.
Proof.
  intros E. assert (H : forall n, decZ (Z.of_N n) = dec n). { intros n. unfold decZ. replace (Z.of_N n <? 0)%Z with false by lia. f_equal. lia. }
  rewrite <- !H in E. apply decZ_inj in E. lia.
Qed.
Lemma digits_cut a b x y : Forall (fun c => is_digit c = true) a -> Forall (fun c => is_digit c = true) b -> a ++ 58 :: x = b ++ 58 :: y -> a = b /\ x = y.
Proof.
  intros A. revert b. induction A as [|c a H A IH]; intros b B E; destruct B as [|d b D B]; cbn [app] in E.
  - injection E as E. auto.
  - exfalso. injection E as E _. subst d. discriminate D.
  - exfalso. injection E as E _. subst c. discriminate H.
  - injection E as -> E. destruct (IH b B E) as (-> & ->). auto.
Qed.
Definition tail_name (f : trait) : bytes :=
  s2b match f with TType => "type" | TPeer => "peer" | TOp => "op" | TUptime => "uptime" | TState => "state" | TInfo => "info" | TQueue => "queue" | TBehind => "behind" end.
Lemma trait_name_cut id f : trait_name id f = dec id ++ 58 :: tail_name f.
Proof. unfold trait_name. f_equal. destruct f; reflexivity. Qed.
Lemma trait_name_inj id f id' f' : trait_name id f = trait_name id' f' -> id = id' /\ f = f'.
Proof.
  rewrite !trait_name_cut. intros E. apply digits_cut in E as (A & B); try apply dec_digits. split; [now apply dec_inj|]. destruct f, f'; first [reflexivity|discriminate B].
Qed.
Lemma trait_name_short id f : id < 2 ^ 32 -> blen (trait_name id f) <= 40.
Proof.
  intros H. unfold trait_name. rewrite blen_app. pose proof (dec_small id H).
  assert (B : forall g, blen (s2b match g with TType => ":type" | TPeer => ":peer" | TOp => ":op" | TUptime => ":uptime" | TState => ":state" | TInfo => ":info" | TQueue => ":queue" | TBehind => ":behind" end) <= 8) by (intros []; vm_compute; discriminate).
  specialize (B f). lia.
Qed.
Lemma behind_value now x : presentable now x -> behind now x = if t_queue x =? 0 then 0%Z else (now - t_front x)%Z.
Proof.
  intros (_ & _ & _ & _ & _ & Hq & _ & Hf). unfold behind. assert (U : u32 (t_queue x) = t_queue x) by (unfold u32; now apply N.mod_small). rewrite U.
  destruct (N.eqb_spec (t_queue x) 0) as [->|NZ]; [reflexivity|]. replace (0 <? t_queue x) with true by lia. cbv iota.
  unfold is_i32 in Hf. unfold u32_to_i32, i32_to_u32. change (2 ^ 31)%Z with 2147483648%Z in *. change (2 ^ 32)%Z with 4294967296%Z. change (2 ^ 31)%N with 2147483648%N. change (2 ^ 32)%N with 4294967296%N in *.
  generalize dependent (now - t_front x)%Z. intros z Hz. destruct (Z.ltb_spec z 0) as [LT|GE].
  - assert (E : (z mod 4294967296 = z + 4294967296)%Z) by (symmetry; apply (Z.mod_unique z 4294967296 (-1)); lia). rewrite E.
    repeat match goal with |- context [if ?c then _ else _] => destruct c eqn:? end; lia.
  - rewrite Z.mod_small by lia. repeat match goal with |- context [if ?c then _ else _] => destruct c eqn:? end; lia.
Qed.
Lemma cstr_line v : one_line v -> TextModel.cstr v = v.
Proof. intros (H & _). induction H as [|c v (H1 & H2) _ IH]; [reflexivity|]. cbn [TextModel.cstr]. destruct (N.eqb_spec c 0); [contradiction|]. now rewrite IH. Qed.
Lemma thread_lines now e x : id_of e < 2 ^ 32 -> presentable now x ->
  thread_stats now e x = map (fun f => (trait_name (id_of e) f, trait_value now (fst (fst e)) x f)) traits.
Proof.
  intros H P. pose proof P as (Hp & Hport & _ & _ & _ & Hq & _). pose proof (behind_value now x P) as B.
  assert (U : u32 (t_queue x) = t_queue x) by (unfold u32; now apply N.mod_small).
  unfold thread_stats, traits. cbn [map trait_value].
  assert (K : forall f, snprintf (trait_name (id_of e) f) = trait_name (id_of e) f) by (intros f; apply snprintf_id; pose proof (trait_name_short (id_of e) f H); lia).
  pose proof (K TType). pose proof (K TPeer). pose proof (K TOp). pose proof (K TUptime). pose proof (K TState). pose proof (K TInfo). pose proof (K TQueue). pose proof (K TBehind).
  unfold trait_name in *. rewrite B, U, (cstr_line _ Hp). rewrite (snprintf_id (t_peer x ++ _)).
  - congruence.
  - destruct Hp as (_ & Hp). rewrite !blen_app. pose proof (decZ_length (t_port x) (i32_i64 _ Hport)). change (blen (s2b ":")) with 1. lia.
Qed.
Lemma line_short v : one_line v -> Forall (fun c => c <> 10) v /\ blen v < 8192.
Proof. intros (A & B). split; [eapply List.Forall_impl; [|exact A]; cbv beta; tauto|lia]. Qed.
Lemma value_short now ty x f : is_i32 ty -> presentable now x -> Forall (fun c => c <> 10) (trait_value now ty x f) /\ blen (trait_value now ty x f) < 8192.
Proof.
  intros Ht (Hp & Hport & Hop & Hst & Hinf & Hq & Hs & Hf). destruct f; cbn [trait_value]; auto using line_short; try (now apply short_decZ); try (now apply decZ_32).
  - destruct (decZ_32 _ Hport) as (A & _). destruct (line_short _ Hp) as (B & _). destruct Hp as (_ & Hp). split.
    + apply List.Forall_app. split; [exact B|]. apply List.Forall_app. split; [repeat constructor; discriminate|exact A].
    + rewrite !blen_app. pose proof (decZ_length (t_port x) (i32_i64 _ Hport)). change (blen (s2b ":")) with 1. lia.
  - apply short_dec. eapply N.lt_trans; [exact Hq|reflexivity].
  - destruct (t_queue x =? 0); [apply decZ_32; unfold is_i32; lia|now apply decZ_32].
Qed.
Lemma line_readable now ty id x f : id < 2 ^ 32 -> is_i32 ty -> presentable now x -> readable (trait_name id f, trait_value now ty x f).
Proof.
  intros Hi Ht P. destruct (value_short now ty x f Ht P) as (A & B). pose proof (trait_name_short id f Hi) as L. split; [|split; [exact A|split]]; cbn [fst snd].
  - rewrite trait_name_cut. apply List.Forall_app. split.
    + eapply List.Forall_impl; [|apply dec_digits]. intros c Hc. apply is_digit_range in Hc. lia.
    + constructor; [lia|]. destruct f; repeat constructor; discriminate.
  - rewrite trait_name_cut. intros E. apply app_eq_nil in E as (_ & E). discriminate E.
  - change (2 ^ 16) with 65536. change (2 ^ 32) with 4294967296. lia.
Qed.

(** ** The whole report *)
Definition lines (now : Z) (look : N -> shown) (l : list (Z * N * N)) : list (bytes * bytes) :=
  flat_map (fun e => map (fun f => (trait_name (id_of e) f, trait_value now (fst (fst e)) (look (thread_of e)) f)) traits) l.
Lemma report_lines now look l : (forall e, In e l -> id_of e < 2 ^ 32) -> (forall t, presentable now (look t)) -> threads_stats now look l = lines now look l.
Proof.
  intros H P. unfold threads_stats, lines. induction l as [|e l IH]; [reflexivity|]. cbn [flat_map]. rewrite IH by (intros; apply H; now right).
  rewrite thread_lines; [reflexivity|apply H; now left|apply P].
Qed.
Lemma lines_in now look l k v : In (k, v) (lines now look l) <-> exists ty id t f, In (ty, id, t) l /\ k = trait_name id f /\ v = trait_value now ty (look t) f.
Proof.
  unfold lines. rewrite in_flat_map. split.
  - intros ([[ty id] t] & H & I). apply in_map_iff in I as (f & E & _). injection E as <- <-. exists ty, id, t, f. auto.
  - intros (ty & id & t & f & H & -> & ->). exists (ty, id, t). split; [exact H|]. apply in_map_iff. exists f. split; [reflexivity|]. destruct f; cbn [traits In]; tauto.
Qed.
Lemma lines_readable now look l : (forall e, In e l -> id_of e < 2 ^ 32) -> (forall e, In e l -> is_i32 (fst (fst e))) -> (forall t, presentable now (look t)) ->
  Forall readable (lines now look l).
Proof.
  intros H T P. apply List.Forall_forall. intros [k v] I. apply lines_in in I as (ty & id & t & f & I & -> & ->).
  apply line_readable; [exact (H _ I)|exact (T _ I)|apply P].
Qed.
Lemma lines_length now look l : List.length (lines now look l) = (8 * List.length l)%nat.
Proof. unfold lines. induction l as [|e l IH]; [reflexivity|]. cbn [flat_map List.length]. rewrite app_length, map_length, IH. cbn [traits List.length]. lia. Qed.
Lemma nodup_join {A} (a b : list A) : NoDup a -> NoDup b -> (forall x, In x a -> ~ In x b) -> NoDup (a ++ b).
Proof.
  intros N1 N2 X. induction N1 as [|x a NI _ IH]; [exact N2|]. cbn [app]. constructor; [|apply IH; intros y Hy; apply X; now right].
  rewrite in_app_iff. intros [H|H]; [auto|]. exact (X x (or_introl eq_refl) H).
Qed.
Lemma lines_nodup now look l : NoDup (map id_of l) -> NoDup (map fst (lines now look l)).
Proof.
  induction l as [|e l IH]; cbn [map]; intros H; [constructor|]. inversion H as [|? ? NI ND]; subst. unfold lines. cbn [flat_map]. fold (lines now look l). rewrite map_app. apply nodup_join.
  - rewrite map_map. cbn [fst]. assert (ND' : NoDup traits) by (unfold traits; repeat (constructor; [cbn [In]; intuition discriminate|]); constructor).
    clear -ND'. induction ND' as [|f fs A _ IH]; cbn [map]; [constructor|]. constructor; [|exact IH]. intros I. apply in_map_iff in I as (g & E & I). apply trait_name_inj in E as (_ & ->). contradiction.
  - now apply IH.
  - intros k A B. apply in_map_iff in A as ([k1 v1] & <- & A). apply in_map_iff in A as (f & E & _). injection E as <- <-. cbn [fst] in B.
    apply in_map_iff in B as ([k2 v2] & E & B). cbn [fst] in E. subst k2. apply lines_in in B as (ty & id & t & g & B & E & _). apply trait_name_inj in E as (E & _). apply NI. apply in_map_iff. exists (ty, id, t). auto.
Qed.
Lemma stat_iff k v l : NoDup (map fst l) -> stat k l = Some v <-> In (k, v) l.
Proof.
  induction l as [|[k1 v1] l IH]; cbn [map stat]; intros H; [split; [discriminate|intros []]|]. inversion H as [|? ? NI ND]; subst.
  destruct (beq k1 k) eqn:E.
  - apply BaseLemmas.beq_eq in E as ->. split; [intros X; injection X as ->; now left|]. intros [X|X]; [congruence|]. exfalso. apply NI. exact (in_map fst _ _ X).
  - rewrite (IH ND). split; [now right|]. intros [X|X]; [|exact X]. injection X as -> ->. assert (Y : beq k k = true) by now apply BaseLemmas.beq_eq. congruence.
Qed.
(** ** The request *)
Lemma line_asks k rest : threads_line match k with SlaveThreads tys => tys | _ => [] end (threads_wire k ++ rest) = Ok (Some k, rest).
Proof.
  set (tl := s2b " threads" ++ s2b match k with AllThreads => "" | RequestThreads => " request" | SlaveThreads _ => " slave" end).
  assert (E : threads_wire k ++ rest = s2b "stats" ++ tl ++ crlf ++ rest).
  { unfold threads_wire, tl. change (s2b "stats threads") with (s2b "stats" ++ s2b " threads"). rewrite <- !app_assoc. reflexivity. }
  rewrite E. assert (Hw : plain_word (s2b "stats")) by (apply TextProofs3.plainb_ok; reflexivity).
  assert (H1 : Forall (fun c => c <> 10) tl) by (destruct k; repeat constructor; discriminate). assert (H2 : hd 32 tl = 32) by reflexivity.
  destruct (command_any (s2b "stats") tl rest Hw H1 H2) as [G1 G2]. unfold threads_line. rewrite G1. cbn [bind]. rewrite G2. cbn [bind c_word].
  change (negb (beq (s2b "stats") (s2b "stats"))) with false. cbv iota. destruct k; vm_compute; reflexivity.
Qed.
