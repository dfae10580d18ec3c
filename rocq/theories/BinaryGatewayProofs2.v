(** Binary requests put to any node act on one memory (C74). *)
From Coq Require Import String.
From stdpp Require Import gmap.
From Coq Require Import ZifyBool ZifyNat ZifyN.
From Verif Require Import Base BaseLemmas StorageModel StorageSpec StorageProofs StorageProofs2 StorageProofs3 StorageProofs4
  TextModel TextSpec TextProofs TextProofs2 TextProofs3 TextProofs4 ClientSpec SessionModel SessionProofs NamesModel ServerModel ServerProofs ServerProofs2 ReplicaProofs ReplicaProofs2
  MemcachedSpec MemcachedProofs MemcachedProofs2 MemcachedProofs3 KeyResolverModel ClusterModel ClusterSpec NodeModel RoutingModel RoutingSpec GatewayModel GatewaySpec GatewayProofs GatewayProofs2 OtherProofs
  StreamModel BinaryModel BinarySpec BinaryProofs BinaryProofs2 BinaryServerModel BinaryServerSpec BinaryServerProofs BinaryServerProofs2 BinaryGatewayModel BinaryGatewaySpec BinaryGatewayProofs.
Local Open Scope N_scope.
Local Open Scope list_scope.

Lemma counterpart_keys c t : keyed c -> counterpart c = Some t -> keys_of t = [key_of c] /\ (forall nr, t <> Flush nr).
Proof.
  destruct c as [[] k f x d| | | | |up k v [i|]| | | | |]; intros [] H; try discriminate H; cbn [counterpart] in H; injection H as <-; (split; [reflexivity|discriminate]).
Qed.
Lemma update_other m k o k' : k' <> k -> update m k o k' = m k'.
Proof. intros H. unfold update. destruct (beq k k') eqn:E; [|reflexivity]. apply beq_eq in E. congruence. Qed.
Lemma bdoes_frame asked now m c m' y k : bdoes asked now m c m' y -> keyed c -> k <> key_of c -> m' k = m k.
Proof.
  intros H Hc Hk. destruct H as [c t m' w st msg Hct Hd _|kk x r m' out _ Hd|up kk v i m' d n Hd _|up kk v i x d t _ _|wk kk r _|wk kk _|]; cbn [key_of] in *; auto.
  - destruct (counterpart_keys c t Hc Hct) as (Hks & Hf). eapply does_frame; [exact Hd|exact Hf|]. rewrite Hks. intros [E|[]]. congruence.
  - eapply does_frame; [exact Hd|discriminate|]. intros [E|[]]. congruence.
  - eapply does_frame; [exact Hd|discriminate|]. intros [E|[]]. congruence.
  - now apply update_other.
Qed.
Lemma bdoes_keyless asked now m c m' y : bdoes asked now m c m' y -> ~ keyed c -> c <> QFlush -> m' = m.
Proof.
  intros H Hc Hf. destruct H as [c t m' w st msg Hct Hd _| | | | | |]; cbn [keyed] in Hc; try tauto.
  destruct c; cbn [keyed] in Hc; try tauto; cbn [counterpart] in Hct; try discriminate Hct; injection Hct as <-; inversion Hd; reflexivity.
Qed.
Lemma counterpart_legal a t : legal_ask a -> legal_key (key_of (a_call a)) -> passed (a_call a) -> counterpart (a_call a) = Some t -> legal_call t.
Proof.
  destruct a as [q op c]. intros (_ & Hc) Hk. cbn [a_call a_quiet] in *. destruct c as [md k f x d| |k x|k x|k| | | | | |]; intros [] H; cbn [key_of] in *; cbn [counterpart] in H.
  - destruct Hc as (_ & Hf & Hx & Hd). assert (Hx' : (0 <= Z.of_N x < 2 ^ 63)%Z) by lia. destruct md; injection H as <-; cbn [legal_call]; (split; [exact Hk|]; split; [first [exact Hf|reflexivity]|]; split; [first [exact Hx'|lia]|exact Hd]).
  - injection H as <-. destruct Hc as (_ & Hx & _). split; [exact Hk|lia].
  - injection H as <-. destruct Hc as (_ & Hx). split; [exact Hk|lia].
  - injection H as <-. exact Hk.
Qed.

Section Cluster.
Context (c : config) (s : index) (tab : bytes -> copy) (hash : bytes -> Z) (owner : bytes -> bytes) (Hs : settled c s tab hash owner).
Notation inv := (inv owner).
Notation mine := (mine owner).
Notation node_line := (node_line c tab hash).
Notation sent_to := (sent_to c tab hash).
Notation node_any := (node_any c tab hash).
Notation node_request := (node_request c tab hash).

(** The owner of the key runs what it is sent by another node. *)
Lemma owner_runs hops pick now w k bs r e req trail word : legal_key k -> serve_next now bs = Ok (Accepted (mkCommand true trail word) r, []) ->
  write_of r = Some (e, req) -> e_key e = k ->
  sent_to (S hops) pick now w (owner k) bs = let* p := run_request now (w_stores w (owner k)) r in Ok (put_store w (owner k) (p_store p), p_answer p).
Proof.
  intros Hk Hserve Hw He. unfold BinaryGatewayModel.sent_to, serve_sent. cbn [GatewayModel.node_line]. rewrite Hserve. cbn [bind].
  assert (Hpre : pre_write c (tab (owner k)) (owner k) (hash (e_key e)) true = Ok Here) by (rewrite He; exact (route_proxied c s tab hash owner Hs k Hk)).
  destruct r; try discriminate Hw; rewrite Hw; cbn [c_proxied]; rewrite Hpre; cbn [bind]; (destruct (run_request _ _ _) as [| |p]; [reflexivity|reflexivity|]);
    cbn [bind List.length go_on]; rewrite app_nil_r; reflexivity.
Qed.
Lemma owner_forwarded hops pick asked now T M m w x cl e req k : inv T M m w -> (T <= now)%Z -> sane_clock asked -> sane_clock now -> M + 1 < 2 ^ 64 ->
  legal_node_name x -> legal_call cl -> ~ too_long now m cl -> write_of (request_of asked cl) = Some (e, req) -> e_key e = k -> keys_of cl = [k] -> legal_key k ->
  exists p m', sent_to (S hops) pick now w (owner k) (req [x]) = Ok (put_store w (owner k) (p_store p), p_answer p)
    /\ does asked now m cl m' (p_answer p) /\ inv now (M + 1) m' (put_store w (owner k) (p_store p)).
Proof.
  intros Hi HT Ha Hn HM Hx Hc Hl Hw He Hks Hk.
  destruct (owner_run owner asked now T M m w cl k Hi HT Ha Hn HM Hc Hl Hks Hk) as (p & m' & Hrun & Hdo & Hi').
  exists p, m'. split; [|split; [exact Hdo|exact Hi']].
  assert (Hf : Forall legal_node_name [x]) by (apply List.Forall_cons; [exact Hx|apply List.Forall_nil]).
  pose proof (forwarded_served asked now cl [x] e req [] m Hc Hl Ha Hf Hw) as Hs2. rewrite app_nil_r in Hs2. apply next_accepted in Hs2.
  rewrite (owner_runs hops pick now w k _ _ e req [x] _ Hk Hs2 Hw He), Hrun. reflexivity.
Qed.

Definition bgood (hops : nat) (pick : bytes -> nat) (asked now : Z) (M : N) (m : memory) (w : world) (x : bytes) (a : bask) : Prop :=
  exists w' m' y, node_request (S hops) pick now w x (brequest_of asked a) = Ok (w', plain_answer a y)
    /\ bdoes asked now m (a_call a) m' y /\ inv now (M + 1) m' w'.
Section Step.
Context (hops : nat) (pick : bytes -> nat) (asked now T : Z) (M : N) (m : memory) (w : world) (x : bytes).
Context (Hi : inv T M m w) (HT : (T <= now)%Z) (Ha : sane_clock asked) (Hn : sane_clock now) (HM : M + 1 < 2 ^ 64) (Hx : legal_node_name x).

(** It is run at the node asked. *)
Lemma bhere a : legal_ask a -> ~ unfit now m (AskBinary a) -> a_call a <> QFlush ->
  (keyed (a_call a) -> legal_key (key_of (a_call a)) /\ x = owner (key_of (a_call a))) ->
  exists w' m' y, (let* (s, out) := run_brequest now (w_stores w x) (brequest_of asked a) in Ok (put_store w x s, out)) = Ok (w', plain_answer a y)
    /\ bdoes asked now m (a_call a) m' y /\ inv now (M + 1) m' w'.
Proof.
  intros Hl Hu Hf Hk.
  destruct (bfine_ask (mine x) T M (w_stores w x) m asked now (inv_quiet _ _ _ _ _ Hi x) (inv_shows _ _ _ _ _ Hi x) HT Ha Hn HM a) as (s' & m' & y & Hrun & Hdo & Hq & Hsh); auto.
  { destruct (a_call a); try exact Logic.I; (destruct (Hk Logic.I) as (K1 & K2); split; [exact K1|symmetry; exact K2]). }
  exists (put_store w x s'), m', y. rewrite Hrun. split; [reflexivity|]. split; [exact Hdo|].
  apply (inv_put owner T M (M + 1) m m' w x s' now Hi HT ltac:(lia) Hq Hsh).
  intros k' Hk'. assert (D : keyed (a_call a) \/ ~ keyed (a_call a)) by (destruct (a_call a); cbn [keyed]; tauto).
  destruct D as [D|D]; [|now rewrite (bdoes_keyless _ _ _ _ _ _ Hdo D Hf)].
  eapply bdoes_frame; [exact Hdo|exact D|]. intros ->. destruct (Hk D) as (_ & K). congruence.
Qed.
Lemma bforward_write a : legal_ask a -> ~ unfit now m (AskBinary a) -> passed (a_call a) -> legal_key (key_of (a_call a)) -> x <> owner (key_of (a_call a)) ->
  bgood hops pick asked now M m w x a.
Proof.
  intros Hl Hu Hp Hk Hxo. unfold bgood.
  assert (exists t, counterpart (a_call a) = Some t) as (t & Ht) by (destruct (a_call a) as [[]| | | | | | | | | |]; try contradiction; eexists; reflexivity).
  assert (Kd : keyed (a_call a)) by (destruct (a_call a); try contradiction; exact Logic.I).
  destruct (counterpart_keys _ _ Kd Ht) as (Hks & _).
  pose proof (counterpart_legal a t Hl Hk Hp Ht) as Hlc. pose proof (sent_on asked a t Hp Ht) as Hto.
  assert (Hnl : ~ too_long now m t) by (intros H; apply Hu; right; left; eauto).
  destruct (write_of_call asked t) as [(tk & ks & ->)|[H|(e & req & k & Hw & He & Hks' & _ & _ & _ & _)]].
  { destruct (a_call a) as [[]| | | | | | | | | |]; try contradiction; discriminate Ht. }
  { exfalso. destruct (a_call a) as [[]| | | | | | | | | |]; try contradiction; injection Ht as <-; exact H. }
  rewrite Hks in Hks'. injection Hks' as <-.
  destruct (owner_forwarded hops pick asked now T M m w x t e req _ Hi HT Ha Hn HM Hx Hlc Hnl Hw He Hks Hk) as (p & m' & Hsent & Hdo & Hi').
  assert (Hk16 : blen (key_of (a_call a)) < 2 ^ 16) by (destruct Hk as (_ & _ & Hk); clear - Hk; change (2 ^ 16) with 65536; lia).
  destruct (brelayed asked now now m a t m' (p_answer p) Hp Ht Hk Hk16 (fun r => inv_wf owner T M m w now _ r Hi Hk HT) Hdo) as (y & Hrel & Hbd).
  exists (put_store w (owner (key_of (a_call a))) (p_store p)), m', y. split; [|split; [exact Hbd|exact Hi']].
  unfold BinaryGatewayModel.node_request.
  assert (Hbody : forall B1 B2 (B3 : N -> entry -> res (world * bytes)), match brequest_of asked a with BOther _ _ => B1 | BGet o e => B3 o e | _ => B2 end = B2).
  { intros. destruct a as [q op cc]. cbn [a_call] in Hp. destruct cc as [[]| | | | | | | | | |]; try contradiction; reflexivity. }
  rewrite Hbody, Hto, Hw, He, (route_write c s tab hash owner Hs _ x Hk (proj1 Hx)). cbn [bind].
  destruct (beq x (owner (key_of (a_call a)))) eqn:E; [apply beq_eq in E; congruence|].
  rewrite Hsent. cbn [bind]. rewrite Hrel. reflexivity.
Qed.
Lemma bforward_get q op wk k : legal_key k -> x <> owner k -> bgood hops pick asked now M m w x (mkAsk q op (QGet wk k)).
Proof.
  intros Hk Hxo. assert (HM' : M < 2 ^ 64) by lia.
  destruct (owner_get c s tab hash owner Hs hops pick T M m w k false now Hi Hk HT Hn HM') as (w' & Hline & Hi' & _).
  assert (HO : opcode_of q (QGet wk k) < 2 ^ 8) by apply opcode_small.
  assert (Hwk : nmem (opcode_of q (QGet wk k)) [12; 13] = wk) by (destruct q, wk; reflexivity).
  assert (Hk16 : blen k < 2 ^ 16) by (destruct Hk as (_ & _ & H); clear - H; change (2 ^ 16) with 65536; lia).
  assert (Hi2 : inv now (M + 1) m w').
  { split; intros y; [eapply quiet_mono; [apply Z.le_refl| |apply Hi']; lia|apply Hi']. }
  assert (Hsent : sent_to (S hops) pick now w (owner k) (get_request (s2b "get") [k]) = Ok (w', found_lines m now false k ++ s2b "END" ++ ClientSpec.line_end)).
  { unfold BinaryGatewayModel.sent_to, serve_sent. rewrite Hline. cbn [bind List.length go_on]. rewrite app_nil_r. reflexivity. }
  unfold bgood. cbn [brequest_of a_call a_quiet]. unfold BinaryGatewayModel.node_request. cbn [e_key].
  rewrite (route_read c s tab hash owner Hs k x (pick k) Hk (proj1 Hx)). cbn [bind].
  destruct (beq x (owner k)) eqn:E; [apply beq_eq in E; congruence|]. rewrite (cstr_key k) by apply Hk. rewrite Hsent. cbn [bind].
  unfold found_lines. destruct (look m now k) as [r|] eqn:L.
  - pose proof (inv_wf owner T M m w now k r Hi Hk HT L) as Hw. destruct (bfetched now k r Hk Hw) as (e & -> & Ek & Ef & Es & Ed). cbn [bind].
    exists w', m, (mkSays 0 (r_version r) (be_enc 4 (r_flag r)) (if wk then k else []) (r_data r)). split; [|split; [exact (b_got asked now m wk k r L)|exact Hi2]].
    rewrite value_response_encode; [|exact HO|now rewrite Ek|now rewrite Es, Ed|rewrite Ek, Es; destruct Hw as (_ & _ & _ & W & _); clear - W Hk16; change (2 ^ 16) with 65536 in *; lia].
    rewrite Hwk, Ek, Ef, Ed. reflexivity.
  - cbn [app]. rewrite fetched_missing. cbn [bind].
    exists w', m, (mkSays 1 0 [] (if wk then k else []) (s2b "Not found")). split; [|split; [exact (b_missed asked now m wk k L)|exact Hi2]].
    rewrite missing_encode by auto. rewrite Hwk. reflexivity.
Qed.
(** A write of any node whose key it owns, and a request without key: the node runs it. *)
Lemma brouted a : legal_ask a -> (keyed (a_call a) -> legal_key (key_of (a_call a)) /\ x = owner (key_of (a_call a))) ->
  node_request (S hops) pick now w x (brequest_of asked a) = let* (s, out) := run_brequest now (w_stores w x) (brequest_of asked a) in Ok (put_store w x s, out).
Proof.
  intros Hl Hk. destruct a as [q op cc]. cbn [a_call] in *.
  assert (W : keyed cc -> pre_write c (tab x) x (hash (key_of cc)) false = Ok Here).
  { intros D. destruct (Hk D) as (K & E). rewrite (route_write c s tab hash owner Hs _ x K (proj1 Hx)), E, beq_refl. reflexivity. }
  assert (R : keyed cc -> pre_read c (tab x) x (hash (key_of cc)) (pick (key_of cc)) = Ok Here).
  { intros D. destruct (Hk D) as (K & E). rewrite (route_read c s tab hash owner Hs _ x _ K (proj1 Hx)), E, beq_refl. reflexivity. }
  destruct cc as [md k f xx d|k f xx d t|k xx|k xx|k|up k v i|wk k| | | |]; cbn [keyed key_of] in *; try reflexivity;
    try (specialize (W Logic.I)); try (specialize (R Logic.I));
    try (destruct md); try (destruct i as [[i xx]|]); cbn [brequest_of a_call a_quiet]; unfold BinaryGatewayModel.node_request; cbn [text_of write_of e_key]; rewrite ?W, ?R; reflexivity.
Qed.
Lemma bstep a : legal_ask a -> ~ unfit now m (AskBinary a) -> a_call a <> QFlush -> (keyed (a_call a) -> legal_key (key_of (a_call a))) ->
  (owners_only (a_call a) -> x = owner (key_of (a_call a))) -> bgood hops pick asked now M m w x a.
Proof.
  intros Hl Hu Hf Hk Ho.
  assert (D : (keyed (a_call a) -> legal_key (key_of (a_call a)) /\ x = owner (key_of (a_call a))) \/ (keyed (a_call a) /\ x <> owner (key_of (a_call a)))).
  { destruct (a_call a) eqn:E; cbn [keyed] in *; try (left; intros []; fail);
      (destruct (beq x (owner (key_of (a_call a)))) eqn:Eb; rewrite E in Eb; [apply beq_eq in Eb; left; intros _; split; auto|right; split; [exact Logic.I|intros H; rewrite <- H, beq_refl in Eb; discriminate]]). }
  destruct D as [D|(D & Hxo)].
  - destruct (bhere a Hl Hu Hf D) as (w' & m' & y & H1 & H2 & H3). exists w', m', y. rewrite (brouted a Hl D). auto.
  - assert (Hp : passed (a_call a) \/ exists wk k, a_call a = QGet wk k).
    { destruct (a_call a); cbn [passed owners_only keyed] in *; try tauto; try (right; eauto; fail); exfalso; auto. }
    destruct Hp as [Hp|(wk & k & E)]; [now apply bforward_write; auto|].
    destruct a as [q op cc]. cbn [a_call] in *. subst cc. apply bforward_get; [exact (Hk Logic.I)|exact Hxo].
Qed.
Lemma bany_step a : legal_ask a -> ~ unfit now m (AskBinary a) -> a_call a <> QFlush -> (keyed (a_call a) -> legal_key (key_of (a_call a))) ->
  (owners_only (a_call a) -> x = owner (key_of (a_call a))) ->
  exists w' m' y, (forall rest, node_any (S hops) pick asked now w x (bwire a ++ rest) = Ok (w', plain_answer a y, rest))
    /\ bdoes asked now m (a_call a) m' y /\ inv now (M + 1) m' w'.
Proof.
  intros Hl Hu Hf Hk Ho. destruct (bstep a Hl Hu Hf Hk Ho) as (w' & m' & y & H1 & H2 & H3). exists w', m', y. split; [|split; [exact H2|exact H3]].
  intros rest. unfold BinaryGatewayModel.node_any. rewrite binary_first.
  assert (F : fits a) by (unfold fits; apply N.nlt_ge; intros H; apply Hu; left; exact H).
  rewrite (bserved asked a rest Hl F). cbn [bind]. rewrite H1. reflexivity.
Qed.
End Step.

Definition sub_of (t : bturn) : submission := mkSubmission (g_node t) (g_pick t) (g_asked t) (g_now t) (ask_wire (g_ask t)).
Notation submit := (submit c tab hash).
Lemma turn_step hops T M m w t : inv T M m w -> (T <= g_now t)%Z -> sane_clock (g_now t) -> M + 1 < 2 ^ 64 -> bproper owner t -> ~ unfit (g_now t) m (g_ask t) ->
  exists w' m' out, node_any (S hops) (g_pick t) (g_asked t) (g_now t) w (g_node t) (ask_wire (g_ask t)) = Ok (w', out, []) /\ responds t m m' out /\ inv (g_now t) (M + 1) m' w'.
Proof.
  intros Hi HT Hn HM (Hx & Ha & Hp) Hu. destruct t as [x pick asked now [cl|a]]; cbn [g_node g_pick g_asked g_now g_ask ask_wire responds] in *.
  - destruct Hp as (Hc & Hf & Hr).
    destruct (any_step c s tab hash owner Hs hops pick asked now T M m w x cl Hi HT Ha Hn HM Hx Hc Hu Hf Hr) as (w' & m' & out & Hrun & Hdo & Hi' & _).
    exists w', m', out. specialize (Hrun []). rewrite app_nil_r in Hrun. split; [|split; [exact Hdo|exact Hi']].
    unfold BinaryGatewayModel.node_any. rewrite <- (app_nil_r (wire cl)) at 1. rewrite (text_first cl [] Hc). exact Hrun.
  - destruct Hp as (Hl & Hf & Hk & Ho).
    destruct (bany_step hops pick asked now T M m w x Hi HT Ha Hn HM Hx a Hl Hu Hf Hk Ho) as (w' & m' & y & Hrun & Hdo & Hi').
    exists w', m', (plain_answer a y). specialize (Hrun []). rewrite app_nil_r in Hrun. split; [exact Hrun|]. split; [eauto|exact Hi'].
Qed.
Lemma talks_spec hops l : forall T M m w, inv T M m w -> sane_clock T -> rising_turns T l -> Forall (bproper owner) l -> M + N.of_nat (length l) < 2 ^ 64 ->
  exists l1 l2 w' m' out, l = l1 ++ l2 /\ submit (S hops) (map sub_of l1) w = Ok (w', out) /\ exchange m l1 m' out
    /\ match l2 with [] => exists T' M', inv T' M' m' w' /\ (T <= T')%Z /\ (T' = T \/ exists t, In t l /\ T' = g_now t) /\ M' = M + N.of_nat (length l) | t :: _ => unfit (g_now t) m' (g_ask t) end.
Proof.
  induction l as [|t l IH]; intros T M m w Hi HT Hr Hp HM.
  - exists [], [], w, m, []. split; [reflexivity|]. split; [reflexivity|]. split; [constructor|]. exists T, M. split; [exact Hi|]. split; [lia|]. split; [now left|]. cbn. lia.
  - destruct (unfit_dec (g_now t) m (g_ask t)) as [Hlong|Hshort].
    { exists [], (t :: l), w, m, []. split; [reflexivity|]. split; [reflexivity|]. split; [constructor|exact Hlong]. }
    destruct Hr as (Hnow & Hr). inversion Hp as [|? ? Ht Hp']; subst.
    assert (HM1 : M + 1 < 2 ^ 64). { cbn [length] in HM. clear - HM. change (2 ^ 64) with 18446744073709551616 in *. lia. }
    assert (Hsn : sane_clock (g_now t)) by (unfold sane_clock in *; lia).
    destruct (turn_step hops T M m w t Hi (proj1 Hnow) Hsn HM1 Ht Hshort) as (w1 & m1 & a & Hrun & Hdo & Hi1).
    destruct (IH (g_now t) (M + 1) m1 w1 Hi1 Hsn Hr Hp') as (l1 & l2 & w' & m' & out & -> & Hses & Hcon & Hend).
    { cbn [length] in HM. clear - HM. change (2 ^ 64) with 18446744073709551616 in *. lia. }
    exists (t :: l1), l2, w', m', (a :: out). split; [reflexivity|]. split; [|split; [econstructor; eauto|]].
    + cbn [map BinaryGatewayModel.submit]. change (s_node (sub_of t)) with (g_node t). change (s_pick (sub_of t)) with (g_pick t). change (s_asked (sub_of t)) with (g_asked t). change (s_now (sub_of t)) with (g_now t). change (s_bytes (sub_of t)) with (ask_wire (g_ask t)). rewrite Hrun. cbn [bind]. rewrite Hses. reflexivity.
    + destruct l2 as [|t2 l2]; [|exact Hend]. destruct Hend as (T' & M' & H1 & H2 & H3 & H4). exists T', M'. split; [exact H1|]. split; [lia|]. split.
      * right. destruct H3 as [->|(t' & Hin & ->)]; [exists t; split; [now left|reflexivity]|exists t'; split; [now right|reflexivity]].
      * rewrite H4. cbn [length]. lia.
Qed.
(** An increment put to another node: the memory is that of the protocol, the answer the line of the text protocol. *)
Lemma count_elsewhere hops pick asked now T M m w x q op up k v i r rest : inv T M m w -> (T <= now)%Z -> sane_clock asked -> sane_clock now -> M + 1 < 2 ^ 64 ->
  legal_node_name x -> let a := mkAsk q op (QCount up k v i) in legal_ask a -> ~ unfit now m (AskBinary a) -> legal_key k -> x <> owner k -> look m now k = Some r ->
  exists w' m' d n, node_any (S hops) pick asked now w x (bwire a ++ rest) = Ok (w', d ++ ClientSpec.line_end, rest) /\ is_numeral d n
    /\ does asked now m (Count up k v false) m' (say false d) /\ inv now (M + 1) m' w'.
Proof.
  intros Hi HT Ha Hn HM Hx a Hl Hu Hk Hxo L. pose proof Hl as (_ & _ & Hv & _).
  assert (Hc : legal_call (Count up k v false)) by (split; [exact Hk|exact Hv]).
  destruct (write_of_call asked (Count up k v false)) as [(tk & ks & H)|[[]|(e & req & k' & Hw & He & Hks & _ & _ & _ & _)]]; [discriminate H|].
  injection Hks as <-.
  destruct (owner_forwarded hops pick asked now T M m w x _ e req k Hi HT Ha Hn HM Hx Hc (fun H => H) Hw He eq_refl Hk) as (p & m' & Hsent & Hdo & Hi').
  assert (HA : exists d n, p_answer p = d ++ ClientSpec.line_end /\ is_numeral d n /\ n < 2 ^ 64 /\ does asked now m (Count up k v false) m' (say false d)).
  { assert (G : forall cl m1 ans, does asked now m cl m1 ans -> cl = Count up k v false -> exists d n, ans = d ++ ClientSpec.line_end /\ is_numeral d n /\ n < 2 ^ 64 /\ does asked now m cl m1 (say false d)).
    { clear - L Hv. intros cl m1 ans Hdo. destruct Hdo; intros E; try discriminate E; injection E as -> -> -> ->; [|congruence].
      eexists _, _. split; [reflexivity|]. split; [eassumption|]. split; [|econstructor; eauto].
      match goal with X : starts_with_number _ _ |- _ => destruct X as (ds & tl & _ & _ & _ & ->) end.
      change (2 ^ 64) with 18446744073709551616 in *. destruct up; [|destruct (_ <? _) eqn:E]; lia. }
    exact (G _ _ _ Hdo eq_refl). }
  destruct HA as (d & n & Eans & Hd & Hn64 & Hdo').
  exists (put_store w (owner k) (p_store p)), m', d, n. split; [|split; [exact Hd|split; [exact Hdo'|exact Hi']]].
  unfold BinaryGatewayModel.node_any. rewrite binary_first.
  assert (F : fits a) by (unfold fits; apply N.nlt_ge; intros H; apply Hu; left; exact H).
  rewrite (bserved asked a rest Hl F). cbn [bind].
  assert (Hreq : exists e0 i0, brequest_of asked a = BIncr (opcode_of q (QCount up k v i)) e0 v i0 /\ e_key e0 = k /\ e_option e0 = 0).
  { subst a. destruct i as [[i z]|]; cbn [brequest_of a_call a_quiet]; eexists _, _; (split; [reflexivity|split; reflexivity]). }
  destruct Hreq as (e0 & i0 & -> & Ek & Eo). unfold BinaryGatewayModel.node_request. cbn [text_of write_of].
  rewrite Ek, (route_write c s tab hash owner Hs k x Hk (proj1 Hx)). cbn [bind].
  destruct (beq x (owner k)) eqn:Eb; [apply beq_eq in Eb; congruence|].
  assert (Er : incr_request [x] (op_ident (opcode_of q (QCount up k v i))) e0 v = req [x]).
  { cbn [request_of write_of] in Hw. injection Hw as _ <-. unfold incr_request. cbn [e_key e_option]. rewrite Ek, Eo. destruct up, q; reflexivity. }
  rewrite Er, Hsent. cbn [bind]. rewrite Eans.
  pose proof (pass_number d n Hd Hn64) as Pn. unfold brelay.
  pose proof Hd as (Hne & Hdig & _). change (d ++ ClientSpec.line_end) with (d ++ crlf ++ []) in Pn |- * at 1. rewrite get_line_ok in Pn |- *.
  2,3:(eapply List.Forall_impl; [|exact Hdig]; cbn; intros; lia).
  cbn [bind] in Pn |- *. unfold relay_incr in Pn. rewrite cstr_digits, strip_digits in Pn |- * by auto.
  rewrite (lex_digits d n Hd) in Pn |- *. 2,3:(clear - Hn64; unfold u64_max; change (2 ^ 64) with 18446744073709551616 in Hn64; lia).
  destruct (BUFSIZ <=? blen d); [discriminate Pn|]. reflexivity.
Qed.
End Cluster.
