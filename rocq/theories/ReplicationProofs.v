(** Requests put to nodes in the mode forward. *)
From Coq Require Import String.
From stdpp Require Import gmap.
From Coq Require Import ZifyBool ZifyNat ZifyN.
From Verif Require Import Base BaseLemmas StorageModel StorageSpec StorageProofs StorageProofs2 StorageProofs3 StorageProofs4
  TextModel TextSpec TextProofs TextProofs2 TextProofs3 TextProofs4 ClientSpec SessionModel SessionProofs NamesModel ServerModel ServerProofs ServerProofs2 ReplicaProofs ReplicaProofs2
  MemcachedSpec MemcachedProofs MemcachedProofs2 MemcachedProofs3 KeyResolverModel ClusterModel ClusterSpec NodeModel RoutingModel RoutingSpec GatewayModel GatewaySpec GatewayProofs GatewayProofs2
  OtherProofs ReplicationModel ReplicationSpec ClientSpec MemcachedProofs2.
Local Open Scope N_scope.
Local Open Scope list_scope.

Section Forward.
Context (c : config) (s : index) (tab : bytes -> copy) (hash : bytes -> Z) (owner : bytes -> bytes) (Hs : settled c s tab hash owner).
Notation node_line := (node_line c tab hash).
Notation forward_line := (forward_line c tab hash).

Definition forwarded (hops : nat) (pick : bytes -> nat) (y : bytes) (asked now : Z) (M : N) (m : memory) (st : store) (w : world) (cl : call) : Prop :=
  exists w' m' a, (forall rest, forward_line (S (S hops)) pick y asked now st w (wire cl ++ rest) = Ok (st, w', a, rest))
    /\ does asked now m cl m' a /\ inv owner now (M + 1) m' w' /\ w_queued w' = w_queued w.

Lemma get_wire (tk : bool) k : legal_key k -> get_request (if tk then s2b "gets" else s2b "get") [k] = wire (Get tk [k]).
Proof. reflexivity. Qed.
Lemma forward_fetch_ok hops pick y M m (tk : bool) now ks : Forall legal_key ks -> y <> [] -> sane_clock now -> M < 2 ^ 64 ->
  let ask w request := let* (p, _) := node_line (S (S hops)) pick now now w y request in Ok p in
  forall T w, inv owner T M m w -> (T <= now)%Z ->
  exists w' l, forward_fetch_all ask now (if tk then s2b "gets" else s2b "get") ks w = Ok (w', l) /\ map fst l = ks
    /\ Forall (fun p => send_entry (if tk then response_gets else response_get) (content (snd p)) = found_lines m now tk (fst p)) l /\ inv owner now M m w' /\ w_queued w' = w_queued w.
Proof.
  intros Hks Hy Hn HM ask. induction Hks as [|k ks Hk Hks IH]; intros T w Hi HT.
  - exists w, []. split; [reflexivity|]. split; [reflexivity|]. split; [constructor|]. split; [|reflexivity].
    split; intros z; [eapply quiet_mono; [exact HT|apply N.le_refl|apply Hi]|]. intros k Hk. eapply sees_mono; [exact HT|]. now apply Hi.
  - destruct (any_get c s tab hash owner Hs hops pick now now T M m w y tk [k] Hi HT Hn HM Hy) as (w1 & H1 & H2 & H3).
    { split; [discriminate|]. apply List.Forall_cons; [exact Hk|apply List.Forall_nil]. }
    specialize (H1 []). rewrite app_nil_r in H1. cbn [flat_map] in H1. rewrite app_nil_r in H1.
    destruct (IH now w1 H2 (Z.le_refl _)) as (w2 & l & G1 & G2 & G3 & G4 & G5).
    assert (HF : exists o, fetched now k (found_lines m now tk k ++ s2b "END" ++ line_end) = Ok o
      /\ send_entry (if tk then response_gets else response_get) o = found_lines m now tk k).
    { unfold found_lines. destruct (look m now k) as [r|] eqn:L.
      - destruct (fetched_found tk now k r Hk (inv_wf owner T M m w now k r Hi Hk HT L)) as (e & -> & Hp). exists (Some e). split; [reflexivity|exact Hp].
      - exists None. split; [exact (fetched_missing now k)|reflexivity]. }
    destruct HF as (o & F1 & F2).
    exists w2, ((k, Query o) :: l). cbn [forward_fetch_all]. unfold forward_fetch, ask at 1. rewrite (get_wire tk k Hk), H1. cbn [bind]. rewrite F1. cbn [bind]. rewrite G1. cbn [bind].
    split; [reflexivity|]. split; [cbn; now rewrite G2|]. split; [apply List.Forall_cons; [exact F2|exact G3]|]. split; [exact G4|congruence].
Qed.
Lemma forward_get hops pick y asked now T M m st w (tk : bool) ks : inv owner T M m w -> (T <= now)%Z -> sane_clock now -> M + 1 < 2 ^ 64 -> y <> [] -> legal_call (Get tk ks) ->
  forwarded hops pick y asked now M m st w (Get tk ks).
Proof.
  intros Hi HT Hn HM Hy Hc. pose proof Hc as (Hne & Hks). assert (HM' : M < 2 ^ 64) by lia.
  destruct (forward_fetch_ok hops pick y M m tk now ks Hks Hy Hn HM' T w Hi HT) as (w' & l & H1 & H2 & H3 & H4 & H5).
  exists w', m, (flat_map (found_lines m now tk) ks ++ s2b "END" ++ line_end). split; [|split; [apply got|split; [|exact H5]]].
  - intros rest. unfold ReplicationModel.forward_line. pose proof (served asked (Get tk ks) rest now m Hc I ltac:(intros [])) as Hserve. apply next_accepted in Hserve.
    rewrite Hserve. cbn [bind request_of]. rewrite H1. cbn [bind].
    replace (if beq (if tk then s2b "gets" else s2b "get") (s2b "gets") then response_gets else response_get) with (if tk then response_gets else response_get) by (destruct tk; reflexivity).
    rewrite (send_all_found _ _ _ H3), H2. reflexivity.
  - split; intros z; [eapply quiet_mono; [apply Z.le_refl| |apply H4]; lia|apply H4].
Qed.
Lemma quiet_call asked now m cl m' a : does asked now m cl m' a -> ~ replied cl -> a = [].
Proof. intros H Hr. destruct H; cbn [replied] in Hr; try (elim Hr; exact I); destruct nr; try reflexivity; elim Hr; reflexivity. Qed.
Lemma forward_write hops pick y asked now T M m st w cl : inv owner T M m w -> (T <= now)%Z -> sane_clock asked -> sane_clock now -> M + 1 < 2 ^ 64 -> legal_node_name y ->
  legal_call cl -> ~ too_long now m cl -> (replied cl \/ forall k, subject cl k -> y = owner k) -> ~ (exists tk ks, cl = Get tk ks) -> ~ keyless cl ->
  (forall up k v nr, cl <> Count up k v nr) -> forwarded hops pick y asked now M m st w cl.
Proof.
  intros Hi HT Ha Hn HM Hy Hc Hl Hr Hng Hnk Hnc.
  destruct (write_of_call asked cl) as [?|[?|(e & req & k & Hw & He & Hks & Hsub & Hk & Hnr & Hnot)]]; [contradiction|contradiction|].
  assert (Hh : handed_on (request_of asked cl) = request_of asked cl).
  { destruct cl as [| | | | |up k0 v nr| | | | | | |]; try reflexivity. elim (Hnc up k0 v nr eq_refl). }
  destruct (write_read c s tab hash owner Hs hops pick now asked now T M m w y cl (req []) Hi HT Ha Hn HM Hy Hc Hl Hr Hng Hnk) as (w' & m' & a & H1 & H2 & H3 & H4 & H5).
  { intros rest. pose proof (forwarded_served asked now cl [] e req rest m Hc Hl Ha ltac:(constructor) Hw) as Hs2. apply next_accepted in Hs2. exact Hs2. }
  assert (R : {replied cl} + {~ replied cl}) by (destruct cl as [md k0 f x d nr|k0 f x d t0 nr|k0 x nr|k0 x nr|k0 nr|up k0 v nr|tk ks|nr|v nr| | |u r|]; cbn [replied]; try (left; exact I); destruct nr; (left; reflexivity) || (right; discriminate)).
  assert (Hne : ~ replied cl -> noreply e = true).
  { intros Hno. destruct cl as [md k0 f x d nr|k0 f x d t0 nr|k0 x nr|k0 x nr|k0 nr|up k0 v nr|tk ks|nr|v nr| | |u r|]; cbn [request_of write_of] in Hw; try discriminate; apply Some_inv in Hw; apply (f_equal fst) in Hw; cbn [fst] in Hw; subst e;
      cbn [replied] in Hno; destruct nr; try reflexivity; elim Hno; reflexivity. }
  assert (Hout : (if noreply e then Ok (st, w', []) else let* out := relay now (request_of asked cl) a in Ok (st, w', out)) = Ok (st, w', a)).
  { destruct R as [R|R]; [rewrite (Hnr R), (H5 R); reflexivity|]. rewrite (Hne R), (quiet_call _ _ _ _ _ _ H2 R). reflexivity. }
  exists w', m', a. split; [|split; [exact H2|split; [exact H3|exact H4]]].
  intros rest. unfold ReplicationModel.forward_line.
  pose proof (served asked cl rest now m Hc ltac:(destruct cl; try exact I; elim Hnk; exact I) Hl) as Hserve. apply next_accepted in Hserve. rewrite Hserve. cbn [bind].
  assert (Hbody : forall B1 B3 (B2 : _ -> _ -> res (store * world * bytes * bytes)), match request_of asked cl with ROther _ => Err | RPlain _ | RFlush _ | RVerbosity _ => B3 | RGet i ks => B2 i ks | _ => B1 end = B1).
  { intros. destruct (request_of asked cl); try reflexivity; contradiction. }
  rewrite Hbody, Hh, Hw. cbn [c_trail]. specialize (H1 []). rewrite app_nil_r in H1. rewrite H1. cbn [bind].
  destruct (noreply e); [now inversion Hout; subst|]. destruct (relay now (request_of asked cl) a) as [| |out]; cbn [bind] in *; try discriminate. now inversion Hout; subst.
Qed.
Lemma forward_keyless hops pick y asked now T M m st w cl : inv owner T M m w -> (T <= now)%Z -> legal_call cl -> keyless cl -> (forall nr, cl <> Flush nr) ->
  forwarded hops pick y asked now M m st w cl.
Proof.
  intros Hi HT Hc Hk Hf.
  assert (Hl : ~ too_long now m cl) by (destruct cl; try (intros []; fail); elim Hk).
  assert (Hi' : inv owner now (M + 1) m w).
  { split; intros z; [eapply quiet_mono; [exact HT| |apply Hi]; lia|]. intros k Hk'. eapply sees_mono; [exact HT|]. now apply Hi. }
  assert (D : {known cl} + {exists v r, cl = Unknown v r}) by (destruct cl; try (left; exact I); right; eauto).
  destruct D as [Hkn|(v & r & ->)].
  - assert (HR : exists a, does asked now m cl m a /\ forall rest, forward_line (S (S hops)) pick y asked now st w (wire cl ++ rest) = Ok (st, w, a, rest)).
    { unfold ReplicationModel.forward_line.
      assert (Hserve : forall rest, serve_next asked (wire cl ++ rest) = Ok (Accepted (mkCommand false [] (word_of cl)) (request_of asked cl), rest)).
      { intros rest. apply next_accepted. exact (served asked cl rest now m Hc Hkn Hl). }
      destruct cl; try elim Hk; try elim Hkn; try (elim (Hf _ eq_refl); fail);
        (eexists; split; [|intros rest; rewrite Hserve; cbn [bind request_of run_request p_store p_answer]; reflexivity]).
      - apply verbose.
      - apply pinged.
      - apply versioned.
      - apply left. }
    destruct HR as (a & H1 & H2). exists w, m, a. auto.
  - exists w, m, (s2b "ERROR" ++ crlf). split; [|split; [apply unknown|split; [exact Hi'|reflexivity]]].
    intros rest. unfold ReplicationModel.forward_line. rewrite unknown_served by exact Hc. reflexivity.
Qed.
Lemma forward_any hops pick y asked now T M m st w cl : inv owner T M m w -> (T <= now)%Z -> sane_clock asked -> sane_clock now -> M + 1 < 2 ^ 64 -> legal_node_name y ->
  legal_call cl -> ~ too_long now m cl -> (forall nr, cl <> Flush nr) -> (forall up k v nr, cl <> Count up k v nr) -> (replied cl \/ forall k, subject cl k -> y = owner k) ->
  forwarded hops pick y asked now M m st w cl.
Proof.
  intros Hi HT Ha Hn HM Hy Hc Hl Hf Hnc Hr. destruct cl as [| | | | | |tk ks| | | | | |]; try (eapply forward_write; eauto; try (intros (? & ? & ?); discriminate); intros []; fail);
    try (eapply forward_keyless; eauto; exact I).
  eapply forward_get; eauto. apply Hy.
Qed.

Lemma forwards_spec hops dest l : (forall x, legal_node_name (dest x)) -> forall T M m ss w, inv owner T M m w -> sane_clock T -> rising T (calls l) -> Forall (forwardable owner dest) l -> M + N.of_nat (length l) < 2 ^ 64 ->
  exists l1 l2 ss' w' m' out, l = l1 ++ l2 /\ forwards c tab hash (S (S hops)) dest (map asking_of l1) ss w = Ok (ss', w', out) /\ dialogue m l1 m' out
    /\ (forall x, ss' x = ss x) /\ w_queued w' = w_queued w
    /\ match l2 with [] => True | t :: _ => too_long (t_now t) m' (t_call t) end.
Proof.
  intros Hd. induction l as [|t l IH]; intros T M m ss w Hi HT Hr Hp HM.
  - exists [], [], ss, w, m, []. split; [reflexivity|]. split; [reflexivity|]. split; [constructor|]. split; [reflexivity|]. split; [reflexivity|exact I].
  - destruct (too_long_dec (t_now t) m (t_call t)) as [Hlong|Hshort].
    { exists [], (t :: l), ss, w, m, []. split; [reflexivity|]. split; [reflexivity|]. split; [constructor|]. split; [reflexivity|]. split; [reflexivity|exact Hlong]. }
    destruct Hr as (Hnow & Hr). inversion Hp as [|? ? Ht Hp']; subst. destruct Ht as (Ha & Hc & Hfl & Hco & Hre).
    assert (HM1 : M + 1 < 2 ^ 64). { cbn [length] in HM. clear - HM. change (2 ^ 64) with 18446744073709551616 in *. lia. }
    assert (Hsn : sane_clock (t_now t)) by (unfold sane_clock in *; lia).
    destruct (forward_any hops (t_pick t) (dest (t_node t)) (t_asked t) (t_now t) T M m (ss (t_node t)) w (t_call t) Hi (proj1 Hnow) Ha Hsn HM1 (Hd _) Hc Hshort Hfl Hco Hre) as (w1 & m1 & a & Hrun & Hdo & Hi1 & Hq1).
    set (ss1 := fun y => if beq (t_node t) y then ss (t_node t) else ss y).
    destruct (IH (t_now t) (M + 1) m1 ss1 w1 Hi1 Hsn Hr Hp') as (l1 & l2 & ss' & w' & m' & out & -> & Hses & Hcon & Hss & Hq & Hend).
    { cbn [length] in HM. clear - HM. change (2 ^ 64) with 18446744073709551616 in *. lia. }
    exists (t :: l1), l2, ss', w', m', (a :: out). split; [reflexivity|]. split; [|split; [econstructor; eauto|split; [|split; [congruence|exact Hend]]]].
    + cbn [map forwards]. cbn [asking_of a_node a_pick a_asked a_now a_stream]. specialize (Hrun []). rewrite app_nil_r in Hrun. rewrite Hrun. cbn [bind]. fold ss1. rewrite Hses. reflexivity.
    + intros x. rewrite Hss. unfold ss1. destruct (beq (t_node t) x) eqn:E; [|reflexivity]. apply beq_eq in E. now subst.
Qed.
End Forward.
