(** Lemmas for C55: requests under way between nodes. *)
From Coq Require Import String.
From stdpp Require Import gmap.
From Coq Require Import ZArith Lia ZifyBool ZifyNat ZifyN.
From Verif Require Import Base BaseLemmas StorageModel StorageSpec StorageProofs StorageProofs2 StorageProofs3 StorageProofs4
  TextModel TextSpec TextProofs TextProofs2 TextProofs3 TextProofs4 ClientSpec SessionModel SessionProofs NamesModel ServerModel ServerProofs ServerProofs2 ReplicaProofs ReplicaProofs2
  MemcachedSpec MemcachedProofs MemcachedProofs2 MemcachedProofs3 KeyResolverModel ClusterModel ClusterSpec NodeModel RoutingModel RoutingSpec GatewayModel GatewaySpec GatewayProofs GatewayProofs2
  OtherProofs ReplicationModel ReplicationSpec ClientSpec MemcachedProofs2 ReplicationProofs QueuedSpec.
Local Open Scope N_scope.
Local Open Scope list_scope.

Lemma replied_dec cl : {replied cl} + {~ replied cl}.
Proof.
  destruct cl as [md k0 f x d nr|k0 f x d t0 nr|k0 x nr|k0 x nr|k0 nr|up k0 v nr|tk ks|nr|v nr| | |u r|]; cbn [replied]; try (left; exact I); destruct nr; (left; reflexivity) || (right; discriminate).
Qed.
Lemma silent_write asked cl e req : write_of (request_of asked cl) = Some (e, req) -> ~ replied cl -> noreply e = true.
Proof.
  intros Hw Hno. destruct cl as [md k0 f x d nr|k0 f x d t0 nr|k0 x nr|k0 x nr|k0 nr|up k0 v nr|tk ks|nr|v nr| | |u r|]; cbn [request_of write_of] in Hw; try discriminate; apply Some_inv in Hw; apply (f_equal fst) in Hw; cbn [fst] in Hw; subst e;
    cbn [replied] in Hno; destruct nr; try reflexivity; elim Hno; reflexivity.
Qed.
Lemma drop_nth_parts {A} (l : list A) : forall i, drop_nth i l = firstn i l ++ skipn (S i) l.
Proof. induction l as [|a l IH]; intros [|i]; try reflexivity. cbn [drop_nth firstn app]. rewrite IH. reflexivity. Qed.
Lemma Forall2_drop {A B} (R : A -> B -> Prop) l1 l2 : Forall2 R l1 l2 -> forall i, Forall2 R (drop_nth i l1) (drop_nth i l2).
Proof. induction 1 as [|a b l1 l2 H H2 IH]; intros [|i]; cbn [drop_nth]; auto. Qed.
Lemma Forall2_at {A B} (R : A -> B -> Prop) l1 l2 : Forall2 R l1 l2 -> forall i b, nth_error l2 i = Some b -> exists a, nth_error l1 i = Some a /\ R a b.
Proof. induction 1 as [|a b l1 l2 H H2 IH]; intros [|i] b' E; cbn in *; try discriminate; [inversion E; subst; eauto|eauto]. Qed.

Section Cluster.
Context (c : config) (s : index) (tab : bytes -> copy) (hash : bytes -> Z) (owner : bytes -> bytes) (Hs : settled c s tab hash owner).
Notation node_line := (node_line c tab hash).

Definition under_way (p : bytes * bytes) (d : Z * call) : Prop :=
  sane_clock (fst d) /\ legal_call (snd d) /\ ~ replied (snd d) /\
  exists e req x, write_of (request_of (fst d) (snd d)) = Some (e, req) /\ legal_node_name x /\ p = (owner (e_key e), req [x]).
Lemma inv_queue T M m w q : inv owner T M m w -> inv owner T M m (mkWorld (w_stores w) q).
Proof. intros [H1 H2]. split; intros y; cbn [w_stores]; auto. Qed.

(** How a node passes a write on. *)
Lemma write_line hops pick asked' asked now w x stream cmd rest cl e req k : write_of (request_of asked cl) = Some (e, req) -> e_key e = k ->
  match request_of asked cl with RStore _ _ | RDelete _ | RTouch _ _ | RIncr _ _ _ => True | _ => False end ->
  serve_next asked' stream = Ok (Accepted cmd (request_of asked cl), rest) ->
    node_line (S hops) pick asked' now w x stream =
    let* a := pre_write c (tab x) x (hash k) (c_proxied cmd) in
    match a with
    | Here => let* p := run_request now (w_stores w x) (request_of asked cl) in Ok (put_store w x (p_store p), p_answer p, rest)
    | Forward y =>
        if noreply e then Ok (enqueue w y (req (c_trail cmd ++ [x])), [], rest) else
        let* (w, answer) := let* (p, _) := node_line hops pick now now w y (req (c_trail cmd ++ [x])) in Ok p in
        let* out := relay now (request_of asked cl) answer in Ok (w, out, rest)
    | NoProxy => Ok (w, proxy_failure, rest)
    | NoPartition => Ok (w, no_partition, rest)
    end.
Proof.
  intros Hw He Hnot H. cbn [GatewayModel.node_line]. rewrite H. cbn [bind].
  assert (Hbody : forall B1 B3 (B2 : _ -> _ -> res (world * bytes * bytes)), match request_of asked cl with ROther _ => Err | RPlain _ | RFlush _ | RVerbosity _ => B3 | RGet i ks => B2 i ks | _ => B1 end = B1).
  { intros. destruct (request_of asked cl); try reflexivity; contradiction. }
  rewrite Hbody, Hw, He. reflexivity.
Qed.
Lemma later_step hops pick asked now m w x cl : sane_clock asked -> legal_node_name x -> legal_call cl -> ~ too_long now m cl ->
  ~ replied cl -> (exists k, subject cl k /\ x <> owner k) ->
  exists p, (forall rest, node_line (S hops) pick asked now w x (wire cl ++ rest) = Ok (mkWorld (w_stores w) (w_queued w ++ [p]), [], rest)) /\ under_way p (asked, cl).
Proof.
  intros Ha Hx Hc Hl Hr (k' & Hk' & Hne).
  destruct (write_of_call asked cl) as [(? & ? & ->)|[?|(e & req & k & Hw & He & Hks & Hsub & Hk & Hnr & Hnot)]].
  { elim Hr. exact I. }
  { destruct cl; try contradiction; elim Hk'. }
  assert (k' = k) as -> by (destruct cl; cbn [subject keys_of] in *; try contradiction; congruence).
  exists (owner k, req [x]). split.
  - intros rest. pose proof (served asked cl rest now m Hc ltac:(destruct cl; try exact I; elim Hk') Hl) as Hserve. apply next_accepted in Hserve.
    rewrite (write_line hops pick asked asked now w x _ _ rest cl e req k Hw He Hnot Hserve). cbn [c_proxied c_trail app].
    rewrite (route_write c s tab hash owner Hs k x (Hk Hc) (proj1 Hx)). cbn [bind].
    destruct (beq x (owner k)) eqn:E; [apply beq_eq in E; contradiction|]. rewrite (silent_write asked cl e req Hw Hr). reflexivity.
  - split; [exact Ha|]. split; [exact Hc|]. split; [exact Hr|]. exists e, req, x. subst k. auto.
Qed.
Lemma arrival_step hops now T M m w q y request asked cl : inv owner T M m w -> (T <= now)%Z -> sane_clock now -> M + 1 < 2 ^ 64 -> ~ too_long now m cl ->
  under_way (y, request) (asked, cl) ->
  exists w' m', node_line (S hops) (fun _ => O) now now (mkWorld (w_stores w) q) y request = Ok (w', [], [])
    /\ does asked now m cl m' [] /\ inv owner now (M + 1) m' w' /\ w_queued w' = q.
Proof.
  intros Hi HT Hn HM Hl (Ha & Hc & Hr & e & req & x & Hw & Hx & Hp). cbn [fst snd] in *. apply pair_equal_spec in Hp. destruct Hp as [-> ->].
  destruct (write_of_call asked cl) as [(? & ? & ->)|[Hk'|(e' & req' & k & Hw' & He & Hks & Hsub & Hk & Hnr & Hnot)]].
  { elim Hr. exact I. }
  { destruct cl; try contradiction; discriminate Hw. }
  rewrite Hw in Hw'. assert (e' = e) as -> by (apply Some_inv in Hw'; apply (f_equal fst) in Hw'; now cbn in Hw'). clear req' Hw'. specialize (Hk Hc).
  destruct (owner_run owner asked now T M m (mkWorld (w_stores w) q) cl k (inv_queue _ _ _ _ q Hi) HT Ha Hn HM Hc Hl Hks Hk) as (p & m' & Hrun & Hdo & Hi').
  exists (put_store (mkWorld (w_stores w) q) (owner k) (p_store p)), m'.
  pose proof (quiet_call _ _ _ _ _ _ Hdo Hr) as Hempty.
  assert (Hf : Forall legal_node_name [x]) by (apply List.Forall_cons; [exact Hx|apply List.Forall_nil]).
  pose proof (forwarded_served asked now cl [x] e req [] m Hc Hl Ha Hf Hw) as Hs2. rewrite app_nil_r in Hs2. apply next_accepted in Hs2.
  split; [|split; [rewrite Hempty in Hdo; exact Hdo|split; [exact Hi'|reflexivity]]].
  rewrite (write_line hops (fun _ => O) now asked now _ (owner (e_key e)) _ _ [] cl e req k Hw He Hnot Hs2). cbn [c_proxied proxied]. rewrite He.
  rewrite (route_proxied c s tab hash owner Hs k Hk). cbn [bind]. rewrite Hrun. cbn [bind]. rewrite Hempty. reflexivity.
Qed.

Lemma not_put_off t : ~ put_off owner t -> legal_call (t_call t) -> replied (t_call t) \/ forall k, subject (t_call t) k -> t_node t = owner k.
Proof.
  intros Hn Hc. destruct (replied_dec (t_call t)) as [R|R]; [now left|]. right. intros k Hk.
  destruct (beq (t_node t) (owner k)) eqn:E; [now apply beq_eq|]. elim Hn. split; [exact R|]. exists k. split; auto. intros H. rewrite H, beq_refl in E. discriminate.
Qed.
Lemma put_off_dec t : {put_off owner t} + {~ put_off owner t}.
Proof.
  unfold put_off. destruct (replied_dec (t_call t)) as [R|R]; [right; intros (H & _); contradiction|].
  destruct (keys_of (t_call t)) as [|k l] eqn:E.
  { right. intros (_ & k & H & _). destruct (t_call t); cbn [subject keys_of] in *; try contradiction; try discriminate. subst. contradiction. }
  destruct (beq (t_node t) (owner k)) eqn:B.
  - right. intros (_ & k' & H & Hne). apply beq_eq in B. destruct (t_call t); cbn [subject keys_of replied] in *; try contradiction; try (elim R; exact I); injection E as -> _; subst; contradiction.
  - left. split; [exact R|]. exists k. split; [|intros H; rewrite H, beq_refl in B; discriminate].
    destruct (t_call t); cbn [subject keys_of replied] in *; try discriminate; try (elim R; exact I); congruence.
Qed.

Definition event_of (d : deed) : happening :=
  match d with Request t => Ask (t_pick t) (t_asked t) (t_now t) (t_node t) (wire (t_call t)) | Arrival now i => Arrive now i end.
Lemma talks_spec hops l : forall T M m w q, inv owner T M m w -> Forall2 under_way (w_queued w) q -> sane_clock T -> advancing T l -> Forall fair l -> M + N.of_nat (length l) < 2 ^ 64 ->
  exists l1 l2 w' m' q' out, l = l1 ++ l2 /\ happens c tab hash (S (S hops)) (map event_of l1) w = Ok (w', out) /\ talks owner m q l1 m' q' out
    /\ length (w_queued w') = length q' /\ match l2 with [] => True | d :: _ => stops m' q' d end.
Proof.
  induction l as [|d l IH]; intros T M m w q Hi Hq HT Hr Hp HM.
  - exists [], [], w, m, q, []. split; [reflexivity|]. split; [reflexivity|]. split; [constructor|]. split; [eapply Forall2_length; exact Hq|exact I].
  - assert (Hstop : stops m q d -> exists l1 l2 w' m' q' out, d :: l = l1 ++ l2 /\ happens c tab hash (S (S hops)) (map event_of l1) w = Ok (w', out) /\ talks owner m q l1 m' q' out
      /\ length (w_queued w') = length q' /\ match l2 with [] => True | d :: _ => stops m' q' d end).
    { intros H. exists [], (d :: l), w, m, q, []. split; [reflexivity|]. split; [reflexivity|]. split; [constructor|]. split; [eapply Forall2_length; exact Hq|exact H]. }
    destruct Hr as (Hnow & Hr). inversion Hp as [|? ? Ht Hp']; subst.
    assert (HM1 : M + 1 < 2 ^ 64). { cbn [length] in HM. clear - HM. change (2 ^ 64) with 18446744073709551616 in *. lia. }
    assert (HM2 : M + 1 + N.of_nat (length l) < 2 ^ 64). { cbn [length] in HM. clear - HM. change (2 ^ 64) with 18446744073709551616 in *. lia. }
    assert (Hsn : sane_clock (deed_time d)) by (unfold sane_clock in *; lia).
    destruct d as [t|now i].
    + destruct (too_long_dec (t_now t) m (t_call t)) as [Hlong|Hshort]; [apply Hstop; exact Hlong|].
      cbn [deed_time] in *. destruct Ht as (Hx & Ha & Hc & Hfl). destruct (put_off_dec t) as [Hoff|Hon].
      * destruct (later_step (S hops) (t_pick t) (t_asked t) (t_now t) m w (t_node t) (t_call t) Ha Hx Hc Hshort (proj1 Hoff) (proj2 Hoff)) as (p & Hrun & Hu).
        destruct (IH (t_now t) (M + 1) m (mkWorld (w_stores w) (w_queued w ++ [p])) (q ++ [(t_asked t, t_call t)])) as (l1 & l2 & w' & m' & q' & out & -> & Hses & Hcon & Hend).
        { apply inv_queue. split; intros y; [eapply quiet_mono; [apply (proj1 Hnow)| |apply Hi]; lia|]. intros k Hk'. eapply sees_mono; [apply (proj1 Hnow)|]. now apply Hi. }
        { cbn [w_queued]. apply Forall2_app; [exact Hq|]. constructor; [exact Hu|constructor]. }
        { exact Hsn. } { exact Hr. } { exact Hp'. } { exact HM2. }
        exists (Request t :: l1), l2, w', m', q', ([] :: out). split; [reflexivity|]. split; [|split; [now apply talks_later|exact Hend]].
        cbn [map happens event_of happen]. specialize (Hrun []). rewrite app_nil_r in Hrun. rewrite Hrun. cbn [bind]. rewrite Hses. reflexivity.
      * pose proof (not_put_off t Hon Hc) as Hre.
        destruct (any_step c s tab hash owner Hs hops (t_pick t) (t_asked t) (t_now t) T M m w (t_node t) (t_call t) Hi (proj1 Hnow) Ha Hsn HM1 Hx Hc Hshort Hfl Hre) as (w1 & m1 & a & Hrun & Hdo & Hi1 & Hqu).
        rewrite <- Hqu in Hq.
        destruct (IH (t_now t) (M + 1) m1 w1 q Hi1 Hq Hsn Hr Hp' HM2) as (l1 & l2 & w' & m' & q' & out & -> & Hses & Hcon & Hend).
        exists (Request t :: l1), l2, w', m', q', (a :: out). split; [reflexivity|]. split; [|split; [eapply talks_now; eauto|exact Hend]].
        cbn [map happens event_of happen]. specialize (Hrun []). rewrite app_nil_r in Hrun. rewrite Hrun. cbn [bind]. rewrite Hses. reflexivity.
    + cbn [deed_time] in *. destruct (nth_error q i) as [[asked cl]|] eqn:E; [|apply Hstop; cbn [stops]; rewrite E; exact I].
      destruct (too_long_dec now m cl) as [Hlong|Hshort]; [apply Hstop; cbn [stops]; rewrite E; exact Hlong|].
      destruct (Forall2_at _ _ _ Hq i _ E) as ((y & request) & En & Hu).
      destruct (arrival_step (S hops) now T M m w (drop_nth i (w_queued w)) y request asked cl Hi (proj1 Hnow) Hsn HM1 Hshort Hu) as (w1 & m1 & Hrun & Hdo & Hi1 & Hqu).
      destruct (IH now (M + 1) m1 w1 (drop_nth i q)) as (l1 & l2 & w' & m' & q' & out & -> & Hses & Hcon & Hend); auto.
      { rewrite Hqu. apply Forall2_drop. exact Hq. }
      rewrite drop_nth_parts in Hcon.
      exists (Arrival now i :: l1), l2, w', m', q', ([] :: out). split; [reflexivity|]. split; [|split; [eapply talks_arrival; eauto|exact Hend]].
      cbn [map happens event_of happen]. rewrite En, Hrun. cbn [bind fst]. rewrite Hses. reflexivity.
Qed.
End Cluster.
