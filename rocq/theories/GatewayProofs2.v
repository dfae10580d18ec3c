(** Every request put to any node does what the abstract memory says. *)
From Coq Require Import String.
From stdpp Require Import gmap.
From Coq Require Import ZifyBool ZifyNat ZifyN.
From Verif Require Import Base BaseLemmas StorageModel StorageSpec StorageProofs StorageProofs2 StorageProofs3 StorageProofs4
  TextModel TextSpec TextProofs TextProofs2 TextProofs3 TextProofs4 ClientSpec SessionModel SessionProofs NamesModel ServerModel ServerProofs ServerProofs2 ReplicaProofs ReplicaProofs2
  MemcachedSpec MemcachedProofs MemcachedProofs2 MemcachedProofs3 KeyResolverModel ClusterModel ClusterSpec NodeModel RoutingModel RoutingSpec GatewayModel GatewaySpec GatewayProofs OtherProofs ClientSpec MemcachedProofs2.
Local Open Scope N_scope.
Local Open Scope list_scope.

Lemma does_frame asked now m c m' a k : does asked now m c m' a -> (forall nr, c <> Flush nr) -> ~ In k (keys_of c) -> m' k = m k.
Proof.
  intros H Hf Hk. destruct H; auto; try (elim (Hf nr); reflexivity); cbn [keys_of In] in Hk; unfold update;
    match goal with |- (if beq ?x ?y then _ else _) = _ => destruct (beq x y) eqn:E; [apply beq_eq in E; tauto|reflexivity] end.
Qed.
Lemma item_first_line (tk : bool) k r s : legal_key k -> exists l s', get_line (item_lines tk k r ++ s) = Ok (86 :: l, s').
Proof.
  intros Hk. set (L := s2b "VALUE" ++ space k ++ space (dec (r_flag r)) ++ space (dec (blen (r_data r))) ++ (if tk then space (dec (r_version r)) else [])).
  exists (tl L ++ [10]), (r_data r ++ line_end ++ s).
  replace (item_lines tk k r ++ s) with (L ++ crlf ++ (r_data r ++ line_end ++ s)).
  - rewrite get_line_ok; [reflexivity|]. unfold L, space. destruct Hk as (_ & Hk & _).
    assert (no_lf (s2b "VALUE")) by (vm_compute; repeat constructor; discriminate).
    destruct tk; change (Forall (fun c => c <> 10)) with no_lf; nolf.
  - unfold L, item_lines. rewrite <- !app_assoc. reflexivity.
Qed.
Lemma fetched_found (tk : bool) now k r : legal_key k -> wf_rec r ->
  exists e, fetched now k (item_lines tk k r ++ s2b "END" ++ line_end) = Ok (Some e) /\ print_response (if tk then response_gets else response_get) e = item_lines tk k r.
Proof.
  intros Hk Hw. set (t := if tk then response_gets else response_get).
  exists (seen t (item k r)). split.
  - unfold fetched. rewrite <- (item_print tk k r Hk). fold t.
    pose proof (get_response_roundtrip now t (item k r) [] (item_sendable k r Hk Hw)) as R. rewrite app_nil_r in R. change (e_key (item k r)) with k in R.
    change (s2b "END" ++ line_end) with (s2b "END" ++ crlf). rewrite R. cbn [bind].
    subst t. rewrite (item_print tk k r Hk). destruct (item_first_line tk k r (s2b "END" ++ crlf) Hk) as (l & s' & ->). cbn [bind]. reflexivity.
  - rewrite <- (item_print tk k r Hk). subst t. destruct tk; reflexivity.
Qed.
Lemma fetched_missing now k : fetched now k (s2b "END" ++ line_end) = Ok None.
Proof.
  unfold fetched. pose proof (get_miss_roundtrip now k []) as R. rewrite app_nil_r in R. change (s2b "END" ++ line_end) with (s2b "END" ++ crlf). rewrite R. reflexivity.
Qed.
Definition content (src : source) : option entry := match src with Local o | Query o => o end.
Lemma query_in k l o : query_for k l = Some o -> In (k, Query o) l.
Proof.
  induction l as [|[k' src] l IH]; [discriminate|]. cbn [query_for]. destruct (query_for k l) as [o'|]; [intros [= ->]; right; auto|].
  destruct src as [|o']; [discriminate|]. destruct (beq k k') eqn:E; [|discriminate]. apply beq_eq in E. intros [= ->]. subst. now left.
Qed.
Lemma send_all_found t l (f : bytes -> bytes) : Forall (fun p => send_entry t (content (snd p)) = f (fst p)) l ->
  send_all t l = flat_map f (map fst l) ++ s2b "END" ++ crlf.
Proof.
  intros H. unfold send_all. f_equal. rewrite List.Forall_forall in H.
  assert (G : forall l0, (forall p, In p l0 -> In p l) ->
    flat_map (fun p => send_entry t (match query_for (fst p) l with Some o => o | None => match snd p with Local o | Query o => o end end)) l0 = flat_map f (map fst l0)).
  { induction l0 as [|[k src] l0 IH]; intros Hin; [reflexivity|]. cbn [flat_map map fst snd]. rewrite IH by (intros; apply Hin; now right). f_equal.
    destruct (query_for k l) as [o|] eqn:E.
    - apply query_in in E. exact (H _ E).
    - exact (H (k, src) (Hin _ (or_introl eq_refl))). }
  apply G. auto.
Qed.

Section Cluster.
Context (c : config) (s : index) (tab : bytes -> copy) (hash : bytes -> Z) (owner : bytes -> bytes) (Hs : settled c s tab hash owner).
Notation node_line := (node_line c tab hash).
Notation fetch_all := (fetch_all c tab hash).
Notation fetch := (fetch c tab hash).

Definition mine (y k : bytes) : Prop := legal_key k /\ owner k = y.
Record inv (T : Z) (M : N) (m : memory) (w : world) : Prop := {
  inv_quiet : forall y, quiet T M (w_stores w y);
  inv_shows : forall y, shows (mine y) T m (w_stores w y) }.
Lemma inv_put T M M' m m' w x s' now : inv T M m w -> (T <= now)%Z -> M <= M' -> quiet now M' s' -> shows (mine x) now m' s' ->
  (forall k, owner k <> x -> m' k = m k) -> inv now M' m' (put_store w x s').
Proof.
  intros [H1 H2] HT HM Hq Hsh Hf. split; intros y; cbn [put_store w_stores]; destruct (beq x y) eqn:E.
  - exact Hq.
  - eapply quiet_mono; eauto.
  - apply beq_eq in E. now subst y.
  - intros k (Hk & Hy). assert (owner k <> x) as Hne by (intros Ho; rewrite Ho in Hy; subst y; rewrite beq_refl in E; discriminate).
    rewrite (Hf k Hne). eapply sees_mono; [exact HT|]. apply H2. split; auto.
Qed.

Lemma read_local T M m w x k (tk : bool) now : inv T M m w -> mine x k -> (T <= now)%Z -> sane_clock now -> M < 2 ^ 64 ->
  let o := get (w_stores w x) now (empty_entry k) 0 in
  send_entry (if tk then response_gets else response_get) match o_res o with Some result_none => Some (o_entry o) | _ => None end = found_lines m now tk k
  /\ inv now M m (put_store w x (o_store o)).
Proof.
  intros Hi Hk HT Hn HM o. set (t := if tk then response_gets else response_get).
  pose proof (inv_quiet _ _ _ _ Hi x) as Q. pose proof (inv_shows _ _ _ _ Hi x) as Sh. pose proof (q_wf _ _ _ Q) as Hwf.
  pose proof (sane_i64 _ Hn) as Hin.
  assert (Hv : forall k', In k' [k] -> visible (w_stores w x) now k' (look m now k')).
  { intros k' [<-|[]]. exact (shows_visible _ _ _ _ now k Sh Hk HT). }
  pose proof (run_get_answer now (w_stores w x) t [k] (look m now) Hwf Hin Hv) as Ha.
  destruct (run_get_unchanged now t [k] (w_stores w x) Hwf Hin) as [_ Hun].
  pose proof (quiet_run_get T M (w_stores w x) now Q HT Hin HM t [k]) as Hq.
  cbn [run_get flat_map] in *. fold o in Ha, Hun, Hq. cbn [fst snd] in *. split.
  - rewrite app_nil_r in Ha. apply app_inv_tail in Ha. unfold found_lines, value_block in *.
    destruct (o_res o) as [[]|]; cbn [send_entry]; rewrite Ha; destruct (look m now k) as [r|]; try reflexivity; (apply (print_item tk k _ r); [reflexivity|apply Hk|destruct r; reflexivity|reflexivity]).
  - apply (inv_put T M M m m w x (o_store o) now Hi HT (N.le_refl _) Hq); auto. eapply shows_unchanged; eauto.
Qed.
Lemma inv_wf T M m w now k r : inv T M m w -> legal_key k -> (T <= now)%Z -> look m now k = Some r -> wf_rec r.
Proof.
  intros Hi Hk HT L. pose proof (shows_live _ _ _ _ now k r (inv_shows _ _ _ _ Hi (owner k)) (conj Hk eq_refl) HT L) as (_ & W & _). exact W.
Qed.
(** The node that owns the key answers a get for it. *)
Lemma owner_get hops pick T M m w k (tk : bool) now : inv T M m w -> legal_key k -> (T <= now)%Z -> sane_clock now -> M < 2 ^ 64 ->
  exists w', node_line (S hops) pick now now w (owner k) (get_request (if tk then s2b "gets" else s2b "get") [k]) = Ok (w', found_lines m now tk k ++ s2b "END" ++ line_end, [])
    /\ inv now M m w' /\ w_queued w' = w_queued w.
Proof.
  intros Hi Hk HT Hn HM. set (ident := if tk then s2b "gets" else s2b "get").
  assert (Hid : In ident [s2b "get"; s2b "gets"]) by (subst ident; destruct tk; cbn; tauto).
  pose proof (get_roundtrip now ident [k] [] Hid ltac:(discriminate) ltac:(apply List.Forall_cons; [exact Hk|apply List.Forall_nil])) as Hserve. rewrite app_nil_r in Hserve.
  apply next_accepted in Hserve.
  destruct (read_local T M m w (owner k) k tk now Hi (conj Hk eq_refl) HT Hn HM) as (Hp & Hi').
  set (o := get (w_stores w (owner k)) now (empty_entry k) 0) in *.
  exists (put_store w (owner k) (o_store o)). split; [|split; [exact Hi'|reflexivity]].
  cbn [GatewayModel.node_line]. rewrite Hserve. cbn [bind GatewayModel.fetch_all]. unfold GatewayModel.fetch.
  rewrite (route_read c s tab hash owner Hs k (owner k) (pick k) Hk (owner_name c s tab hash owner Hs k Hk)), beq_refl. cbn [bind]. fold o. cbn [bind].
  replace (if beq ident (s2b "gets") then response_gets else response_get) with (if tk then response_gets else response_get) by (subst ident; destruct tk; reflexivity).
  rewrite (send_all_found _ _ (found_lines m now tk)).
  - cbn [map fst flat_map]. rewrite app_nil_r. reflexivity.
  - constructor; [exact Hp|constructor].
Qed.
Lemma fetch_ok hops pick T M m w x k (tk : bool) now : inv T M m w -> legal_key k -> x <> [] -> (T <= now)%Z -> sane_clock now -> M < 2 ^ 64 ->
  let ask w y request := let* (p, _) := node_line (S hops) pick now now w y request in Ok p in
  exists w' src, fetch ask pick now x (if tk then s2b "gets" else s2b "get") k w = Ok (w', src)
    /\ send_entry (if tk then response_gets else response_get) (content src) = found_lines m now tk k /\ inv now M m w' /\ w_queued w' = w_queued w.
Proof.
  intros Hi Hk Hx HT Hn HM ask. unfold GatewayModel.fetch. rewrite (route_read c s tab hash owner Hs k x (pick k) Hk Hx). cbn [bind].
  destruct (beq x (owner k)) eqn:E.
  - apply beq_eq in E. subst x. destruct (read_local T M m w (owner k) k tk now Hi (conj Hk eq_refl) HT Hn HM) as (Hp & Hi').
    eexists _, _. split; [reflexivity|]. split; [exact Hp|]. split; [exact Hi'|reflexivity].
  - destruct (owner_get hops pick T M m w k tk now Hi Hk HT Hn HM) as (w' & Hask & Hi' & Hq).
    unfold ask. rewrite Hask. cbn [bind]. unfold found_lines. destruct (look m now k) as [r|] eqn:L.
    + destruct (fetched_found tk now k r Hk (inv_wf T M m w now k r Hi Hk HT L)) as (e & -> & Hp). cbn [bind]. eexists _, _. split; [reflexivity|]. split; [exact Hp|]. split; auto.
    + change (([] : bytes) ++ s2b "END" ++ line_end) with (s2b "END" ++ line_end). rewrite fetched_missing. cbn [bind]. eexists _, _. split; [reflexivity|]. split; [reflexivity|]. split; auto.
Qed.
Lemma fetch_all_ok hops pick M m x (tk : bool) now ks : Forall legal_key ks -> x <> [] -> sane_clock now -> M < 2 ^ 64 ->
  let ask w y request := let* (p, _) := node_line (S hops) pick now now w y request in Ok p in
  forall T w, inv T M m w -> (T <= now)%Z ->
  exists w' l, fetch_all ask pick now x (if tk then s2b "gets" else s2b "get") ks w = Ok (w', l) /\ map fst l = ks
    /\ Forall (fun p => send_entry (if tk then response_gets else response_get) (content (snd p)) = found_lines m now tk (fst p)) l /\ inv now M m w' /\ w_queued w' = w_queued w.
Proof.
  intros Hks Hx Hn HM ask. induction Hks as [|k ks Hk Hks IH]; intros T w Hi HT.
  - exists w, []. split; [reflexivity|]. split; [reflexivity|]. split; [constructor|]. split; [|reflexivity].
    split; intros y; [eapply quiet_mono; [exact HT|apply N.le_refl|apply Hi]|]. intros k Hk. eapply sees_mono; [exact HT|]. now apply Hi.
  - destruct (fetch_ok hops pick T M m w x k tk now Hi Hk Hx HT Hn HM) as (w1 & src & H1 & H2 & H3 & H4). fold ask in H1.
    destruct (IH now w1 H3 (Z.le_refl _)) as (w2 & l & G1 & G2 & G3 & G4 & G5).
    exists w2, ((k, src) :: l). cbn [GatewayModel.fetch_all]. rewrite H1. cbn [bind]. rewrite G1. cbn [bind].
    split; [reflexivity|]. split; [cbn; now rewrite G2|]. split; [constructor; auto|]. split; [exact G4|congruence].
Qed.

Definition good_step (hops : nat) (pick : bytes -> nat) (asked now : Z) (M : N) (m : memory) (w : world) (x : bytes) (cl : call) : Prop :=
  exists w' m' a, (forall rest, node_line (S (S hops)) pick asked now w x (wire cl ++ rest) = Ok (w', a, rest))
    /\ does asked now m cl m' a /\ inv now (M + 1) m' w' /\ w_queued w' = w_queued w.

(** A get put to any node. *)
Lemma any_get hops pick asked now T M m w x (tk : bool) ks : inv T M m w -> (T <= now)%Z -> sane_clock now -> M < 2 ^ 64 -> x <> [] -> legal_call (Get tk ks) ->
  exists w', (forall rest, node_line (S (S hops)) pick asked now w x (wire (Get tk ks) ++ rest) = Ok (w', flat_map (found_lines m now tk) ks ++ s2b "END" ++ line_end, rest))
    /\ inv now M m w' /\ w_queued w' = w_queued w.
Proof.
  intros Hi HT Hn HM' Hx Hc. pose proof Hc as (Hne & Hks).
  destruct (fetch_all_ok hops pick M m x tk now ks Hks Hx Hn HM' T w Hi HT) as (w' & l & H1 & H2 & H3 & H4 & H5).
  exists w'. split; [|split; [exact H4|exact H5]].
  intros rest. cbn [GatewayModel.node_line]. pose proof (served asked (Get tk ks) rest now m Hc I ltac:(intros [])) as Hserve. apply next_accepted in Hserve.
  rewrite Hserve. cbn [bind request_of]. cbn [GatewayModel.node_line] in H1. rewrite H1. cbn [bind].
  replace (if beq (if tk then s2b "gets" else s2b "get") (s2b "gets") then response_gets else response_get) with (if tk then response_gets else response_get) by (destruct tk; reflexivity).
  rewrite (send_all_found _ _ _ H3), H2. reflexivity.
Qed.
Lemma get_step hops pick asked now T M m w x (tk : bool) ks : inv T M m w -> (T <= now)%Z -> sane_clock now -> M + 1 < 2 ^ 64 -> x <> [] -> legal_call (Get tk ks) ->
  good_step hops pick asked now M m w x (Get tk ks).
Proof.
  intros Hi HT Hn HM Hx Hc. assert (HM' : M < 2 ^ 64) by lia.
  destruct (any_get hops pick asked now T M m w x tk ks Hi HT Hn HM' Hx Hc) as (w' & H1 & H4 & H5).
  exists w', m, (flat_map (found_lines m now tk) ks ++ s2b "END" ++ line_end). split; [exact H1|split; [apply got|split; [|exact H5]]].
  split; intros y; [eapply quiet_mono; [apply Z.le_refl| |apply H4]; lia|apply H4].
Qed.

(** The owner of the key runs a write. *)
Lemma owner_run asked now T M m w cl k : inv T M m w -> (T <= now)%Z -> sane_clock asked -> sane_clock now -> M + 1 < 2 ^ 64 -> legal_call cl -> ~ too_long now m cl ->
  keys_of cl = [k] -> legal_key k ->
  exists p m', run_request now (w_stores w (owner k)) (request_of asked cl) = Ok p /\ does asked now m cl m' (p_answer p)
    /\ inv now (M + 1) m' (put_store w (owner k) (p_store p)).
Proof.
  intros Hi HT Ha Hn HM Hc Hl Hks Hk.
  destruct (fine_call (mine (owner k)) T M (w_stores w (owner k)) m asked now (inv_quiet _ _ _ _ Hi _) (inv_shows _ _ _ _ Hi _) HT Ha Hn HM cl Hc) as (p & m' & Hrun & Hdo & Hq & Hsh); auto.
  { destruct cl; try exact I. discriminate Hks. }
  { rewrite Hks. intros k' [<-|[]]. split; auto. }
  exists p, m'. split; [exact Hrun|]. split; [exact Hdo|].
  apply (inv_put T M (M + 1) m m' w (owner k) (p_store p) now Hi HT ltac:(lia) Hq Hsh).
  intros k' Hk'. eapply does_frame; [exact Hdo|intros nr ->; discriminate Hks|]. rewrite Hks. intros [<-|[]]. congruence.
Qed.
Definition keyless (cl : call) : Prop := match cl with Flush _ | Verbosity _ _ | Ping | Version | Unknown _ _ | Quit => True | _ => False end.
Lemma write_of_call asked cl : (exists tk ks, cl = Get tk ks) \/ keyless cl \/
  exists e req k, write_of (request_of asked cl) = Some (e, req) /\ e_key e = k /\ keys_of cl = [k] /\ subject cl k /\ (legal_call cl -> legal_key k) /\ (replied cl -> noreply e = false)
    /\ (match request_of asked cl with RStore _ _ | RDelete _ | RTouch _ _ | RIncr _ _ _ => True | _ => False end).
Proof.
  destruct cl as [md k f x d nr|k f x d t nr|k x nr|k x nr|k nr|up k v nr|tk ks| | | | | |]; try (right; left; exact I); try (left; eauto; fail); right; right;
    (eexists _, _, k; split; [reflexivity|]; split; [reflexivity|]; split; [reflexivity|]; split; [reflexivity|]; split; [cbn [legal_call]; tauto|]; split; [cbn [replied]; intros ->; reflexivity|exact I]).
Qed.
(** A write, read off any bytes at any clock value. *)
Lemma write_read hops pick asked0 asked now T M m w x cl bs : inv T M m w -> (T <= now)%Z -> sane_clock asked -> sane_clock now -> M + 1 < 2 ^ 64 -> legal_node_name x ->
  legal_call cl -> ~ too_long now m cl -> (replied cl \/ forall k, subject cl k -> x = owner k) -> ~ (exists tk ks, cl = Get tk ks) -> ~ keyless cl ->
  (forall rest, serve_next asked0 (bs ++ rest) = Ok (Accepted (mkCommand false [] (word_of cl)) (request_of asked cl), rest)) ->
  exists w' m' a, (forall rest, node_line (S (S hops)) pick asked0 now w x (bs ++ rest) = Ok (w', a, rest))
    /\ does asked now m cl m' a /\ inv now (M + 1) m' w' /\ w_queued w' = w_queued w
    /\ (replied cl -> relay now (request_of asked cl) a = Ok a).
Proof.
  intros Hi HT Ha Hn HM Hx Hc Hl Hr Hng Hnk Hread.
  destruct (write_of_call asked cl) as [?|[?|(e & req & k & Hw & He & Hks & Hsub & Hk & Hnr & Hnot)]]; [contradiction|contradiction|]. specialize (Hk Hc).
  destruct (owner_run asked now T M m w cl k Hi HT Ha Hn HM Hc Hl Hks Hk) as (p & m' & Hrun & Hdo & Hi').
  assert (Hrelay : replied cl -> relay now (request_of asked cl) (p_answer p) = Ok (p_answer p)).
  { intros Hr'. apply (relayed asked now now m cl m' (p_answer p) e req Hdo Hr' Hc); auto; intros k' r Hin HL; rewrite Hks in Hin; destruct Hin as [<-|[]]; exact (inv_wf T M m w now k r Hi Hk HT HL). }
  exists (put_store w (owner k) (p_store p)), m', (p_answer p). split; [|split; [exact Hdo|split; [exact Hi'|split; [reflexivity|exact Hrelay]]]].
  intros rest. pose proof (Hread rest) as Hserve.
  assert (Hbody : forall B1 B3 (B2 : _ -> _ -> res (world * bytes * bytes)), match request_of asked cl with ROther _ => Err | RPlain _ | RFlush _ | RVerbosity _ => B3 | RGet i ks => B2 i ks | _ => B1 end = B1).
  { intros. destruct (request_of asked cl); try reflexivity; contradiction. }
  assert (Hstep : forall hops' asked' w0 x0 stream cmd rest0, serve_next asked' stream = Ok (Accepted cmd (request_of asked cl), rest0) ->
    node_line (S hops') pick asked' now w0 x0 stream =
    let* a := pre_write c (tab x0) x0 (hash k) (c_proxied cmd) in
    match a with
    | Here => let* p := run_request now (w_stores w0 x0) (request_of asked cl) in Ok (put_store w0 x0 (p_store p), p_answer p, rest0)
    | Forward y =>
        if noreply e then Ok (enqueue w0 y (req (c_trail cmd ++ [x0])), [], rest0) else
        let* (w, answer) := let* (p, _) := node_line hops' pick now now w0 y (req (c_trail cmd ++ [x0])) in Ok p in
        let* out := relay now (request_of asked cl) answer in Ok (w, out, rest0)
    | NoProxy => Ok (w0, proxy_failure, rest0)
    | NoPartition => Ok (w0, no_partition, rest0)
    end).
  { intros hops' asked' w0 x0 stream cmd rest0 H. cbn [GatewayModel.node_line]. rewrite H. cbn [bind]. rewrite Hbody, Hw, He. reflexivity. }
  rewrite (Hstep (S hops) asked0 w x _ _ rest Hserve). cbn [c_proxied c_trail app].
  rewrite (route_write c s tab hash owner Hs k x Hk (proj1 Hx)). cbn [bind]. destruct (beq x (owner k)) eqn:E.
  - apply beq_eq in E. subst x. rewrite Hrun. reflexivity.
  - destruct Hr as [Hr|Hr]; [|rewrite (Hr k Hsub), beq_refl in E; discriminate]. rewrite (Hnr Hr).
    assert (Hf : Forall legal_node_name [x]) by (apply List.Forall_cons; [exact Hx|apply List.Forall_nil]).
    pose proof (forwarded_served asked now cl [x] e req [] m Hc Hl Ha Hf Hw) as Hs2. rewrite app_nil_r in Hs2. apply next_accepted in Hs2.
    rewrite (Hstep hops now w (owner k) _ _ [] Hs2). cbn [c_proxied proxied].
    rewrite (route_proxied c s tab hash owner Hs k Hk). cbn [bind]. rewrite Hrun. cbn [bind].
    rewrite (Hrelay Hr). reflexivity.
Qed.
Lemma write_step hops pick asked now T M m w x cl : inv T M m w -> (T <= now)%Z -> sane_clock asked -> sane_clock now -> M + 1 < 2 ^ 64 -> legal_node_name x ->
  legal_call cl -> ~ too_long now m cl -> (replied cl \/ forall k, subject cl k -> x = owner k) -> ~ (exists tk ks, cl = Get tk ks) -> ~ keyless cl -> good_step hops pick asked now M m w x cl.
Proof.
  intros Hi HT Ha Hn HM Hx Hc Hl Hr Hng Hnk.
  destruct (write_read hops pick asked asked now T M m w x cl (wire cl) Hi HT Ha Hn HM Hx Hc Hl Hr Hng Hnk) as (w' & m' & a & H1 & H2 & H3 & H4 & _).
  { intros rest. pose proof (served asked cl rest now m Hc ltac:(destruct cl; try exact I; elim Hnk; exact I) Hl) as Hserve. now apply next_accepted in Hserve. }
  exists w', m', a. auto.
Qed.
(** Requests without a key are answered by the node asked. *)
Lemma keyless_step hops pick asked now T M m w x cl : inv T M m w -> (T <= now)%Z -> sane_clock asked -> sane_clock now -> M + 1 < 2 ^ 64 ->
  legal_call cl -> keyless cl -> (forall nr, cl <> Flush nr) -> good_step hops pick asked now M m w x cl.
Proof.
  intros Hi HT Ha Hn HM Hc Hk Hf.
  assert (Hl : ~ too_long now m cl) by (destruct cl; try (intros []; fail); elim Hk).
  assert (D : {known cl} + {exists v r, cl = Unknown v r}) by (destruct cl; try (left; exact I); right; eauto).
  destruct D as [Hkn|(v & r & ->)].
  - destruct (fine_call (mine x) T M (w_stores w x) m asked now (inv_quiet _ _ _ _ Hi _) (inv_shows _ _ _ _ Hi _) HT Ha Hn HM cl Hc Hkn) as (p & m' & Hrun & Hdo & Hq & Hsh); auto.
    { destruct cl; cbn in Hk |- *; tauto. }
    exists (put_store w x (p_store p)), m', (p_answer p). split; [|split; [exact Hdo|split; [|reflexivity]]].
    + intros rest. pose proof (served asked cl rest now m Hc Hkn Hl) as Hserve. apply next_accepted in Hserve.
      cbn [GatewayModel.node_line]. rewrite Hserve. cbn [bind]. destruct cl; try elim Hk; try elim Hkn; cbn [request_of] in *; rewrite Hrun; reflexivity.
    + apply (inv_put T M (M + 1) m m' w x (p_store p) now Hi HT ltac:(lia) Hq Hsh).
      intros k' _. eapply does_frame; [exact Hdo|exact Hf|]. destruct cl; cbn in Hk |- *; tauto.
  - exists w, m, (s2b "ERROR" ++ crlf). split; [|split; [apply unknown|split; [|reflexivity]]].
    + intros rest. cbn [GatewayModel.node_line]. rewrite unknown_served by exact Hc. reflexivity.
    + split; intros y; [eapply quiet_mono; [exact HT| |apply Hi]; lia|]. intros k Hk'. eapply sees_mono; [exact HT|]. now apply Hi.
Qed.
Lemma any_step hops pick asked now T M m w x cl : inv T M m w -> (T <= now)%Z -> sane_clock asked -> sane_clock now -> M + 1 < 2 ^ 64 -> legal_node_name x ->
  legal_call cl -> ~ too_long now m cl -> (forall nr, cl <> Flush nr) -> (replied cl \/ forall k, subject cl k -> x = owner k) -> good_step hops pick asked now M m w x cl.
Proof.
  intros Hi HT Ha Hn HM Hx Hc Hl Hf Hr. destruct cl as [| | | | | |tk ks| | | | | |]; try (eapply write_step; eauto; try (intros (? & ? & ?); discriminate); intros []; fail);
    try (eapply keyless_step; eauto; exact I).
  eapply get_step; eauto. apply Hx.
Qed.

Definition ask_of (t : turn) : happening := Ask (t_pick t) (t_asked t) (t_now t) (t_node t) (wire (t_call t)).
Lemma dialogue_spec hops l : forall T M m w, inv T M m w -> sane_clock T -> rising T (calls l) -> Forall (proper owner) l -> M + N.of_nat (length l) < 2 ^ 64 ->
  exists l1 l2 w' m' out, l = l1 ++ l2 /\ happens c tab hash (S (S hops)) (map ask_of l1) w = Ok (w', out) /\ dialogue m l1 m' out
    /\ match l2 with [] => True | t :: _ => too_long (t_now t) m' (t_call t) end.
Proof.
  induction l as [|t l IH]; intros T M m w Hi HT Hr Hp HM.
  - exists [], [], w, m, []. split; [reflexivity|]. split; [reflexivity|]. split; [constructor|exact I].
  - destruct (too_long_dec (t_now t) m (t_call t)) as [Hlong|Hshort].
    { exists [], (t :: l), w, m, []. split; [reflexivity|]. split; [reflexivity|]. split; [constructor|exact Hlong]. }
    destruct Hr as (Hnow & Hr). inversion Hp as [|? ? Ht Hp']; subst. destruct Ht as (Hx & Ha & Hc & Hfl & Hre).
    assert (HM1 : M + 1 < 2 ^ 64). { cbn [length] in HM. clear - HM. change (2 ^ 64) with 18446744073709551616 in *. lia. }
    assert (Hsn : sane_clock (t_now t)) by (unfold sane_clock in *; lia).
    destruct (any_step hops (t_pick t) (t_asked t) (t_now t) T M m w (t_node t) (t_call t) Hi (proj1 Hnow) Ha Hsn HM1 Hx Hc Hshort Hfl Hre) as (w1 & m1 & a & Hrun & Hdo & Hi1 & _).
    destruct (IH (t_now t) (M + 1) m1 w1 Hi1 Hsn Hr Hp') as (l1 & l2 & w' & m' & out & -> & Hses & Hcon & Hend).
    { cbn [length] in HM. clear - HM. change (2 ^ 64) with 18446744073709551616 in *. lia. }
    exists (t :: l1), l2, w', m', (a :: out). split; [reflexivity|]. split; [|split; [econstructor; eauto|exact Hend]].
    cbn [map happens]. unfold ask_of at 1. cbn [happen]. specialize (Hrun []). rewrite app_nil_r in Hrun. rewrite Hrun. cbn [bind]. rewrite Hses. reflexivity.
Qed.
Lemma inv_init n T q : inv T 0 (fun _ => None) (mkWorld (fun _ => init_store n) q).
Proof. split; intros y; [apply quiet_init|]. intros k _. exact (shows_init n T k I). Qed.
End Cluster.
