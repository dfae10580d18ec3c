(** Keys asked of any node of a settled cluster. *)
From Coq Require Import String Sorted.
From stdpp Require Import gmap.
From Coq Require Import ZifyBool ZifyNat ZifyN.
From Verif Require Import Base BaseLemmas StorageModel TextModel TextSpec TextProofs TextProofs2 TextProofs3 TextProofs4 SessionModel
  KeyResolverModel ClusterModel NodeModel RoutingModel GatewaySpec GatewayProofs KeysModel KeysSpec KeysProofs.
Local Open Scope N_scope.
Local Open Scope list_scope.

(** The answer shows what the entry of each prefix has. *)
Lemma last_asked_same (f : bytes -> known) p ps :
  last_asked p (map (fun p => (p, f p)) ps) = if existsb (beq p) ps then match f p with Asked l => Some l | Found _ => None end else None.
Proof.
  induction ps as [|q ps IH]; cbn [map last_asked existsb]; [reflexivity|]. rewrite IH. destruct (beq p q) eqn:E; cbn [orb].
  - apply beq_eq in E. subst q. destruct (existsb (beq p) ps), (f p); reflexivity.
  - destruct (existsb (beq p) ps), (f p), (f q); reflexivity.
Qed.
Lemma last_found_same (f : bytes -> known) p ps :
  last_found p (map (fun p => (p, f p)) ps) = if existsb (beq p) ps then match f p with Found o => Some o | Asked _ => None end else None.
Proof.
  induction ps as [|q ps IH]; cbn [map last_found existsb]; [reflexivity|]. rewrite IH. destruct (beq p q) eqn:E; cbn [orb].
  - apply beq_eq in E. subst q. destruct (existsb (beq p) ps), (f p); reflexivity.
  - destruct (existsb (beq p) ps), (f p), (f q); reflexivity.
Qed.
Lemma shown_same (f : bytes -> known) p ps : In p ps ->
  shown p (map (fun p => (p, f p)) ps) = match f p with Asked l => l | Found (Some l) => l | Found None => [] end.
Proof.
  intros Hp. assert (E : existsb (beq p) ps = true) by (apply existsb_exists; exists p; split; [exact Hp|apply beq_refl]).
  unfold shown. rewrite last_asked_same, last_found_same, E. destruct (f p) as [[o|]|l]; reflexivity.
Qed.
Definition told (v : known) : list bytes := match v with Asked l => l | Found (Some l) => l | Found None => [] end.
Lemma answer_told (f : bytes -> known) ps : keys_answer (map (fun p => (p, f p)) ps) = key_lines (List.concat (map (fun p => told (f p)) ps)) ++ keys_end.
Proof.
  unfold keys_answer. f_equal. set (L := map (fun p => (p, f p)) ps).
  assert (H : forall qs, incl qs ps -> flat_map (fun e => key_lines (shown (fst e) L)) (map (fun p => (p, f p)) qs) = key_lines (List.concat (map (fun p => told (f p)) qs))).
  { induction qs as [|q qs IH]; intros Hq; [reflexivity|]. cbn [map flat_map List.concat fst]. rewrite key_lines_app, IH by (intros x Hx; apply Hq; now right).
    f_equal. unfold L. rewrite shown_same by (apply Hq; now left). reflexivity. }
  apply H. intros x Hx. exact Hx.
Qed.

Lemma forward_legal p n st : (forall k, held st k -> begins p k -> cstr k = k) -> (0 < n)%Z -> get_keys st p n = forward_keys st p n.
Proof.
  intros Hst Hn. unfold get_keys. rewrite <- (map_id (forward_keys st p n)) at 2. apply map_ext_in.
  intros k Hk. destruct (l_sound _ _ _ _ (forward_listing st p n ltac:(lia)) k Hk). auto.
Qed.

Section Keys.
Context (c : config) (s : index) (tab : bytes -> copy) (hash : bytes -> Z) (owner : bytes -> bytes) (Hs : settled c s tab hash owner).
Context (capable : bytes -> bool) (stores : bytes -> store) (links : bytes -> bytes -> bytes -> list link) (pick : bytes -> bytes -> nat).
Notation nk := (node_keys c tab hash capable stores links pick).

(** The node that owns the prefix. *)
Lemma keys_here h p n rest : legal_key p -> (0 < n <= 2147483647)%Z -> capable (owner p) = true ->
  nk (S h) (owner p) (keys_request [p] n ++ rest) = Ok (key_lines (get_keys (stores (owner p)) p n) ++ keys_end, rest).
Proof.
  intros Hp Hn Hc. destruct (request_line [p] n rest) as (line & q & G & P & K); [discriminate|repeat constructor; apply Hp|exact Hn|].
  cbn [node_keys]. rewrite G. cbn [bind]. rewrite P. cbn [bind c_word]. replace (negb (beq (s2b "keys") (s2b "keys"))) with false by reflexivity.
  rewrite K. cbn [gather]. rewrite (route_read c s tab hash owner Hs p (owner p)); auto; [|now apply (owner_name c s tab hash owner Hs)].
  rewrite beq_refl. cbn [bind]. rewrite Hc. cbn [bind]. change [(p, Found (Some (get_keys (stores (owner p)) p n)))]
    with (map (fun p => (p, Found (Some (get_keys (stores (owner p)) p n)))) [p]).
  rewrite answer_told. cbn [map told List.concat]. now rewrite app_nil_r.
Qed.
(** Tries that are not sent, then one that is answered. *)
Lemma query_served ask p i tries l : Forall legal_key l -> (ask [p] = Ok (key_lines l ++ keys_end)) ->
  query ask (repeat Down i ++ Up :: tries) [p] = Ok l.
Proof.
  intros Hl Ha. induction i as [|i IH]; cbn [repeat app query]; [|exact IH].
  rewrite Ha. cbn [bind]. rewrite read_answer by exact Hl. reflexivity.
Qed.

Definition reached (x p : bytes) : Prop := x = owner p \/ exists i tries, (i < 4)%nat /\ links x (owner p) p = repeat Down i ++ Up :: tries.
Definition result (x : bytes) (n : Z) (p : bytes) : known :=
  if beq x (owner p) then Found (Some (get_keys (stores x) p n)) else Asked (get_keys (stores (owner p)) p n).
Lemma gather_settled h x n ps : x <> [] -> (0 < n <= 2147483647)%Z ->
  Forall (fun p => legal_key p /\ capable (owner p) = true /\ reached x p /\ (x <> owner p -> Forall legal_key (get_keys (stores (owner p)) p n))) ps ->
  gather c tab hash capable stores pick (fun y p => query (fun l => let* (a, _) := nk (S h) y (keys_request l n) in Ok a) (firstn 4 (links x y p)) [p]) x n ps
  = Ok (Some (map (fun p => (p, result x n p)) ps)).
Proof.
  intros Hx Hn H. induction H as [|p ps (Hp & Hc & Hr & Hk) _ IH]; cbn [gather map]; [reflexivity|].
  rewrite (route_read c s tab hash owner Hs p x) by auto. cbn [bind]. rewrite IH. assert (R : result x n p = if beq x (owner p) then Found (Some (get_keys (stores x) p n)) else Asked (get_keys (stores (owner p)) p n)) by reflexivity.
  destruct (beq x (owner p)) eqn:E.
  - apply beq_eq in E. subst x. rewrite Hc, R. reflexivity.
  - assert (NE : x <> owner p) by (intros ->; rewrite beq_refl in E; discriminate).
    destruct Hr as [|(i & tries & Hi & L)]; [contradiction|]. rewrite L.
    replace (firstn 4 (repeat Down i ++ Up :: tries)) with (repeat Down i ++ Up :: firstn (3 - i) tries).
    2:{ clear -Hi. do 4 (destruct i as [|i]; [reflexivity|]). lia. }
    erewrite query_served; [cbn [bind]; rewrite R; reflexivity|apply Hk, NE|].
    rewrite <- (app_nil_r (keys_request [p] n)). rewrite keys_here by auto. reflexivity.
Qed.
Lemma told_result x n p : told (result x n p) = get_keys (stores (owner p)) p n.
Proof. unfold result. destruct (beq x (owner p)) eqn:E; [apply beq_eq in E; now subst|reflexivity]. Qed.
Lemma node_settled h x n ps rest : x <> [] -> (0 < n <= 2147483647)%Z -> ps <> [] ->
  Forall (fun p => legal_key p /\ capable (owner p) = true /\ reached x p /\ (x <> owner p -> Forall legal_key (get_keys (stores (owner p)) p n))) ps ->
  nk (S (S h)) x (keys_request ps n ++ rest) =
  Ok (key_lines (List.concat (map (fun p => get_keys (stores (owner p)) p n) ps)) ++ keys_end, rest).
Proof.
  intros Hx Hn Hps H. destruct (request_line ps n rest) as (line & q & G & P & K); auto.
  { eapply List.Forall_impl; [|exact H]. intros p (Hp & _). exact Hp. }
  pose proof (gather_settled h x n ps Hx Hn H) as GA.
  remember (S h) as h1. cbn [node_keys]. rewrite G. cbn [bind]. rewrite P. cbn [bind c_word]. replace (negb (beq (s2b "keys") (s2b "keys"))) with false by reflexivity.
  rewrite K, GA. cbn [bind]. rewrite answer_told. do 5 f_equal. apply map_ext. intros p. apply told_result.
Qed.
End Keys.
