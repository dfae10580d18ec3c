(** Properties C45 and C49: the delivery of forwarded requests. *)
From Coq Require Import List Bool Arith NArith ZArith String.
From Verif Require Import Base StorageModel StorageSpec StorageProofs2 StorageProofs3 ProxyModel ProxySpec ProxyProofs Props_Storage.
Import ListNotations.

(** A storage node as the other node: answers are the result and the data. *)
Definition answer : Type := option result * bytes.
Definition storage_exec (s : store) (o : op) : store * answer :=
  match run_op s o with Some r => (o_store r, (o_res r, e_data (o_entry r))) | None => (s, (None, [])) end.
Definition asks (_ : op) : bool := false.
Definition any_answer (_ : op) (_ : answer) : bool := true.
Definition deliver_op := deliver store op answer storage_exec asks any_answer.
Definition at_rest (s : store) : link store op answer := mkLink true [] [] s [].

(** ** C45 *)
(** Whatever happens to the connection, a request is served at most four times. *)
Theorem c45_retries_partial {St Q A} (exec : St -> Q -> St * A) silent accepts q fs l l' r :
  inbox l = [] -> deliver St Q A exec silent accepts q fs l = (l', r) ->
  exists i j, map fst (log l') = map fst (log l) ++ repeat q i /\ inbox l' = repeat q j /\ i + j <= 4.
Proof. exact (deliver_bound St Q A exec silent accepts q fs l l' r). Qed.
Print Assumptions c45_retries_partial.
(** It is served at most once, and exactly once if an answer is reported, when no
    attempt fails after its request was sent.  Missing from the full property: attempts
    that do, with which it fails (below). *)
Theorem c45_at_most_once_partial {St Q A} (exec : St -> Q -> St * A) silent accepts q fs l l' r :
  silent q = false -> fits exec accepts q -> inbox l = [] -> back l = [] -> (forall f ok, In (f, ok) (firstn 4 fs) -> sure l f) ->
  deliver St Q A exec silent accepts q fs l = (l', r) ->
  inbox l' = [] /\ back l' = [] /\
  ((r = None /\ log l' = log l) \/ exists a, r = Some (Some a) /\ log l' = log l ++ [(q, a)]).
Proof.
  intros NS FI I B T D. unfold deliver in D. pose proof (sure_tries St Q A exec silent accepts q NS FI (firstn max_retry fs) l I B T) as H. rewrite D in H. exact H.
Qed.
Print Assumptions c45_at_most_once_partial.
Definition counter : store := after st0 [OSet 100 (ent kA 7 0 0 (s2b "5")) 0].
Definition add_one : op := OIncr 200 (ent kA 0 0 0 []) 1 true 0.
Example c45_example : forall l' r, deliver_op add_one [(Refused 0, false); (Refused 0, true); (Wait 1, true)] (at_rest counter) = (l', r) ->
  r = Some (Some (Some result_stored, s2b "6")) /\ List.length (log l') = 1.
Proof. intros l' r. vm_compute. intros [= <- <-]. auto. Qed.
(** If the connection is lost before the request is sent and no new one can be made, the
    request is not served and no answer is reported. *)
Theorem c45_unreachable {St Q A} (exec : St -> Q -> St * A) silent accepts q n fs l l' r :
  inbox l = [] -> (forall f ok, In (f, ok) fs -> ok = false) ->
  deliver St Q A exec silent accepts q ((Refused n, false) :: fs) l = (l', r) -> r = None /\ log l' = log l /\ node l' = node l /\ up l' = false.
Proof.
  intros I T. assert (SE : forall m, serves St Q A exec silent m l = l).
  { induction m as [|m IH]; cbn [serves]; auto. unfold serve1. now rewrite I. }
  assert (G : forall gs l0, up l0 = false -> (forall f ok, In (f, ok) gs -> ok = false) -> forall l1 r1, tries St Q A exec silent accepts q gs l0 = (l1, r1) ->
    r1 = None /\ log l1 = log l0 /\ node l1 = node l0 /\ up l1 = false).
  { induction gs as [|[f ok] gs IH]; intros l0 U TG l1 r1; cbn [tries].
    - intros [= <- <-]. auto.
    - unfold attempt. rewrite U. cbn [negb]. rewrite U. intros H. rewrite (TG f ok (or_introl eq_refl)) in H.
      exact (IH (reopen St Q A false l0) eq_refl (fun g b J => TG g b (or_intror J)) l1 r1 H). }
  unfold deliver. change (firstn max_retry ((Refused n, false) :: fs)) with ((Refused n, false) :: firstn 3 fs). cbn [tries]. unfold attempt. rewrite SE.
  assert (T3 : forall f ok, In (f, ok) (firstn 3 fs) -> ok = false).
  { intros f ok J. apply (T f). rewrite <- (firstn_skipn 3 fs). apply in_or_app. now left. }
  destruct (up l) eqn:U; cbn [negb]; [cbn [up closed]|rewrite U]; intros H.
  - exact (G _ (reopen St Q A false (closed St Q A l)) eq_refl T3 l' r H).
  - exact (G _ (reopen St Q A false l) eq_refl T3 l' r H).
Qed.
Print Assumptions c45_unreachable.
Example c45_unreachable_example : deliver_op add_one [(Refused 0, false); (Wait 1, false); (Wait 1, false)] (at_rest counter) = (mkLink false [] [] counter [], None).
Proof. vm_compute. reflexivity. Qed.
(** The connection breaks after the counter was incremented and before the answer
    arrives: the request is sent again, the counter is two higher. *)
Theorem c45_twice_refuted : exists l', deliver_op add_one [(Broken 1, true); (Wait 1, true)] (at_rest counter) = (l', Some (Some (Some result_stored, s2b "7"))) /\
  map fst (log l') = [add_one; add_one] /\ e_data (o_entry (get (node l') 300 (ent kA 0 0 0 []) 0)) = s2b "7".
Proof. eexists. split; [vm_compute; reflexivity|]. split; vm_compute; reflexivity. Qed.
Print Assumptions c45_twice_refuted.
(** A record that replicates a version is not: served again it changes nothing. *)
Theorem c45_replicated_once s now now' e o o' init : wf_store s -> wf_entry e -> wf_rec (rec_of e) -> is_i64 now -> is_i64 now' -> e_version e <> 0%N ->
  holds s (e_key e) init -> (forall r, init = Some r -> wf_rec r /\ ~ expired now r) -> ~ expired now' (rec_of e) ->
  set s now e 0 = Some o -> o_res o = Some result_stored -> set (o_store o) now' e 0 = Some o' -> o_store o' = o_store o.
Proof.
  intros W WE WR I I' V H0 HI NX S R S'.
  assert (W' : wf_store (o_store o)).
  { apply (run_wf [OSet now e 0] s (o_store o) W); [constructor; [split; auto|constructor]|constructor; [now vm_compute|constructor]|]. cbn [run run_op]. rewrite S. reflexivity. }
  pose proof (c10_versioned_set_step s now e 0 o init W WE I (or_introl eq_refl) V H0 HI ltac:(discriminate) S) as X.
  assert (H : holds (o_store o) (e_key e) (Some (rec_of e))).
  { destruct init as [r|]; [|apply X]. destruct (e_version e <=? r_version r)%N; [|apply X]. destruct X as (_ & X). congruence. }
  pose proof (c10_versioned_set_step (o_store o) now' e 0 o' (Some (rec_of e)) W' WE I' (or_introl eq_refl) V H) as Y.
  assert (Z0 : forall r, Some (rec_of e) = Some r -> wf_rec r /\ ~ expired now' r) by (intros r [= <-]; auto).
  specialize (Y Z0 ltac:(discriminate) S'). cbn [r_version rec_of] in Y. rewrite N.leb_refl in Y. apply Y.
Qed.
Print Assumptions c45_replicated_once.
Example c45_replicated_example : let rec := OSet 100 (ent kA 1 0 9 [65%N]) 0 in
  snd (deliver_op rec [(Broken 1, true); (Wait 1, true)] (at_rest st0)) = Some (Some (Some result_not_stored, [65%N])) /\
  node (fst (deliver_op rec [(Broken 1, true); (Wait 1, true)] (at_rest st0))) = after st0 [rec].
Proof. split; vm_compute; reflexivity. Qed.

(** ** C49 *)
(** If no answer is late, a reported answer is what the other node answered when it
    served this very request, as the last one of the connection; besides it served only
    copies of it and requests that are not answered.  The connection is left with nothing
    on its way that could be taken for an answer to another request. *)
Theorem c49_own_answer_partial {St Q A} (exec : St -> Q -> St * A) silent accepts q fs l l' r :
  silent q = false -> fits exec accepts q -> calm silent l -> (forall f ok, In (f, ok) (firstn 4 fs) -> timely l f) ->
  deliver St Q A exec silent accepts q fs l = (l', r) ->
  calm silent l' /\
  (forall b, r = Some b -> exists a pre, b = Some a /\ Forall (fun x => silent (fst x) = true \/ fst x = q) pre /\ log l' = log l ++ pre ++ [(q, a)]) /\
  (r = None -> exists pre, Forall (fun x => silent (fst x) = true \/ fst x = q) pre /\ log l' = log l ++ pre).
Proof.
  intros NS FI C T D. unfold deliver in D. pose proof (timely_tries St Q A exec silent accepts q NS FI (firstn max_retry fs) l C T) as H. rewrite D in H. exact H.
Qed.
Print Assumptions c49_own_answer_partial.
Definition rough : list (fate * bool) := [(Broken 1, true); (Refused 0, false); (Broken 0, true); (Wait 1, true)].
Example c49_example : calm asks (at_rest counter) /\ fits storage_exec any_answer add_one /\
  (forall f ok, In (f, ok) (firstn 4 rough) -> timely (at_rest counter) f) /\
  snd (deliver_op add_one [(Broken 1, true); (Refused 0, true); (Broken 0, true); (Wait 1, true)] (at_rest counter)) = Some (Some (Some result_stored, s2b "7")).
Proof.
  split; [split; [reflexivity|constructor]|]. split; [intros s; reflexivity|]. split; [|vm_compute; reflexivity].
  intros f ok H. cbn in H. destruct H as [H|[H|[H|[H|[]]]]]; injection H as <- <-; cbn; auto.
Qed.
(** The other node is slow: the four attempts to set kA time out, which leaves the
    connection open.  The next request, an add for the existing key kB, is answered by
    the answer to the first: it is reported as stored, and nothing was. *)
Definition both : store := after st0 [OSet 100 (ent kB 1 0 0 (s2b "old")) 0].
Definition set_a : op := OSet 200 (ent kA 0 0 0 (s2b "x")) 0.
Definition add_b : op := OSet 900 (ent kB 2 0 0 (s2b "new")) (cmd_behavior CmdAdd).
Theorem c49_stale_answer_refuted : exists l1 l2,
  deliver_op set_a [(Late 0, true); (Late 0, true); (Late 0, true); (Late 0, true)] (at_rest both) = (l1, None) /\
  deliver_op add_b [(Wait 5, true)] l1 = (l2, Some (Some (Some result_stored, s2b "x"))) /\
  last (log l2) (set_a, (None, [])) = (add_b, (Some result_not_stored, s2b "new")) /\
  e_data (o_entry (get (node l2) 1000 (ent kB 0 0 0 []) 0)) = s2b "old".
Proof. eexists _, _. split; [vm_compute; reflexivity|]. split; [vm_compute; reflexivity|]. split; vm_compute; reflexivity. Qed.
Print Assumptions c49_stale_answer_refuted.
