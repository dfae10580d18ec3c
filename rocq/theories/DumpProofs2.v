From stdpp Require Import gmap.
From Coq Require Import String Lia ZifyBool ZifyNat ZifyN.
From Verif Require Import Base BaseLemmas StorageModel StorageSpec StorageProofs StorageProofs2 StorageProofs3 TextModel TextSpec TextProofs TextProofs2 TextProofs3 KeyResolverModel DumpModel DumpSpec DumpProofs.
Local Open Scope N_scope.

Section Dump.
  Variables (cfg : config) (ext : hash_algorithm -> bytes -> Z) (alg : hash_algorithm) (part : Z) (psize : nat).
  Notation sel := (selected cfg ext alg part psize).
  Lemma selected_asked k : sel k = Some true <-> asked cfg ext alg part psize k.
  Proof.
    unfold selected, asked. destruct (part <? 0)%Z eqn:E; [split; [left; lia|auto]|]. destruct (resolve cfg (key_hash ext alg k) psize) as [p|].
    - split.
      + intros [= H]. right. split; [lia|]. f_equal. lia.
      + intros [H|(H1 & [= H])]; [lia|]. f_equal. lia.
    - split; [discriminate|]. intros [H|(H1 & H)]; [lia|discriminate].
  Qed.
  Lemma selected_resolvable k : sel k <> None <-> resolvable cfg ext alg part psize k.
  Proof.
    unfold selected, resolvable. destruct (part <? 0)%Z eqn:E; [split; [left; lia|discriminate]|]. destruct (resolve cfg (key_hash ext alg k) psize) as [p|].
    - split; [intros _; right; discriminate|intros _; discriminate].
    - split; [congruence|]. intros [H|H]; [lia|congruence].
  Qed.
  Lemma no_nul_cstr k : no_nul k -> TextModel.cstr k = k.
  Proof. induction 1 as [|c k Hc Hk IH]; [reflexivity|]. cbn. replace (c =? 0) with false by lia. now rewrite IH. Qed.
  Lemma turn_keys ts order : map t_key ts = order -> Forall no_nul order -> map turn_key ts = order.
  Proof. intros <- H. apply map_ext_in. intros t Ht. apply no_nul_cstr. rewrite List.Forall_forall in H. apply H. now apply in_map. Qed.
  Lemma dump_whole s ts order : wf_store s -> walk s order -> map t_key ts = order -> Forall no_nul order -> Forall undisturbed ts ->
    Forall (resolvable cfg ext alg part psize) order ->
    exists s' sent, dump_server cfg ext alg part psize s ts iteration_end false = (s', record_blocks sent ++ s2b "END" ++ crlf, Ended) /\
      List.NoDup (map fst sent) /\
      (forall k r, In (k, r) sent <-> exists t, In t ts /\ t_key t = k /\ asked cfg ext alg part psize k /\ live s (t_now t) k r) /\
      wf_store s' /\ same_or_gone s s' ts.
  Proof.
    intros W [Wn Wd] Ek NN U R. pose proof (turn_keys ts order Ek NN) as Et.
    assert (K : forall t, In t ts -> turn_key t = t_key t). { intros t Ht. apply no_nul_cstr. rewrite List.Forall_forall in NN. apply NN. rewrite <- Ek. now apply in_map. }
    assert (I : Forall (fun t => is_i64 (t_now t) /\ t_stop t = false /\ t_sent t = None /\ sel (turn_key t) <> None) ts).
    { rewrite List.Forall_forall in *. intros t Ht. destruct (U t Ht) as (U1 & U2 & U3). repeat split; auto; try apply U1. apply selected_resolvable. apply R. rewrite <- Et. now apply in_map. }
    assert (I' : Forall (fun t => is_i64 (t_now t)) ts) by (eapply Forall_impl; [exact I|]; cbn; tauto).
    pose proof (loop_ok cfg ext alg part psize iteration_end false ts s (empty_entry []) W eq_refl I') as L.
    pose proof (loop_ended cfg ext alg part psize ts s (empty_entry []) W eq_refl I) as X. unfold dump_server.
    destruct (dump_loop cfg ext alg part psize s (empty_entry []) ts iteration_end false) as [[s' out] x]. cbn [snd] in X. subst x. destruct L as (sent & tail & [A B C T E F G]).
    assert (tail = []) as -> by (destruct T as [T|(T & _)]; [exact T|discriminate T]). rewrite app_nil_r in A. subst out.
    exists s', sent. split; [reflexivity|]. split; [eapply sublist_NoDup; [exact E|rewrite Et; exact Wn]|]. split; [|auto].
    intros k r. split.
    - intros H. destruct (C k r H) as (t & H1 & <- & H2 & H3). exists t. rewrite (K t H1) in *. split; [exact H1|]. split; [reflexivity|]. split; [now apply selected_asked|exact H3].
    - intros (t & H1 & <- & H2 & H3). rewrite <- (K t H1) in *. apply F; auto; [rewrite Et; exact Wn|]. split; [now apply selected_asked|exact H3].
  Qed.

  Lemma dump_keys_whole ts : forall order, map t_key ts = order -> Forall no_nul order -> Forall undisturbed ts -> Forall (resolvable cfg ext alg part psize) order ->
    exists ks, dump_keys cfg ext alg part psize ts iteration_end = (key_lines ks ++ s2b "END" ++ crlf, Ended) /\ sublist ks order /\
      (forall k, In k ks <-> In k order /\ asked cfg ext alg part psize k).
  Proof.
    induction ts as [|t ts IH]; intros order <- NN U R; [exists []; split; [reflexivity|]; split; [constructor|cbn; tauto]|].
    cbn [map] in *. apply Forall_cons in NN as [N1 NN]. apply Forall_cons in U as [(U1 & U2 & U3) U]. apply Forall_cons in R as [R1 R].
    destruct (IH _ eq_refl NN U R) as (ks & E & Sb & H). cbn [dump_keys]. rewrite (no_nul_cstr _ N1). apply selected_resolvable in R1.
    destruct (sel (t_key t)) as [[|]|] eqn:S0; [| |congruence].
    - rewrite U3, E. exists (t_key t :: ks). split; [|split].
      + f_equal. change (key_lines (t_key t :: ks)) with ((s2b "KEY " ++ t_key t ++ crlf) ++ key_lines ks). now rewrite <- !app_assoc.
      + now apply sublist_skip.
      + intros k. cbn. rewrite H. apply selected_asked in S0. split; [intros [<-|[A B]]; auto|intros [[<-|A] B]; auto].
    - rewrite E. exists ks. split; [reflexivity|]. split; [now apply sublist_cons|]. intros k. cbn. rewrite H. split; [tauto|]. intros [[<-|A] B]; auto. apply selected_asked in B. congruence.
  Qed.
  (** Whatever happens: the keys of some turns, each whole, in order; then the line that says how it ended. *)
  Lemma dump_keys_shape ts : forall last out x, dump_keys cfg ext alg part psize ts last = (out, x) ->
    exists ks tail, out = key_lines ks ++ tail /\ sublist ks (map turn_key ts) /\ Forall (asked cfg ext alg part psize) ks /\
      match x with
      | Ended => tail = s2b "END" ++ crlf /\ last = iteration_end /\ (forall k, In k ks <-> In k (map turn_key ts) /\ asked cfg ext alg part psize k)
      | Canceled => tail = s2b "SERVER_ERROR" ++ crlf /\ last = iteration_error
      | Broken => exists k n, tail = firstn n (s2b "KEY " ++ k ++ crlf)
      | Undefined => tail = []
      | Interrupted => False
      end.
  Proof.
    induction ts as [|t ts IH]; intros last out x; cbn [dump_keys].
    - destruct last; intros E; injection E as E1 E2; subst out x; exists []; eexists; (split; [reflexivity|]); (split; [constructor|]); (split; [constructor|]); auto.
      split; [reflexivity|]. split; [reflexivity|]. cbn. tauto.
    - cbn [map]. change (TextModel.cstr (t_key t)) with (turn_key t). destruct (sel (turn_key t)) as [[|]|] eqn:S0.
      + apply selected_asked in S0. destruct (t_sent t) as [n|].
        * intros [= <- <-]. exists [], (firstn n (s2b "KEY " ++ turn_key t ++ crlf)). split; [reflexivity|]. split; [apply sublist_nil_l|]. split; [constructor|]. eauto.
        * destruct (dump_keys _ _ _ _ _ ts last) as [o1 x1] eqn:E. intros [= <- <-]. destruct (IH _ _ _ E) as (ks & tail & -> & Sb & Fa & Hx).
          exists (turn_key t :: ks), tail. split; [change (key_lines (turn_key t :: ks)) with ((s2b "KEY " ++ turn_key t ++ crlf) ++ key_lines ks); now rewrite <- !app_assoc|].
          split; [now apply sublist_skip|]. split; [now constructor|]. destruct x1; auto. destruct Hx as (H1 & H2 & H3). split; auto. split; auto.
          intros k. cbn. rewrite H3. split; [intros [<-|[A B]]; auto|intros [[<-|A] B]; auto].
      + intros E. destruct (IH _ _ _ E) as (ks & tail & -> & Sb & Fa & Hx). exists ks, tail. split; [reflexivity|]. split; [now apply sublist_cons|]. split; [exact Fa|].
        destruct x; auto. destruct Hx as (H1 & H2 & H3). split; auto. split; auto. intros k. cbn. rewrite H3. split; [tauto|]. intros [[<-|A] B]; auto. apply selected_asked in B. congruence.
      + intros [= <- <-]. exists [], []. split; [reflexivity|]. split; [apply sublist_nil_l|]. split; [constructor|reflexivity].
  Qed.
End Dump.

(** * The iterator *)
Definition active (d : dumper) : Prop := match d with Dumping _ | Ending _ _ => True | _ => False end.
Definition honest (order : list bytes) (left : list bytes) (d : dumper) : Prop :=
  match d with
  | Dumping got => got ++ left = order
  | Ending got whole | Finished got whole => (whole = true -> got = order) /\ exists rest, got ++ rest = order
  | _ => True
  end.
Record iter_inv (order : list bytes) (i : iter) (ds : list dumper) : Prop := {
  ii_lock : it_lock i = true <-> exists t d, nth_error ds t = Some d /\ active d;
  ii_one : forall t t' d d', nth_error ds t = Some d -> nth_error ds t' = Some d' -> active d -> active d' -> t = t';
  ii_honest : forall t d, nth_error ds t = Some d -> honest order (it_left i) d;
}.
Lemma nth_put {A} (l : list A) t x y u : nth_error l t = Some x -> nth_error (firstn t l ++ y :: skipn (S t) l) u = if Nat.eqb u t then Some y else nth_error l u.
Proof.
  revert t u. induction l as [|z l IH]; intros [|t] [|u] H; try discriminate; cbn; auto.
Qed.
Lemma dumper_step_inv order i ds t d q : iter_inv order i ds -> nth_error ds t = Some d ->
  let '(i', d') := dumper_step order i d q in iter_inv order i' (firstn t ds ++ d' :: skipn (S t) ds).
Proof.
  intros [L O H] E. pose proof (H t d E) as Hd.
  assert (other : forall u du, nth_error ds u = Some du -> u <> t -> active d -> active du -> False) by (intros u du Eu Nu A B; apply Nu; eapply O; eauto).
  destruct d as [| |got|got whole|got whole]; cbn [dumper_step iter_begin].
  - unfold iter_begin. destruct (it_lock i) eqn:K.
    + split.
      * split; [intros _|auto]. destruct (proj1 L eq_refl) as (u & du & Eu & A). exists u, du. rewrite (nth_put _ _ _ _ _ E). destruct (Nat.eqb_spec u t) as [->|N0]; [|auto]. rewrite E in Eu. injection Eu as <-. destruct A.
      * intros u u' du du'. rewrite !(nth_put _ _ _ _ _ E). destruct (Nat.eqb u t); [intros [= <-] _ []|]. destruct (Nat.eqb u' t); [intros _ [= <-] _ []|]. apply O.
      * intros u du. rewrite (nth_put _ _ _ _ _ E). destruct (Nat.eqb u t); [intros [= <-]; exact Logic.I|apply H].
    + assert (none : forall u du, nth_error ds u = Some du -> ~ active du). { intros u du Eu A. assert (false = true) by (apply L; eauto). discriminate. }
      split; cbn [it_lock it_left].
      * split; [intros _|auto]. exists t, (Dumping []). rewrite (nth_put _ _ _ _ _ E), Nat.eqb_refl. split; [reflexivity|exact Logic.I].
      * intros u u' du du'. rewrite !(nth_put _ _ _ _ _ E). destruct (Nat.eqb_spec u t) as [->|]; destruct (Nat.eqb_spec u' t) as [->|]; auto; intros E1 E2 A1 A2; exfalso; eapply none; eauto.
      * intros u du. rewrite (nth_put _ _ _ _ _ E). destruct (Nat.eqb u t); [intros [= <-]; reflexivity|]. intros Eu. specialize (H u du Eu). destruct du; auto. exfalso. eapply none; [exact Eu|exact Logic.I].
  - split.
    + rewrite L. split; intros (u & du & Eu & A); exists u, du; (split; [|exact A]); rewrite (nth_put _ _ _ _ _ E) in *; destruct (Nat.eqb_spec u t) as [->|]; auto; congruence.
    + intros u u' du du'. rewrite !(nth_put _ _ _ _ _ E). destruct (Nat.eqb u t); [intros [= <-] _ []|]. destruct (Nat.eqb u' t); [intros _ [= <-] _ []|]. apply O.
    + intros u du. rewrite (nth_put _ _ _ _ _ E). destruct (Nat.eqb u t); [intros [= <-]; exact Logic.I|apply H].
  - assert (K : it_lock i = true) by (apply L; eexists t, _; split; [exact E|exact Logic.I]). cbn in Hd.
    assert (G : forall i' d', it_lock i' = true -> active d' -> honest order (it_left i') d' -> iter_inv order i' (firstn t ds ++ d' :: skipn (S t) ds)).
    { intros i' d' K' A' Hd'. split.
      - split; [intros _|auto]. exists t, d'. rewrite (nth_put _ _ _ _ _ E), Nat.eqb_refl. auto.
      - intros u u' du du'. rewrite !(nth_put _ _ _ _ _ E). destruct (Nat.eqb_spec u t) as [->|]; destruct (Nat.eqb_spec u' t) as [->|]; auto; intros E1 E2 A1 A2; exfalso; [eapply (other u'); eauto; exact Logic.I|eapply (other u); eauto; exact Logic.I|].
        apply (other u du E1); auto. exact Logic.I.
      - intros u du. rewrite (nth_put _ _ _ _ _ E). destruct (Nat.eqb_spec u t) as [->|]; [intros [= <-]; exact Hd'|]. intros Eu. specialize (H u du Eu). destruct du; auto. exfalso. eapply (other u); eauto; exact Logic.I. }
    unfold iter_next. rewrite K. destruct (it_left i) as [|k l] eqn:El.
    + apply G; auto; [exact Logic.I|]. cbn. rewrite app_nil_r in Hd. split; [auto|]. exists []. now rewrite app_nil_r.
    + destruct q; apply G; auto; try exact Logic.I; cbn [honest it_left]; [split; [discriminate|eauto]|]. now rewrite <- app_assoc.
  - cbn in Hd. split; cbn [it_lock it_left iter_end].
    + split; [discriminate|]. intros (u & du & Eu & A). rewrite (nth_put _ _ _ _ _ E) in Eu. destruct (Nat.eqb_spec u t) as [->|]; [injection Eu as <-; destruct A|]. exfalso. eapply (other u); eauto; exact Logic.I.
    + intros u u' du du'. rewrite !(nth_put _ _ _ _ _ E). destruct (Nat.eqb u t); [intros [= <-] _ []|]. destruct (Nat.eqb u' t); [intros _ [= <-] _ []|]. apply O.
    + intros u du. rewrite (nth_put _ _ _ _ _ E). destruct (Nat.eqb u t); [intros [= <-]; exact Hd|apply H].
  - split.
    + rewrite L. split; intros (u & du & Eu & A); exists u, du; (split; [|exact A]); rewrite (nth_put _ _ _ _ _ E) in *; destruct (Nat.eqb_spec u t) as [->|]; auto; congruence.
    + intros u u' du du'. rewrite !(nth_put _ _ _ _ _ E). destruct (Nat.eqb u t); [intros [= <-] _ []|]. destruct (Nat.eqb u' t); [intros _ [= <-] _ []|]. apply O.
    + intros u du. rewrite (nth_put _ _ _ _ _ E). destruct (Nat.eqb u t); [intros [= <-]; exact Hd|apply H].
Qed.
Lemma dumpers_inv order sched : forall i ds, iter_inv order i ds -> let '(i', ds') := dumpers order i ds sched in iter_inv order i' ds'.
Proof.
  induction sched as [|[t q] sched IH]; intros i ds H; [exact H|]. cbn [dumpers]. destruct (nth_error ds t) as [d|] eqn:E; [|now apply IH].
  pose proof (dumper_step_inv order i ds t d q H E) as X. destruct (dumper_step order i d q) as [i' d']. now apply IH.
Qed.
Lemma iter_start order left n : iter_inv order (mkIter false left) (repeat Waiting n).
Proof.
  assert (W : forall t d, nth_error (repeat Waiting n) t = Some d -> d = Waiting) by (intros t d H; apply nth_error_In in H; now apply repeat_spec in H).
  split; cbn.
  - split; [discriminate|]. intros (t & d & E & A). apply W in E. subst d. destruct A.
  - intros t t' d d' E _ A. apply W in E. subst d. destruct A.
  - intros t d E. apply W in E. subst d. exact Logic.I.
Qed.

(** * Counting the threads of a new master *)
Definition done (m : master) : Prop := Forall (fun w => w = Completed) (m_workers m).
Definition pending (ws : list worker) : nat := List.length (List.filter (fun w => match w with Completed => false | _ => true end) ws).
Lemma pending_app a b : pending (a ++ b) = (pending a + pending b)%nat.
Proof. unfold pending. now rewrite List.filter_app, app_length. Qed.
Lemma pending_zero ws : pending ws = 0%nat -> Forall (fun w => w = Completed) ws.
Proof. induction ws as [|w ws IH]; [constructor|]. destruct w; cbn; intros H; try discriminate. constructor; auto. Qed.
Lemma nth_split {A} (l : list A) i x : nth_error l i = Some x -> l = firstn i l ++ x :: skipn (S i) l.
Proof. revert i. induction l as [|y l IH]; intros [|i] H; try discriminate; cbn; [injection H as ->; reflexivity|]. now rewrite <- IH. Qed.
Lemma finish_count m i ok m' a : m_count m = Z.of_nat (pending (m_workers m)) -> master_step m (Finish i ok) = (m', a) ->
  m_count m' = Z.of_nat (pending (m_workers m')) /\ (In Activate a -> done m').
Proof.
  intros C. cbn. destruct (nth_error (m_workers m) i) as [w|] eqn:E; [|intros [= <- <-]; split; [exact C|intros []]].
  destruct w; try (intros [= <- <-]; split; [exact C|intros []]).
  pose proof (nth_split _ _ _ E) as Sp. rewrite Sp in C. rewrite pending_app in C. change (pending (Running :: skipn (S i) (m_workers m))) with (S (pending (skipn (S i) (m_workers m)))) in C.
  destruct ok; intros [= <- <-]; cbn [m_count m_workers].
  - assert (P : pending (firstn i (m_workers m) ++ Completed :: skipn (S i) (m_workers m)) = (pending (firstn i (m_workers m)) + pending (skipn (S i) (m_workers m)))%nat) by (rewrite pending_app; reflexivity).
    split; [lia|]. destruct (m_count m - 1 <=? 0)%Z eqn:Le; [|intros []]. intros _. apply pending_zero. cbn [m_workers]. lia.
  - split; [|intros [|[]]; discriminate]. rewrite pending_app. change (pending (Failed :: skipn (S i) (m_workers m))) with (S (pending (skipn (S i) (m_workers m)))). lia.
Qed.
Definition is_finish (e : mevent) : Prop := match e with Finish _ _ => True | Spawn => False end.
Lemma finishes l : forall m, m_count m = Z.of_nat (pending (m_workers m)) -> Forall is_finish l ->
  forall m' a, master_run m l = (m', a) -> In Activate a -> done m'.
Proof.
  assert (stable : forall l m, done m -> Forall is_finish l -> done (fst (master_run m l))).
  { intros l0. induction l0 as [|e l0 IH]; intros m D F; [exact D|]. apply Forall_cons in F as [F1 F]. destruct e as [|i ok]; [destruct F1|]. cbn [master_run master_step].
    destruct (nth_error (m_workers m) i) as [w|] eqn:E.
    - assert (w = Completed) by (unfold done in D; rewrite List.Forall_forall in D; apply D; eapply nth_error_In; eauto). subst w. specialize (IH m D F). destruct (master_run m l0). exact IH.
    - specialize (IH m D F). destruct (master_run m l0). exact IH. }
  induction l as [|e l IH]; intros m C F m' a; [intros [= <- <-] []|]. apply Forall_cons in F as [F1 F]. destruct e as [|i ok]; [destruct F1|]. cbn [master_run].
  destruct (master_step m (Finish i ok)) as [m1 a1] eqn:E1. destruct (finish_count _ _ _ _ _ C E1) as [C1 D1]. pose proof (stable l m1) as St. specialize (IH m1 C1 F).
  destruct (master_run m1 l) as [m2 a2]. intros [= <- <-] H. apply in_app_or in H as [H|H]; [exact (St (D1 H) F)|eapply IH; eauto].
Qed.
Lemma spawns n : forall m, m_count m = Z.of_nat (pending (m_workers m)) -> master_run m (repeat Spawn n) = (mkMaster (m_count m + Z.of_nat n) (m_workers m ++ repeat Running n), []) .
Proof.
  induction n as [|n IH]; intros [c ws] C; cbn [m_count m_workers] in *; [cbn; rewrite app_nil_r; f_equal; f_equal; lia|]. cbn [repeat master_run master_step m_count m_workers].
  rewrite IH; cbn [m_count m_workers]; [|rewrite pending_app; cbn; lia]. rewrite <- app_assoc. cbn [app]. f_equal. f_equal; try lia.
Qed.
Lemma pending_running n : pending (repeat Running n) = n. Proof. unfold pending. induction n as [|n IH]; [reflexivity|]. cbn. now rewrite IH. Qed.
Lemma master_run_app l1 : forall m l2, master_run m (l1 ++ l2) = let '(m1, a1) := master_run m l1 in let '(m2, a2) := master_run m1 l2 in (m2, a1 ++ a2).
Proof.
  induction l1 as [|e l1 IH]; intros m l2; cbn [app master_run]; [destruct (master_run m l2); reflexivity|]. destruct (master_step m e) as [m0 a0]. rewrite IH. destruct (master_run m0 l1) as [m1 a1]. destruct (master_run m1 l2). now rewrite app_assoc.
Qed.
Lemma master_all n l m a : Forall is_finish l -> master_run (mkMaster 0 []) (repeat Spawn n ++ l) = (m, a) -> In Activate a -> done m /\ List.length (m_workers m) = n.
Proof.
  intros F. rewrite master_run_app, spawns by reflexivity. cbn [m_count m_workers app]. destruct (master_run _ l) as [m2 a2] eqn:E. intros [= <- <-] H.
  split; [eapply finishes; [|exact F|exact E|exact H]; cbn [m_count m_workers app]; rewrite pending_running; lia|].
  assert (len : forall l m m' a, Forall is_finish l -> master_run m l = (m', a) -> List.length (m_workers m') = List.length (m_workers m)).
  { intros l0. induction l0 as [|e l0 IH]; intros m0 m' a F0; [intros [= <- <-]; reflexivity|]. apply Forall_cons in F0 as [F1 F0]. destruct e as [|i ok]; [destruct F1|]. cbn [master_run].
    destruct (master_step m0 (Finish i ok)) as [m1 a1] eqn:E1. destruct (master_run m1 l0) as [m3 a3] eqn:E3. intros [= <- <-]. rewrite (IH _ _ _ F0 E3).
    cbn in E1. destruct (nth_error (m_workers m0) i) as [w|] eqn:En; [|injection E1 as <- <-; reflexivity].
    destruct w; try (injection E1 as <- <-; reflexivity). destruct ok; injection E1 as <- <-; cbn [m_workers]; rewrite (nth_split _ _ _ En) at 3; rewrite !app_length; reflexivity. }
  rewrite (len _ _ _ _ F E). cbn. apply repeat_length.
Qed.

(** * Activation *)
Section Activation.
  Variables (cfg : config) (ext : hash_algorithm -> bytes -> Z) (alg : hash_algorithm) (part : Z) (psize : nat).
  Lemma ended_last ts : forall s e last stop s' out, dump_loop cfg ext alg part psize s e ts last stop = (s', out, Ended) -> last = iteration_end.
  Proof.
    induction ts as [|t ts IH]; intros s e last stop s' out; cbn [dump_loop].
    - destruct stop; [discriminate|]. destruct last; [reflexivity|discriminate].
    - destruct (t_stop t); [discriminate|]. destruct (selected _ _ _ _ _ _) as [[|]|]; [| |discriminate]; [|apply IH].
      destruct (_ || _); [apply IH|]. destruct (t_sent t); [discriminate|]. destruct (dump_loop _ _ _ _ _ _ _ ts last stop) as [[s1 o1] x1] eqn:E. intros [= -> _ ->]. eapply IH; eauto.
  Qed.
  Lemma activation s ts last stop s' out x n rs s2 c d :
    wf_store s -> wf_store s2 -> Forall (fun t => is_i64 (t_now t)) ts -> walked s ts last ->
    (forall k, db s !! k <> None -> legal_key k) -> (forall k r, holds s k (Some r) -> wf_rec r -> absolute_expire (r_expire r) /\ 0 < r_version r) ->
    dump_server cfg ext alg part psize s ts last stop = (s', out, x) -> Forall no_stop rs ->
    dump_client rs s2 (firstn n out) = d -> slave_handler c d = Some Activate ->
    c = true /\ exists s2', d = DDone s2' [] /\ x = Ended /\
      (forall k r v, asked cfg ext alg part psize k -> holds s k (Some r) -> wf_rec r -> lasting ts k r -> knows s2 k v ->
        if v <? r_version r then holds s2' k (Some r) else db s2' !! k = db s2 !! k) /\
      (forall k, (forall r, wf_rec r -> ~ (asked cfg ext alg part psize k /\ holds s k (Some r))) -> db s2' !! k = db s2 !! k).
  Proof.
    intros W W2 I (order & rest & (Wn & Wd) & Eo & El) Lk Lr Sv NS <- A. destruct c; [|discriminate A]. split; [reflexivity|]. destruct (dump_client rs s2 (firstn n out)) as [| | |s2' rest'] eqn:D; try discriminate A. clear A.
    assert (NT : forall t, In t ts -> turn_key t = t_key t /\ db s !! t_key t <> None).
    { intros t Ht. assert (X : In (t_key t) order) by (rewrite <- Eo; apply in_or_app; left; now apply in_map). apply Wd in X. split; [|exact X]. apply legal_cstr. auto. }
    assert (Et : map turn_key ts = map t_key ts) by (apply map_ext_in; intros t Ht; now apply NT).
    destruct (reconstruct_complete cfg ext alg part psize s ts last stop s' out x n rs s2 s2' rest' W W2 I) as (-> & -> & R1 & R2 & R3); auto.
    - rewrite Et. rewrite <- Eo in Wn. clear - Wn. induction (map t_key ts) as [|k l IH]; [constructor|]. cbn in Wn. apply NoDup_cons_iff in Wn as [A B]. constructor; [|auto]. intros X. apply A. apply in_or_app. now left.
    - intros t r Ht [_ (H1 & H2 & _)]. destruct (NT t Ht) as [N1 N2]. rewrite N1 in *. destruct (Lr _ r H1 H2). split; [auto|]. split; auto.
    - assert (last = iteration_end) as ->.
      { unfold dump_server in Sv. destruct (dump_loop _ _ _ _ _ _ _ ts last stop) as [[s1 o1] x1] eqn:E. assert (x1 = Ended) by congruence. subst x1. eapply ended_last; eauto. }
      rewrite (El eq_refl), app_nil_r in Eo. exists s2'. split; [reflexivity|]. split; [reflexivity|]. split.
      + intros k r v Ask H Wr La K. assert (X : In k order) by (apply Wd; unfold holds in H; rewrite H; discriminate).
        rewrite <- Eo in X. apply in_map_iff in X as (t & <- & Ht). destruct (NT t Ht) as [N1 N2]. rewrite <- N1 in *.
        assert (Ow : owes (selected cfg ext alg part psize) s t r) by (split; [now apply selected_asked|]; split; [exact H|]; split; [exact Wr|]; apply La; auto).
        destruct (v <? r_version r) eqn:V; [eapply R1|eapply R2]; eauto; lia.
      + intros k Hk. apply R3. intros t r Ht <- [O1 (O2 & O3 & _)]. eapply Hk; [exact O3|]. split; [|exact O2]. now apply selected_asked.
  Qed.
End Activation.
