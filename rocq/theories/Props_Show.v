(** C80: the reports on threads. *)
From Coq Require Import NArith ZArith List Bool String Lia Sorting.Sorted.
From Verif Require Import Base TextModel TextSpec BinaryServerModel StatsModel StatsSpec StatsProofs2 PoolModel PoolSpec PoolProofs ShowModel ShowSpec ShowProofs ShowProofs2 OtherProofs TextProofs3.
Import ListNotations.
Local Open Scope string_scope.
Local Open Scope N_scope.
Local Open Scope list_scope.

(** The three requests are recognised, and nothing after their line is read. *)
Theorem c80_request k rest :
  threads_line match k with SlaveThreads tys => tys | _ => [] end (threads_wire k ++ rest) = Ok (Some k, rest).
Proof. exact (line_asks k rest). Qed.
Print Assumptions c80_request.
(** The lines taken for one of these three reports are exactly those that the other reports leave out. *)
Theorem c80_request_only types stream line s1 c rest : get_line stream = Ok (line, s1) -> parse_command line = Ok (c, rest) -> c_word c = s2b "stats" ->
  (exists k, threads_line types stream = Ok (Some k, s1)) <-> parse_asked rest = Ok AskThreads.
Proof.
  intros G P W. unfold threads_line, parse_asked. rewrite G. cbn [bind]. rewrite P. cbn [bind]. rewrite W. change (negb (beq (s2b "stats") (s2b "stats"))) with false. cbv iota.
  destruct (call_word BUFSIZ rest) as [| |[w p]]; cbn [bind]; [split; [intros (k & [=])|intros [=]]..|].
  destruct (beq w (s2b "threads")) eqn:B; cbn [negb].
  - apply BaseLemmas.beq_eq in B as ->. change (beq (s2b "threads") []) with false. change (mem (s2b "threads") [s2b "items"; s2b "slabs"; s2b "sizes"]) with false. cbv iota.
    destruct (call_word BUFSIZ p) as [| |[w2 q]]; cbn [bind]; [split; [intros (k & [=])|intros [=]]..|].
    cbn [mem existsb]. destruct (beq w2 []) eqn:B1; [cbn; split; eauto|]. destruct (beq w2 (s2b "request")) eqn:B2; [cbn; split; eauto|].
    destruct (beq w2 (s2b "slave")) eqn:B3; [cbn; split; eauto|]. cbn [orb]. destruct (beq w2 (s2b "queue")); split; try (intros (k & [=])); intros [=].
  - destruct (beq w []); [split; [intros (k & [=])|intros [=]]|]. destruct (mem w _); [split; [intros (k & [=])|intros [=]]|].
    destruct (beq w (s2b "nodes")); (split; [intros (k & [=])|intros [=]]).
Qed.
Print Assumptions c80_request_only.

(** Threads of both pools start and end as they like while the lists for a report are taken, and there were fewer than 2^32
    of them so far.  Then the report reads back, in text and in binary, as eight lines for each thread that was there when
    its list was taken; no thread is in it twice, and every line shows what its name says of the thread with that id. *)
Theorem c80_report k limits gaps l now look : sensible k -> draws (List.concat gaps) < 2 ^ 32 ->
  collect (st0 limits) gaps (lists_taken k) = Some l -> (forall e, In e l -> is_i32 (fst (fst e))) -> (forall t, presentable now (look t)) ->
  let r := threads_stats now look l in
  text_reads (text_stats r) = Some r /\ binary_reads (binary_stats r) r /\ List.length r = (8 * List.length l)%nat /\
  (forall e, In e l <-> was_there limits gaps (lists_taken k) e) /\ List.NoDup (map id_of l) /\
  (forall name v, stat name r = Some v <-> exists ty id t f, In (ty, id, t) l /\ name = trait_name id f /\ v = trait_value now ty (look t) f).
Proof.
  intros K D C T P. cbv zeta. assert (S : forall e, In e l -> id_of e < 2 ^ 32) by (intros e H; apply (ids_small _ _ _ _ e C H)).
  rewrite (report_lines now look l S P). pose proof (ids_nodup k limits gaps l K D C) as ND. pose proof (lines_readable now look l S T P) as R.
  split; [now apply read_text_ok|]. split; [now apply read_binary_ok|]. split; [apply lines_length|]. split; [exact (collect_in _ _ _ _ C)|]. split; [exact ND|].
  intros name v. rewrite stat_iff by (now apply lines_nodup). apply lines_in.
Qed.
Print Assumptions c80_report.

(** Each list is in the order of the types, and of the ids within a type. *)
Theorem c80_order limits s ty w : reachable limits s -> Sorted.StronglySorted in_turn (get_thread_info ty (pools s w)).
Proof. intros R. apply info_sorted. exact (proj1 (v_good s (reachable_inv _ _ R) w)). Qed.
Print Assumptions c80_order.

(** The names of the lines tell the thread and what is shown. *)
Theorem c80_names id f id' f' : trait_name id f = trait_name id' f' -> id = id' /\ f = f'.
Proof. exact (trait_name_inj id f id' f'). Qed.
Print Assumptions c80_names.

(** kill with an id out of the report, at any later time: it finds no other thread than the one shown, and it finds that
    one as long as anything runs under the id. *)
Theorem c80_kill k limits gaps es l s ty id t : draws (List.concat gaps ++ es) < 2 ^ 32 ->
  collect (st0 limits) gaps (lists_taken k) = Some l -> steps (st0 limits) (List.concat gaps ++ es) = Some s -> In (ty, id, t) l ->
  (forall t', lookup s id = Some t' -> t' = t) /\ (forall w t', runs s w t' id -> lookup s id = Some t).
Proof. exact (kill_later k limits gaps es l s ty id t). Qed.
Print Assumptions c80_kill.

(** Two requests of clients, a thread for a node that ends while the report is made, and another that starts. *)
Definition gaps80 : list (list event) :=
  [[Take Other 1000; Take Req 1; Lock Other 1000 0; Draw Other; Take Req 1; Lock Req 1 1; Draw Req; Lock Req 1 2; Draw Req];
   [Erase Other 0; Push Other 0; Erase Req 1; Take Other 1001; Lock Other 1001 0; Draw Other; Take Other 2; Lock Other 2 3; Draw Other]].
Definition look80 (t : N) : shown :=
  match t with
  | 0 => mkShown (s2b "10.0.0.7") 12121 [] 100 (s2b "wait") [] 2 157
  | 3 => mkShown [] 0 [] 160 (s2b "setup") [] 0 0
  | _ => mkShown (s2b "client") 4000 (s2b "stats") 150 (s2b "execute") [] 0 0
  end.
Example c80_report_nonvacuous : match collect (st0 (fun _ => 4)) gaps80 (lists_taken AllThreads) with
  | Some l => l = [(1%Z, 2, 1); (1%Z, 3, 2); (2%Z, 5, 3); (1001%Z, 4, 0)] /\ draws (List.concat gaps80) = 5 /\
      stat (s2b "4:peer") (threads_stats 160 look80 l) = Some (s2b "10.0.0.7:12121") /\ stat (s2b "4:behind") (threads_stats 160 look80 l) = Some (s2b "3") /\
      stat (s2b "3:op") (threads_stats 160 look80 l) = Some (s2b "stats") /\ stat (s2b "3:uptime") (threads_stats 160 look80 l) = Some (s2b "10") /\ stat (s2b "1:type") (threads_stats 160 look80 l) = None
  | None => False end.
Proof. vm_compute. repeat split. Qed.
Example c80_presentable : forall t, presentable 160 (look80 t).
Proof.
  assert (L : forall v, In v [s2b "10.0.0.7"; []; s2b "wait"; s2b "setup"; s2b "client"; s2b "stats"; s2b "execute"] -> one_line v).
  { intros v H. cbn [In] in H. split; [|decompose [or] H; subst; try contradiction; vm_compute; reflexivity].
    decompose [or] H; subst; try contradiction; vm_compute; repeat (apply List.Forall_cons; [split; discriminate|]); apply List.Forall_nil. }
  intros t. unfold presentable, is_i32, is_i64.
  assert (C : look80 t = look80 0 \/ look80 t = look80 3 \/ look80 t = look80 1) by (destruct t as [|[[p|p|]|p|]]; auto).
  destruct C as [C|[C|C]]; rewrite C; cbn [look80 t_peer t_port t_op t_since t_state t_info t_queue t_front];
    (repeat split; first [apply L; cbn [In]; tauto|lia|idtac]).
Qed.
Example c80_slaves : collect (st0 (fun _ => 4)) (gaps80 ++ [[]; []]) (lists_taken (SlaveThreads [1001%Z; 1000%Z])) = Some [(1001%Z, 4, 0)] /\
  sensible (SlaveThreads [1001%Z; 1000%Z]) /\ collect (st0 (fun _ => 4)) gaps80 (lists_taken RequestThreads) = Some [(1%Z, 2, 1); (1%Z, 3, 2)].
Proof. split; [vm_compute; reflexivity|]. split; [|vm_compute; reflexivity]. repeat constructor; cbn [In]; intuition discriminate. Qed.
Example c80_kill_nonvacuous : match steps (st0 (fun _ => 4)) (List.concat gaps80 ++ [Erase Req 2]) with
  | Some s => lookup s 4 = Some 0 /\ lookup s 3 = None | None => False end.
Proof. vm_compute. auto. Qed.

(** After 2^32 threads a report can show two threads under one id. *)
Theorem c80_wrap_refuted : exists limits gaps l t u, collect (st0 limits) gaps (lists_taken AllThreads) = Some l /\ t <> u /\
  (exists ty, In (ty, 1, t) l) /\ (exists ty, In (ty, 1, u) l).
Proof.
  destruct (many_cycles (2 ^ 32 - 3)) as (es & s & E & L); [lia|]. replace (3 + (2 ^ 32 - 3)) with (2 ^ 32) in L by lia.
  destruct (wrap_last s L) as (s' & E' & A & B). set (g := es ++ [Take Req 1; Lock Req 1 1; Draw Req; Draw Req]).
  assert (R : steps (st0 (fun _ => 1)) g = Some s') by (unfold g; rewrite (steps_app es _ _ s E); exact E').
  assert (C : exists l, collect (st0 (fun _ => 1)) [g; []] (lists_taken AllThreads) = Some l).
  { cbn [lists_taken collect]. rewrite R. cbn [steps]. eexists. reflexivity. }
  destruct C as (l & C). exists (fun _ => 1), [g; []], l, 1, 0. split; [exact C|]. split; [lia|].
  split; [exists 1%Z|exists 2%Z]; apply (collect_in _ _ _ _ C).
  - exists 0%nat, None, Req, s'. cbn [lists_taken nth_error firstn List.concat fits]. rewrite app_nil_r, A. repeat split; auto. now left.
  - exists 1%nat, None, Other, s'. cbn [lists_taken nth_error firstn List.concat fits]. rewrite !app_nil_r, B. repeat split; auto. now left.
Qed.
Print Assumptions c80_wrap_refuted.

(** ** The lists are taken under a lock for readers *)
(** If the pool had threads of every type asked for before, taking lists, of however many reports at a time, does not
    change the map of the pool. *)
Theorem c80_lock_partial es types s : (forall ty, In ty (asks es) -> In ty types) -> touch_steps (mkLooked types []) es = Some s -> ~ race s.
Proof.
  intros A E (a & b & _ & H & _ & X). pose proof (quiet_map es (mkLooked types []) s A (List.Forall_nil _) E) as F. rewrite Forall_forall in F. exact (X (F a H)).
Qed.
Print Assumptions c80_lock_partial.
Example c80_lock_nonvacuous : exists s, touch_steps (mkLooked [1%Z; 1000%Z] []) [AskList 1 1000; AskList 2 1000; AskActive 3 7; Leave 1; Leave 2; Leave 3; Register 7] = Some s /\ entries s = [7; 1; 1000]%Z.
Proof. eexists. split; reflexivity. Qed.
(** Otherwise it does: two clients that are the first to ask for the threads of requests both make the entry for them in
    the map of the pool that has none, at the same time; and so may one of them while a thread is looked up. *)
Theorem c80_lock_refuted : (exists s, touch_steps (mkLooked [2%Z; 1000%Z] []) [AskList 1 1; AskList 2 1] = Some s /\ race s) /\
  (exists s, touch_steps (mkLooked [2%Z; 1000%Z] []) [AskActive 1 1000; AskList 2 1] = Some s /\ race s).
Proof.
  split; (eexists; split; [reflexivity|]).
  - exists (1, Some 1%Z), (2, Some 1%Z). repeat split; cbn [inside In]; auto; discriminate.
  - exists (2, Some 1%Z), (1, None). repeat split; cbn [inside In]; auto; discriminate.
Qed.
Print Assumptions c80_lock_refuted.
(** After one such report the entry is there. *)
Theorem c80_lock_once types ty s : touch_steps (mkLooked types []) [AskList 1 ty; Leave 1] = Some s -> In ty (entries s) /\ incl types (entries s) /\ inside s = [].
Proof.
  cbn [touch_steps touch_step entries inside]. destruct (zmem ty types) eqn:Z; cbn [find fst N.eqb Pos.eqb filter negb]; intros E; injection E as <-; cbn [entries inside].
  - split; [|split; [apply incl_refl|reflexivity]]. apply existsb_exists in Z as (x & H & X). apply Z.eqb_eq in X as ->. exact H.
  - split; [now left|]. split; [intros x H; now right|reflexivity].
Qed.
Print Assumptions c80_lock_once.

(** ** The queues *)
(** "stats threads queue" gives the number of entries in all queues. *)
Theorem c80_queue u now w rest : u_queue u < 2 ^ 32 ->
  exists out, watch_any u now w (s2b "stats threads queue" ++ [13; 10] ++ rest) = Ok (out, w, rest) /\ text_reads out = Some [(s2b "total_thread_queue", dec (u_queue u))].
Proof.
  intros H. exists (text_stats [(s2b "total_thread_queue", dec (u_queue u))]). set (tl := s2b " threads queue").
  change (s2b "stats threads queue" ++ [13; 10] ++ rest) with (s2b "stats" ++ tl ++ crlf ++ rest).
  assert (Hw : plain_word (s2b "stats")) by (apply TextProofs3.plainb_ok; reflexivity).
  assert (H1 : Forall (fun c => c <> 10) tl) by (repeat constructor; discriminate). assert (H2 : hd 32 tl = 32) by reflexivity.
  destruct (command_any (s2b "stats") tl rest Hw H1 H2) as [G1 G2]. split.
  - unfold watch_any. change (is_binary (s2b "stats" ++ tl ++ crlf ++ rest)) with false. cbv iota. unfold watch_line. rewrite G1. cbn [bind]. rewrite G2. cbn [bind c_word].
    change (beq (s2b "stats") (s2b "stats")) with true. cbv iota. assert (P : parse_asked (tl ++ [10]) = Ok AskQueue) by (vm_compute; reflexivity). rewrite P. cbn [stats_of_node bind].
    unfold u32. rewrite N.mod_small by exact H. reflexivity.
  - apply read_text_ok. constructor; [|constructor]. apply readable_plain; [vm_compute; reflexivity|]. apply short_dec. eapply N.lt_trans; [exact H|reflexivity].
Qed.
Print Assumptions c80_queue.

(** ** The numbers in [stats] *)
(** [stats] shows, each as of the moment it is looked at: as curr_connections the threads that serve clients, as threads those
    that run in both pools, and as pool_threads those that wait for clients.  No thread is counted in two of these places. *)
Theorem c80_counts limits u w s1 s2 s3 s4 : reachable limits s1 -> reachable limits s2 -> reachable limits s3 -> reachable limits s4 ->
  N.of_nat (List.length (actives (pools s1 Req))) < 2 ^ 32 -> N.of_nat (List.length (actives (pools s2 Req)) + List.length (actives (pools s3 Other))) < 2 ^ 32 ->
  N.of_nat (List.length (stack (pools s4 Req))) < 2 ^ 32 ->
  exists l, stats_of_node (with_threads u s1 s2 s3 s4) w AskGeneral = Ok l /\
  exists served running_requests running_others idle,
    stat (s2b "curr_connections") l = Some (dec (N.of_nat (List.length served))) /\
    stat (s2b "threads") l = Some (dec (N.of_nat (List.length running_requests + List.length running_others))) /\
    stat (s2b "pool_threads") l = Some (dec (N.of_nat (List.length idle))) /\
    (List.NoDup served /\ forall t, In t served <-> exists id, In (1%Z, id, t) (actives (pools s1 Req))) /\
    (List.NoDup running_requests /\ forall t, In t running_requests <-> exists id, runs s2 Req t id) /\
    (List.NoDup running_others /\ forall t, In t running_others <-> exists id, runs s3 Other t id) /\
    (List.NoDup idle /\ forall t, In t idle -> forall w id, ~ runs s4 w t id).
Proof.
  intros R1 R2 R3 R4 B1 B2 B3. eexists. split; [reflexivity|].
  assert (P : forall s v x, reachable limits s -> (cnt (threads (pools s v)) x + cnt (stack (pools s v)) x <= 1)%nat).
  { intros s v x R. pose proof (v_once s (reachable_inv _ _ R)) as E. rewrite nodup_cnt in E. specialize (E x). rewrite cnt_everywhere in E. unfold part in E. rewrite !cnt_app in E. destruct v; lia. }
  assert (ND : forall s v, reachable limits s -> List.NoDup (threads (pools s v))) by (intros s v R; apply nodup_cnt; intros x; pose proof (P s v x R); lia).
  assert (IN : forall s v t, In t (threads (pools s v)) <-> exists id, runs s v t id).
  { intros s v t. unfold threads, runs. rewrite in_map_iff. split; [intros ([[ty id] t'] & <- & H); exists id, ty; exact H|intros (id & ty & H); exists (ty, id, t); auto]. }
  exists (map thread_of (filter (fun e => (fst (fst e) =? 1)%Z) (actives (pools s1 Req)))), (threads (pools s2 Req)), (threads (pools s3 Other)), (stack (pools s4 Req)).
  assert (U : forall n, n < 2 ^ 32 -> u32 (u32 n) = n /\ u32 n = n) by (intros n H; assert (X : u32 n = n) by (unfold u32; now apply N.mod_small); rewrite !X; auto).
  assert (F : forall k : list (Z * N * N), (List.length (filter (fun e => (fst (fst e) =? 1)%Z) k) <= List.length k)%nat).
  { intros k. induction k as [|e k IH]; cbn [filter List.length]; [apply le_n|]. destruct (fst (fst e) =? 1)%Z; cbn [List.length]; [apply le_n_S, IH|apply le_S, IH]. }
  specialize (F (actives (pools s1 Req))).
  cbn [stats_of_node with_threads]. split; [|split; [|split]].
  - transitivity (Some (dec (u32 (connections s1)))); [reflexivity|]. unfold connections. rewrite map_length. rewrite (proj1 (U (N.of_nat (List.length (filter (fun e => (fst (fst e) =? 1)%Z) (actives (pools s1 Req))))) ltac:(lia))). reflexivity.
  - transitivity (Some (dec (all_threads s2 s3))); [reflexivity|]. unfold all_threads, threads. rewrite !map_length, <- Nat2N.inj_add. destruct (U _ B2) as (_ & ->). reflexivity.
  - transitivity (Some (dec (idle_threads s4))); [reflexivity|]. unfold idle_threads. destruct (U _ B3) as (_ & ->). reflexivity.
  - split; [split; [apply nodup_filter; exact (ND s1 Req R1)|]|]; [|split; [split; [exact (ND s2 Req R2)|apply IN]|split; [split; [exact (ND s3 Other R3)|apply IN]|]]].
    + intros t. rewrite in_map_iff. split.
      * intros ([[ty id] t'] & <- & H). apply filter_In in H as (H & X). apply Z.eqb_eq in X. cbn [fst] in X. subst ty. exists id. exact H.
      * intros (id & H). exists (1%Z, id, t). split; [reflexivity|]. apply filter_In. auto.
    + split; [apply nodup_cnt; intros x; pose proof (P s4 Req x R4); lia|]. intros t H v id X. assert (T : In t (threads (pools s4 v))) by (apply IN; eauto).
      pose proof (v_once s4 (reachable_inv _ _ R4)) as E. rewrite nodup_cnt in E. specialize (E t). rewrite cnt_everywhere in E. unfold part in E. rewrite !cnt_app in E. apply in_cnt in H, T. destruct v; lia.
Qed.
Print Assumptions c80_counts.
Example c80_counts_nonvacuous : match steps (st0 (fun _ => 4)) (List.concat gaps80 ++ [Push Req 1]) with
  | Some s => connections s = 1 /\ all_threads s s = 3 /\ idle_threads s = 1 | None => False end.
Proof. vm_compute. auto. Qed.
