(** C55: whichever node of the cluster a client asks, it talks to one memcached. *)
From Coq Require Import String.
From stdpp Require Import gmap.
From Coq Require Import ZifyBool ZifyNat ZifyN.
From Verif Require Import Base BaseLemmas StorageModel StorageSpec TextModel TextSpec ClientSpec SessionModel ServerModel ServerProofs MemcachedSpec MemcachedProofs3
  KeyResolverModel KeyResolverSpec ClusterModel ClusterSpec ClusterProofs ClusterProofs3 ClusterProofs8 ClusterProofs9 NodeModel NodeSpec NodeProofs2 RoutingModel RoutingSpec
  Props_Cluster Props_Node Props_Routing GatewayModel GatewaySpec GatewayProofs GatewayProofs2 ClientSpec MemcachedProofs2.
Local Open Scope N_scope.
Local Open Scope list_scope.

Definition put (t : turn) : happening := Ask (t_pick t) (t_asked t) (t_now t) (t_node t) (wire (t_call t)).
Definition empty_world (n : N) : world := mkWorld (fun _ => init_store n) [].

(** The nodes are empty, have the map of the index server, and every key has an active master.
    Clients put requests to any nodes, one after the other: what they are answered is what one memory, doing what
    [does] says, answers, up to the end or up to the first request for a value of more than 2^31 - 29 bytes.
    It does not matter how often a request may be passed on, if only once at all. *)
Theorem c55_any_node_partial c s tab hash owner hops n l : settled c s tab hash owner ->
  rising 2592000 (calls l) -> Forall (proper owner) l -> N.of_nat (length l) < 2 ^ 64 ->
  exists l1 l2 w' m' out, l = l1 ++ l2
    /\ happens c tab hash (S (S hops)) (map put l1) (empty_world n) = Ok (w', out)
    /\ dialogue (fun _ => None) l1 m' out
    /\ match l2 with [] => True | t :: _ => too_long (t_now t) m' (t_call t) end.
Proof.
  intros Hs Hr Hl Hn. eapply (dialogue_spec c s tab hash owner Hs hops l 2592000%Z 0); auto.
  - apply inv_init.
  - unfold sane_clock. lia.
Qed.
Print Assumptions c55_any_node_partial.

(** Values that sum up to no more than that: all requests are answered. *)
Lemma dialogue_within l : forall b m m' out, dialogue m l m' out -> Forall (fun t => legal_call (t_call t)) l -> within b m -> within (b + carried (calls l)) m'.
Proof.
  induction l as [|t l IH]; intros b m m' out H Hl W; inversion H; subst.
  - eapply within_mono; [exact W|]. cbn. lia.
  - inversion Hl as [|? ? Hc Hl']; subst.
    match goal with D : does _ _ _ _ ?x _ |- _ => pose proof (within_does _ _ _ _ _ _ _ D Hc W) as W1 end.
    eapply within_mono; [eapply IH; eauto|]. unfold calls. cbn [map]. destruct (t_call t); cbn [carried weight]; lia.
Qed.
Theorem c55_served_partial c s tab hash owner hops n l : settled c s tab hash owner ->
  rising 2592000 (calls l) -> Forall (proper owner) l -> N.of_nat (length l) < 2 ^ 64 -> carried (calls l) <= max_value ->
  exists w' m' out, happens c tab hash (S (S hops)) (map put l) (empty_world n) = Ok (w', out) /\ dialogue (fun _ => None) l m' out.
Proof.
  intros Hs Hr Hl Hn Hc. destruct (c55_any_node_partial c s tab hash owner hops n l Hs Hr Hl Hn) as (l1 & l2 & w' & m' & out & -> & H2 & H3 & H4).
  destruct l2 as [|t l2]; [rewrite app_nil_r; eauto|]. exfalso. apply Forall_app in Hl. destruct Hl as [Hl _].
  assert (W : within (0 + carried (calls l1)) m').
  { eapply dialogue_within; [exact H3| |intros ? ? H; discriminate H]. eapply List.Forall_impl; [|exact Hl]. intros a (_ & _ & H & _). exact H. }
  unfold calls in Hc. rewrite map_app, carried_app in Hc. cbn [map] in Hc. fold (calls l1) in Hc.
  destruct (t_call t) as [md k f x d nr|k f x d tk nr| | | | | | | | | | |]; cbn [too_long carried] in *; try contradiction; try lia.
  destruct H4 as [H|(_ & r & L & H)]; [lia|]. pose proof (within_look _ _ _ _ _ W L). lia.
Qed.
Print Assumptions c55_served_partial.

(** ** Example: two partitions with the masters a and b, c a slave of partition 0, d a proxy; a key of
    [n] bytes has the hash [n mod 4] *)
Definition se_events : list event :=
  [A "a"; A "b"; A "c"; A "d"; R "a" Master 1 0; R "c" Slave 0 0; St "c" Ready; St "c" Active; R "b" Master 1 1; St "b" Ready; St "b" Active].
Definition se_state : index := state_after se_events.
Definition se_states : list index := map (fun n => state_after (firstn n se_events)) (seq 1 11).
Definition se_tab (_ : bytes) : copy := receive (fun _ => false) fresh_copy [message se_state se_state].
Definition se_hash (k : bytes) : Z := Z.of_N (blen k mod 4).
Definition se_owner (k : bytes) : bytes := if N.odd (blen k) then K "a" else K "b".
Lemma se_history : history se_state.
Proof. apply (replay_history se_events (fresh_index None) (repeat 0%Z 11)); [apply history_start|vm_compute; reflexivity|vm_compute; reflexivity]. Qed.
Lemma se_run : run (fresh_index None) se_states se_state.
Proof.
  replace se_state with (List.last se_states (fresh_index None)) by (vm_compute; reflexivity). apply ex_run_from. exists se_events. split; [reflexivity|].
  vm_compute. repeat (split; [reflexivity|]). exact I.
Qed.
Example se_roles : map (fun kn => (n_role (snd kn), n_state (snd kn), n_partition (snd kn), n_balance (snd kn))) (i_map se_state) =
  [(Master, Active, 0, 1); (Master, Active, 1, 1); (Slave, Active, 0, 0); (Proxy, Active, -1, 0)]%Z.
Proof. vm_compute. reflexivity. Qed.
Lemma nfind_member y n m : nfind y m = Some n -> In (y, n) m.
Proof.
  unfold nfind. induction m as [|[k' n'] m IH]; cbn [mfind]; [discriminate|]. destruct (beq y k') eqn:E; intros H.
  - apply beq_eq in E. injection H as ->. subst. now left.
  - right. auto.
Qed.
Lemma se_settled : settled cfg16 se_state se_tab se_hash se_owner.
Proof.
  intros k _.
  assert (Sh : forall k : bytes, exists near, NodeSpec.shows near (se_tab k) (i_map se_state)).
  { intros k'. exists (fun _ => false). destruct (converges (fun _ => false) se_states se_state [message se_state se_state] se_run) as (X & _); [vm_compute; reflexivity| |now left|exact X].
    intros m [<-|[]]. exists se_state. split; auto. right. apply in_map_iff. exists 11%nat. split; [vm_compute; reflexivity|apply in_seq; lia]. }
  assert (V : valid cfg16) by (split; cbn; lia).
  assert (Hsl : forall p y, live_slave (i_map se_state) p y -> y = K "c").
  { intros p y (n & F & Hr & _). apply nfind_member in F.
    assert (Hin : forallb (fun kn => negb (role_eqb (n_role (snd kn)) Slave) || beq (fst kn) (K "c")) (i_map se_state) = true) by (vm_compute; reflexivity).
    rewrite forallb_forall in Hin. specialize (Hin _ F). cbn [fst snd] in Hin. rewrite Hr in Hin. cbn [role_eqb negb orb] in Hin. apply beq_eq in Hin. exact Hin. }
  assert (Hh : se_hash k = 0%Z /\ se_owner k = K "b" \/ se_hash k = 1%Z /\ se_owner k = K "a" \/ se_hash k = 2%Z /\ se_owner k = K "b" \/ se_hash k = 3%Z /\ se_owner k = K "a").
  { unfold se_hash, se_owner. pose proof (N.div_mod' (blen k) 4) as D. pose proof (N.mod_lt (blen k) 4 ltac:(lia)) as L.
    assert (O : N.odd (blen k) = N.odd (blen k mod 4)).
    { rewrite D at 1. rewrite N.odd_add. replace (4 * (blen k / 4)) with (2 * (2 * (blen k / 4))) by lia. rewrite N.odd_mul. change (N.odd 2) with false. cbn [andb]. apply xorb_false_l. }
    rewrite O. clear O D. assert (C : blen k mod 4 = 0 \/ blen k mod 4 = 1 \/ blen k mod 4 = 2 \/ blen k mod 4 = 3) by lia.
    destruct C as [-> |[-> |[-> | ->]]]; vm_compute; tauto. }
  destruct Hh as [[-> ->]|[[-> ->]|[[-> ->]|[-> ->]]]].
  - exists 1%nat, 1%nat. split; [|split; [|split]].
    + split; [exact se_history|]; split; [exact Sh|]; split; [exact V|]; split; [lia|]; split; [vm_compute; lia|]; split; [vm_compute; lia|]; split; vm_compute; reflexivity.
    + eexists. split; [vm_compute; reflexivity|]. repeat split.
    + vm_compute. reflexivity.
    + intros y Hy. rewrite (Hsl _ _ Hy). vm_compute. discriminate.
  - exists 0%nat, 0%nat. split; [|split; [|split]].
    + split; [exact se_history|]; split; [exact Sh|]; split; [exact V|]; split; [lia|]; split; [vm_compute; lia|]; split; [vm_compute; lia|]; split; vm_compute; reflexivity.
    + eexists. split; [vm_compute; reflexivity|]. repeat split.
    + vm_compute. reflexivity.
    + intros y Hy. rewrite (Hsl _ _ Hy). vm_compute. discriminate.
  - exists 1%nat, 2%nat. split; [|split; [|split]].
    + split; [exact se_history|]; split; [exact Sh|]; split; [exact V|]; split; [lia|]; split; [vm_compute; lia|]; split; [vm_compute; lia|]; split; vm_compute; reflexivity.
    + eexists. split; [vm_compute; reflexivity|]. repeat split.
    + vm_compute. reflexivity.
    + intros y Hy. rewrite (Hsl _ _ Hy). vm_compute. discriminate.
  - exists 0%nat, 2%nat. split; [|split; [|split]].
    + split; [exact se_history|]; split; [exact Sh|]; split; [exact V|]; split; [lia|]; split; [vm_compute; lia|]; split; [vm_compute; lia|]; split; vm_compute; reflexivity.
    + eexists. split; [vm_compute; reflexivity|]. repeat split.
    + vm_compute. reflexivity.
    + intros y Hy. rewrite (Hsl _ _ Hy). vm_compute. discriminate.
Qed.

(** Requests put to all four nodes: x and zzz belong to a, yy to b. *)
Definition tell (node : string) (time : Z) (c : call) : turn := mkTurn (K node) (fun _ => O) (1600000000 + time) (1600000000 + time) c.
Definition se_talk : list turn :=
  [tell "d" 0 (Store Set_ (s2b "x") 7 0 (s2b "12") false);
   tell "c" 0 (Count true (s2b "x") 30 false);
   tell "b" 1 (Store Add (s2b "yy") 9 100 (s2b "new") false);
   tell "c" 1 (Get true [s2b "yy"; s2b "x"; s2b "zzz"]);
   tell "a" 2 (Cas (s2b "yy") 1 100 (s2b "newer") 1 false);
   tell "d" 2 (Cas (s2b "yy") 1 100 (s2b "newest") 1 false);
   tell "b" 3 (Store Append (s2b "yy") 0 0 (s2b "!") true);
   tell "d" 3 (Gat (s2b "yy") 10 false);
   tell "a" 4 (Get false [s2b "x"; s2b "yy"]);
   tell "b" 13 (Get false [s2b "x"; s2b "yy"]);
   tell "c" 14 (Touch (s2b "x") 5 false);
   tell "b" 15 (Delete (s2b "x") false);
   tell "d" 16 (Delete (s2b "x") false);
   tell "d" 17 Version; tell "c" 17 (Unknown (s2b "x") (s2b " y")); tell "c" 18 Quit].
Definition lines (l : list string) : bytes := flat_map (fun x => s2b x ++ [13; 10]) l.
Example c55_answers :
  match happens cfg16 se_tab se_hash 2 (map put se_talk) (empty_world 8) with
  | Ok (_, out) => out =
      [lines ["STORED"]; lines ["42"]; lines ["STORED"];
       lines ["VALUE yy 9 3 1"; "new"; "VALUE x 7 2 2"; "42"; "END"];
       lines ["STORED"]; lines ["EXISTS"]; []; lines ["VALUE yy 1 6"; "newer!"];
       lines ["VALUE x 7 2"; "42"; "VALUE yy 1 6"; "newer!"; "END"]; lines ["VALUE x 7 2"; "42"; "END"];
       lines ["TOUCHED"]; lines ["DELETED"]; lines ["NOT_FOUND"];
       lines ["VERSION flare-1.3.4"]; lines ["ERROR"]; lines ["END"]]%string
  | _ => False
  end.
Proof. vm_compute. reflexivity. Qed.
Example c55_meets : settled cfg16 se_state se_tab se_hash se_owner /\ rising 2592000 (calls se_talk) /\ Forall (proper se_owner) se_talk /\
  N.of_nat (length se_talk) < 2 ^ 64 /\ carried (calls se_talk) <= max_value.
Proof.
  split; [exact se_settled|]. split; [cbn [calls map se_talk tell t_now t_call rising]; lia|]. split; [|split; vm_compute; congruence].
  assert (Ky : forall k, In k [s2b "x"; s2b "yy"; s2b "zzz"] -> legal_key k).
  { intros k [<-|[<-|[<-|[]]]]; (split; [vm_compute; discriminate|]; split; [vm_compute; repeat (apply List.Forall_cons; [unfold word_byte; lia|]); apply List.Forall_nil|vm_compute; congruence]). }
  assert (Nd : forall k, In k [K "a"; K "b"; K "c"; K "d"] -> legal_node_name k).
  { intros k [<-|[<-|[<-|[<-|[]]]]]; vm_compute; repeat split; repeat constructor; try discriminate; try lia. }
  assert (Kx : legal_key (s2b "x")) by (apply Ky; cbn [In]; auto). assert (Kyy : legal_key (s2b "yy")) by (apply Ky; cbn [In]; auto).
  assert (Kz : legal_key (s2b "zzz")) by (apply Ky; cbn [In]; auto).
  assert (Na : legal_node_name (K "a")) by (apply Nd; cbn [In]; auto). assert (Nb : legal_node_name (K "b")) by (apply Nd; cbn [In]; auto).
  assert (Nc : legal_node_name (K "c")) by (apply Nd; cbn [In]; auto). assert (Ne : legal_node_name (K "d")) by (apply Nd; cbn [In]; auto).
  unfold se_talk, tell.
  repeat (apply List.Forall_cons; [|]); try exact (List.Forall_nil _);
    (split; [cbn [t_node]; assumption|]; split; [unfold clock; cbn [t_asked]; lia|]; split; [|split; [cbn [t_call]; discriminate|cbn [t_call replied subject t_node]; try (left; reflexivity); try (left; exact I); right; intros ? ->; reflexivity]]);
    cbn [t_call legal_call]; repeat split; auto; try lia; try discriminate; repeat constructor; auto; try lia.
  cbn. intros H. decompose [or] H; (discriminate || contradiction).
Qed.

(** The restriction to requests that want an answer cannot be left out: a node that is not the owner only
    queues a write with noreply, so the client that sent it to d and reads afterwards, at d, misses its own write; it
    is there after the queued request has reached a. *)
Definition se_silent : list turn := [tell "d" 0 (Store Set_ (s2b "x") 7 0 (s2b "12") true); tell "d" 1 (Get false [s2b "x"])].
Theorem c55_noreply_refuted :
  exists w', happens cfg16 se_tab se_hash 2 (map put se_silent) (empty_world 8) = Ok (w', [[]; lines ["END"%string]])
    /\ (forall m', ~ dialogue (fun _ => None) se_silent m' [[]; lines ["END"%string]])
    /\ exists w'', happens cfg16 se_tab se_hash 2 [Arrive 1600000002 0; put (tell "d" 3 (Get false [s2b "x"]))] w' =
         Ok (w'', [[]; lines ["VALUE x 7 2"; "12"; "END"]%string]).
Proof.
  eexists. split; [vm_compute; reflexivity|]. split.
  - intros m' H. unfold se_silent in H. inversion H as [|? ? m1 ? ? ? ? D1 H2]; subst. clear H.
    inversion H2 as [|? ? m2 ? ? ? ? D2 H3]; subst. clear H2 H3. cbn [tell t_asked t_now t_call] in D1, D2.
    inversion D1; subst; try (match goal with H : [] = _ |- _ => vm_compute in H end); try discriminate.
    inversion D2.
  - eexists. vm_compute. reflexivity.
Qed.
Print Assumptions c55_noreply_refuted.

(** Nor can the one to other requests than flush_all: only the node asked is emptied, so a key of another node
    is still found afterwards. *)
Definition se_flush : list turn := [tell "d" 0 (Store Set_ (s2b "x") 7 0 (s2b "12") false); tell "d" 1 (Flush false); tell "d" 2 (Get false [s2b "x"])].
Theorem c55_flush_refuted :
  exists w', happens cfg16 se_tab se_hash 2 (map put se_flush) (empty_world 8) = Ok (w', [lines ["STORED"]; lines ["OK"]; lines ["VALUE x 7 2"; "12"; "END"]]%string)
    /\ forall m', ~ dialogue (fun _ => None) se_flush m' [lines ["STORED"]; lines ["OK"]; lines ["VALUE x 7 2"; "12"; "END"]]%string.
Proof.
  eexists. split; [vm_compute; reflexivity|].
  intros m' H. unfold se_flush in H. inversion H as [|? ? m1 ? ? ? ? D1 H2]; subst. clear H.
  inversion H2 as [|? ? m2 ? ? ? ? D2 H3]; subst. clear H2. inversion H3 as [|? ? m3 ? ? ? ? D3 H4]; subst. clear H3 H4.
  cbn [tell t_asked t_now t_call] in D2, D3.
  assert (m2 = fun _ => None) as -> by (inversion D2; reflexivity). inversion D3.
Qed.
Print Assumptions c55_flush_refuted.
