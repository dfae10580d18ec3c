(** C55: requests under way between nodes, and answers other than the usual words.  C51: arguments that are not wanted. *)
From Coq Require Import String.
From stdpp Require Import gmap.
From Coq Require Import ZifyBool ZifyNat ZifyN.
From Verif Require Import Base BaseLemmas StorageModel StorageSpec TextModel TextSpec TextProofs TextProofs2 TextProofs3 TextProofs4 ClientSpec SessionModel NamesModel ServerModel ServerProofs MemcachedSpec
  MemcachedProofs3 KeyResolverModel ClusterModel NodeModel RoutingModel RoutingSpec OtherProofs
  Props_Cluster Props_Node Props_Routing Props_Gateway GatewayModel GatewaySpec GatewayProofs GatewayProofs2 QueuedSpec QueuedProofs ClientSpec MemcachedProofs2.
Local Open Scope N_scope.
Local Open Scope list_scope.

Definition event (d : deed) : happening :=
  match d with Request t => put t | Arrival now i => Arrive now i end.

(** As c55_any_node_partial, with clients that do not wait for answers at any node: every write queued that way is done
    once, when it reaches the owner of its key, with the expiration time counted from when it was asked,
    and the answers are those of one memory. *)
Theorem c55_queued_partial c s tab hash owner hops n l : settled c s tab hash owner ->
  advancing 2592000 l -> Forall fair l -> N.of_nat (length l) < 2 ^ 64 ->
  exists l1 l2 w' m' q' out, l = l1 ++ l2
    /\ happens c tab hash (S (S hops)) (map event l1) (empty_world n) = Ok (w', out)
    /\ talks owner (fun _ => None) [] l1 m' q' out
    /\ length (w_queued w') = length q'
    /\ match l2 with [] => True | d :: _ => stops m' q' d end.
Proof.
  intros Hs Hr Hl Hn. eapply (talks_spec c s tab hash owner Hs hops l 2592000%Z 0); auto.
  - apply inv_init.
  - constructor.
  - unfold sane_clock. lia.
Qed.
Print Assumptions c55_queued_partial.

(** An answer with a message is passed on as it is. *)
Theorem c55_message now r word message : In word [s2b "SERVER_ERROR"; s2b "CLIENT_ERROR"; s2b "ERROR"] ->
  message <> [] -> hd 0 message <> 32 -> Forall (fun c => c <> 10 /\ c <> 0) message ->
  (exists ident e, r = RStore ident e) \/ (exists e, r = RDelete e) \/ (exists e, r = RTouch (s2b "touch") e) ->
  relay now r (word ++ [32] ++ message ++ line_end) = Ok (word ++ [32] ++ message ++ line_end).
Proof.
  intros Hw Hne H32 Hm Hr.
  assert (R : relay now r (word ++ [32] ++ message ++ line_end) = pass_line (word ++ [32] ++ message ++ line_end)) by (destruct Hr as [(? & ? & ->)|[(? & ->)|(? & ->)]]; reflexivity).
  rewrite R. unfold pass_line.
  replace (word ++ [32] ++ message ++ line_end) with ((word ++ [32] ++ message) ++ crlf ++ []) at 1 by (rewrite <- !app_assoc, app_nil_r; reflexivity).
  assert (Hw' : Forall (fun c => c <> 10 /\ c <> 0) word) by (destruct Hw as [<-|[<-|[<-|[]]]]; vm_compute; repeat constructor; discriminate).
  rewrite get_line_ok.
  2:{ apply Forall_app. split; [eapply List.Forall_impl; [|exact Hw']; cbn; tauto|]. cbn [app]. constructor; [discriminate|]. eapply List.Forall_impl; [|exact Hm]; cbn; tauto. }
  cbn [bind]. unfold parse_text_response.
  assert (Hc : forall l, Forall (fun c => c <> 10 /\ c <> 0) l -> cstr (l ++ [10]) = l ++ [10]).
  { induction 1 as [|c l [_ H0] _ IH]; [reflexivity|]. cbn [app cstr]. replace (c =? 0) with false by lia. now rewrite IH. }
  rewrite Hc. 2:{ apply Forall_app. split; [exact Hw'|]. cbn [app]. constructor; [split; discriminate|exact Hm]. }
  replace ((word ++ [32] ++ message) ++ [10]) with (repeat 32 0 ++ word ++ (32 :: message ++ [10])) by (cbn [repeat app]; rewrite <- app_assoc; reflexivity).
  rewrite call_word_token; [|destruct Hw as [<-|[<-|[<-|[]]]]; vm_compute; repeat constructor; discriminate|destruct Hw as [<-|[<-|[<-|[]]]]; discriminate|destruct Hw as [<-|[<-|[<-|[]]]]; vm_compute; discriminate|unfold word_byte; lia].
  cbn [bind].
  replace (skip_spaces (32 :: message ++ [10])) with (message ++ [10]).
  2:{ destruct message as [|c m]; [congruence|]. cbn [hd] in H32. change (skip_spaces (32 :: (c :: m) ++ [10])) with (skip_spaces (c :: m ++ [10])). rewrite skip_spaces_id by exact H32. reflexivity. }
  rewrite removelast_last.
  assert (Hres : exists x, oresult_cast word = Some x /\ oresult_name x = word) by (destruct Hw as [<-|[<-|[<-|[]]]]; eexists; split; vm_compute; reflexivity).
  destruct Hres as (x & -> & Hx). cbn [bind]. unfold text_result. rewrite Hx. destruct message; [congruence|]. reflexivity.
Qed.
Print Assumptions c55_message.
Example c55_message_case : relay 0 (RDelete (empty_entry (s2b "k"))) (s2b "SERVER_ERROR proxy failure" ++ [13; 10]) = Ok (s2b "SERVER_ERROR proxy failure" ++ [13; 10]).
Proof. vm_compute. reflexivity. Qed.

(** ping, version and quit take no arguments: with one they are answered ERROR and do nothing, and the session goes on. *)
Theorem c51_argument_rejected now s w a r rest : In w [s2b "ping"; s2b "version"; s2b "quit"] -> word_byte a -> Forall (fun c => c <> 10) r ->
  run_line now s (w ++ [32] ++ a :: r ++ line_end ++ rest) = Ok (mkReply s (s2b "ERROR" ++ line_end) None, rest)
  /\ quits now (w ++ [32] ++ a :: r ++ line_end ++ rest) = false.
Proof.
  intros Hw Ha Hr.
  assert (Hp : plain_word w) by (apply plainb_ok; destruct Hw as [<-|[<-|[<-|[]]]]; vm_compute; reflexivity).
  assert (HL : Forall (fun c => c <> 10) (32 :: a :: r)) by (constructor; [discriminate|]; constructor; [unfold word_byte in Ha; lia|exact Hr]).
  change (w ++ [32] ++ a :: r ++ line_end ++ rest) with (w ++ (32 :: a :: r) ++ crlf ++ rest).
  destruct (command_any w (32 :: a :: r) rest Hp HL eq_refl) as [G1 G2].
  assert (Hnext : serve_next now (w ++ (32 :: a :: r) ++ crlf ++ rest) = Ok (Rejected, rest)).
  { unfold serve_next. rewrite (serve_word now w (32 :: a :: r) rest Hp HL eq_refl) by (destruct Hw as [<-|[<-|[<-|[]]]]; vm_compute; reflexivity).
    rewrite G1. cbn [bind]. rewrite G2. cbn [bind c_word].
    replace (TextModel.mem w store_idents) with false by (destruct Hw as [<-|[<-|[<-|[]]]]; vm_compute; reflexivity).
    assert (Ho : serve_other w ((32 :: a :: r) ++ [10]) = Err).
    { unfold serve_other. replace (TextModel.mem w [s2b "ping"; s2b "version"; s2b "quit"]) with true by (destruct Hw as [<-|[<-|[<-|[]]]]; vm_compute; reflexivity).
      unfold serve_plain. rewrite call_word_ok by (destruct (beq w (s2b "version")); unfold BUFSIZ; lia). cbn [bind]. unfold next_word.
      change (skip_spaces ((32 :: a :: r) ++ [10])) with (skip_spaces (a :: r ++ [10])). rewrite skip_spaces_id by (unfold word_byte in Ha; lia).
      cbn [word_loop]. replace (_ || _) with false; [|unfold word_byte in Ha; destruct (beq w (s2b "version")); unfold BUFSIZ; lia].
      destruct (word_loop _ _ _) as [q p]. reflexivity. }
    rewrite Ho. reflexivity. }
  split.
  - unfold run_line. rewrite Hnext. reflexivity.
  - unfold quits. rewrite Hnext. reflexivity.
Qed.
Print Assumptions c51_argument_rejected.
Example c51_argument_case : run_line 0 (init_store 1) (s2b "quit now" ++ [13; 10] ++ s2b "ping") = Ok (mkReply (init_store 1) (s2b "ERROR" ++ [13; 10]) None, s2b "ping").
Proof. vm_compute. reflexivity. Qed.

(** ** Example: x belongs to a, yy to b *)
Definition qe_talk : list deed :=
  [Request (tell "d" 0 (Store Set_ (s2b "x") 7 100 (s2b "12") true));
   Request (tell "c" 1 (Count true (s2b "x") 30 true));
   Request (tell "d" 1 (Store Add (s2b "yy") 9 0 (s2b "new") true));
   Request (tell "d" 2 (Get false [s2b "x"; s2b "yy"]));
   Arrival 1600000003 2;
   Arrival 1600000004 0;
   Request (tell "d" 5 (Get false [s2b "x"; s2b "yy"]));
   Request (tell "a" 6 (Store Append (s2b "x") 0 0 (s2b "3") true));
   Arrival 1600000007 0;
   Request (tell "b" 8 (Get true [s2b "x"]));
   Request (tell "b" 100 (Get true [s2b "x"]))].
Example c55_queued_case :
  match happens cfg16 se_tab se_hash 2 (map event qe_talk) (empty_world 8) with
  | Ok (w, out) => w_queued w = [] /\ out =
      [[]; []; []; lines ["END"]; []; []; lines ["VALUE x 7 2"; "12"; "VALUE yy 9 3"; "new"; "END"];
       []; []; lines ["VALUE x 7 3 3"; "153"; "END"]; lines ["END"]]%string
  | _ => False
  end.
Proof. vm_compute. split; reflexivity. Qed.
Example c55_queued_meets : settled cfg16 se_state se_tab se_hash se_owner /\ advancing 2592000 qe_talk /\ Forall fair qe_talk /\ N.of_nat (length qe_talk) < 2 ^ 64.
Proof.
  split; [exact se_settled|]. split; [cbn [advancing qe_talk tell deed_time t_now]; lia|]. split; [|vm_compute; congruence].
  assert (Ky : forall k, In k [s2b "x"; s2b "yy"] -> legal_key k).
  { intros k [<-|[<-|[]]]; (split; [vm_compute; discriminate|]; split; [vm_compute; repeat (apply List.Forall_cons; [unfold word_byte; lia|]); apply List.Forall_nil|vm_compute; congruence]). }
  assert (Nd : forall k, In k [K "a"; K "b"; K "c"; K "d"] -> legal_node_name k).
  { intros k [<-|[<-|[<-|[<-|[]]]]]; vm_compute; repeat split; repeat constructor; try discriminate; try lia. }
  assert (Kx : legal_key (s2b "x")) by (apply Ky; cbn [In]; auto). assert (Kyy : legal_key (s2b "yy")) by (apply Ky; cbn [In]; auto).
  assert (Na : legal_node_name (K "a")) by (apply Nd; cbn [In]; auto). assert (Nb : legal_node_name (K "b")) by (apply Nd; cbn [In]; auto).
  assert (Nc : legal_node_name (K "c")) by (apply Nd; cbn [In]; auto). assert (Ne : legal_node_name (K "d")) by (apply Nd; cbn [In]; auto).
  unfold qe_talk, tell.
  repeat (apply List.Forall_cons; [|]); try exact (List.Forall_nil _); try exact I;
    (split; [cbn [t_node]; assumption|]; split; [unfold clock; cbn [t_asked]; lia|]; split; [|cbn [t_call]; discriminate]);
    cbn [t_call legal_call]; repeat split; auto; try lia; try discriminate; repeat constructor; auto; try lia.
Qed.
