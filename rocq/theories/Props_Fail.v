(** C79: a database that fails. *)
From stdpp Require Import gmap.
From Coq Require Import String Lia ZifyBool ZifyNat ZifyN.
From Verif Require Import Base BaseLemmas StorageModel StorageSpec StorageProofs TextModel SessionModel ServerModel KeyResolverModel DumpModel DumpSpec FailModel FailSpec FailProofs FailProofs2 Props_Dump.
Local Open Scope N_scope.

(** A request that writes a key, whatever the database does meanwhile: either it is served exactly as with a database that works; or
    the node's status is no longer ok, its database is as before, nothing is sent to the replicas, and the client is told of the error or
    gets the refusal it would have got anyway. *)
Theorem c79_write m now n r p n' k : key_of r = Some k -> serve m now n r = Ok (p, n') -> n_store n' = p_store p /\
  ((n_healthy n' = n_healthy n /\ run_request now (n_store n) r = Ok p)
   \/ (n_healthy n' = false /\ n_store n' = n_store n /\ p_forward p = None
       /\ (p_answer p = s2b "SERVER_ERROR i/o error" ++ crlf
           \/ (In (p_answer p) refusals /\ exists p', run_request now (n_store n) r = Ok p' /\ p_answer p' = p_answer p /\ p_forward p' = None)))).
Proof.
  intros K E. destruct (serve_write m now n r p n' k K E) as (S & H). split; [exact S|]. destruct H as [H|(H1 & H2 & H3 & H4)]; [now left|].
  right. split; [exact H1|]. split; [congruence|]. split; [exact H3|exact H4].
Qed.
Print Assumptions c79_write.
(** A request that would be carried out is not, when the database does not take the write; and this is what the client is told. *)
Theorem c79_told m now n r p k : key_of r = Some k -> writes m k = false -> run_request now (n_store n) r = Ok p -> p_forward p <> None ->
  serve m now n r = Ok (mkReply (n_store n) (s2b "SERVER_ERROR i/o error" ++ crlf) None, mkNode (n_store n) false).
Proof. exact (serve_refused m now n r p k). Qed.
Print Assumptions c79_told.
(** What a client is told was done, was done. *)
Theorem c79_acknowledged m now n r p n' k : key_of r = Some k -> serve m now n r = Ok (p, n') ->
  In (p_answer p) [answer_line result_stored; answer_line result_deleted; answer_line result_touched] -> run_request now (n_store n) r = Ok p.
Proof.
  intros K E A. destruct (c79_write m now n r p n' k K E) as (_ & [[_ H]|(_ & _ & _ & [H|[H _]])]); [exact H| |];
    exfalso; cbn [In refusals] in A; unfold refusals in *; cbn [In] in *.
  - rewrite H in A. destruct A as [A|[A|[A|[]]]]; vm_compute in A; discriminate A.
  - destruct A as [A|[A|[A|[]]]]; rewrite <- A in H; destruct H as [H|[H|[H|[]]]]; vm_compute in H; discriminate H.
Qed.
Print Assumptions c79_acknowledged.
Definition key_a : bytes := s2b "a".
Definition stored_a : store := mkStore (<[key_a := encode_rec (mkRec 7 0 3 (s2b "one"))]> ∅) [] 16.
Definition broken : mood := mkMood (fun _ => false) false.
Definition set_a (opt : N) : request := RStore (s2b "set") (mkEntry key_a 5 0 3 0 opt (s2b "two")).
Example c79_write_met : key_of (set_a 0) = Some key_a /\ serve broken 100 (mkNode stored_a true) (set_a 0) = Ok (mkReply stored_a io_error None, mkNode stored_a false)
  /\ match run_request 100 stored_a (set_a 0) with Ok p => p_answer p = s2b "STORED" ++ crlf /\ p_forward p <> None | _ => False end
  /\ match serve fine 100 (mkNode stored_a true) (set_a 0) with Ok (p, n) => p_answer p = s2b "STORED" ++ crlf /\ n_healthy n = true | _ => False end.
Proof. split; [reflexivity|]. split; [vm_compute; reflexivity|]. split; vm_compute; split; congruence. Qed.

(** Reading goes on: every get is answered as if the database worked, and no record that can be read is lost or comes up. *)
Theorem c79_get m now n ident keys p n' : wf_store (n_store n) -> serve m now n (RGet ident keys) = Ok (p, n') ->
  same_records now (n_store n) (n_store n') /\ exists p', run_request now (n_store n) (RGet ident keys) = Ok p' /\ p_answer p = p_answer p'.
Proof.
  intros (H & _) E. cbn [serve] in E. cbn [run_request].
  pose proof (run_get_same (writes m) now (if beq ident (s2b "gets") then response_gets else response_get) keys (n_store n) (n_store n) H H (same_refl now _)) as G.
  destruct (run_get_f _ _ _ _ _) as [[s1 out] err]. destruct (run_get _ _ _ _) as [s2 out']. destruct G as (-> & _ & G). cbn in E. injection E as <- <-. cbn [n_store].
  split; [exact G|]. eexists. split; reflexivity.
Qed.
Print Assumptions c79_get.
Definition old_a : store := mkStore (<[key_a := encode_rec (mkRec 7 50 3 (s2b "one"))]> ∅) [] 16.
Example c79_get_met : wf_store old_a /\ match serve broken 100 (mkNode old_a true) (RGet (s2b "get") [key_a; key_a]) with
  | Ok (p, n) => p_answer p = s2b "END" ++ crlf /\ n_store n = old_a /\ n_healthy n = false | _ => False end.
Proof. split; [apply wf_put; [exact nothing_wf|now apply wf_small]|vm_compute; auto]. Qed.

(** Once something failed, every ping is answered with an error for as long as the node runs, so that the index server can take it out
    (C38). *)
Theorem c79_ping n l n' out m now : n_healthy n = false -> serve_all n l = Ok (n', out) ->
  serve m now n' (RPlain (s2b "ping")) = Ok (mkReply (n_store n') (s2b "SERVER_ERROR storage error" ++ crlf) None, n').
Proof.
  intros H E. pose proof (serve_all_sick l n n' out E H) as S. destruct n' as [s h]. cbn in S. subst h. reflexivity.
Qed.
Print Assumptions c79_ping.
(** And as long as nothing failed it is answered OK. *)
Theorem c79_ping_ok m now s : serve m now (mkNode s true) (RPlain (s2b "ping")) = Ok (mkReply s (s2b "OK" ++ crlf) None, mkNode s true).
Proof. reflexivity. Qed.
Print Assumptions c79_ping_ok.
Example c79_ping_met : match serve_all (mkNode stored_a true) [(broken, 100%Z, set_a 0); (fine, 101%Z, set_a 0); (fine, 102%Z, RPlain (s2b "ping"))] with
  | Ok (n, out) => n_healthy n = false /\ out = [io_error; s2b "STORED" ++ crlf; s2b "SERVER_ERROR storage error" ++ crlf] | _ => False end.
Proof. vm_compute. auto. Qed.

(** ** What does not hold *)
(** A client that asked for no answer gets one. *)
Theorem c79_noreply_refuted : exists n r e p n', r = RStore (s2b "set") e /\ noreply e = true /\ serve broken 100 n r = Ok (p, n') /\ p_answer p <> [].
Proof. exists (mkNode stored_a true), (set_a option_noreply), (mkEntry key_a 5 0 3 0 option_noreply (s2b "two")). do 2 eexists. split; [reflexivity|]. split; [reflexivity|]. split; [vm_compute; reflexivity|]. discriminate. Qed.
Print Assumptions c79_noreply_refuted.
(** A flush_all that fails is not noted: the node goes on answering pings with OK; and a client that asked for no answer never hears of it. *)
Theorem c79_flush_refuted now m n nr : empties m = false -> exists n', serve m now n (RFlush nr) = Ok (mkReply (n_store n') (if nr then [] else s2b "SERVER_ERROR unknown error" ++ crlf) None, n')
  /\ n_healthy n' = n_healthy n /\ db (n_store n') = db (n_store n).
Proof. intro E. cbn [serve]. rewrite E. exists (mkNode (mkStore (db (n_store n)) [] (hcache_size (n_store n))) (n_healthy n && negb false)). split; [reflexivity|]. cbn. rewrite andb_true_r. auto. Qed.
Print Assumptions c79_flush_refuted.
(** Although nothing was flushed, the deletions that are remembered are forgotten: an add that is to wait for the end of a delayed delete is
    then taken. *)
Definition add_a : request := RStore (s2b "add") (mkEntry key_a 0 0 3 0 0 (s2b "new")).
Definition deleted_a : store := mkStore ∅ [(key_a, (200%Z, 5))] 16.
Theorem c79_flush_forgets_refuted : exists s, wf_store s /\ pending_delete s 100 key_a /\
  match serve_all (mkNode s true) [(fine, 100%Z, add_a); (broken, 100%Z, RFlush false); (fine, 100%Z, add_a)] with
  | Ok (n, out) => out = [answer_line result_not_stored; s2b "SERVER_ERROR unknown error" ++ crlf; answer_line result_stored] | _ => False end.
Proof.
  exists deleted_a. split; [|split; [split; [reflexivity|exists 200%Z, 5; split; [reflexivity|lia]]|vm_compute; reflexivity]]. split; [intros k raw H; discriminate H|]. split; [repeat constructor; cbn; tauto|]. split; [vm_compute; discriminate|].
  intros k x v H. unfold tomb in H. cbn [deleted_a hcache List.find fst] in H. destruct (beq key_a k); [|discriminate H]. cbn in H. injection H as <- <-.
  unfold is_i64. split; [lia|reflexivity].
Qed.
Print Assumptions c79_flush_forgets_refuted.

(** ** A node that copies the records of another *)
(** For every stream of bytes and every pattern of failures: the copy ends as it would with a database that works, and so the node is
    activated all the same; exactly the keys whose write failed can differ.  Missing: records of 2 GB and more. *)
Theorem c79_copy_partial rs s str x missed c : copy_f rs s str [] = (x, missed) -> x <> DUndef -> dump_client (map fst rs) s str <> DUndef ->
  let y := dump_client (map fst rs) s str in
  slave_handler c x = slave_handler c y /\
  match x, y with
  | DDone a r, DDone b r' => r = r' /\ hcache a = hcache b /\ forall k, ~ In k missed -> db a !! k = db b !! k
  | DRunning a, DRunning b | DFail a, DFail b => hcache a = hcache b /\ forall k, ~ In k missed -> db a !! k = db b !! k
  | _, _ => False
  end.
Proof.
  intros E N1 N2 y. destruct (copy_alike rs s s str [] x missed E) as [A _]; [split; [reflexivity|reflexivity]|exact N1|exact N2|]. fold y in A.
  destruct x, y; cbn [alike] in A; try contradiction; (split; [reflexivity|]); try exact A. destruct A as [[A B] C]. auto.
Qed.
Print Assumptions c79_copy_partial.
(** A slave whose database refused a record is activated without it. *)
Theorem c79_copy_refuted : exists s k r ts s' out rs s2 x missed, wf_store s /\ wf_store s2 /\ live s 100 k r /\ Forall undisturbed ts /\ walk s (map t_key ts) /\
  dump_server cfg16 no_ext ha_simple (-1) 2 s ts iteration_end false = (s', out, Ended) /\ Forall no_stop (map fst rs) /\
  copy_f rs s2 out [] = (x, missed) /\ slave_handler true x = Some Activate /\ missed = [k] /\ exists s3, x = DDone s3 [] /\ db s3 !! k = None.
Proof.
  eexists donor, kA, rA, turns_cab, _, _, [(Props_Dump.calm, true); (Props_Dump.calm, false); (Props_Dump.calm, true)], nothing, _, _.
  split; [exact donor_wf|]. split; [exact nothing_wf|]. split; [split; [reflexivity|]; split; [now apply wf_small|]|].
  { intros (X & _). vm_compute in X. discriminate X. }
  split; [repeat constructor; vm_compute; discriminate|]. split; [exact donor_walk|]. split; [vm_compute; reflexivity|]. split; [repeat constructor|].
  split; [vm_compute; reflexivity|]. split; [reflexivity|]. split; [reflexivity|]. eexists. split; [reflexivity|]. vm_compute. reflexivity.
Qed.
Print Assumptions c79_copy_refuted.
