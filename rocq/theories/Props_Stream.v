(** Properties of the byte stream layer (C20). *)
From Coq Require Import ZArith NArith List Bool Lia String.
From Verif Require Import Base BaseLemmas StorageModel TextModel TextSpec StreamModel StreamSpec StreamProofs StreamProofs2 StreamProofs3.
Import ListNotations.
Local Open Scope N_scope.
Local Open Scope list_scope.

(** * C20: what is read does not depend on how the bytes were cut into segments *)

(** One line: the bytes up to the first LF of the stream, CRLF turned into LF,
    and exactly the rest is still to come; an error exactly when the stream ends
    before a LF.  [get_line] is the same on a plain byte string. *)
Theorem c20_readline : forall c, wf_conn c -> agrees (readline c) (get_line (stream c)).
Proof. exact readline_agrees. Qed.
Print Assumptions c20_readline.
(** A block of [n] bytes. *)
Theorem c20_readsize : forall n c, wf_conn c -> agrees (readsize n c) (get_bytes n (stream c)).
Proof. exact (fun n c => readsize_agrees n c). Qed.
Print Assumptions c20_readsize.
Example c20_read_nonvacuous :
  let c := mkConn None [s2b "ab"; s2b "c" ++ [13]; [10] ++ s2b "data"; s2b "xyz"] in
  wf_conn c /\ readline c = Ok (s2b "abc" ++ [10], mkConn (Some ([], s2b "data")) [s2b "xyz"])
  /\ readsize 6 (mkConn (Some ([], s2b "data")) [s2b "xyz"]) = Ok (s2b "dataxy", mkConn (Some (s2b "xy", s2b "z")) []).
Proof. split; [repeat constructor; discriminate|]. vm_compute. auto. Qed.

(** A whole text request (with the protocol byte and the rest of the line pushed
    back and read again) is served as on the plain byte string.  Missing for the
    full property: see the refutations below. *)
Theorem c20_request_partial : forall now c,
  wf_conn c -> ~ stale c -> hd 0 (stream c) <> magic_request -> plain_line (stream c) ->
  agrees (conn_serve now c) (serve_request now (stream c)).
Proof. exact conn_serve_agrees. Qed.
Print Assumptions c20_request_partial.

(** In particular a store forwarded by another node, cut anywhere, is applied with
    all its fields and leaves exactly the following bytes. *)
Theorem c20_store_any_chunks : forall now trail ident e rest c,
  Forall legal_node_name trail -> In ident store_idents -> sendable e ->
  stream c = store_request trail ident e ++ rest -> wf_conn c -> ~ stale c ->
  exists c', conn_serve now c = Ok (mkCommand (match trail with [] => false | _ => true end) trail ident, RStore ident e, c')
    /\ stream c' = rest /\ wf_conn c'.
Proof. exact store_any_chunks. Qed.
Print Assumptions c20_store_any_chunks.

(** A session over segments of two bytes or more, with data blocks up to 1022
    bytes, serves the requests of the byte string. *)
Theorem c20_session_partial : forall now c l s,
  stream_session now (stream c) l s -> Forall (fun g => (2 <= List.length g)%nat) (segs c) ->
  exists c', conn_session now c l c' /\ stream c' = s.
Proof. intros now c l s H W. destruct (session_agrees now _ l s H c eq_refl W) as (c' & H1 & H2 & _). eauto. Qed.
Print Assumptions c20_session_partial.
(** So two ways to cut the same bytes give the same requests. *)
Theorem c20_chunking_irrelevant_partial : forall now c1 c2 l s,
  stream c1 = stream c2 ->
  Forall (fun g => (2 <= List.length g)%nat) (segs c1) -> Forall (fun g => (2 <= List.length g)%nat) (segs c2) ->
  stream_session now (stream c1) l s ->
  forall l1 l2 c1' c2', conn_session now c1 l1 c1' -> conn_session now c2 l2 c2' ->
  List.length l1 = List.length l -> List.length l2 = List.length l -> l1 = l2 /\ stream c1' = stream c2'.
Proof.
  intros now c1 c2 l s E W1 W2 H l1 l2 c1' c2' H1 H2 L1 L2.
  destruct (session_agrees now _ l s H c1 eq_refl W1) as (d1 & X1 & Y1 & _). rewrite E in H.
  destruct (session_agrees now _ l s H c2 eq_refl W2) as (d2 & X2 & Y2 & _).
  destruct (conn_session_fun _ _ _ _ H1 _ _ X1 L1) as (-> & ->). destruct (conn_session_fun _ _ _ _ H2 _ _ X2 L2) as (-> & ->).
  split; congruence.
Qed.
Print Assumptions c20_chunking_irrelevant_partial.

Definition two_requests : bytes := s2b "set a 0 0 3" ++ [13; 10] ++ s2b "xyz" ++ [13; 10] ++ s2b "get a" ++ [13; 10].
Example c20_session_nonvacuous : exists l s, stream_session 0 two_requests l s /\ List.length l = 2%nat /\ s = [].
Proof.
  eexists [_; _], []. split; [|split; reflexivity].
  assert (NI : forall l : bytes, forallb (fun c => negb (c =? 0)) l = true -> ~ In 0 l).
  { intros l H X. rewrite forallb_forall in H. specialize (H _ X). discriminate. }
  econstructor; [discriminate| | |vm_compute; reflexivity|].
  - intros line rest G. vm_compute in G. injection G as <- <-. split; [now apply NI|]. split.
    { intros q E. change (s2b "set a 0 0 " ++ [51] ++ [10] = q ++ [13; 10]) in E. revert E. apply last_not; [easy|repeat constructor; discriminate]. }
    intros cmd r P Hin. vm_compute in P. injection P as <- _. vm_compute in Hin. intuition discriminate.
  - vm_compute. discriminate.
  - econstructor; [discriminate| | |vm_compute; reflexivity|constructor].
    + intros line rest G. vm_compute in G. injection G as <- <-. split; [now apply NI|]. split.
      { intros q E. change (s2b "get " ++ [97] ++ [10] = q ++ [13; 10]) in E. revert E. apply last_not; [easy|repeat constructor; discriminate]. }
      intros cmd r P Hin. vm_compute in P. injection P as <- _. vm_compute in Hin. intuition discriminate.
    + exact I.
Qed.

(** Refuted in general: the same bytes, cut so that the second request arrives
    with its first byte alone.  Its first byte is replaced by the last one of the
    request before: the second request is an empty line, which is refused. *)
Definition reqs (now : Z) (c : conn) : option (request * res request) :=
  match conn_serve now c with
  | Ok (_, r1, c1) => Some (r1, let* (x, _) := conn_serve now c1 in Ok (snd x))
  | _ => None
  end.
Theorem c20_single_byte_segment_refuted : exists c1 c2,
  wf_conn c1 /\ wf_conn c2 /\ rbuf c1 = None /\ rbuf c2 = None /\ List.concat (segs c1) = List.concat (segs c2)
  /\ reqs 0 c1 = Some (RGet (s2b "get") [s2b "a"], Ok (RGet (s2b "get") [s2b "b"]))
  /\ reqs 0 c2 = Some (RGet (s2b "get") [s2b "a"], Err).
Proof.
  exists (mkConn None [s2b "get a" ++ crlf ++ s2b "get b" ++ crlf]).
  exists (mkConn None [s2b "get a" ++ crlf; s2b "g"; s2b "et b" ++ crlf]).
  repeat split; try reflexivity; repeat constructor; discriminate.
Qed.
Print Assumptions c20_single_byte_segment_refuted.
(** A NUL after the command word: an error or a get, depending on the cut. *)
Theorem c20_nul_refuted : exists c1 c2,
  wf_conn c1 /\ wf_conn c2 /\ rbuf c1 = None /\ rbuf c2 = None /\ List.concat (segs c1) = List.concat (segs c2)
  /\ conn_serve 0 c1 = Err
  /\ exists cmd c', conn_serve 0 c2 = Ok (cmd, RGet (s2b "get") [s2b "key"], c').
Proof.
  exists (mkConn None [s2b "get"; [0] ++ s2b "key" ++ crlf]), (mkConn None [s2b "get" ++ [0] ++ s2b "key" ++ crlf]).
  repeat split; try reflexivity; try (repeat constructor; discriminate). eexists _, _. vm_compute. reflexivity.
Qed.
Print Assumptions c20_nul_refuted.
(** Two CRs at the end of the line: two different keys. *)
Theorem c20_double_cr_refuted : exists c1 c2 cmd1 d1 cmd2 d2,
  wf_conn c1 /\ wf_conn c2 /\ rbuf c1 = None /\ rbuf c2 = None /\ List.concat (segs c1) = List.concat (segs c2)
  /\ conn_serve 0 c1 = Ok (cmd1, RGet (s2b "get") [s2b "key"], d1)
  /\ conn_serve 0 c2 = Ok (cmd2, RGet (s2b "get") [s2b "key" ++ [13]], d2).
Proof.
  exists (mkConn None [s2b "get"; s2b " key" ++ [13; 13; 10]]), (mkConn None [s2b "get key" ++ [13; 13; 10]]).
  eexists _, _, _, _. repeat split; try reflexivity; repeat constructor; discriminate.
Qed.
Print Assumptions c20_double_cr_refuted.
(** push_back does not even return the bytes handed to it. *)
Theorem c20_push_back_refuted : exists c line c',
  wf_conn c /\ readline c = Ok (line, c') /\ stream (push_back c' line) <> line ++ stream c'.
Proof.
  exists (mkConn (Some ([], s2b "ab" ++ crlf)) []). eexists _, _. split; [constructor|]. split; [vm_compute; reflexivity|]. vm_compute. discriminate.
Qed.
Print Assumptions c20_push_back_refuted.
