(** C54: a text session with the node that owns the keys behaves as a memcached. *)
From Coq Require Import String.
From stdpp Require Import gmap.
From Coq Require Import ZifyBool ZifyNat ZifyN.
From Verif Require Import Base BaseLemmas StorageModel StorageSpec TextModel TextSpec ClientSpec SessionModel ServerModel ReplicaProofs MemcachedSpec MemcachedProofs MemcachedProofs2 MemcachedProofs3.
Local Open Scope N_scope.
Local Open Scope list_scope.

(** The bytes of any sequence of requests, served one after the other by a node that starts empty, at clock
    values that do not run backwards: the bytes answered are those of a memory doing what [does] says, up to the end
    of the session or up to the first request for a value of more than 2^31 - 29 bytes.  [rest] is what the client
    sends later; it does not matter. *)
Theorem c54_session n l rest : rising 2592000 l -> Forall (fun p => legal_call (snd p)) l -> N.of_nat (length l) < 2 ^ 64 ->
  exists l1 l2 s' m' out, l = l1 ++ l2
    /\ run_session (map fst l1) (init_store n) (sent l1 ++ rest) = Ok (s', out)
    /\ conversation (fun _ => None) l1 m' out
    /\ match l2 with [] => True | (now, c) :: _ => too_long now m' c end.
Proof.
  intros Hr Hl Hn. destruct (session_init n l rest Hr Hl Hn) as (l1 & l2 & s' & m' & out & H1 & H2 & H3 & H4).
  exists l1, l2, s', m', out. repeat split; auto. destruct l2 as [|[now c] l2]; auto.
Qed.
Print Assumptions c54_session.

(** A session whose values sum up to no more than that is served to its end. *)
Theorem c54_served n l rest : rising 2592000 l -> Forall (fun p => legal_call (snd p)) l -> N.of_nat (length l) < 2 ^ 64 ->
  carried l <= max_value ->
  exists s' m' out, run_session (map fst l) (init_store n) (sent l ++ rest) = Ok (s', out) /\ conversation (fun _ => None) l m' out.
Proof.
  intros Hr Hl Hn Hc. destruct (c54_session n l rest Hr Hl Hn) as (l1 & l2 & s' & m' & out & -> & H2 & H3 & H4).
  destruct l2 as [|[now c] l2]; [rewrite app_nil_r; eauto|]. exfalso. apply Forall_app in Hl.
  exact (carried_short l1 now c l2 m' out (proj1 Hl) H3 Hc H4).
Qed.
Print Assumptions c54_served.

(** ** Example: a session, its bytes and the bytes answered *)
Definition chat : list (Z * call) :=
  [(1600000000%Z, Store Set_ (s2b "a") 7 0 (s2b "12") false);
   (1600000000%Z, Count true (s2b "a") 30 false);
   (1600000001%Z, Get true [s2b "a"; s2b "b"]);
   (1600000001%Z, Store Add (s2b "a") 0 0 (s2b "x") false);
   (1600000002%Z, Cas (s2b "a") 9 100 (s2b "new") 2 false);
   (1600000002%Z, Cas (s2b "a") 9 100 (s2b "newer") 2 false);
   (1600000003%Z, Store Append (s2b "a") 0 0 (s2b "!") true);
   (1600000004%Z, Gat (s2b "a") 10 false);
   (1600000014%Z, Get false [s2b "a"]);
   (1600000015%Z, Store Set_ (s2b "b") 1 0 (s2b "y") true);
   (1600000015%Z, Delete (s2b "b") false);
   (1600000015%Z, Delete (s2b "b") false);
   (1600000016%Z, Store Set_ (s2b "b") 1 0 (s2b "z") true);
   (1600000016%Z, Unknown (s2b "put") (s2b " b 1"));
   (1600000016%Z, Verbosity 1 false);
   (1600000016%Z, Get false [s2b "b"]);
   (1600000017%Z, Flush true);
   (1600000017%Z, Get false [s2b "b"]);
   (1600000017%Z, Ping);
   (1600000017%Z, Version);
   (1600000018%Z, Quit);
   (1600000018%Z, Ping)].
Definition lines (l : list string) : bytes := flat_map (fun x => s2b x ++ [13; 10]) l.
Example c54_bytes : sent chat = lines
  ["set a 7 0 2"; "12"; "incr a 30"; "gets a b"; "add a 0 0 1"; "x"; "cas a 9 100 3 2"; "new"; "cas a 9 100 5 2"; "newer";
   "append a 0 0 1 noreply"; "!"; "gat a 10"; "get a"; "set b 1 0 1 noreply"; "y"; "delete b"; "delete b";
   "set b 1 0 1 noreply"; "z"; "put b 1"; "verbosity 1"; "get b"; "flush_all noreply"; "get b"; "ping"; "version"; "quit"; "ping"]%string.
Proof. vm_compute. reflexivity. Qed.
Example c54_legal : rising 2592000 chat /\ Forall (fun p => legal_call (snd p)) chat /\ carried chat <= max_value.
Proof.
  split; [cbn [chat rising]; lia|]. split; [|vm_compute; discriminate].
  assert (K : forall b, (b = 97 \/ b = 98) -> legal_key [b]).
  { intros b [-> | ->]; (split; [discriminate|]; split; [repeat constructor; unfold word_byte; lia|vm_compute; congruence]). }
  repeat (apply Forall_cons; [|]); try exact (List.Forall_nil _); cbn [snd legal_call]; change (s2b "a") with [97]; change (s2b "b") with [98];
    repeat split; auto; try lia; try discriminate; repeat constructor; auto; try lia.
  cbn. intros H. decompose [or] H; (discriminate || contradiction).
Qed.
Example c54_answers :
  match run_session (map fst chat) (init_store 8) (sent chat) with
  | Ok (_, out) => out = lines
      ["STORED"; "42"; "VALUE a 7 2 2"; "42"; "END"; "NOT_STORED"; "STORED"; "EXISTS"; "VALUE a 9 4"; "new!"; "END"; "DELETED"; "NOT_FOUND";
       "ERROR"; "OK"; "VALUE b 1 1"; "z"; "END"; "END"; "OK"; "VERSION flare-1.3.4"; "END"]%string
  | _ => False
  end.
Proof. vm_compute. reflexivity. Qed.

(** A memcached that is asked for flush_all with a delay keeps its items until then; here they are gone at once. *)
Definition delayed : bytes := lines ["set a 0 0 1"; "x"; "flush_all 100"; "get a"]%string.
Theorem c54_flush_delay_refuted :
  match run_session [1600000000; 1600000000; 1600000001]%Z (init_store 8) delayed with
  | Ok (_, out) => out = lines ["STORED"; "OK"; "END"]%string
  | _ => False
  end.
Proof. vm_compute. reflexivity. Qed.
Print Assumptions c54_flush_delay_refuted.
