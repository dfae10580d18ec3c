(** C50: client requests are understood as the memcached protocol says.
    C51: the data of a request is never executed.  Also C17, C18: trails and answers. *)
From Coq Require Import NArith ZArith List Bool Lia String.
From Verif Require Import Base BaseLemmas StorageModel TextModel TextSpec TextProofs TextProofs2 TextProofs3 ClientSpec TextProofs4 SessionModel SessionProofs AmountSpec AmountProofs.
Import ListNotations.
Local Open Scope N_scope.

(** * C50 *)
(** Every store command with its flags, expiry time, data, cas token and noreply. *)
Theorem c50_store : forall now ident k f x d cas nr rest,
  In ident [s2b "set"; s2b "add"; s2b "replace"; s2b "cas"; s2b "append"; s2b "prepend"] ->
  legal_key k -> f < 2 ^ 32 -> (0 <= x < 2 ^ 63)%Z -> blen d <= 2147483645 ->
  match cas with Some v => v < 2 ^ 64 | None => ident <> s2b "cas" end ->
  serve_request now (client_store ident k f x d cas nr ++ rest)
  = Ok (mkCommand false [] ident,
        RStore ident (mkEntry k f (due now x) (blen d) (match cas with Some v => v | None => 0 end) (if nr then option_noreply else 0) d), rest).
Proof. exact client_store_served. Qed.
Print Assumptions c50_store.
Theorem c50_touch : forall now ident k x nr rest,
  In ident [s2b "touch"; s2b "gat"] -> legal_key k -> (0 <= x < 2 ^ 63)%Z ->
  serve_request now (client_touch ident k x nr ++ rest)
  = Ok (mkCommand false [] ident, RTouch ident (mkEntry k 0 (due now x) 0 0 (if nr then option_noreply else 0) []), rest).
Proof. exact client_touch_served. Qed.
Print Assumptions c50_touch.
Theorem c50_delete : forall now k time nr rest,
  legal_key k -> match time with Some x => (0 <= x < 2 ^ 63)%Z | None => True end ->
  serve_request now (client_delete k time nr ++ rest)
  = Ok (mkCommand false [] (s2b "delete"),
        RDelete (mkEntry k 0 (match time with Some x => due now x | None => 0%Z end) 0 0 (if nr then option_noreply else 0) []), rest).
Proof. exact client_delete_served. Qed.
Print Assumptions c50_delete.
(** A value that is announced to be larger than 2^31-1 bytes is refused. *)
Theorem c50_too_large : forall now ident k f x n tail rest,
  In ident [s2b "set"; s2b "add"; s2b "replace"; s2b "cas"; s2b "append"; s2b "prepend"] ->
  legal_key k -> f < 2 ^ 32 -> (0 <= x < 2 ^ 63)%Z -> 2147483647 < n < 2 ^ 64 ->
  Forall (fun c => c <> 10) tail -> match tail with [] => True | c :: _ => c = 32 end ->
  serve_request now (ident ++ space k ++ space (dec f) ++ space (decZ x) ++ space (dec n) ++ tail ++ line_end ++ rest) = Err.
Proof. exact client_store_refused. Qed.
Print Assumptions c50_too_large.
Example c50_examples :
  serve_request 1000 (client_store (s2b "set") (s2b "k") 7 2592000 (s2b "ab") None true ++ s2b "x")
    = Ok (mkCommand false [] (s2b "set"), RStore (s2b "set") (mkEntry (s2b "k") 7 2593000 2 0 1 (s2b "ab")), s2b "x")
  /\ serve_request 1000 (client_store (s2b "cas") (s2b "k") 7 2592001 [] (Some 5) false)
    = Ok (mkCommand false [] (s2b "cas"), RStore (s2b "cas") (mkEntry (s2b "k") 7 2592001 0 5 0 []), [])
  /\ client_store (s2b "set") (s2b "k") 7 0 (s2b "ab") None true = s2b "set k 7 0 2 noreply" ++ [13; 10] ++ s2b "ab" ++ [13; 10].
Proof. repeat split; vm_compute; reflexivity. Qed.
(** A negative expiry time means "already expired" to memcached; here the request is refused. *)
Theorem c50_negative_refuted : forall now ident k f x d cas nr rest,
  In ident [s2b "set"; s2b "add"; s2b "replace"; s2b "cas"; s2b "append"; s2b "prepend"] ->
  legal_key k -> f < 2 ^ 32 -> (- 2 ^ 63 <= x < 0)%Z ->
  serve_request now (client_store ident k f x d cas nr ++ rest) = Err.
Proof.
  intros now ident k f x d cas nr rest Hi Hk Hf Hx. pose proof (negative_rejected now ident k f x d cas nr rest Hi Hk Hf Hx) as N.
  destruct (serve_request _ _) as [| |[[c r] s]] eqn:E; auto.
  - apply next_undef in E. congruence.
  - apply next_accepted in E. congruence.
Qed.
Print Assumptions c50_negative_refuted.

(** An amount of incr and decr that is no number below 2^64 is refused, and exactly the line is used up. *)
Theorem c50_amount_refused now up k w nr rest : legal_key k -> w <> [] -> Forall (fun c => 48 <= c <= 57 \/ c = 45) w -> blen w < 1000 -> ~ number_word w ->
  serve_next now ((if up : bool then s2b "incr" else s2b "decr") ++ space k ++ space w ++ noreply_word nr ++ line_end ++ rest) = Ok (Rejected, rest).
Proof. exact (amount_rejected now up k w nr rest). Qed.
Print Assumptions c50_amount_refused.
(** Flags of 2^32 and more and times of 2^63 and more are refused with the line; what else stands on it does not matter. *)
Theorem c50_field_refused now ident k f x tail rest : In ident [s2b "set"; s2b "add"; s2b "replace"; s2b "cas"; s2b "append"; s2b "prepend"] -> legal_key k ->
  2 ^ 32 <= f \/ f < 2 ^ 32 /\ 2 ^ 63 <= x -> blen (dec f) < 1000 -> blen (dec x) < 1000 -> Forall (fun c => c <> 10) tail -> match tail with [] => True | c :: _ => c = 32 end ->
  serve_next now (ident ++ space k ++ space (dec f) ++ space (dec x) ++ tail ++ line_end ++ rest) = Ok (Rejected, rest).
Proof. exact (field_refused now ident k f x tail rest). Qed.
Print Assumptions c50_field_refused.
Example c50_fields : serve_next 1000 (s2b "set a 4294967296 0 2" ++ line_end ++ s2b "x") = Ok (Rejected, s2b "x") /\
  serve_next 1000 (s2b "cas a 4294967295 9223372036854775808 2 1" ++ line_end ++ s2b "x") = Ok (Rejected, s2b "x") /\
  blen (dec 4294967296) < 1000 /\ blen (dec 9223372036854775808) < 1000.
Proof. repeat split; vm_compute; reflexivity. Qed.
(** The time of flush_all (which the program does not use) may be any number of 64 bits with sign, and no other. *)
Theorem c50_flush_time now z nr rest : blen (decZ z) < 1000 ->
  serve_next now (s2b "flush_all" ++ space (decZ z) ++ noreply_word nr ++ line_end ++ rest)
  = Ok (if ((- 2 ^ 63 <=? z) && (z <? 2 ^ 63))%Z then Accepted (mkCommand false [] (s2b "flush_all")) (RFlush nr) else Rejected, rest).
Proof. exact (flush_time now z nr rest). Qed.
Print Assumptions c50_flush_time.
Example c50_flush_times : serve_next 1000 (s2b "flush_all -9223372036854775809" ++ line_end ++ s2b "x") = Ok (Rejected, s2b "x") /\
  serve_next 1000 (s2b "flush_all -9223372036854775808 noreply" ++ line_end ++ s2b "x") = Ok (Accepted (mkCommand false [] (s2b "flush_all")) (RFlush true), s2b "x").
Proof. split; vm_compute; reflexivity. Qed.
(** The level of verbosity (which the program does not use) may be any number of 32 bits with sign, and no other, and must be given. *)
Theorem c50_verbosity_level now z nr rest : blen (decZ z) < 1000 ->
  serve_next now (s2b "verbosity" ++ space (decZ z) ++ noreply_word nr ++ line_end ++ rest)
  = Ok (if ((- 2 ^ 31 <=? z) && (z <? 2 ^ 31))%Z then Accepted (mkCommand false [] (s2b "verbosity")) (RVerbosity nr) else Rejected, rest).
Proof. exact (verbosity_level now z nr rest). Qed.
Print Assumptions c50_verbosity_level.
Theorem c50_verbosity_none now nr rest : serve_next now (s2b "verbosity" ++ noreply_word nr ++ line_end ++ rest) = Ok (Rejected, rest).
Proof. exact (verbosity_none now nr rest). Qed.
Print Assumptions c50_verbosity_none.
Example c50_verbosity_levels : serve_next 1000 (s2b "verbosity -2147483649" ++ line_end ++ s2b "x") = Ok (Rejected, s2b "x") /\
  serve_next 1000 (s2b "verbosity -2147483648 noreply" ++ line_end ++ s2b "x") = Ok (Accepted (mkCommand false [] (s2b "verbosity")) (RVerbosity true), s2b "x").
Proof. split; vm_compute; reflexivity. Qed.
(** memcached refuses a negative amount as well; here it is taken for 2^64 less. *)
Theorem c50_minus_refuted now up k n nr rest : legal_key k -> 0 < n < 2 ^ 64 ->
  serve_request now ((if up : bool then s2b "incr" else s2b "decr") ++ space k ++ space (45 :: dec n) ++ noreply_word nr ++ line_end ++ rest)
  = Ok (mkCommand false [] (if up then s2b "incr" else s2b "decr"),
        RIncr (if up then s2b "incr" else s2b "decr") (mkEntry k 0 0 0 0 (if nr then option_noreply else 0) []) (2 ^ 64 - n), rest).
Proof. exact (minus_taken now up k n nr rest). Qed.
Print Assumptions c50_minus_refuted.
Example c50_amounts : serve_next 1000 (s2b "incr a -" ++ line_end ++ s2b "x") = Ok (Rejected, s2b "x") /\
  serve_next 1000 (s2b "incr a 18446744073709551616" ++ line_end ++ s2b "x") = Ok (Rejected, s2b "x") /\
  ~ number_word (s2b "-") /\ ~ number_word (s2b "18446744073709551616") /\ ~ number_word (s2b "1-2").
Proof.
  split; [vm_compute; reflexivity|]. split; [vm_compute; reflexivity|].
  split; [|split]; intros (ds & [E|E] & Hn & Hd & Hv); try discriminate E; try (subst ds; inversion Hd; lia).
  - injection E as <-. congruence.
  - subst ds. vm_compute in Hv. discriminate.
  - subst ds. inversion Hd as [|? ? _ H2]. inversion H2. lia.
Qed.

(** * C51 *)
(** A request that is accepted is the one of C17, C20 and C50, and exactly its bytes are used up. *)
Theorem c51_accepted : forall now s c r s', serve_next now s = Ok (Accepted c r, s') <-> serve_request now s = Ok (c, r, s').
Proof. exact next_accepted. Qed.
Print Assumptions c51_accepted.
(** A request that is rejected uses up exactly its line, unless the connection ended within
    its data block. *)
Theorem c51_rejected_partial : forall now line rest s', Forall (fun c => c <> 10) line ->
  serve_next now (line ++ 10 :: rest) = Ok (Rejected, s') ->
  s' = rest \/ (s' = [] /\ exists c p e, parse_command (drop_cr line ++ [10]) = Ok (c, p) /\ In (c_word c) store_idents /\
    parse_entry now (if beq (c_word c) (s2b "cas") then parse_cas else parse_set) p = Ok e /\ blen rest < e_size e + 2).
Proof. exact next_rejected. Qed.
Print Assumptions c51_rejected_partial.
(** But a rejected store request has a data block, and that is taken for requests: whatever
    the data is, with a negative expiry time or a size that is too large. *)
Theorem c51_negative_refuted : forall now ident k f x d cas nr rest,
  In ident [s2b "set"; s2b "add"; s2b "replace"; s2b "cas"; s2b "append"; s2b "prepend"] ->
  legal_key k -> f < 2 ^ 32 -> (- 2 ^ 63 <= x < 0)%Z ->
  serve_next now (client_store ident k f x d cas nr ++ rest) = Ok (Rejected, d ++ line_end ++ rest).
Proof. exact negative_rejected. Qed.
Print Assumptions c51_negative_refuted.
Theorem c51_too_large_refuted : forall now ident k f x n d nr rest,
  In ident [s2b "set"; s2b "add"; s2b "replace"; s2b "cas"; s2b "append"; s2b "prepend"] ->
  legal_key k -> f < 2 ^ 32 -> (0 <= x < 2 ^ 63)%Z -> 2147483647 < n < 2 ^ 64 ->
  serve_next now (ident ++ space k ++ space (dec f) ++ space (decZ x) ++ space (dec n) ++ noreply_word nr ++ line_end ++ d ++ rest) = Ok (Rejected, d ++ rest).
Proof. exact oversize_rejected. Qed.
Print Assumptions c51_too_large_refuted.
(** A session goes on: requests that are understood one by one are all served, in order, and what follows them
    is served as if it came first. *)
Theorem c51_session : forall now (l : list (bytes * command * request)) n rest,
  Forall (fun '(w, c, r) => forall rest', serve_request now (w ++ rest') = Ok (c, r, rest')) l ->
  session (List.length l + n) now (flat_map (fun '(w, _, _) => w) l ++ rest) = map (fun '(_, c, r) => Accepted c r) l ++ session n now rest.
Proof.
  intros now l n rest H. induction H as [|[[w c] r] l Hw _ IH]; [reflexivity|]. cbn [List.length Nat.add flat_map map app session].
  rewrite <- app_assoc. rewrite (proj2 (next_accepted now _ c r _) (Hw _)). now rewrite IH.
Qed.
Print Assumptions c51_session.
(** A value deletes another key. *)
Example c51_example : session 9 1000 (client_store (s2b "set") (s2b "k") 0 (-1) (s2b "delete victim") None false ++ s2b "get k" ++ line_end)
  = [Rejected; Accepted (mkCommand false [] (s2b "delete")) (RDelete (empty_entry (s2b "victim")));
     Accepted (mkCommand false [] (s2b "get")) (RGet (s2b "get") [s2b "k"])].
Proof. vm_compute. reflexivity. Qed.
Example c51_accepted_example : session 9 1000 (client_store (s2b "set") (s2b "k") 0 0 (s2b "delete victim") None false ++ s2b "get k" ++ line_end)
  = [Accepted (mkCommand false [] (s2b "set")) (RStore (s2b "set") (mkEntry (s2b "k") 0 0 13 0 0 (s2b "delete victim")));
     Accepted (mkCommand false [] (s2b "get")) (RGet (s2b "get") [s2b "k"])].
Proof. vm_compute. reflexivity. Qed.

(** * C18: an answer that names another key is refused. *)
Theorem c18_other_key : forall now k t e rest, sendable e -> k <> e_key e ->
  client_get_response now k (print_response t e ++ rest) = Err.
Proof. intros now k t e rest S K. exact (client_get_other _ now t (empty_entry k) e rest S K). Qed.
Print Assumptions c18_other_key.
Example c18_other_key_example : client_get_response 5 (s2b "a") (print_response response_get (mkEntry (s2b "b") 0 0 1 0 0 (s2b "x"))) = Err.
Proof. vm_compute. reflexivity. Qed.

(** * C17: lists in a request (proxy trails) are cut at their separators, and only there. *)
Theorem c17_split : forall c s l, vector_split s c = l <-> pieces c s l.
Proof. exact split_iff. Qed.
Print Assumptions c17_split.
Example c17_split_example : vector_split (s2b ",a:1,,b:2,") 44 = [s2b "a:1"; s2b "b:2"].
Proof. vm_compute. reflexivity. Qed.
