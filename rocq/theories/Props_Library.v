(** C73: the client library returns what the node holds. *)
From Coq Require Import String.
From stdpp Require Import gmap.
From Verif Require Import Base StorageModel StorageSpec TextModel TextSpec NamesModel SessionModel ServerModel ServerProofs MemcachedSpec MemcachedProofs2 LibraryModel LibrarySpec LibraryProofs.
Local Open Scope string_scope.
Local Open Scope N_scope.
Local Open Scope list_scope.

(** Any sequence of calls through a connection that is open, on a node that starts empty: every call returns what
    it should for what the calls before it have stored, every get fills in the entry with exactly what is stored, and nothing of an answer is
    left for the next call.  Partial: the entries handed to get have no data, there is no call of disconnect. *)
Theorem c73_history_partial n l : rising_lib 2592000 l -> Forall (fun x => legal_lib (snd x)) l -> N.of_nat (List.length l) < 2 ^ 64 ->
  exists xs s' m', lib_run l (mkLib true [] (init_store n)) = Ok (xs, mkLib true [] s') /\ history (fun _ => None) l m' xs.
Proof.
  intros Hr Hl Hn. destruct (lib_history l 2592000 0 (mkLib true [] (init_store n)) (fun _ => None) (quiet_init _ _) (shows_init _ _)) as (xs & [u r s'] & m' & R & H & U & N0 & _); auto.
  - unfold sane_clock. vm_compute. split; [discriminate|reflexivity].
  - cbn [l_up l_unread] in U, N0. subst. exists xs, s', m'. auto.
Qed.
Print Assumptions c73_history_partial.

(** Without a connection: connect, add and cas open one and go on as if it had been there; if that fails nothing is
    changed and the call says so. *)
Theorem c73_opens can now c s : (exists k d f, c = LAdd k d f) \/ (exists k i f, c = LAddInt k i f) \/ (exists k d f v, c = LCas k d f v) \/ c = LConnect ->
  lib_step can now c (mkLib false [] s)
  = if can then lib_step true now c (mkLib true [] s)
    else Ok ((if match c with LConnect => true | _ => false end then Code (-1) else Result res_error), mkLib false [] s).
Proof. intros [(k & d & f & ->)|[(k & i & f & ->)|[(k & d & f & v & ->)| ->]]]; destruct can; reflexivity. Qed.
Print Assumptions c73_opens.

(** get and gets do not: they fail although the node could be reached. *)
Theorem c73_reads_do_not_open_refuted can now tk k e have s : exists e',
  lib_step can now (LGet tk k e have) (mkLib false [] s) = Ok (Entry res_error e' have, mkLib false [] s).
Proof. eexists. reflexivity. Qed.
Print Assumptions c73_reads_do_not_open_refuted.

(** disconnect never closes a connection. *)
Theorem c73_disconnect_refuted can now s r : lib_step can now LDisconnect (mkLib true r s) = Ok (Code 0, mkLib true r s).
Proof. reflexivity. Qed.
Print Assumptions c73_disconnect_refuted.
(** Without one it drops what had not been read of the last. *)
Theorem c73_disconnect_closed can now s r : lib_step can now LDisconnect (mkLib false r s) = Ok (Code 0, mkLib false [] s).
Proof. reflexivity. Qed.
Print Assumptions c73_disconnect_closed.

(** get of a missing key with an entry that still has the data of an earlier get: the call says OK and leaves flags, size, version and
    data of the other key in the entry, for every key and every such entry. *)
Theorem c73_stale_refuted can now tk k e n : legal_key k -> (2592000 <= now < 2 ^ 62)%Z ->
  exists s', lib_step can now (LGet tk k e true) (mkLib true [] (init_store n))
    = Ok (Entry res_ok (mkEntry k (e_flag e) (e_expire e) (e_size e) (e_version e) (e_option e) (e_data e)) true, mkLib true [] s').
Proof.
  intros Hk Hn. assert (Hs : sane_clock now) by (unfold sane_clock; lia).
  assert (Hl : legal_call (Get tk [k])) by (split; [discriminate|repeat constructor; auto; apply Hk]).
  destruct (line_call (fun _ => True) 2592000 0 (init_store n) (fun _ => None) now (Get tk [k]) (quiet_init _ _) (shows_init _ _) (proj1 Hn) Hs eq_refl Hl (fun _ _ => Logic.I) (fun H => H)) as (p & m1 & R & D & _).
  exists (p_store p). apply get_answer in D. exact (lib_get_missing now tk k e true (mkLib true [] (init_store n)) p Hk eq_refl eq_refl R D).
Qed.
Print Assumptions c73_stale_refuted.

(** ** Example: a program that counts with cas, and its results *)
Definition blank : entry := empty_entry [].
Definition prog73 : list (Z * bool * lib_call) :=
  [(1600000000%Z, true, LConnect);
   (1600000000%Z, true, LAddInt (s2b "n") (-5) 3);
   (1600000001%Z, true, LAddInt (s2b "n") 6 3);
   (1600000002%Z, true, LGet true (s2b "n") blank false);
   (1600000002%Z, true, LCas (s2b "n") (s2b "-4") (-1) 1);
   (1600000002%Z, true, LCas (s2b "n") (s2b "-3") 0 1);
   (1600000003%Z, true, LCas (s2b "m") (s2b "x") 0 1);
   (1600000003%Z, true, LGet false (s2b "n") blank false);
   (1600000003%Z, true, LGet false (s2b "m") blank false)].
Example c73_results :
  match lib_run prog73 (mkLib true [] (init_store 16)) with
  | Ok (xs, st) => (xs, l_up st, l_unread st)
      = ([Code 0; Result res_stored; Result res_not_stored;
          Entry res_ok (mkEntry (s2b "n") 3 0 2 1 0 (s2b "-5")) true;
          Result res_stored; Result res_exists; Result res_not_found;
          Entry res_ok (mkEntry (s2b "n") 4294967295 0 2 0 0 (s2b "-4")) true;
          Entry res_not_found (empty_entry (s2b "m")) false], true, [])
  | _ => False
  end.
Proof. vm_compute. reflexivity. Qed.
Example c73_legal : rising_lib 2592000 prog73 /\ Forall (fun x => legal_lib (snd x)) prog73.
Proof.
  split; [cbn; repeat split; discriminate|]. repeat constructor; cbn; try discriminate; try lia.
Qed.

(** A key is written into the request as it is: with an end of line in it the rest is a request of its own, here one that
    deletes everything, made by a get, and its answer is read as that of the next call: an add that should have found its item says OK. *)
Definition key73 : bytes := s2b "z" ++ [13; 10] ++ s2b "flush_all".
Definition bad73 : list (Z * bool * lib_call) :=
  [(1600000000%Z, true, LAdd (s2b "n") (s2b "v") 0); (1600000001%Z, true, LGet false key73 blank false); (1600000002%Z, true, LAdd (s2b "n") (s2b "w") 0)].
Theorem c73_key_refuted : exists xs st, lib_run bad73 (mkLib true [] (init_store 16)) = Ok (xs, st) /\
  (forall m', ~ history (fun _ => None) bad73 m' xs) /\
  exists s e1 e2, lib_run [(1600000003%Z, true, LGet false (s2b "n") blank false)] (mkLib true [] (l_store st)) = Ok ([Entry res_ok e1 true], s) /\ e_data e1 = s2b "w" /\
    lib_run [(1600000003%Z, true, LGet false (s2b "n") blank false)] (mkLib true [] (init_store 16)) = Ok ([Entry res_not_found e2 false], mkLib true [] (init_store 16)).
Proof.
  do 2 eexists. split; [vm_compute; reflexivity|]. split.
  - intros m' H. assert (L : forall m (l : list (Z * bool * lib_call)) m2 xs, history m l m2 xs -> forall now can k d f l0, l = l0 ++ [(now, can, LAdd k d f)] -> last xs <> Some (Result res_ok)).
    { clear. intros m l m2 xs H. induction H as [m|m now can c l m2 xs Hc H IH|m now can c q m1 a l m2 xs Hc Hd H IH]; intros now' can' k d f l0 E.
      - destruct l0; discriminate E.
      - destruct l0 as [|z l0]; injection E as; subst; [discriminate Hc|]. specialize (IH _ _ _ _ _ l0 eq_refl).
        destruct xs; [inversion H; destruct l0; discriminate|exact IH].
      - destruct l0 as [|z l0]; injection E as; subst; [|specialize (IH _ _ _ _ _ l0 eq_refl); destruct xs; [inversion H; destruct l0; discriminate|exact IH]].
        inversion H. subst. cbn. destruct (look m now' k); discriminate. }
    exact (L _ _ _ _ H _ _ _ _ _ [_; _] eq_refl eq_refl).
  - do 3 eexists. split; [vm_compute; reflexivity|]. split; vm_compute; reflexivity.
Qed.
Print Assumptions c73_key_refuted.
