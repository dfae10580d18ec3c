(** Model of concurrent commands on the storage of a node: the locks and the single accesses to
    the database and the header cache in src/lib/storage_tch.cc:125-604, storage.cc:318-341,
    storage.h:401-450.

    StorageModel has each command as one function; here each access to the database
    (Tokyo Cabinet's calls are atomic) or the header cache (which has a lock of its own) is a
    step, and the steps of all threads are interleaved in any way the locks
    permit.  A command is the part between taking and releasing its locks: a get or incr that
    meets an expired record asks for its removal by a second command after it has released its locks
    (storage_tch.cc:429-432, 498-501).  Simplifications: one clock value per command;
    a reader-writer lock is granted whenever it is free for that mode (no queue of waiting writers). *)
From stdpp Require Import gmap.
From Verif Require Import Base StorageModel.
Local Open Scope N_scope.

(** The answer of a command; the last member: the expired record whose removal is requested. *)
Record reply := mkReply { r_ret : Z; r_res : option result; r_entry : entry; r_expired : option entry }.

(** What a command does to its key between the locks.  [Bad]: undefined behaviour. *)
Inductive prog :=
| Done (r : reply)
| Bad
| DbGet (c : option bytes -> prog)
| DbPut (raw : bytes) (p : prog)
| DbOut (p : prog)
| CGet (c : option (Z * N) -> prog)
| CPut (v : Z * N) (p : prog).

(** storage.cc:318-341: put and cut the front, under the lock of the cache *)
Definition cache_put (s : store) (k : key) (v : Z * N) : store :=
  let c := hc_put (hcache s) k v in set_hcache s (skipn (length c - N.to_nat (hcache_size s)) c).
(** One access. *)
Definition access (s : store) (k : key) (p : prog) : option (store * prog) :=
  match p with
  | Done _ | Bad => None
  | DbGet c => Some (s, c (db s !! k))
  | DbPut raw p' => Some (set_db s (<[k := raw]> (db s)), p')
  | DbOut p' => Some (set_db s (delete k (db s)), p')
  | CGet c => Some (s, c (hc_get (hcache s) k))
  | CPut v p' => Some (cache_put s k v, p')
  end.

(** storage.h:424-443 *)
Definition from_cache (h : option (Z * N)) (e : entry) : entry :=
  match h with None => e | Some (exp, v) => with_version (with_expire e exp) v end.
(** storage.cc:325-328: the value put into the cache *)
Definition tomb_of (now : Z) (e : entry) : Z * N := (if (e_expire e =? 0)%Z then now else e_expire e, e_version e).

(** storage_tch.cc:686-706 [_get_header] *)
Definition header_prog (c : entry -> bool -> prog) : prog :=
  DbGet (fun raw => match raw with
    | None => CGet (fun h => c (from_cache h (empty_entry [])) false)
    | Some raw => let '(e, ok) := unser_header (firstn (N.to_nat header_size) raw) (empty_entry []) in c e ok
    end).
(** storage_tch.cc:527-565 [remove] between the locks *)
Definition remove_prog (now : Z) (e : entry) (b : N) (c : result -> entry -> prog) : prog :=
  header_prog (fun cur exists_ =>
    if negb (has b behavior_skip_version) && negb (e_version e =? 0)
       && ((negb (has b behavior_version_equal) && (e_version e <? e_version cur))
           || (has b behavior_version_equal && negb (e_version e =? e_version cur)))
    then c result_not_found e
    else if negb exists_ then
      if negb (e_version e =? 0) then CPut (tomb_of now e) (c result_not_found e) else c result_not_found e
    else
      let expired := negb (has b behavior_skip_timestamp) && expired_at now (e_expire cur) in
      let r := if expired then result_not_found else result_deleted in
      let e' := if e_version e =? 0 then with_version e (e_version cur) else e in
      DbOut (CPut (tomb_of now e') (c r e'))).
(** storage_tch.cc:461-491 [get] between the locks; [x]: the record is expired *)
Definition get_prog (now : Z) (e : entry) (b : N) (c : Z -> option result -> entry -> prog) (x : entry -> prog) : prog :=
  DbGet (fun raw => match raw with
    | None => c 0%Z (Some result_not_found) e
    | Some raw =>
        let '(e1, ok) := unser_header raw e in
        if negb ok then c (-1)%Z None e1
        else if negb (blen raw - header_size =? e_size e1) then c (-1)%Z None e1
        else if negb (has b behavior_skip_timestamp) && expired_at now (e_expire e1) then x e1
        else c 0%Z (Some result_none) (with_data e1 (skipn (N.to_nat header_size) raw))
    end).
(** storage_tch.cc:139-155: the current entry as [set] sees it *)
Definition current_prog (now : Z) (k : key) (b : N) (c : entry -> bool -> prog) : prog :=
  if has b (N.lor behavior_append (N.lor behavior_prepend behavior_touch)) then
    let missing e := CGet (fun h => c (from_cache h e) false) in
    get_prog now (empty_entry k) behavior_skip_lock
      (fun ret res e =>
         if match res with Some result_not_found => true | _ => (ret <? 0)%Z end then missing e else c e true)
      (fun e => remove_prog now e (N.lor (N.land behavior_skip_lock behavior_skip_lock) behavior_version_equal)
         (fun _ e => missing e))
  else header_prog c.
(** tchdbput; the length is an int *)
Definition put_prog (raw : bytes) (p : prog) : prog := if blen raw <=? 2147483647 then DbPut raw p else Bad.
Definition reply_of (ret : Z) (res : option result) (e : entry) : prog := Done (mkReply ret res e None).
(** storage_tch.cc:157-293 [set] between the locks *)
Definition set_prog (now : Z) (e : entry) (b : N) : prog :=
  current_prog now (e_key e) b (fun cur ex =>
    let st := current_state now b cur ex in
    if has b behavior_add && negb (cur_state_eqb st st_gone) then reply_of 0 (Some result_not_stored) e
    else if has b behavior_replace && negb (cur_state_eqb st st_alive) then reply_of 0 (Some result_not_stored) e
    else if has b behavior_touch && negb (cur_state_eqb st st_alive) then reply_of 0 (Some result_not_found) e
    else match next_version st cur e b with
    | inl r => reply_of 0 (Some r) e
    | inr v =>
      let e1 := with_version e v in
      if has b (N.lor behavior_append behavior_prepend) then
        if negb (cur_state_eqb st st_alive) then reply_of (-1) None e1
        else
          let e2 := with_size (with_flag (with_expire e1 (e_expire cur)) (e_flag cur)) (u64 (e_size e1 + e_size cur)) in
          match memcpy (e_data cur) (e_size cur), memcpy (e_data e1) (e_size e1) with
          | Some dc, Some dn =>
            let d := if has b behavior_append then dc ++ dn else dn ++ dc in
            let e3 := with_data e2 d in
            put_prog (ser_header e2 ++ d)
              (if has b behavior_touch
               then reply_of 0 (Some result_touched) (with_version (with_size (with_data e3 (e_data cur)) (e_size cur)) (e_version cur))
               else reply_of 0 (Some result_stored) e3)
          | _, _ => Bad
          end
      else if has b behavior_touch then
        let e2 := with_data (with_size (with_flag e1 (e_flag cur)) (e_size cur)) (e_data cur) in
        match memcpy (e_data cur) (e_size cur) with
        | Some d => put_prog (ser_header e2 ++ d) (reply_of 0 (Some result_touched) (with_version e2 (e_version cur)))
        | None => Bad
        end
      else
        match memcpy (e_data e1) (e_size e1) with
        | Some d => put_prog (ser_header e1 ++ d) (reply_of 0 (Some result_stored) e1)
        | None => Bad
        end
    end).
(** storage_tch.cc:330-418 [incr] between the locks *)
Definition incr_prog (now : Z) (e : entry) (value : N) (increment : bool) (b : N) : prog :=
  DbGet (fun raw => match raw with
    | None => reply_of 0 (Some result_not_found) e
    | Some raw =>
      let '(cur0, ok) := unser_header raw (empty_entry []) in
      if negb ok then reply_of (-1) None e
      else
        let cur := mkEntry (e_key e) (e_flag cur0) (e_expire cur0) (e_size cur0) (e_version cur0) 0 [] in
        if negb (blen raw - header_size =? e_size cur) then reply_of (-1) None e
        else if negb (has b behavior_skip_timestamp) && expired_at now (e_expire cur) then
          Done (mkReply 0 (Some result_not_found) e (Some cur))
        else
          let m := incr_value (leading_number (skipn (N.to_nat header_size) raw)) value increment in
          let d := dec m in
          let e' := mkEntry (e_key e) (e_flag cur) (e_expire cur) (blen d) (u64 (e_version cur + 1)) (e_option e) d in
          put_prog (ser_header e' ++ d) (reply_of 0 (Some result_stored) e')
    end).

(** Commands, with their clock value. *)
Inductive cmd :=
| KGet (now : Z) (e : entry) (b : N)
| KSet (now : Z) (e : entry) (b : N)
| KIncr (now : Z) (e : entry) (value : N) (increment : bool) (b : N)
| KRemove (now : Z) (e : entry) (b : N)
| KTruncate.
Definition cmd_key (o : cmd) : key :=
  match o with KGet _ e _ | KSet _ e _ | KIncr _ e _ _ _ | KRemove _ e _ => e_key e | KTruncate => [] end.
Definition is_truncate (o : cmd) : bool := match o with KTruncate => true | _ => false end.
Definition is_get (o : cmd) : bool := match o with KGet _ _ _ => true | _ => false end.
Definition body (o : cmd) : prog :=
  match o with
  | KGet now e b => get_prog now e b reply_of (fun e1 => Done (mkReply 0 (Some result_not_found) e1 (Some e1)))
  | KSet now e b => set_prog now e b
  | KIncr now e v i b => incr_prog now e v i b
  | KRemove now e b => remove_prog now e b (fun r e => reply_of 0 (Some r) e)
  | KTruncate => Bad
  end.
(** storage_tch.cc:429-432, 498-501: the removal of an expired record *)
Definition follow (o : cmd) (r : reply) : list cmd :=
  match r_expired r, o with
  | Some e1, (KGet now _ b | KIncr now _ _ _ b) => [KRemove now e1 (N.lor (N.land b behavior_skip_lock) behavior_version_equal)]
  | _, _ => []
  end.

(** ** Locks *)
Inductive lock := Whole | Slot (i : nat).
Inductive mode := Rd | Wr.
(** Where a thread is within a command. *)
Inductive phase :=
| Idle
| Want (o : cmd)              (* called *)
| HaveWhole (o : cmd)         (* a writer that has the whole lock (for reading) *)
| Body (o : cmd) (p : prog)   (* between the locks *)
| Release (o : cmd) (r : reply)  (* slot released, whole lock not yet *)
| TLock (i : nat)             (* truncate: whole lock for writing, slots below i *)
| TBody | TMid                (* all locks; database emptied *)
| TUnlock (i : nat).          (* slots from i on released *)

(** The commands still to come; how a thread goes on after a request. *)
Record thread := mkThread { ph : phase; todo : list cmd }.
Record conf := mkConf { c_store : store; c_threads : list thread }.
(** A command is called; it takes effect (used in the specification only); it returns. *)
Inductive event := Inv (t : nat) (o : cmd) | Lin (t : nat) (o : cmd) (r : reply) | Res (t : nat) (o : cmd) (r : reply).

Section Slots.
  (** get_key_hash_value(murmur) % _mutex_slot_size (e.g. storage_tch.cc:130) and the number of slots *)
  Variables (slot : key -> nat) (nslots : nat).

  Definition held (p : phase) (l : lock) : option mode :=
    match p, l with
    | (Idle | Want _), _ => None
    | (HaveWhole _ | Release _ _), Whole => Some Rd
    | (HaveWhole _ | Release _ _), Slot _ => None
    | Body o _, Whole => if is_get o then None else Some Rd
    | Body o _, Slot i => if Nat.eqb i (slot (cmd_key o)) then Some (if is_get o then Rd else Wr) else None
    | (TLock _ | TBody | TMid | TUnlock _), Whole => Some Wr
    | (TLock i | TUnlock i), Slot j => if Nat.ltb j i then Some Wr else None
    | (TBody | TMid), Slot j => if Nat.ltb j nslots then Some Wr else None
    end.
  (** pthread_rwlock_rdlock and pthread_rwlock_wrlock do not block *)
  Definition can_rd (ths : list thread) (l : lock) : bool := forallb (fun th => match held (ph th) l with Some Wr => false | _ => true end) ths.
  Definition can_wr (ths : list thread) (l : lock) : bool := forallb (fun th => match held (ph th) l with None => true | _ => false end) ths.

  (** One step of thread [t]; [None] if there is none (blocked, finished, or undefined). *)
  Definition step (c : conf) (t : nat) : option (conf * list event) :=
    match c_threads c !! t with
    | None => None
    | Some th =>
      let go s p l ev := Some (mkConf s (<[t := mkThread p l]> (c_threads c)), ev) in
      let s := c_store c in
      let ok (b : bool) p := if b then go s p (todo th) [] else None in
      match ph th with
      | Idle => match todo th with [] => None | o :: l => go s (Want o) l [Inv t o] end
      | Want o =>
          if is_truncate o then ok (can_wr (c_threads c) Whole) (TLock 0)
          else if is_get o then ok (can_rd (c_threads c) (Slot (slot (cmd_key o)))) (Body o (body o))
          else ok (can_rd (c_threads c) Whole) (HaveWhole o)
      | HaveWhole o => ok (can_wr (c_threads c) (Slot (slot (cmd_key o)))) (Body o (body o))
      | Body o (Done r) =>
          if is_get o then go s Idle (follow o r ++ todo th) [Lin t o r; Res t o r]
          else go s (Release o r) (todo th) [Lin t o r]
      | Body o p => match access s (cmd_key o) p with None => None | Some (s', p') => go s' (Body o p') (todo th) [] end
      | Release o r => go s Idle (follow o r ++ todo th) [Res t o r]
      | TLock i => if Nat.ltb i nslots then ok (can_wr (c_threads c) (Slot i)) (TLock (S i)) else go s TBody (todo th) []
      | TBody => go (set_db s ∅) TMid (todo th) []
      | TMid => go (set_hcache s []) (TUnlock nslots) (todo th) [Lin t KTruncate (mkReply 0 None (empty_entry []) None)]
      | TUnlock (S i) => go s (TUnlock i) (todo th) []
      | TUnlock O => go s Idle (todo th) [Res t KTruncate (mkReply 0 None (empty_entry []) None)]
      end
    end.
  (** A schedule: which thread makes the next step.  A blocked thread makes none. *)
  Fixpoint run_conc (c : conf) (sched : list nat) : conf * list event :=
    match sched with
    | [] => (c, [])
    | t :: l =>
        match step c t with
        | None => run_conc c l
        | Some (c', ev) => let '(c'', tr) := run_conc c' l in (c'', ev ++ tr)
        end
    end.
End Slots.
