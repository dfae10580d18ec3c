(** Model of the three storage engines: storage_tch.cc (hash database of Tokyo
    Cabinet, modelled in StorageModel), storage_tcb.cc (its B+ tree) and
    storage_kch.cc (hash database of Kyoto Cabinet).
    Simplifications: the databases themselves do what they are asked (no I/O
    errors), as in StorageModel. *)
From stdpp Require Import gmap.
From Verif Require Import Base StorageModel.
Local Open Scope N_scope.

(** flared.cc:207-240: the engine is chosen by the configuration. *)
Inductive engine := Tch | Tcb | Kch.

(** The value of an [int] that a length is converted to. *)
Definition to_int (n : N) : Z :=
  let m := n mod 2 ^ 32 in if m <? 2 ^ 31 then Z.of_N m else (Z.of_N m - 2 ^ 32)%Z.

(** storage.cc:278-316 [_unserialize_header], with the length as the [int] it is.
    For Tokyo Cabinet this is StorageModel.unser_header: its lengths are ints. *)
Definition kch_unser (len : Z) (raw : bytes) (e : entry) : entry * bool :=
  if (len <? 4)%Z then (e, false) else
  let e := with_flag e (le_dec (slice 0 4 raw)) in
  if (len <? 12)%Z then (e, false) else
  let e := with_expire e (u64_to_i64 (le_dec (slice 4 8 raw))) in
  if (len <? 20)%Z then (e, false) else
  let e := with_size e (le_dec (slice 12 8 raw)) in
  if (len <? 28)%Z then (e, false) else
  let e := with_version e (le_dec (slice 20 8 raw)) in
  (e, true).

(** storage_kch.cc:679-700 [_get_header]: HashDB::get copies at most header_size bytes
    and returns the length of the record, as an int. *)
Definition kch_get_header (s : store) (k : key) (e : entry) : entry * bool :=
  match db s !! k with
  | None => (get_header_cache s k e, false)
  | Some raw =>
    let len := to_int (blen raw) in
    if (len <? 0)%Z then (get_header_cache s k e, false)
    else kch_unser len (firstn (N.to_nat header_size) raw) e
  end.

(** storage_kch.cc:501-564 [remove]. *)
Definition kch_remove (s : store) (now : Z) (e : entry) (b : N) : outcome :=
  let '(cur, exists_) := kch_get_header s (e_key e) (empty_entry []) in
  if negb (has b behavior_skip_version) && negb (e_version e =? 0)
     && ((negb (has b behavior_version_equal) && (e_version e <? e_version cur))
         || (has b behavior_version_equal && negb (e_version e =? e_version cur)))
  then mkOut s 0 (Some result_not_found) e
  else if negb exists_ then
    let s' := if negb (e_version e =? 0) then set_header_cache s now (e_key e) e else s in
    mkOut s' 0 (Some result_not_found) e
  else
    let expired := negb (has b behavior_skip_timestamp) && expired_at now (e_expire cur) in
    let s1 := set_db s (delete (e_key e) (db s)) in
    let r := if expired then result_not_found else result_deleted in
    let e' := if e_version e =? 0 then with_version e (e_version cur) else e in
    mkOut (set_header_cache s1 now (e_key e) e') 0 (Some r) e'.

(** storage_kch.cc:435-499 [get]; tmp_len is a size_t here, and an int for
    [_unserialize_header]. *)
Definition kch_get (s : store) (now : Z) (e : entry) (b : N) : outcome :=
  match db s !! e_key e with
  | None => mkOut s 0 (Some result_not_found) e
  | Some raw =>
    let '(e1, ok) := kch_unser (to_int (blen raw)) raw e in
    if negb ok then mkOut s (-1) None e1
    else if negb (blen raw - header_size =? e_size e1) then mkOut s (-1) None e1
    else if negb (has b behavior_skip_timestamp) && expired_at now (e_expire e1) then
      let o := kch_remove s now e1 (N.lor (N.land b behavior_skip_lock) behavior_version_equal) in
      mkOut (o_store o) 0 (Some result_not_found) (o_entry o)
    else mkOut s 0 (Some result_none) (with_data e1 (skipn (N.to_nat header_size) raw))
  end.

(** storage_kch.cc:141-153: the current entry. *)
Definition kch_current (s : store) (now : Z) (k : key) (b : N) : store * entry * bool :=
  if has b (N.lor behavior_append (N.lor behavior_prepend behavior_touch)) then
    let o := kch_get s now (empty_entry k) behavior_skip_lock in
    let missing := match o_res o with Some result_not_found => true | _ => (o_ret o <? 0)%Z end in
    if missing then (o_store o, get_header_cache (o_store o) k (o_entry o), false)
    else (o_store o, o_entry o, true)
  else
    let '(cur, ex) := kch_get_header s k (empty_entry []) in (s, cur, ex).

(** storage_kch.cc:257, 392: HashDB::set; lengths are size_t. *)
Definition kch_put (s : store) (k : key) (raw : bytes) : store := set_db s (<[k := raw]> (db s)).

(** storage_kch.cc:125-305 [set] *)
Definition kch_set (s : store) (now : Z) (e : entry) (b : N) : option outcome :=
  let '(s1, cur, ex) := kch_current s now (e_key e) b in
  let st := current_state now b cur ex in
  if has b behavior_add && negb (cur_state_eqb st st_gone) then
    Some (mkOut s1 0 (Some result_not_stored) e)
  else if has b behavior_replace && negb (cur_state_eqb st st_alive) then
    Some (mkOut s1 0 (Some result_not_stored) e)
  else if has b behavior_touch && negb (cur_state_eqb st st_alive) then
    Some (mkOut s1 0 (Some result_not_found) e)
  else match next_version st cur e b with
  | inl r => Some (mkOut s1 0 (Some r) e)
  | inr v =>
    let e1 := with_version e v in
    if has b (N.lor behavior_append behavior_prepend) then
      if negb (cur_state_eqb st st_alive) then Some (mkOut s1 (-1) None e1)
      else
        let e2 := with_size (with_flag (with_expire e1 (e_expire cur)) (e_flag cur))
                            (u64 (e_size e1 + e_size cur)) in
        match memcpy (e_data cur) (e_size cur), memcpy (e_data e1) (e_size e1) with
        | Some dc, Some dn =>
          let d := if has b behavior_append then dc ++ dn else dn ++ dc in
          let s2 := kch_put s1 (e_key e) (ser_header e2 ++ d) in
          let e3 := with_data e2 d in
          Some (if has b behavior_touch
                then mkOut s2 0 (Some result_touched)
                       (with_version (with_size (with_data e3 (e_data cur)) (e_size cur)) (e_version cur))
                else mkOut s2 0 (Some result_stored) e3)
        | _, _ => None
        end
    else if has b behavior_touch then
      let e2 := with_data (with_size (with_flag e1 (e_flag cur)) (e_size cur)) (e_data cur) in
      match memcpy (e_data cur) (e_size cur) with
      | Some d => Some (mkOut (kch_put s1 (e_key e) (ser_header e2 ++ d)) 0 (Some result_touched)
                          (with_version e2 (e_version cur)))
      | None => None
      end
    else
      match memcpy (e_data e1) (e_size e1) with
      | Some d => Some (mkOut (kch_put s1 (e_key e) (ser_header e1 ++ d)) 0 (Some result_stored) e1)
      | None => None
      end
  end.

(** storage_kch.cc:307-433 [incr] *)
Definition kch_incr (s : store) (now : Z) (e : entry) (value : N) (increment : bool) (b : N) : outcome :=
  match db s !! e_key e with
  | None => mkOut s 0 (Some result_not_found) e
  | Some raw =>
    let '(cur0, ok) := kch_unser (to_int (blen raw)) raw (empty_entry []) in
    if negb ok then mkOut s (-1) None e
    else
      let cur := mkEntry (e_key e) (e_flag cur0) (e_expire cur0) (e_size cur0) (e_version cur0) 0 [] in
      if negb (blen raw - header_size =? e_size cur) then mkOut s (-1) None e
      else if negb (has b behavior_skip_timestamp) && expired_at now (e_expire cur) then
        let o := kch_remove s now cur (N.lor (N.land b behavior_skip_lock) behavior_version_equal) in
        mkOut (o_store o) 0 (Some result_not_found) e
      else
        let m := incr_value (leading_number (skipn (N.to_nat header_size) raw)) value increment in
        let d := dec m in
        let e' := mkEntry (e_key e) (e_flag cur) (e_expire cur) (blen d) (u64 (e_version cur + 1)) (e_option e) d in
        mkOut (kch_put s (e_key e) (ser_header e' ++ d)) 0 (Some result_stored) e'
  end.

(** storage_tcb.cc:312-444 [incr]; as in storage_tch.cc except that the key of the entry whose
    removal is asked for when the record is expired is not set (it stays empty), lines 331-345, 425-428.
    [set], [get] and [remove] are those of storage_tch.cc (lines 125-310, 445-580). *)
Definition tcb_incr (s : store) (now : Z) (e : entry) (value : N) (increment : bool) (b : N) : option outcome :=
  match db s !! e_key e with
  | None => Some (mkOut s 0 (Some result_not_found) e)
  | Some raw =>
    let '(cur0, ok) := unser_header raw (empty_entry []) in
    if negb ok then Some (mkOut s (-1) None e)
    else
      let cur := mkEntry [] (e_flag cur0) (e_expire cur0) (e_size cur0) (e_version cur0) 0 [] in
      if negb (blen raw - header_size =? e_size cur) then Some (mkOut s (-1) None e)
      else if negb (has b behavior_skip_timestamp) && expired_at now (e_expire cur) then
        let o := remove s now cur (N.lor (N.land b behavior_skip_lock) behavior_version_equal) in
        Some (mkOut (o_store o) 0 (Some result_not_found) e)
      else
        let m := incr_value (leading_number (skipn (N.to_nat header_size) raw)) value increment in
        let d := dec m in
        let e' := mkEntry (e_key e) (e_flag cur) (e_expire cur) (blen d) (u64 (e_version cur + 1)) (e_option e) d in
        match db_put s (e_key e) (ser_header e' ++ d) with
        | Some s2 => Some (mkOut s2 0 (Some result_stored) e')
        | None => None
        end
  end.

(** An operation on the engine. *)
Definition run_op_on (g : engine) (s : store) (o : op) : option outcome :=
  match g, o with
  | Tch, _ => run_op s o
  | Tcb, OIncr now e v i b => tcb_incr s now e v i b
  | Tcb, _ => run_op s o
  | Kch, OSet now e b => kch_set s now e b
  | Kch, OIncr now e v i b => Some (kch_incr s now e v i b)
  | Kch, OGet now e b => Some (kch_get s now e b)
  | Kch, ORemove now e b => Some (kch_remove s now e b)
  | Kch, OTruncate => Some (mkOut (truncate s) 0 None (empty_entry []))
  end.

(** The outcomes of a history; [None]: undefined behaviour. *)
Fixpoint outcomes (g : engine) (s : store) (l : list op) : option (list outcome) :=
  match l with
  | [] => Some []
  | o :: l' =>
    match run_op_on g s o with
    | Some r => match outcomes g (o_store r) l' with Some rs => Some (r :: rs) | None => None end
    | None => None
    end
  end.

(** ** Locks taken by an increment of an expired record *)
Inductive lock := Whole | Slot (i : nat).
Inductive lock_act := RdLock (l : lock) | WrLock (l : lock) | Unlock (l : lock).

(** storage_tch.cc:513-579 (storage_tcb.cc:513-580, storage_kch.cc:501-564) [remove] *)
Definition remove_locks (slot : key -> nat) (k : key) : list lock_act :=
  [RdLock Whole; WrLock (Slot (slot k)); Unlock (Slot (slot k)); Unlock Whole].

(** The locks of an increment that meets an expired record, without skip_lock.
    storage_tch.cc:424-432 and storage_kch.cc:415-424 release the locks and then call [remove];
    storage_tcb.cc:425-432 calls [remove] (for the empty key) and then releases them. *)
Definition expired_incr_locks (g : engine) (slot : key -> nat) (k : key) : list lock_act :=
  [RdLock Whole; WrLock (Slot (slot k))] ++
  match g with
  | Tcb => remove_locks slot [] ++ [Unlock (Slot (slot k)); Unlock Whole]
  | _ => [Unlock (Slot (slot k)); Unlock Whole] ++ remove_locks slot k
  end.

Definition lock_eqb (a b : lock) : bool :=
  match a, b with Whole, Whole => true | Slot i, Slot j => Nat.eqb i j | _, _ => false end.
(** One thread alone: [held] lists the locks it holds, with their kind ([true]: for
    writing).  pthread_rwlock_wrlock(3) by a thread that holds the lock, and
    pthread_rwlock_rdlock(3) by one that holds it for writing, deadlock or fail: [None].
    So does the release of a lock that is not held. *)
Fixpoint release (l : lock) (held : list (lock * bool)) : option (list (lock * bool)) :=
  match held with
  | [] => None
  | (l', w) :: h => if lock_eqb l' l then Some h else match release l h with Some h' => Some ((l', w) :: h') | None => None end
  end.
Definition lock_step (held : list (lock * bool)) (a : lock_act) : option (list (lock * bool)) :=
  match a with
  | RdLock l => if existsb (fun p => lock_eqb (fst p) l && snd p) held then None else Some ((l, false) :: held)
  | WrLock l => if existsb (fun p => lock_eqb (fst p) l) held then None else Some ((l, true) :: held)
  | Unlock l => release l held
  end.
Fixpoint lock_run (held : list (lock * bool)) (l : list lock_act) : option (list (lock * bool)) :=
  match l with
  | [] => Some held
  | a :: l' => match lock_step held a with Some h => lock_run h l' | None => None end
  end.
