(** Model of the key-value storage engine of a flare node:
    src/lib/storage.h, src/lib/storage.cc and src/lib/storage_tch.cc.

    The Tokyo Cabinet hash database is a finite map from keys to the raw bytes
    the code hands to tchdbput (header and data), so corrupted records are
    representable.  Locks are not part of this file (each function is one
    atomic operation here; see ConcModel for the interleaving model).
    stats_object->get_timestamp() is the argument [now]; within one operation it
    is read as one value (simplification: the C++ may read it twice).
    Failures reported by Tokyo Cabinet (disk errors) are not modelled. *)
From stdpp Require Import gmap.
From Verif Require Import Base.
Local Open Scope N_scope.

Notation key := (list N) (only parsing).

(** storage.h:74-83 *)
Inductive result :=
| result_none | result_stored | result_not_stored | result_exists
| result_not_found | result_deleted | result_found | result_touched.

(** storage.h:60-72 *)
Definition behavior_skip_lock : N := 1.
Definition behavior_skip_timestamp : N := 2.
Definition behavior_skip_version : N := 4.
Definition behavior_version_equal : N := 8.
Definition behavior_add : N := 16.
Definition behavior_replace : N := 32.
Definition behavior_cas : N := 64.
Definition behavior_append : N := 128.
Definition behavior_prepend : N := 256.
Definition behavior_dump : N := 512.
Definition behavior_touch : N := 1024.
(** [b & m] used as a condition. *)
Definition has (b m : N) : bool := negb (N.land b m =? 0).

(** storage.h:132-146 *)
Record entry := mkEntry {
  e_key : key;
  e_flag : N;         (* uint32_t *)
  e_expire : Z;       (* time_t *)
  e_size : N;         (* uint64_t *)
  e_version : N;      (* uint64_t *)
  e_option : N;       (* uint32_t *)
  e_data : bytes;     (* the allocation behind e.data *)
}.
Definition empty_entry (k : key) : entry := mkEntry k 0 0 0 0 0 [].

Definition with_flag (e : entry) v := mkEntry (e_key e) v (e_expire e) (e_size e) (e_version e) (e_option e) (e_data e).
Definition with_expire (e : entry) v := mkEntry (e_key e) (e_flag e) v (e_size e) (e_version e) (e_option e) (e_data e).
Definition with_size (e : entry) v := mkEntry (e_key e) (e_flag e) (e_expire e) v (e_version e) (e_option e) (e_data e).
Definition with_version (e : entry) v := mkEntry (e_key e) (e_flag e) (e_expire e) (e_size e) v (e_option e) (e_data e).
Definition with_data (e : entry) v := mkEntry (e_key e) (e_flag e) (e_expire e) (e_size e) (e_version e) (e_option e) v.

(** storage.h:141-142 *)
Definition header_size : N := 28.
Definition max_data_size : N := 2147483647.

(** storage.cc:256-276 [_serialize_header]; memcpy of host (little-endian
    x86-64) integers. *)
Definition ser_header (e : entry) : bytes :=
  le_enc 4 (e_flag e) ++ le_enc 8 (i64_to_u64 (e_expire e))
  ++ le_enc 8 (e_size e) ++ le_enc 8 (e_version e).

(** [len] bytes of [l] starting at [off]. *)
Definition slice (off len : nat) (l : bytes) : bytes := firstn len (skipn off l).

(** storage.cc:278-316 [_unserialize_header]: the fields are filled one after
    the other, so a short buffer leaves the earlier ones overwritten.
    Result: updated entry and whether the offset (28) rather than -1 is returned. *)
Definition unser_header (raw : bytes) (e : entry) : entry * bool :=
  if blen raw <? 4 then (e, false) else
  let e := with_flag e (le_dec (slice 0 4 raw)) in
  if blen raw <? 12 then (e, false) else
  let e := with_expire e (u64_to_i64 (le_dec (slice 4 8 raw))) in
  if blen raw <? 20 then (e, false) else
  let e := with_size e (le_dec (slice 12 8 raw)) in
  if blen raw <? 28 then (e, false) else
  let e := with_version e (le_dec (slice 20 8 raw)) in
  (e, true).

(** The header cache (tombstones): a TCMAP, i.e. an insertion-ordered map from
    key to (expire, version); tcmapput on a present key overwrites in place. *)
Definition hcache_t := list (key * (Z * N)).
Fixpoint hc_get (c : hcache_t) (k : key) : option (Z * N) :=
  match c with
  | [] => None
  | (k', v) :: c' => if beq k' k then Some v else hc_get c' k
  end.
Fixpoint hc_put (c : hcache_t) (k : key) (v : Z * N) : hcache_t :=
  match c with
  | [] => [(k, v)]
  | (k', v') :: c' => if beq k' k then (k', v) :: c' else (k', v') :: hc_put c' k v
  end.

(** State of a storage object: database, header cache, configured cache size. *)
Record store := mkStore {
  db : gmap key bytes;
  hcache : hcache_t;
  hcache_size : N;
}.
Definition init_store (cache_size : N) : store := mkStore ∅ [] cache_size.
Definition set_db (s : store) d := mkStore d (hcache s) (hcache_size s).
Definition set_hcache (s : store) c := mkStore (db s) c (hcache_size s).

(** storage.cc:318-341 [_set_header_cache]: put, then tcmapcutfront of the
    excess (records are dropped oldest first). *)
Definition set_header_cache (s : store) (now : Z) (k : key) (e : entry) : store :=
  let exp := if (e_expire e =? 0)%Z then now else e_expire e in
  let c := hc_put (hcache s) k (exp, e_version e) in
  set_hcache s (skipn (length c - N.to_nat (hcache_size s)) c).

(** storage.h:424-443 [_get_header_cache]. *)
Definition get_header_cache (s : store) (k : key) (e : entry) : entry :=
  match hc_get (hcache s) k with
  | None => e
  | Some (exp, v) => with_version (with_expire e exp) v
  end.

(** storage_tch.cc:686-706 [_get_header]; tchdbget3 copies at most header_size
    bytes.  The boolean is "returned 0". *)
Definition get_header (s : store) (k : key) (e : entry) : entry * bool :=
  match db s !! k with
  | None => (get_header_cache s k e, false)
  | Some raw => unser_header (firstn (N.to_nat header_size) raw) e
  end.

(** What an operation leaves behind: new state, C++ return value, the value
    assigned to the result argument ([None]: never assigned), the entry argument
    after the call. *)
Record outcome := mkOut {
  o_store : store;
  o_ret : Z;
  o_res : option result;
  o_entry : entry;
}.

(** e.expire > 0 && e.expire <= now *)
Definition expired_at (now : Z) (exp : Z) : bool := (0 <? exp)%Z && (exp <=? now)%Z.

(** storage_tch.cc:513-579 [remove]. *)
Definition remove (s : store) (now : Z) (e : entry) (b : N) : outcome :=
  let '(cur, exists_) := get_header s (e_key e) (empty_entry []) in
  if negb (has b behavior_skip_version) && negb (e_version e =? 0)
     && ((negb (has b behavior_version_equal) && (e_version e <? e_version cur))
         || (has b behavior_version_equal && negb (e_version e =? e_version cur)))
  then mkOut s 0 (Some result_not_found) e
  else if negb exists_ then
    let s' := if negb (e_version e =? 0) then set_header_cache s now (e_key e) e else s in
    mkOut s' 0 (Some result_not_found) e
  else
    let expired := negb (has b behavior_skip_timestamp) && expired_at now (e_expire cur) in
    let s1 := set_db s (delete (e_key e) (db s)) in
    let r := if expired then result_not_found else result_deleted in
    let e' := if e_version e =? 0 then with_version e (e_version cur) else e in
    mkOut (set_header_cache s1 now (e_key e) e') 0 (Some r) e'.

(** storage_tch.cc:444-511 [get]; on an expired record the record is removed
    (version_equal) and the answer is NOT_FOUND. *)
Definition get (s : store) (now : Z) (e : entry) (b : N) : outcome :=
  match db s !! e_key e with
  | None => mkOut s 0 (Some result_not_found) e
  | Some raw =>
    let '(e1, ok) := unser_header raw e in
    if negb ok then mkOut s (-1) None e1
    else if negb (blen raw - header_size =? e_size e1) then mkOut s (-1) None e1
    else if negb (has b behavior_skip_timestamp) && expired_at now (e_expire e1) then
      let o := remove s now e1 (N.lor (N.land b behavior_skip_lock) behavior_version_equal) in
      mkOut (o_store o) 0 (Some result_not_found) (o_entry o)
    else mkOut s 0 (Some result_none) (with_data e1 (skipn (N.to_nat header_size) raw))
  end.

(** memcpy(dst, data, n): undefined ([None]) when the source allocation is
    shorter than [n]. *)
Definition memcpy (data : bytes) (n : N) : option bytes :=
  if n <=? blen data then Some (firstn (N.to_nat n) data) else None.

(** tchdbput(key, raw): the value length is passed as an [int], so lengths
    above INT_MAX are outside the contract ([None]). *)
Definition db_put (s : store) (k : key) (raw : bytes) : option store :=
  if blen raw <=? 2147483647 then Some (set_db s (<[k := raw]> (db s))) else None.

(** storage_tch.cc:158-162 *)
Inductive cur_state := st_alive | st_not_expired | st_gone.
Definition cur_state_eqb (a b : cur_state) : bool :=
  match a, b with
  | st_alive, st_alive | st_not_expired, st_not_expired | st_gone, st_gone => true
  | _, _ => false
  end.

(** storage_tch.cc:163-174 *)
Definition current_state (now : Z) (b : N) (cur : entry) (exists_ : bool) : cur_state :=
  if exists_ then
    if negb (has b behavior_skip_timestamp) && expired_at now (e_expire cur) then st_gone else st_alive
  else
    if negb (has b behavior_skip_timestamp) && (0 <? e_expire cur)%Z && (now <? e_expire cur)%Z
    then st_not_expired else st_gone.

(** storage_tch.cc:140-155: current entry; append/prepend/touch read the whole
    record (which may remove an expired one), the others just the header. *)
Definition current_entry (s : store) (now : Z) (k : key) (b : N) : store * entry * bool :=
  if has b (N.lor behavior_append (N.lor behavior_prepend behavior_touch)) then
    let o := get s now (empty_entry k) behavior_skip_lock in
    let missing := match o_res o with Some result_not_found => true | _ => (o_ret o <? 0)%Z end in
    if missing then (o_store o, get_header_cache (o_store o) k (o_entry o), false)
    else (o_store o, o_entry o, true)
  else
    let '(cur, ex) := get_header s k (empty_entry []) in (s, cur, ex).

(** storage_tch.cc:197-222: version handling; [inl r] = refused with result r,
    [inr v] = the version to store. *)
Definition next_version (st : cur_state) (cur e : entry) (b : N) : result + N :=
  if has b behavior_cas then
    if cur_state_eqb st st_gone then inl result_not_found
    else if negb (e_version e =? e_version cur) then inl result_exists
    else inr (u64 (e_version e + 1))
  else if has b behavior_touch then inr (e_version cur)
  else if negb (has b behavior_skip_version) && negb (e_version e =? 0) then
    if (cur_state_eqb st st_alive || has b behavior_dump) && (e_version e <=? e_version cur)
    then inl result_not_stored else inr (e_version e)
  else if e_version e =? 0 then inr (u64 (e_version cur + 1))
  else inr (e_version e).

(** storage_tch.cc:125-309 [set].  [None]: undefined behaviour (memcpy past the
    end of the data, or a record longer than INT_MAX). *)
Definition set (s : store) (now : Z) (e : entry) (b : N) : option outcome :=
  let '(s1, cur, ex) := current_entry s now (e_key e) b in
  let st := current_state now b cur ex in
  if has b behavior_add && negb (cur_state_eqb st st_gone) then
    Some (mkOut s1 0 (Some result_not_stored) e)
  else if has b behavior_replace && negb (cur_state_eqb st st_alive) then
    Some (mkOut s1 0 (Some result_not_stored) e)
  else if has b behavior_touch && negb (cur_state_eqb st st_alive) then
    Some (mkOut s1 0 (Some result_not_found) e)
  else match next_version st cur e b with
  | inl r => Some (mkOut s1 0 (Some r) e)
  | inr v =>
    let e1 := with_version e v in
    if has b (N.lor behavior_append behavior_prepend) then
      if negb (cur_state_eqb st st_alive) then Some (mkOut s1 (-1) None e1)
      else
        let e2 := with_size (with_flag (with_expire e1 (e_expire cur)) (e_flag cur))
                            (u64 (e_size e1 + e_size cur)) in
        match memcpy (e_data cur) (e_size cur), memcpy (e_data e1) (e_size e1) with
        | Some dc, Some dn =>
          let d := if has b behavior_append then dc ++ dn else dn ++ dc in
          match db_put s1 (e_key e) (ser_header e2 ++ d) with
          | Some s2 =>
            let e3 := with_data e2 d in
            Some (if has b behavior_touch
                  then mkOut s2 0 (Some result_touched)
                         (with_version (with_size (with_data e3 (e_data cur)) (e_size cur)) (e_version cur))
                  else mkOut s2 0 (Some result_stored) e3)
          | None => None
          end
        | _, _ => None
        end
    else if has b behavior_touch then
      let e2 := with_data (with_size (with_flag e1 (e_flag cur)) (e_size cur)) (e_data cur) in
      match memcpy (e_data cur) (e_size cur) with
      | Some d =>
        match db_put s1 (e_key e) (ser_header e2 ++ d) with
        | Some s2 => Some (mkOut s2 0 (Some result_touched) (with_version e2 (e_version cur)))
        | None => None
        end
      | None => None
      end
    else
      match memcpy (e_data e1) (e_size e1) with
      | Some d =>
        match db_put s1 (e_key e) (ser_header e1 ++ d) with
        | Some s2 => Some (mkOut s2 0 (Some result_stored) e1)
        | None => None
        end
      | None => None
      end
  end.

(** storage_tch.cc:355-370: the number at the start of the data.  The scan
    relies on the NUL tchdbget appends; an empty or out-of-range numeral makes
    lexical_cast throw, which counts as 0. *)
Definition leading_number (data : bytes) : N :=
  let v := dec_val (fst (span is_digit data)) in
  if v <? 2 ^ 64 then v else 0.

(** storage_tch.cc:373-378 *)
Definition incr_value (n value : N) (increment : bool) : N :=
  let m := if increment then u64 (n + value) else u64 (n + u64 (2 ^ 64 - value)) in
  if increment && (m <? n) then 2 ^ 64 - 1
  else if negb increment && (n <? m) then 0
  else m.

(** storage_tch.cc:311-442 [incr]. *)
Definition incr (s : store) (now : Z) (e : entry) (value : N) (increment : bool) (b : N) : option outcome :=
  match db s !! e_key e with
  | None => Some (mkOut s 0 (Some result_not_found) e)
  | Some raw =>
    let '(cur0, ok) := unser_header raw (empty_entry []) in
    if negb ok then Some (mkOut s (-1) None e)
    else
      let cur := mkEntry (e_key e) (e_flag cur0) (e_expire cur0) (e_size cur0) (e_version cur0) 0 [] in
      if negb (blen raw - header_size =? e_size cur) then Some (mkOut s (-1) None e)
      else if negb (has b behavior_skip_timestamp) && expired_at now (e_expire cur) then
        let o := remove s now cur (N.lor (N.land b behavior_skip_lock) behavior_version_equal) in
        Some (mkOut (o_store o) 0 (Some result_not_found) e)
      else
        let m := incr_value (leading_number (skipn (N.to_nat header_size) raw)) value increment in
        let d := dec m in
        let e' := mkEntry (e_key e) (e_flag cur) (e_expire cur) (blen d) (u64 (e_version cur + 1)) (e_option e) d in
        match db_put s (e_key e) (ser_header e' ++ d) with
        | Some s2 => Some (mkOut s2 0 (Some result_stored) e')
        | None => None
        end
  end.

(** storage_tch.cc:581-604 [truncate]. *)
Definition truncate (s : store) : store := mkStore ∅ [] (hcache_size s).

(** Operations as data, to talk about histories.  The clock value is part of
    each operation and is not required to be monotone. *)
Inductive op :=
| OSet (now : Z) (e : entry) (b : N)
| OIncr (now : Z) (e : entry) (value : N) (increment : bool) (b : N)
| OGet (now : Z) (e : entry) (b : N)
| ORemove (now : Z) (e : entry) (b : N)
| OTruncate.

Definition run_op (s : store) (o : op) : option outcome :=
  match o with
  | OSet now e b => set s now e b
  | OIncr now e v i b => incr s now e v i b
  | OGet now e b => Some (get s now e b)
  | ORemove now e b => Some (remove s now e b)
  | OTruncate => Some (mkOut (truncate s) 0 None (empty_entry []))
  end.

(** A history runs until its end or until undefined behaviour ([None]). *)
Fixpoint run (s : store) (l : list op) : option store :=
  match l with
  | [] => Some s
  | o :: l' => match run_op s o with Some r => run (o_store r) l' | None => None end
  end.
