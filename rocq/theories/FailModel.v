(** Model of a node whose database refuses to write: the branches of src/lib/storage_tch.cc in which tchdbput, tchdbputasync
    or tchdbout fail, src/flared/flared.cc:459-466 ([on_storage_error]), src/flared/status_node.h, src/lib/op_ping.cc:78-86,
    src/lib/op_flush_all.cc:133-147, and op_dump.cc:300-305 at a node that copies.

    The functions are those of [StorageModel], [ServerModel] and [DumpModel] with these branches added; the proofs show that they are the
    same as long as nothing fails.  Simplifications: a call that fails leaves the database as it was; a write of
    tchdbputasync that fails only later, when it is flushed, does not show. *)
From stdpp Require Import gmap.
From Coq Require Import String.
From Verif Require Import Base StorageModel TextModel SessionModel ServerModel DumpModel.
Local Open Scope N_scope.

(** Whether the database takes a write or a removal of a key, and whether it can be emptied, while a request is
    served. *)
Record mood := mkMood { writes : bytes -> bool; empties : bool }.
Definition fine : mood := mkMood (fun _ => true) true.

Section Storage.
  Variable ok : bytes -> bool.
  (** storage_tch.cc:513-579 [remove]; the boolean: on_storage_error was called (559-564) *)
  Definition remove_f (s : store) (now : Z) (e : entry) (b : N) : outcome * bool :=
    let '(cur, exists_) := get_header s (e_key e) (empty_entry []) in
    if negb (has b behavior_skip_version) && negb (e_version e =? 0)
       && ((negb (has b behavior_version_equal) && (e_version e <? e_version cur))
           || (has b behavior_version_equal && negb (e_version e =? e_version cur)))
    then (mkOut s 0 (Some result_not_found) e, false)
    else if negb exists_ then
      let s' := if negb (e_version e =? 0) then set_header_cache s now (e_key e) e else s in
      (mkOut s' 0 (Some result_not_found) e, false)
    else if negb (ok (e_key e)) then (mkOut s (-1) None e, true)
    else
      let expired := negb (has b behavior_skip_timestamp) && expired_at now (e_expire cur) in
      let s1 := set_db s (delete (e_key e) (db s)) in
      let r := if expired then result_not_found else result_deleted in
      let e' := if e_version e =? 0 then with_version e (e_version cur) else e in
      (mkOut (set_header_cache s1 now (e_key e) e') 0 (Some r) e', false).
  (** storage_tch.cc:444-511 [get]: what the removal of an expired record returns is not looked at *)
  Definition get_f (s : store) (now : Z) (e : entry) (b : N) : outcome * bool :=
    match db s !! e_key e with
    | None => (mkOut s 0 (Some result_not_found) e, false)
    | Some raw =>
      let '(e1, fits) := unser_header raw e in
      if negb fits then (mkOut s (-1) None e1, false)
      else if negb (blen raw - header_size =? e_size e1) then (mkOut s (-1) None e1, false)
      else if negb (has b behavior_skip_timestamp) && expired_at now (e_expire e1) then
        let '(o, err) := remove_f s now e1 (N.lor (N.land b behavior_skip_lock) behavior_version_equal) in
        (mkOut (o_store o) 0 (Some result_not_found) (o_entry o), err)
      else (mkOut s 0 (Some result_none) (with_data e1 (skipn (N.to_nat header_size) raw)), false)
    end.
  (** storage_tch.cc:140-155 *)
  Definition current_entry_f (s : store) (now : Z) (k : key) (b : N) : store * entry * bool * bool :=
    if has b (N.lor behavior_append (N.lor behavior_prepend behavior_touch)) then
      let '(o, err) := get_f s now (empty_entry k) behavior_skip_lock in
      let missing := match o_res o with Some result_not_found => true | _ => (o_ret o <? 0)%Z end in
      if missing then (o_store o, get_header_cache (o_store o) k (o_entry o), false, err)
      else (o_store o, o_entry o, true, err)
    else
      let '(cur, ex) := get_header s k (empty_entry []) in (s, cur, ex, false).
  (** storage_tch.cc:260-288: the end of [set] and of [incr] (404-424) *)
  Definition put_f (s : store) (e : entry) (raw : bytes) (err : bool) (r : result) (done : entry) : option (outcome * bool) :=
    match db_put s (e_key e) raw with
    | None => None
    | Some s2 => Some (if ok (e_key e) then (mkOut s2 0 (Some r) done, err) else (mkOut s (-1) None done, true))
    end.
  (** storage_tch.cc:125-309 [set] *)
  Definition set_f (s : store) (now : Z) (e : entry) (b : N) : option (outcome * bool) :=
    let '(s1, cur, ex, err) := current_entry_f s now (e_key e) b in
    let st := current_state now b cur ex in
    if has b behavior_add && negb (cur_state_eqb st st_gone) then
      Some (mkOut s1 0 (Some result_not_stored) e, err)
    else if has b behavior_replace && negb (cur_state_eqb st st_alive) then
      Some (mkOut s1 0 (Some result_not_stored) e, err)
    else if has b behavior_touch && negb (cur_state_eqb st st_alive) then
      Some (mkOut s1 0 (Some result_not_found) e, err)
    else match next_version st cur e b with
    | inl r => Some (mkOut s1 0 (Some r) e, err)
    | inr v =>
      let e1 := with_version e v in
      if has b (N.lor behavior_append behavior_prepend) then
        if negb (cur_state_eqb st st_alive) then Some (mkOut s1 (-1) None e1, err)
        else
          let e2 := with_size (with_flag (with_expire e1 (e_expire cur)) (e_flag cur))
                              (u64 (e_size e1 + e_size cur)) in
          match memcpy (e_data cur) (e_size cur), memcpy (e_data e1) (e_size e1) with
          | Some dc, Some dn =>
            let d := if has b behavior_append then dc ++ dn else dn ++ dc in
            let e3 := with_data e2 d in
            put_f s1 e (ser_header e2 ++ d) err (if has b behavior_touch then result_touched else result_stored)
              (if has b behavior_touch then with_version (with_size (with_data e3 (e_data cur)) (e_size cur)) (e_version cur) else e3)
          | _, _ => None
          end
      else if has b behavior_touch then
        let e2 := with_data (with_size (with_flag e1 (e_flag cur)) (e_size cur)) (e_data cur) in
        match memcpy (e_data cur) (e_size cur) with
        | Some d => put_f s1 e (ser_header e2 ++ d) err result_touched (with_version e2 (e_version cur))
        | None => None
        end
      else
        match memcpy (e_data e1) (e_size e1) with
        | Some d => put_f s1 e (ser_header e1 ++ d) err result_stored e1
        | None => None
        end
    end.
  (** storage_tch.cc:311-442 [incr] *)
  Definition incr_f (s : store) (now : Z) (e : entry) (value : N) (increment : bool) (b : N) : option (outcome * bool) :=
    match db s !! e_key e with
    | None => Some (mkOut s 0 (Some result_not_found) e, false)
    | Some raw =>
      let '(cur0, fits) := unser_header raw (empty_entry []) in
      if negb fits then Some (mkOut s (-1) None e, false)
      else
        let cur := mkEntry (e_key e) (e_flag cur0) (e_expire cur0) (e_size cur0) (e_version cur0) 0 [] in
        if negb (blen raw - header_size =? e_size cur) then Some (mkOut s (-1) None e, false)
        else if negb (has b behavior_skip_timestamp) && expired_at now (e_expire cur) then
          let '(o, err) := remove_f s now cur (N.lor (N.land b behavior_skip_lock) behavior_version_equal) in
          Some (mkOut (o_store o) 0 (Some result_not_found) e, err)
        else
          let m := incr_value (leading_number (skipn (N.to_nat header_size) raw)) value increment in
          let d := dec m in
          let e' := mkEntry (e_key e) (e_flag cur) (e_expire cur) (blen d) (u64 (e_version cur + 1)) (e_option e) d in
          put_f s e (ser_header e' ++ d) false result_stored e'
    end.
  (** op_get.cc:97-157 *)
  Fixpoint run_get_f (now : Z) (s : store) (t : response_type) (keys : list bytes) : store * bytes * bool :=
    match keys with
    | [] => (s, s2b "END" ++ crlf, false)
    | k :: keys' =>
        let '(o, err) := get_f s now (empty_entry k) 0 in
        let '(s', out, err') := run_get_f now (o_store o) t keys' in
        (s', match o_res o with Some result_none => print_response t (o_entry o) | _ => [] end ++ out, err || err')
    end.
End Storage.

(** A node: its database, and whether its status is ok (status_node.h; nothing sets it back to ok). *)
Record node := mkNode { n_store : store; n_healthy : bool }.
Definition told (n : node) (x : res reply) (err : bool) : res (reply * node) :=
  let* p := x in Ok (p, mkNode (p_store p) (n_healthy n && negb err)).
Definition with_outcome (n : node) (x : option (outcome * bool)) (f : outcome -> res reply) : res (reply * node) :=
  match x with None => Undef | Some (o, err) => told n (f o) err end.
(** The [_run_server] functions, as in [ServerModel]; op_ping.cc:78-86; op_flush_all.cc:133-147 with storage_tch.cc:581-604: the
    header cache is emptied although the database is not, and the status stays as it is. *)
Definition serve (m : mood) (now : Z) (n : node) (r : request) : res (reply * node) :=
  let s := n_store n in
  match r with
  | RStore ident e => with_outcome n (set_f (writes m) s now e (store_behavior ident)) (fun o => finish o is_stored ident answer_line)
  | RDelete e => with_outcome n (Some (remove_f (writes m) s now e 0)) (fun o => finish o is_deleted (s2b "delete") answer_line)
  | RTouch ident e => with_outcome n (set_f (writes m) s now e behavior_touch) (fun o => finish o is_stored ident (fun r =>
      if beq ident (s2b "gat") && is_stored r then print_response response_get (o_entry o) else answer_line r))
  | RIncr ident e v => with_outcome n (incr_f (writes m) s now e v (beq ident (s2b "incr")) 0) (fun o => finish o is_stored ident (fun r =>
      if is_stored r then firstn (N.to_nat (e_size (o_entry o))) (e_data (o_entry o)) ++ crlf else answer_line r))
  | RGet ident keys =>
      let '(s', out, err) := run_get_f (writes m) now s (if beq ident (s2b "gets") then response_gets else response_get) keys in
      told n (Ok (mkReply s' out None)) err
  | RPlain w => told n (Ok (mkReply s (if beq w (s2b "ping") && negb (n_healthy n) then s2b "SERVER_ERROR storage error" ++ crlf else run_plain w) None)) false
  | RFlush nr =>
      if empties m then told n (Ok (mkReply (truncate s) (ok_line nr) None)) false
      else told n (Ok (mkReply (mkStore (db s) [] (hcache_size s)) (if nr then [] else s2b "SERVER_ERROR unknown error" ++ crlf) None)) false
  | RVerbosity nr => told n (Ok (mkReply s (ok_line nr) None)) false
  | ROther _ => Err
  end.
(** Requests one after the other, each with its clock and what the database does. *)
Fixpoint serve_all (n : node) (l : list (mood * Z * request)) : res (node * list bytes) :=
  match l with
  | [] => Ok (n, [])
  | (m, now, r) :: l => let* (p, n) := serve m now n r in let* (n, out) := serve_all n l in Ok (n, p_answer p :: out)
  end.

(** op_dump.cc:243-310 at the receiving node ([dump_client]): each round with whether the database takes a write.
    [missed]: the keys of the writes that failed. *)
Fixpoint copy_f (rs : list (round * bool)) (s : store) (str : bytes) (missed : list bytes) : dres * list bytes :=
  match rs with
  | [] => (DRunning s, missed)
  | (r, w) :: rs =>
      if r_stop1 r then (DDone s str, missed) else
      match get_line str with
      | Undef => (DUndef, missed)
      | Err => (DFail s, missed)
      | Ok (line, str) =>
          if r_stop2 r then (DDone s str, missed)
          else if beq (TextModel.cstr line) (s2b "END" ++ [10]) then (DDone s str, missed)
          else match call_word BUFSIZ line with
          | Undef => (DUndef, missed)
          | Err => (DFail s, missed)
          | Ok (x, p) =>
              if negb (beq x (s2b "VALUE")) then (DFail s, missed)
              else match parse_entry (r_now r) parse_get p with
              | Undef => (DUndef, missed)
              | Err => (DFail s, missed)
              | Ok e =>
                  match get_bytes (e_size e + 2) str with
                  | Undef => (DUndef, missed)
                  | Err => (DFail s, missed)
                  | Ok (d, str) =>
                      let e := with_data e (firstn (N.to_nat (e_size e)) d) in
                      match set_f (fun _ => w) s (r_now r) e behavior_dump with
                      | None => (DUndef, missed)
                      | Some (o, err) => copy_f rs (o_store o) str (if err then missed ++ [e_key e] else missed)
                      end
                  end
              end
          end
      end
  end.
