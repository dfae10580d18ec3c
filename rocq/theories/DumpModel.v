(** Model of dump and reconstruction: src/lib/op_dump.cc:157-310, storage_tch.cc:606-670
    (iterator), handler_reconstruction.cc:67-112, cluster.cc:1544-1601 and cluster.h:238.

    Simplifications: waiting and bandwidth limiting (LimitModel) have no effect on
    the data; the connection is a stream of bytes (StreamModel shows that its segments do not matter). *)
From stdpp Require Import gmap.
From Coq Require Import String.
From Verif Require Import Base StorageModel TextModel KeyResolverModel.
Local Open Scope N_scope.

(** ** The sending node *)
(** One round of the loop: the key the database iterator returns, the clock, whether a shutdown
    is requested, and how much of a record reaches the receiver ([None]: all; else the connection
    breaks after that many bytes). *)
Record turn := mkTurn { t_key : bytes; t_now : Z; t_stop : bool; t_sent : option nat }.
(** How the iteration ends (storage.h:126-130), and how the dump ends. *)
Inductive iteration := iteration_end | iteration_error.
Inductive ending := Ended | Interrupted | Canceled | Broken | Undefined.

Definition with_key (e : entry) (k : key) : entry :=
  mkEntry k (e_flag e) (e_expire e) (e_size e) (e_version e) (e_option e) (e_data e).

(** op.cc:181-190 [_send_text_result] for the three ends of a dump (op_dump.cc:222-230) *)
Definition last_line (x : ending) : bytes :=
  match x with
  | Ended => s2b "END" ++ crlf
  | Interrupted => s2b "SERVER_ERROR operation interrupted" ++ crlf
  | Canceled => s2b "SERVER_ERROR iteration canceled" ++ crlf
  | Broken | Undefined => []
  end.

Section Sender.
  (** the key resolver, the hash functions of libhashkit and zlib, the configured hash, and the
      partition and number of partitions of the request *)
  Variables (cfg : config) (ext : hash_algorithm -> bytes -> Z) (alg : hash_algorithm) (part : Z) (psize : nat).

  (** op_dump.cc:181-188; [None]: the resolver is used outside its table *)
  Definition selected (k : key) : option bool :=
    if (part <? 0)%Z then Some true
    else match resolve cfg (key_hash ext alg k) psize with
    | None => None
    | Some p => Some (Z.of_nat p =? part)%Z
    end.

  (** op_dump.cc:175-219.  The entry [e] lives across the rounds.  Returns the
      store (get removes expired records), the bytes sent and the end. *)
  Fixpoint dump_loop (s : store) (e : entry) (ts : list turn) (last : iteration) (stop_at_end : bool) : store * bytes * ending :=
    match ts with
    | [] => (s, [], if stop_at_end then Interrupted else match last with iteration_end => Ended | iteration_error => Canceled end)
    | t :: ts =>
        if t_stop t then (s, [], Interrupted)
        else
          let e := with_key e (TextModel.cstr (t_key t)) in  (* storage_tch.cc:648: key = p *)
          match selected (e_key e) with
          | None => (s, [], Undefined)
          | Some false => dump_loop s e ts last stop_at_end
          | Some true =>
              let o := get s (t_now t) e 0 in
              if (o_ret o <? 0)%Z || match o_res o with Some result_not_found => true | _ => false end
              then dump_loop (o_store o) (o_entry o) ts last stop_at_end
              else
                let b := print_response response_dump (o_entry o) in
                match t_sent t with
                | Some n => (o_store o, firstn n b, Broken)
                | None => let '(s', out, x) := dump_loop (o_store o) (o_entry o) ts last stop_at_end in (s', b ++ out, x)
                end
          end
    end.
  (** op_dump.cc:157-231 after iter_begin succeeded *)
  Definition dump_server (s : store) (ts : list turn) (last : iteration) (stop_at_end : bool) : store * bytes * ending :=
    let '(s', out, x) := dump_loop s (empty_entry []) ts last stop_at_end in (s', out ++ last_line x, x).

  (** op_dump_key.cc:145-178: the keys only, expired or not; a failed write closes the connection *)
  Fixpoint dump_keys (ts : list turn) (last : iteration) : bytes * ending :=
    match ts with
    | [] => match last with
        | iteration_end => (s2b "END" ++ crlf, Ended)
        | iteration_error => (s2b "SERVER_ERROR" ++ crlf, Canceled)
        end
    | t :: ts =>
        let k := TextModel.cstr (t_key t) in
        match selected k with
        | None => ([], Undefined)
        | Some false => dump_keys ts last
        | Some true =>
            let b := s2b "KEY " ++ k ++ crlf in
            match t_sent t with
            | Some n => (firstn n b, Broken)
            | None => let '(out, x) := dump_keys ts last in (b ++ out, x)
            end
        end
    end.
End Sender.

(** ** The database iterator: one cursor for all *)
(** storage_tch.cc:606-670: [order]: the keys of the (quiescent) database in the order of
    Tokyo Cabinet; the state: _iter_lock and what the cursor has left. *)
Record iter := mkIter { it_lock : bool; it_left : list bytes }.
Definition iter_begin (order : list bytes) (i : iter) : iter * bool :=
  if it_lock i then (i, false) else (mkIter true order, true).
Inductive next := Next (k : bytes) | NoMore | NotBegun.
Definition iter_next (i : iter) : iter * next :=
  if it_lock i then match it_left i with [] => (i, NoMore) | k :: l => (mkIter true l, Next k) end else (i, NotBegun).
Definition iter_end (i : iter) : iter := mkIter false (it_left i).

(** Threads with dump requests: op_dump.cc:162-164, 175, 221.  The loop gives up ([quit]) when a shutdown is
    requested or the connection breaks (177, 203-205); [Ending] and [Finished] tell whether the iteration came to its end. *)
Inductive dumper := Waiting | Busy (* refused *) | Dumping (got : list bytes) | Ending (got : list bytes) (whole : bool) | Finished (got : list bytes) (whole : bool).
Definition dumper_step (order : list bytes) (i : iter) (d : dumper) (quit : bool) : iter * dumper :=
  match d with
  | Waiting => let '(i, ok) := iter_begin order i in (i, if ok then Dumping [] else Busy)
  | Dumping got =>
      match iter_next i with
      | (i, Next k) => (i, if quit then Ending got false else Dumping (got ++ [k]))
      | (i, NoMore) => (i, Ending got true)
      | (i, NotBegun) => (i, Ending got false)
      end
  | Ending got whole => (iter_end i, Finished got whole)
  | Busy | Finished _ _ => (i, d)
  end.
Fixpoint dumpers (order : list bytes) (i : iter) (ds : list dumper) (sched : list (nat * bool)) : iter * list dumper :=
  match sched with
  | [] => (i, ds)
  | (t, quit) :: l =>
      match nth_error ds t with
      | None => dumpers order i ds l
      | Some d => let '(i, d) := dumper_step order i d quit in dumpers order i (firstn t ds ++ d :: skipn (S t) ds) l
      end
  end.

(** ** The receiving node *)
(** One round of the client loop: whether a shutdown is requested before and after reading the
    line, and the clock. *)
Record round := mkRound { r_stop1 : bool; r_stop2 : bool; r_now : Z }.
(** [DRunning]: still reading.  [DDone]: the function returns 0. *)
Inductive dres := DUndef | DRunning (s : store) | DFail (s : store) | DDone (s : store) (rest : bytes).

(** op_dump.cc:243-310 [_parse_text_client_parameters] *)
Fixpoint dump_client (rs : list round) (s : store) (str : bytes) : dres :=
  match rs with
  | [] => DRunning s
  | r :: rs =>
      if r_stop1 r then DDone s str else
      match get_line str with
      | Undef => DUndef
      | Err => DFail s
      | Ok (line, str) =>
          if r_stop2 r then DDone s str
          else if beq (TextModel.cstr line) (s2b "END" ++ [10]) then DDone s str
          else match call_word BUFSIZ line with
          | Undef => DUndef
          | Err => DFail s
          | Ok (w, p) =>
              if negb (beq w (s2b "VALUE")) then DFail s  (* also SERVER_ERROR *)
              else match parse_entry (r_now r) parse_get p with
              | Undef => DUndef
              | Err => DFail s
              | Ok e =>
                  match get_bytes (e_size e + 2) str with
                  | Undef => DUndef
                  | Err => DFail s
                  | Ok (d, str) =>
                      let e := with_data e (firstn (N.to_nat (e_size e)) d) in
                      match set s (r_now r) e behavior_dump with
                      | None => DUndef
                      | Some o => dump_client rs (o_store o) str
                      end
                  end
              end
          end
      end
  end.

(** ** Activation *)
Inductive act := Activate | Deactivate.
(** handler_reconstruction.cc:67-112 for a slave: [c]: connected *)
Definition slave_handler (c : bool) (d : dres) : option act :=
  if negb c then Some Deactivate
  else match d with
  | DDone _ _ => Some Activate
  | DFail _ => Some Deactivate
  | DRunning _ | DUndef => None
  end.
(** A new master: one thread for each partition that exists; cluster.cc:1547-1575 counts and starts
    one after the other, handler_reconstruction.cc:99-105 counts down. *)
Inductive worker := Running | Completed | Failed.
Record master := mkMaster { m_count : Z; m_workers : list worker }.
Inductive mevent := Spawn | Finish (i : nat) (ok : bool).
Definition master_step (m : master) (ev : mevent) : master * list act :=
  match ev with
  | Spawn => (mkMaster (m_count m + 1) (m_workers m ++ [Running]), [])
  | Finish i ok =>
      match nth_error (m_workers m) i with
      | Some Running =>
          let ws x := firstn i (m_workers m) ++ x :: skipn (S i) (m_workers m) in
          if ok then
            let n := (m_count m - 1)%Z in
            (mkMaster n (ws Completed), if (n <=? 0)%Z then [Activate] else [])
          else (mkMaster (m_count m) (ws Failed), [Deactivate])
      | _ => (m, [])
      end
  end.
Fixpoint master_run (m : master) (l : list mevent) : master * list act :=
  match l with
  | [] => (m, [])
  | ev :: l => let '(m, a) := master_step m ev in let '(m, b) := master_run m l in (m, a ++ b)
  end.
