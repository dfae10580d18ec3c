(** Model of the replication to a MySQL slave: mysql_replication.cc, mysql_replication.h (ENABLE_MYSQL_REPLICATION).
    The operations that post_proxy_write queues (ServerModel [p_forward], cluster.cc:1475-1480) are taken off in
    their order (handler_mysql_replication.cc:97-139) and sent as statements in events of a binary log.

    Not modelled: the answers to the queries with which a slave begins (mysql_replication.cc:97-157), the handshake, and what is
    left in the queue when the slave goes away. *)
From Coq Require Import NArith ZArith List Bool String.
From Verif Require Import Base StorageModel TextModel.
Import ListNotations.
Local Open Scope N_scope.

(** mysql_replication.cc:192-214 *)
Definition escaped (c : N) : option N :=
  if c =? 0 then Some 48                 (* \0 *)
  else if c =? 10 then Some 110          (* \n *)
  else if c =? 13 then Some 114          (* \r *)
  else if c =? 92 then Some 92           (* \\ *)
  else if c =? 39 then Some 39           (* \' *)
  else if c =? 34 then Some 34           (* double quote *)
  else if c =? 26 then Some 90           (* \Z *)
  else None.
(** mysql_replication.cc:188-221 *)
Definition escape (d : bytes) : bytes :=
  flat_map (fun c => match escaped c with Some e => [92; e] | None => [c] end) d.

Section Replication.
  (** The table and the database of the configuration, the id of the server, and the text that localtime_r and the format of
      line 228 make of a time. *)
  Variables (table database : bytes) (server_id : N) (time_text : Z -> bytes).

  (** mysql_replication.cc:178-234: the statement for an operation.  The buffer holds [size] bytes, which is kept in an int; [Undef]: more
      is written, or more of the value is read than there is. *)
  Definition query (f : bytes * entry) : res bytes :=
    let '(ident, e) := f in
    let size := BUFSIZ + blen (e_key e) + e_size e * 2 in
    if int_max <? size then Undef
    else if beq ident (s2b "delete") then
      let q := s2b "DELETE FROM `" ++ cstr table ++ s2b "` WHERE k='" ++ cstr (e_key e) ++ s2b "'" in
      if blen q <? size then Ok q else Undef
    else
      let head := s2b "REPLACE INTO `" ++ cstr table ++ s2b "` VALUES ('" ++ cstr (e_key e) ++ s2b "', '" in
      match memcpy (e_data e) (e_size e) with
      | None => Undef
      | Some d =>
          let q := head ++ escape d ++ s2b "', " ++ dec (e_flag e) ++ s2b ", " ++ dec (e_version e) ++ s2b ", "
            ++ (if (0 <? e_expire e)%Z then s2b "'" ++ time_text (e_expire e) ++ s2b "')" else s2b "0)") in
          if (blen head <? size) && (blen q <? size) then Ok q else Undef
      end.

  (** mysql_replication.cc:316-383: the event, and the position after it.  [stamp] is the clock, [thread] the id of the thread.
      mysql_int4store (mysql_replication.h:44) stores eight bytes; four of them are overwritten by the fields that follow.  The size
      given to snprintf in line 370 is sizeof(char * ) - 33, which wraps around: it bounds nothing.  [Undef]: more is
      written than the buffer holds, or its size is not an int. *)
  Definition log_event (stamp thread offset : N) (q : bytes) : res (bytes * N) :=
    let len := 19 + 13 + blen database + 1 + blen q in
    let next := u32 (offset + len) in
    if (BUFSIZ <? 33 + blen (cstr database) + 1) || (int_max <? BUFSIZ + blen q) || (int_max <? len) then Undef else
    Ok ([0] ++ le_enc 4 stamp ++ [2] ++ le_enc 4 server_id ++ le_enc 4 len ++ le_enc 4 next ++ le_enc 2 0
        ++ le_enc 4 thread ++ le_enc 4 0 ++ le_enc 1 (blen database) ++ le_enc 2 0 ++ le_enc 2 0 ++ cstr database ++ [0] ++ q, next).

  (** mysql_replication.h:74 *)
  Definition max_packet : N := 16777215.
  (** mysql_replication.cc:529-553: the bytes written for a packet and the next packet id; the connection takes all bytes. *)
  Fixpoint write_packets (fuel : nat) (id : N) (p : bytes) : bytes * N :=
    match fuel with
    | O => ([], id)
    | S fuel' =>
        match p with
        | [] => ([], id)
        | _ =>
            let n := if max_packet <? blen p then max_packet else blen p in
            let '(s, id') := write_packets fuel' (u32 (id + 1)) (if max_packet <? blen p then skipn (N.to_nat n) p else []) in
            (le_enc 3 n ++ [id mod 256] ++ (if max_packet <? blen p then firstn (N.to_nat n) p else p) ++ s, id')
        end
    end.
  Definition write (id : N) (p : bytes) : bytes * N := write_packets (S (N.to_nat (blen p / max_packet))) id p.

  (** handler_mysql_replication.cc:97-139 with mysql_replication.cc:171-244: the operations of the queue, one after the other; the
      bytes sent. *)
  Fixpoint send (thread id offset : N) (l : list (N * (bytes * entry))) : res bytes :=
    match l with
    | [] => Ok []
    | (stamp, f) :: l' =>
        let* q := query f in
        let* (p, offset) := log_event stamp thread offset q in
        let '(s, id) := write id p in
        let* s' := send thread id offset l' in
        Ok (s ++ s')
    end.
End Replication.

(** A byte as a (signed) char. *)
Definition as_char (c : N) : Z := if c <? 128 then Z.of_N c else (Z.of_N c - 256)%Z.
(** mysql_replication.cc:555-577: a packet of the slave.  The length is put together of signed chars.  For a negative one nothing is read
    and -1 is returned; for 0 there is no buffer, which is what [Ok ([], _)] stands for. *)
Definition read_packet (s : bytes) : res (bytes * bytes) :=
  let* (h, s) := get_bytes 4 s in
  match h with
  | [h0; h1; h2; _] =>
      let len := Z.lor (Z.lor (Z.shiftl (as_char h2) 16) (Z.shiftl (as_char h1) 8)) (as_char h0) in
      if (len <? 0)%Z then Err else get_bytes (Z.to_N len) s
  | _ => Err
  end.
(** mysql_replication.cc:79-97: the next command, COM_QUIT (1), COM_BINLOG_DUMP (18) or another one.  Without a buffer
    the command is read through a null pointer. *)
Inductive command_of_slave := Quit | Dump | Other.
Definition slave_command (s : bytes) : res (command_of_slave * bytes) :=
  let* (p, s) := read_packet s in
  match p with
  | [] => Undef
  | c :: _ => Ok (if c =? 1 then Quit else if c =? 18 then Dump else Other, s)
  end.
