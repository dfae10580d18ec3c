(** Model of the read side of connection_tcp (src/lib/connection_tcp.cc:180-465,
    681-708, connection_tcp.h:92-114) and of the request loop on top of it
    (src/lib/op_parser.h:79-113, op_parser_text.cc:52-88).

    The socket is the list of segments in the order in which poll/FIONREAD make
    them available; the end of the list (or an empty segment) is the peer closing,
    or a timeout, which all end in a negative return value here [Err].  EINTR and
    EAGAIN retries are not modelled. *)
From Coq Require Import NArith ZArith List Bool String.
From Verif Require Import Base StorageModel TextModel.
Import ListNotations.
Local Open Scope N_scope.
Local Open Scope list_scope.

(** _read_buf: the allocation is consumed ++ unread, _read_buf_p points between
    the two and _read_buf_len is the length of unread; [None] is the null pointer. *)
Record conn := mkConn { rbuf : option (bytes * bytes); segs : list bytes }.
Definition unread (c : conn) : bytes := match rbuf c with Some (_, u) => u | None => [] end.

(** connection_tcp.cc:681-698 [_add_read_buf] *)
Definition add_read_buf (b : option (bytes * bytes)) (p : bytes) : option (bytes * bytes) :=
  match b with
  | Some (_, u) => Some ([], u ++ p)
  | None => Some ([], p)
  end.

(** connection_tcp.h:92-114 [push_back]: when enough consumed bytes are left in
    the allocation the pointer is moved back over them (whatever they are). *)
Definition push_back (c : conn) (p : bytes) : conn :=
  match rbuf c with
  | Some (pre, u) =>
      if blen p <=? blen pre then
        let n := (List.length pre - List.length p)%nat in
        mkConn (Some (firstn n pre, skipn n pre ++ u)) (segs c)
      else mkConn (Some ([], p ++ u)) (segs c)
  | None => mkConn (Some ([], p)) (segs c)
  end.

(** connection_tcp.cc:371-405, the part of readline that works on the socket: [r]
    is what has been collected so far, [b] the (empty or null) read buffer. *)
Fixpoint readline_sock (r : bytes) (b : option (bytes * bytes)) (ss : list bytes) : res (bytes * conn) :=
  match ss with
  | [] => Err
  | [] :: _ => Err
  | seg :: ss' =>
      match cut_line seg with
      | Some (l, rest) =>
          (* 372-377: a CR before the LF, in this piece or at the end of the last *)
          let line := match l with
                      | [] => drop_cr r
                      | _ => r ++ drop_cr l
                      end ++ [10] in
          (* 390-392 *)
          let b := match rest with [] => b | _ => add_read_buf b rest end in
          Ok (line, mkConn b ss')
      | None => readline_sock (r ++ seg) b ss'
      end
  end.
(** connection_tcp.cc:342-414 [readline], with the internal buffer branch of read
    (190-212). *)
Definition readline (c : conn) : res (bytes * conn) :=
  match rbuf c with
  | Some (pre, (_ :: _) as u) =>
      match cut_line u with
      | Some (l, rest) => Ok (drop_cr l ++ [10], mkConn (Some (pre ++ l ++ [10], rest)) (segs c))
      | None => readline_sock u None (segs c)
      end
  | b => readline_sock [] b (segs c)
  end.

(** Exactly [n] bytes off the socket, over as many reads as it takes. *)
Fixpoint take_segs (n : nat) (ss : list bytes) : res (bytes * list bytes) :=
  match ss with
  | [] => Err
  | seg :: ss' =>
      match seg with
      | [] => Err
      | _ =>
        if (n <? List.length seg)%nat then Ok (firstn n seg, skipn n seg :: ss')
        else if (n =? List.length seg)%nat then Ok (seg, ss')
        else let* (d, rest) := take_segs (n - List.length seg) ss' in Ok (seg ++ d, rest)
      end
  end.

(** connection_tcp.cc:421-465 [readsize] on the socket with the socket part of
    read (233-330): [d] has been collected, [n] > 0 bytes are missing. *)
Fixpoint readsize_sock (d : bytes) (n : nat) (b : option (bytes * bytes)) (ss : list bytes) : res (bytes * conn) :=
  if 1024 <? N.of_nat n then
    (* 266-267: the buffer has the expected size, the loop fills it *)
    let* (x, ss) := take_segs n ss in Ok (d ++ x, mkConn b ss)
  else
    match ss with
    | [] => Err
    | seg :: ss' =>
        match seg with
        | [] => Err
        | _ =>
          if (n <? List.length seg)%nat then
            let b := match b with
                     | None =>
                         if blen seg <? 1024
                         then Some (firstn n seg, skipn n seg)   (* 297-305 *)
                         else Some ([], skipn n seg)              (* 449-451 *)
                     | Some _ => add_read_buf b (skipn n seg)     (* 449-451 *)
                     end in
            Ok (d ++ firstn n seg, mkConn b ss')
          else if (n =? List.length seg)%nat then Ok (d ++ seg, mkConn b ss')
          else readsize_sock (d ++ seg) (n - List.length seg) b ss'
        end
    end.
(** connection_tcp.cc:421-465 with the internal buffer branch of read (213-231). *)
Definition readsize (n : N) (c : conn) : res (bytes * conn) :=
  if int_max <? n then Undef   (* negative after conversion to int: see TextModel.get_bytes *)
  else if n =? 0 then Ok ([], c)
  else
    let k := N.to_nat n in
    match rbuf c with
    | Some (pre, (_ :: _) as u) =>
        if (k <? List.length u)%nat then
          Ok (firstn k u, mkConn (Some (pre ++ firstn k u, skipn k u)) (segs c))
        else if (k =? List.length u)%nat then Ok (u, mkConn None (segs c))
        else readsize_sock u (k - List.length u) None (segs c)
    | b => readsize_sock [] k b (segs c)
    end.

(** op_parser.h:79-113: the first byte selects the protocol and is pushed back. *)
Definition magic_request : N := 128.
Definition read_magic (c : conn) : res (N * conn) :=
  let* (b, c) := readsize 1 c in Ok (hd 0 b, push_back c b).

(** One text request off the connection: op_parser_text.cc:52-88, then the
    parameter parser of the operation, which reads the pushed back rest of the
    line again (as TextModel.serve_request, but on the connection).  A binary
    request is reported as the word "" here. *)
Definition conn_line (c : conn) : res (command * conn) :=
  let* (line, c) := readline c in
  let* (cmd, rest) := parse_command line in
  Ok (cmd, push_back c rest).
Definition conn_serve (now : Z) (c : conn) : res (command * request * conn) :=
  let* (m, c) := read_magic c in
  if m =? magic_request then Ok (mkCommand false [] [], ROther [], c) else
  let* (cmd, c) := conn_line c in
  let w := c_word cmd in
  if mem w store_idents then
    let* (line, c) := readline c in
    let* e := parse_entry now (if beq w (s2b "cas") then parse_cas else parse_set) line in
    let* (d, c) := readsize (e_size e + 2) c in
    Ok (cmd, RStore w (with_data e (firstn (N.to_nat (e_size e)) d)), c)
  else if beq w (s2b "delete") then
    let* (line, c) := readline c in
    let* e := serve_delete now line in Ok (cmd, RDelete e, c)
  else if mem w [s2b "touch"; s2b "gat"] then
    let* (line, c) := readline c in
    let* e := serve_touch now line in Ok (cmd, RTouch w e, c)
  else if mem w [s2b "incr"; s2b "decr"] then
    let* (line, c) := readline c in
    let* (e, v) := serve_incr line in Ok (cmd, RIncr w e v, c)
  else if mem w [s2b "get"; s2b "gets"] then
    let* (line, c) := readline c in
    let* l := serve_get line in Ok (cmd, RGet w l, c)
  else
    let* (line, c) := readline c in
    let* r := serve_other w line in Ok (cmd, r, c).
