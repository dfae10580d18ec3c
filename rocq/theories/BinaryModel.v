(** Model of the binary protocol: the header mapping
    (src/lib/binary_network_mapping.h, binary_request_header.h,
    binary_response_header.h), the request parsers (op.cc:111-121,
    storage.cc:198-206, op_set.cc:97-111, op_append.cc:66-75, op_delete.cc:85-92,
    op_incr.cc:128-151, op_get.cc:101-112, op_touch.cc:87-95, dispatch in
    flared/op_parser_binary_node.cc:72-205) and the response writers
    (storage.cc:227-252, op.cc:196-253, op_get.cc:341-375).

    ntohs/ntohl/ntohll and their inverses turn the native value into the big
    endian bytes in memory, so a field is the big endian number in its bytes. *)
From Coq Require Import NArith ZArith List Bool String.
From Verif Require Import Base StorageModel TextModel StreamModel.
Import ListNotations.
Local Open Scope N_scope.
Local Open Scope list_scope.

(** binary_request_header.h:36-47, binary_response_header.h:36-47: byte offset and
    width of every member of the raw struct; vbucket_id of a request is status in a
    response. *)
Inductive field := FMagic | FOpcode | FKeyLen | FExtras | FDataType | FStatus | FTotal | FOpaque | FCas.
Definition offset (f : field) : nat :=
  match f with
  | FMagic => 0 | FOpcode => 1 | FKeyLen => 2 | FExtras => 4 | FDataType => 5 | FStatus => 6
  | FTotal => 8 | FOpaque => 12 | FCas => 16
  end.
Definition width (f : field) : nat :=
  match f with
  | FMagic | FOpcode | FExtras | FDataType => 1
  | FKeyLen | FStatus => 2
  | FTotal | FOpaque => 4
  | FCas => 8
  end.
(** binary_network_mapping.h:116-146, the getter and setter macros; a value too
    wide for the parameter type is reduced by the implicit conversion. *)
Definition get_field (f : field) (h : bytes) : N := be_dec (firstn (width f) (skipn (offset f) h)).
Definition set_field (f : field) (v : N) (h : bytes) : bytes :=
  firstn (offset f) h ++ be_enc (width f) (v mod 256 ^ N.of_nat (width f)) ++ skipn (offset f + width f) h.
(** binary_network_mapping.h:69-76 *)
Definition magic_response : N := 129.
Definition new_header (magic opcode : N) : bytes := set_field FOpcode opcode (set_field FMagic magic (repeat 0 24)).

(** binary_network_mapping.h:78-93: read a header off the byte string. On a wrong
    magic the 24 bytes are pushed back and an exception is thrown. *)
Definition read_header (magic : N) (s : bytes) : res (bytes * bytes) :=
  let* (h, s) := get_bytes 24 s in
  if get_field FMagic h =? magic then Ok (h, s) else Err.

(** A read of [len] bytes at [off] in an array of exactly the bytes [b]. *)
Definition slice (off len : N) (b : bytes) : res bytes :=
  if off + len <=? blen b then Ok (firstn (N.to_nat len) (skipn (N.to_nat off) b)) else Undef.

(** storage.cc:198-206; [None] is the null pointer.  The size is computed in 32
    bit unsigned arithmetic. *)
Definition parse_body (h : bytes) (body : option bytes) : res (entry * bytes) :=
  match body with
  | None => Err
  | Some b =>
      let* k := slice (get_field FExtras h) (get_field FKeyLen h) b in
      let size := u32 (get_field FTotal h + 2 ^ 32 - get_field FKeyLen h + 2 ^ 32 - get_field FExtras h) in
      Ok (mkEntry k 0 0 size (get_field FCas h) 0 [], b)
  end.
(** op_append.cc:69-71, op_set.cc:105-107 *)
Definition take_data (h : bytes) (e : entry) (b : bytes) : res entry :=
  let* d := slice (get_field FExtras h + get_field FKeyLen h) (e_size e) b in Ok (with_data e d).

Inductive brequest :=
| BStore (opcode : N) (cas : bool) (e : entry)
| BDelete (opcode : N) (e : entry)
| BGet (opcode : N) (e : entry)
| BIncr (opcode : N) (e : entry) (value : N) (initial : option N)
| BTouch (opcode : N) (e : entry)
| BOther (opcode : N) (body : bytes).

(** op_set.cc:97-111 (set, add, replace) *)
Definition binary_set (now : Z) (h : bytes) (body : option bytes) : res brequest :=
  if negb (get_field FExtras h =? 8) then Err else
  let* (e, b) := parse_body h body in
  let* f := slice 0 4 b in
  let* x := slice 4 4 b in
  let* e := take_data h (with_expire (with_flag e (be_dec f)) (realtime now (Z.of_N (be_dec x)))) b in
  Ok (BStore (get_field FOpcode h) (0 <? e_version e) e).
(** op_append.cc:66-75 *)
Definition binary_append (h : bytes) (body : option bytes) : res brequest :=
  if negb (get_field FExtras h =? 0) then Err else
  let* (e, b) := parse_body h body in
  let* e := take_data h e b in
  Ok (BStore (get_field FOpcode h) false e).
(** op_delete.cc:85-92 *)
Definition binary_delete (h : bytes) (body : option bytes) : res brequest :=
  match body with
  | None => Err
  | _ => if negb (get_field FExtras h =? 0) then Err else
         let* (e, _) := parse_body h body in Ok (BDelete (get_field FOpcode h) e)
  end.
(** op_get.cc:101-112 *)
Definition binary_get (h : bytes) (body : option bytes) : res brequest :=
  if negb (get_field FExtras h =? 0) then Err else
  if get_field FKeyLen h =? 0 then Err else
  let* (e, _) := parse_body h body in Ok (BGet (get_field FOpcode h) e).
(** op_incr.cc:128-151 *)
Definition binary_incr (now : Z) (h : bytes) (body : option bytes) : res brequest :=
  if negb (get_field FExtras h =? 20) then Err else
  let* (e, b) := parse_body h body in
  let* v := slice 0 8 b in
  let* x := slice 16 4 b in
  if be_dec x =? 4294967295 then Ok (BIncr (get_field FOpcode h) e (be_dec v) None)
  else
    let* i := slice 8 8 b in
    let d := dec (be_dec i) in
    Ok (BIncr (get_field FOpcode h)
          (with_data (with_size (with_expire e (realtime now (Z.of_N (be_dec x)))) (blen d)) d)
          (be_dec v) (Some (be_dec i))).
(** op_touch.cc:87-95 *)
Definition binary_touch (now : Z) (h : bytes) (body : option bytes) : res brequest :=
  match body with
  | None => Err
  | _ => if negb (get_field FExtras h =? 4) then Err else
         let* (e, b) := parse_body h body in
         let* x := slice 0 4 b in
         Ok (BTouch (get_field FOpcode h) (with_expire e (realtime now (Z.of_N (be_dec x)))))
  end.
(** op_parser_binary_node.cc:72-205; opcodes binary_header.h:38-103. The operations
    in [BOther] accept any body (op.cc:123-125); stats (0x10) reads it as a string. *)
Definition nmem (x : N) (l : list N) : bool := existsb (N.eqb x) l.
Definition op_sets : list N := [1; 17; 2; 18; 3; 19].        (* set(q) add(q) replace(q) *)
Definition op_appends : list N := [14; 25; 15; 26].          (* append(q) prepend(q) *)
Definition op_deletes : list N := [4; 20].
Definition op_gets : list N := [0; 9; 12; 13].               (* get getq getk getkq *)
Definition op_incrs : list N := [5; 21; 6; 22].              (* increment(q) decrement(q) *)
Definition op_touches : list N := [28; 29; 30].              (* touch gat gatq *)
Definition parse_binary (now : Z) (h : bytes) (body : option bytes) : res brequest :=
  let o := get_field FOpcode h in
  if nmem o op_sets then binary_set now h body
  else if nmem o op_appends then binary_append h body
  else if nmem o op_deletes then binary_delete h body
  else if nmem o op_gets then binary_get h body
  else if nmem o op_incrs then binary_incr now h body
  else if nmem o op_touches then binary_touch now h body
  else match body with
       | Some b => Ok (BOther o b)
       | None => if (o =? 16) && (0 <? get_field FTotal h) then Undef else Ok (BOther o [])
       end.

(** op.cc:111-121 with op_parser_binary.cc:50-65 (the header is read, pushed back
    and read again): readsize of the body leaves a null pointer for size 0 and for
    sizes that turn negative as int. The result says what is left to read. *)
Definition body_of (total : N) (s : bytes) : res (option bytes * bytes) :=
  if (total =? 0) || (int_max <? total) then Ok (None, s)
  else let* (b, s) := get_bytes total s in Ok (Some b, s).
Definition serve_binary (now : Z) (s : bytes) : res (brequest * bytes) :=
  let* (h, s) := read_header magic_request s in
  let* (body, s) := body_of (get_field FTotal h) s in
  let* r := parse_binary now h body in Ok (r, s).

(** storage.cc:227-252 with op_get.cc:345-351, op.cc:243-251 *)
Definition value_response (opcode : N) (prepend_key : bool) (e : entry) : bytes :=
  let h := set_field FExtras 4 (new_header magic_response opcode) in
  let h := if prepend_key then set_field FKeyLen (blen (e_key e)) h else h in
  let total := u32 (4 + (if prepend_key then blen (e_key e) else 0) + e_size e) in
  set_field FTotal total h
  ++ be_enc 4 (e_flag e) ++ (if prepend_key then e_key e else []) ++ firstn (N.to_nat (e_size e)) (e_data e).
(** op.cc:196-241 [_send_binary_result]: status and message. *)
Inductive bresult := BOk | BNotStored | BExists | BNotFound | BError.
Definition status_of (r : bresult) : N :=
  match r with BOk => 0 | BNotStored => 5 | BExists => 2 | BNotFound => 1 | BError => 132 end.
Definition message_of (r : bresult) : bytes :=
  match r with
  | BOk => [] | BNotStored => s2b "Item not stored" | BExists => s2b "Key exists"
  | BNotFound => s2b "Not found" | BError => s2b "Internal error"
  end.
Definition result_response (opcode : N) (quiet : bool) (r : bresult) : bytes :=
  if quiet && (status_of r =? 0) then []
  else set_field FTotal (blen (message_of r)) (set_field FStatus (status_of r) (new_header magic_response opcode))
       ++ message_of r.

(** The same on a connection: the protocol byte, then the header read, pushed back
    and read again (op_parser.h:79-113, op_parser_binary.cc:50-65, op.cc:111-121). *)
Definition conn_header (magic : N) (c : conn) : res (bytes * conn) :=
  let* (h, c) := readsize 24 c in
  if get_field FMagic h =? magic then Ok (h, c) else Err.
Definition conn_binary (now : Z) (c : conn) : res (brequest * conn) :=
  let* (m, c) := read_magic c in
  let* (h, c) := conn_header magic_request c in
  let c := push_back c h in
  let* (h, c) := conn_header magic_request c in
  let total := get_field FTotal h in
  let* (body, c) := (if (total =? 0) || (int_max <? total) then Ok (None, c)
                     else let* (b, c) := readsize total c in Ok (Some b, c)) in
  let* r := parse_binary now h body in Ok (r, c).
