(** The client library (src/lib/client.cc): calls of one program that uses it on a node that serves only this
    program and owns all keys (ServerModel.run_line). *)
From Coq Require Import NArith ZArith List Bool String.
From Verif Require Import Base StorageModel TextModel NamesModel SessionModel ServerModel GatewayModel.
Import ListNotations.
Local Open Scope N_scope.

(** client.h:43-68: the calls; [can] says whether connection_tcp::open succeeds when it is called.  The memory that [data] and
    [data_size] describe is the list of its bytes.  The entry handed to get and gets is [e]; [have] says
    whether its data pointer is set ([is_data_available], storage.h). *)
Inductive lib_call :=
| LConnect | LDisconnect
| LAdd (k d : bytes) (flag : Z)
| LAddInt (k : bytes) (i flag : Z)
| LCas (k d : bytes) (flag : Z) (version : N)
| LGet (tokens : bool) (k : bytes) (e : entry) (have : bool).

(** What comes back: the int of connect and disconnect, the op::result of add and cas, the op::result and the entry of get. *)
Inductive came := Code (z : Z) | Result (r : oresult) | Entry (r : oresult) (e : entry) (have : bool).

(** [l_up]: connection_tcp.h:130 [is_available]; [l_unread]: what the node has answered and the library has not read; the node's store. *)
Record lib := mkLib { l_up : bool; l_unread : bytes; l_store : store }.

(** The node serves all requests in the bytes it received (handler_request.cc:60-97); each takes at least one byte. *)
Fixpoint serve_all (fuel : nat) (now : Z) (s : store) (stream : bytes) : res (store * bytes) :=
  match stream, fuel with
  | [], _ => Ok (s, [])
  | _, O => Undef
  | _, S f =>
      let* (p, rest) := run_line now s stream in
      if quits now stream then Ok (p_store p, p_answer p) else
      let* (s', out) := serve_all f now (p_store p) rest in
      Ok (s', p_answer p ++ out)
  end.

(** op.cc [run_client] up to the answer: the request is sent and served. *)
Definition exchange (now : Z) (st : lib) (request : bytes) : res lib :=
  let* (s', out) := serve_all (S (List.length request)) now (l_store st) request in
  Ok (mkLib (l_up st) (l_unread st ++ out) s').

(** connection_tcp::open (connection_tcp.cc:160-240): a new connection, nothing is unread. *)
Definition opened (st : lib) : lib := mkLib true [] (l_store st).

(** client.cc:55-66 *)
Definition connect (can : bool) (st : lib) : came * lib :=
  if l_up st then (Code 0, st) else if can then (Code 0, opened st) else (Code (-1), st).
(** client.cc:71-82; connection_tcp.cc:617-632: close clears the buffers and returns 0. *)
Definition disconnect (st : lib) : came * lib :=
  if l_up st then (Code 0, st) else (Code 0, mkLib false [] (l_store st)).

(** client.cc:122-127 and 160-165 *)
Definition reconnected (can : bool) (st : lib) : option lib :=
  if l_up st then Some st else if can then Some (opened st) else None.

(** client.cc:129-134, 167-173: the entry that is sent; int to uint32_t. *)
Definition lib_entry (k d : bytes) (flag : Z) (version : N) : entry :=
  mkEntry k (Z.to_N (flag mod 2 ^ 32)) 0 (blen d) version 0 d.

(** client.cc:121-147, 159-186 with op_set.cc [_run_client] and [_parse_text_client_parameters] *)
Definition lib_store (can : bool) (now : Z) (ident : bytes) (e : entry) (st : lib) : res (came * lib) :=
  match reconnected can st with
  | None => Ok (Result res_error, st)
  | Some st =>
      let* st := exchange now st (store_request [] ident e) in
      let* (line, rest) := get_line (l_unread st) in
      let* (r, _) := parse_text_response line in
      Ok (Result r, mkLib (l_up st) rest (l_store st))
  end.

(** client.cc:87-116 with op_get.cc [_run_client] and [_parse_text_client_parameters]: the entry has data in the end if it
    had before or if the first line was not END. *)
Definition lib_get (now : Z) (tokens : bool) (k : bytes) (e : entry) (have : bool) (st : lib) : res (came * lib) :=
  let e := mkEntry k (e_flag e) (e_expire e) (e_size e) (e_version e) (e_option e) (e_data e) in
  if negb (l_up st) then Ok (Entry res_error e have, st) else
  let* st := exchange now st (get_request (if tokens then s2b "gets" else s2b "get") [cstr k]) in
  let* (e', rest) := client_get (S (List.length (l_unread st))) now e (l_unread st) in
  let* (line, _) := get_line (l_unread st) in
  let have' := have || negb (beq (cstr line) (s2b "END" ++ [10])) in
  Ok (Entry (if have' then res_ok else res_not_found) e' have', mkLib (l_up st) rest (l_store st)).

(** One call; [Err] where run_client fails at an answer it does not understand or that does not come: the call returns result_error (what
    is then left unread is not modelled).  client.cc:149-154: the number is printed with %d. *)
Definition lib_step (can : bool) (now : Z) (c : lib_call) (st : lib) : res (came * lib) :=
  match c with
  | LConnect => Ok (connect can st)
  | LDisconnect => Ok (disconnect st)
  | LAdd k d f => lib_store can now (s2b "add") (lib_entry k d f 0) st
  | LAddInt k i f => lib_store can now (s2b "add") (lib_entry k (decZ i) f 0) st
  | LCas k d f v => lib_store can now (s2b "cas") (lib_entry k d f v) st
  | LGet tokens k e have => lib_get now tokens k e have st
  end.

(** Call after call, each with its clock value and the fate of an open. *)
Fixpoint lib_run (l : list (Z * bool * lib_call)) (st : lib) : res (list came * lib) :=
  match l with
  | [] => Ok ([], st)
  | (now, can, c) :: l' =>
      let* (x, st) := lib_step can now c st in
      let* (xs, st) := lib_run l' st in
      Ok (x :: xs, st)
  end.
