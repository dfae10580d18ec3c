(** Model of the text protocol: tokenizers (src/lib/util.h), entry parsing and
    printing (src/lib/storage.cc), the requests written by the proxying side and
    read by the serving side (src/lib/op_set.cc, op_delete.cc, op_touch.cc,
    op_incr.cc, op_get.cc, op.cc, op_parser_text.cc).

    A C string is the list of its bytes before the terminating NUL; reading the
    terminator is the end of the list.  Lines come from connection_tcp::readline
    (StreamModel shows how the byte stream is cut), here as [get_line]. *)
From Coq Require Import NArith ZArith List Bool String.
From Verif Require Import Base StorageModel.
Import ListNotations.
Local Open Scope N_scope.
Local Open Scope list_scope.

(** Result of a parser: undefined behaviour (write outside a buffer), the error
    return value, or a value. *)
Inductive res (A : Type) := Undef | Err | Ok (a : A).
Arguments Undef {A}. Arguments Err {A}. Arguments Ok {A} a.
Definition bind {A B} (x : res A) (f : A -> res B) : res B :=
  match x with Undef => Undef | Err => Err | Ok a => f a end.
Notation "'let*' x ':=' e 'in' f" := (bind e (fun x => f)) (at level 200, x pattern, right associativity).

(** <stdio.h> of glibc *)
Definition BUFSIZ : N := 8192.

(** The C string starting at a buffer. *)
Fixpoint cstr (p : bytes) : bytes :=
  match p with
  | [] => []
  | c :: p' => if c =? 0 then [] else c :: cstr p'
  end.

(** util.h:161-164, 177-180 *)
Fixpoint skip_spaces (p : bytes) : bytes :=
  match p with
  | c :: p' => if c =? 32 then skip_spaces p' else p
  | [] => []
  end.

(** util.h:165-167; [n] is q-dst.  Result: the bytes stored, p at loop exit. *)
Fixpoint word_loop (dst_len n : N) (p : bytes) : bytes * bytes :=
  match p with
  | [] => ([], [])
  | c :: p' =>
      if (c =? 0) || (c =? 32) || (c =? 10) || negb (n + 1 <? dst_len) then ([], p)
      else let '(w, r) := word_loop dst_len (n + 1) p' in (c :: w, r)
  end.
(** util.h:157-171.  The value returned in C++ is how far [snd] is into p; the
    terminating NUL is stored after the word. *)
Definition next_word (dst_len : N) (p : bytes) : bytes * bytes := word_loop dst_len 0 (skip_spaces p).

(** util.h:181-183; [n] is p-src. isdigit of a negative char is taken as false
    (glibc). *)
Fixpoint digit_loop (dst_len n : N) (p : bytes) : bytes * bytes :=
  match p with
  | [] => ([], [])
  | c :: p' =>
      if (is_digit c || (c =? 45)) && (n <? dst_len)
      then let '(w, r) := digit_loop dst_len (n + 1) p' in (c :: w, r)
      else ([], p)
  end.
(** util.h:173-187 *)
Definition next_digit (dst_len : N) (p : bytes) : bytes * bytes :=
  let s := skip_spaces p in digit_loop dst_len (blen p - blen s) s.

(** Calls with a [dst_len] byte destination: storing the token and its NUL must
    stay inside. *)
Definition call_word (dst_len : N) (p : bytes) : res (bytes * bytes) :=
  let '(w, r) := next_word dst_len p in
  if blen w + 1 <=? dst_len then Ok (w, r) else Undef.
Definition call_digit (dst_len : N) (p : bytes) : res (bytes * bytes) :=
  let '(w, r) := next_digit dst_len p in
  if blen w + 1 <=? dst_len then Ok (w, r) else Undef.

(** util.h:189-194 [is_unsigned_integer_string] *)
Definition is_unsigned (w : bytes) : bool :=
  match w with [] => false | _ => forallb is_digit w end.

(** boost::lexical_cast to an unsigned type with maximum [m]: an optional minus
    sign negates modulo m+1; anything but digits or a value above m throws. *)
Definition lex_u (m : N) (w : bytes) : res N :=
  match w with
  | 45 :: d =>
      if is_unsigned d && (dec_val d <=? m) then Ok ((m + 1 - dec_val d) mod (m + 1)) else Err
  | _ => if is_unsigned w && (dec_val w <=? m) then Ok (dec_val w) else Err
  end.
Definition u32_max : N := 4294967295.
Definition u64_max : N := 18446744073709551615.
Definition i64_max : N := 9223372036854775807.
(** boost::lexical_cast<time_t> *)
Definition lex_i64 (w : bytes) : res Z :=
  match w with
  | 45 :: d =>
      if is_unsigned d && (dec_val d <=? i64_max + 1) then Ok (- Z.of_N (dec_val d))%Z else Err
  | _ => if is_unsigned w && (dec_val w <=? i64_max) then Ok (Z.of_N (dec_val w)) else Err
  end.

(** util.h:138, util.cc:169-177 *)
Definition max_realtime_delta : Z := 2592000.
Definition realtime (now t : Z) : Z :=
  if (t =? 0)%Z then 0%Z else if (t <=? max_realtime_delta)%Z then (t + now)%Z else t.

(** storage.h:53-58, 207-221 *)
Definition option_noreply : N := 1.
Definition option_sync : N := 2.
Definition option_async : N := 4.
Definition option_of_word (w : bytes) : res N :=
  if beq w [] then Ok 0
  else if beq w (s2b "noreply") then Ok option_noreply
  else if beq w (s2b "sync") then Ok option_sync
  else if beq w (s2b "async") then Ok option_async
  else Err.

(** storage.cc:176-189 (also op_incr.cc:94-106, op_flush_all.cc): option words to
    the end of the line.  Each round consumes at least one byte, so a fuel of one
    more than the length of the line never runs out (TextProofs). *)
Fixpoint parse_options (fuel : nat) (p : bytes) (opt : N) : res N :=
  match fuel with
  | O => Undef
  | S f =>
      let* (w, p) := call_word BUFSIZ p in
      match w with
      | [] => Ok opt
      | _ => let* o := option_of_word w in parse_options f p (N.lor opt o)
      end
  end.

(** storage.h:109-115 *)
Inductive parse_type := parse_set | parse_cas | parse_get | parse_delete | parse_touch.
Definition is_short (t : parse_type) : bool :=
  match t with parse_delete | parse_touch => true | _ => false end.
Definition is_get (t : parse_type) : bool := match t with parse_get => true | _ => false end.

Definition with_option (e : entry) v :=
  mkEntry (e_key e) (e_flag e) (e_expire e) (e_size e) (e_version e) v (e_data e).

(** A field that must be an unsigned number. *)
Definition unsigned_field (m : N) (w : bytes) : res N := if is_unsigned w then lex_u m w else Err.

(** storage.cc:98-110, the flag *)
Definition parse_flag (t : parse_type) (e : entry) (p : bytes) : res (entry * bytes) :=
  if is_short t then Ok (e, p) else
  let* (w, p) := call_digit BUFSIZ p in
  match w with
  | [] => Err
  | _ => let* v := unsigned_field u32_max w in Ok (with_flag e v, p)
  end.
(** storage.cc:112-130, the expiry *)
Definition parse_expire (now : Z) (t : parse_type) (e : entry) (p : bytes) : res (entry * bytes) :=
  if is_get t then Ok (e, p) else
  let* (w, p) := call_digit BUFSIZ p in
  match w with
  | [] => match t with parse_set | parse_touch => Err | _ => Ok (e, p) end
  | _ =>
      if is_unsigned w
      then let* v := lex_i64 w in Ok (with_expire e (realtime now v), p)
      else Err
  end.
(** storage.cc:132-149, the size *)
Definition parse_size (t : parse_type) (e : entry) (p : bytes) : res (entry * bytes) :=
  if is_short t then Ok (e, p) else
  let* (w, p) := call_digit BUFSIZ p in
  match w with
  | [] => Err
  | _ =>
      let* v := unsigned_field u64_max w in
      if max_data_size <? v then Err else Ok (with_size e v, p)
  end.
(** storage.cc:151-163, the version *)
Definition parse_version (t : parse_type) (e : entry) (p : bytes) : res (entry * bytes) :=
  let* (w, p) := call_digit BUFSIZ p in
  match w with
  | [] => match t with parse_cas => Err | _ => Ok (e, p) end
  | _ => let* v := unsigned_field u64_max w in Ok (with_version e v, p)
  end.
(** storage.cc:165-190, the expiry of a dumped value or the options *)
Definition parse_tail (now : Z) (t : parse_type) (e : entry) (p : bytes) : res entry :=
  if is_get t then
    let* (w, p) := call_digit BUFSIZ p in
    match w with
    | [] => Ok e
    | _ => let* v := lex_i64 w in Ok (with_expire e (realtime now v))
    end
  else
    let* o := parse_options (S (List.length p)) p 0 in Ok (with_option e o).

(** storage.cc:87-196 [entry::parse], on the line [p] (ending in LF) and starting
    from an entry with all fields zero; [now] is the server clock. *)
Definition parse_entry (now : Z) (t : parse_type) (p : bytes) : res entry :=
  let* (w, p) := call_word BUFSIZ p in
  match w with
  | [] => Err
  | _ =>
    let* (e, p) := parse_flag t (empty_entry w) p in
    let* (e, p) := parse_expire now t e p in
    let* (e, p) := parse_size t e p in
    let* (e, p) := parse_version t e p in
    parse_tail now t e p
  end.

Definition sp : bytes := [32].
Definition crlf : bytes := [13; 10].

(** storage.cc:208-231 [entry::response] *)
Inductive response_type := response_get | response_gets | response_dump.
Definition print_response (t : response_type) (e : entry) : bytes :=
  s2b "VALUE " ++ cstr (e_key e) ++ sp ++ dec (e_flag e) ++ sp ++ dec (e_size e)
  ++ match t with response_get => [] | _ => sp ++ dec (e_version e) end
  ++ match t with response_dump => sp ++ decZ (e_expire e) | _ => [] end
  ++ crlf ++ firstn (N.to_nat (e_size e)) (e_data e) ++ crlf.

(** The option words of op_set.cc:179-187, op_delete.cc, op_incr.cc. *)
Definition print_options (o : N) : bytes :=
  (if has o option_noreply then s2b " noreply" else [])
  ++ (if has o option_sync then s2b " sync" else [])
  ++ (if has o option_async then s2b " async" else []).

(** util.h:196-207 [vector_join]: glue is written unless nothing was written yet. *)
Fixpoint join_from (acc : bytes) (glue : bytes) (l : list bytes) : bytes :=
  match l with
  | [] => acc
  | x :: l' => join_from (acc ++ (match acc with [] => [] | _ => glue end) ++ x) glue l'
  end.
Definition vector_join (l : list bytes) (glue : bytes) : bytes := join_from [] glue l.

(** util.h:209-220 [vector_split] with a one character separator:
    boost::char_separator drops empty tokens. *)
Fixpoint split_go (c : N) (cur : bytes) (s : bytes) : list bytes :=
  match s with
  | [] => match cur with [] => [] | _ => [cur] end
  | x :: s' =>
      if x =? c
      then match cur with [] => split_go c [] s' | _ => cur :: split_go c [] s' end
      else split_go c (cur ++ [x]) s'
  end.
Definition vector_split (s : bytes) (c : N) : list bytes := split_go c [] s.

(** op.cc [_get_proxy_ident] *)
Definition proxy_ident (trail : list bytes) : bytes :=
  match trail with
  | [] => []
  | _ => [60] ++ vector_join trail [44] ++ [62]
  end.

(** op_set.cc:171-195 [_run_client], also used by add, replace, append, prepend
    and cas ([ident]). *)
Definition store_request (trail : list bytes) (ident : bytes) (e : entry) : bytes :=
  proxy_ident trail ++ ident ++ sp ++ cstr (e_key e) ++ sp ++ dec (e_flag e) ++ sp ++ decZ (e_expire e)
  ++ sp ++ dec (e_size e)
  ++ (if (0 <? e_version e) || beq ident (s2b "cas") then sp ++ dec (e_version e) else [])
  ++ print_options (e_option e) ++ crlf ++ firstn (N.to_nat (e_size e)) (e_data e) ++ crlf.

(** op_delete.cc [_run_client] *)
Definition delete_request (trail : list bytes) (e : entry) : bytes :=
  proxy_ident trail ++ s2b "delete " ++ cstr (e_key e) ++ sp ++ decZ (e_expire e)
  ++ (if 0 <? e_version e then sp ++ dec (e_version e) else [])
  ++ print_options (e_option e) ++ crlf.

(** op_touch.cc:98-114 [_run_client], for touch and gat. *)
Definition touch_request (trail : list bytes) (ident : bytes) (e : entry) : bytes :=
  proxy_ident trail ++ ident ++ sp ++ cstr (e_key e) ++ sp ++ decZ (e_expire e)
  ++ (if has (e_option e) option_noreply then s2b " noreply" else []) ++ crlf.

(** op_incr.cc [_run_client], for incr and decr. *)
Definition incr_request (trail : list bytes) (ident : bytes) (e : entry) (value : N) : bytes :=
  proxy_ident trail ++ ident ++ sp ++ cstr (e_key e) ++ sp ++ dec value
  ++ print_options (e_option e) ++ crlf.

(** op_get.cc:160-188 [_run_client] (text), then connection_tcp::writeline. *)
Definition get_request (ident : bytes) (keys : list bytes) : bytes :=
  ident ++ flat_map (fun k => sp ++ k) keys ++ crlf.

(** What connection_tcp::readline returns from the stream: the bytes up to the
    first LF, CR LF turned into LF; and what remains.  [Err] if no LF arrives. *)
Fixpoint cut_line (s : bytes) : option (bytes * bytes) :=
  match s with
  | [] => None
  | c :: s' =>
      if c =? 10 then Some ([], s')
      else match cut_line s' with Some (l, r) => Some (c :: l, r) | None => None end
  end.
Definition drop_cr (l : bytes) : bytes :=
  match rev l with 13 :: l' => rev l' | _ => l end.
Definition get_line (s : bytes) : res (bytes * bytes) :=
  match cut_line s with Some (l, r) => Ok (drop_cr l ++ [10], r) | None => Err end.
(** connection_tcp::readsize(int expect_len, ..): a size that does not fit in an
    int turns negative, nothing is read and the caller copies from a null pointer
    (op_set.cc:83-88, op_get.cc:226-231). *)
Definition int_max : N := 2147483647.
Definition get_bytes (n : N) (s : bytes) : res (bytes * bytes) :=
  if int_max <? n then Undef
  else if n <=? blen s then Ok (firstn (N.to_nat n) s, skipn (N.to_nat n) s) else Err.

(** strchr(buf, c): the prefix before the first c. *)
Fixpoint find_char (c : N) (s : bytes) : option (bytes * bytes) :=
  match s with
  | [] => None
  | x :: s' =>
      if x =? c then Some ([], s')
      else if x =? 0 then None
      else match find_char c s' with Some (a, b) => Some (x :: a, b) | None => None end
  end.

(** A command as determined by op_parser_text.cc:52-88: the proxy trail, whether
    it is a proxy request, the first word; and the rest of the line. *)
Record command := mkCommand { c_proxied : bool; c_trail : list bytes; c_word : bytes }.
Definition parse_command (line : bytes) : res (command * bytes) :=
  let '(proxied, trail, p) :=
    match line with
    | 60 :: line' =>
        match find_char 62 line' with
        | Some (t, r) => (true, vector_split t 44, r)
        | None => (false, [], line)
        end
    | _ => (false, [], line)
    end in
  let* (w, r) := call_word 1024 p in Ok (mkCommand proxied trail w, r).

(** op_set.cc:68-94 [_parse_text_server_parameters] on the rest of the request
    line; the data block is read off the stream [s]. *)
Definition serve_store (now : Z) (ident : bytes) (line s : bytes) : res (entry * bytes) :=
  let* e := parse_entry now (if beq ident (s2b "cas") then parse_cas else parse_set) line in
  let* (d, s) := get_bytes (e_size e + 2) s in
  Ok (with_data e (firstn (N.to_nat (e_size e)) d), s).
(** op_delete.cc *)
Definition serve_delete (now : Z) (line : bytes) : res entry := parse_entry now parse_delete line.
(** op_touch.cc:69-88 *)
Definition serve_touch (now : Z) (line : bytes) : res entry :=
  let* e := parse_entry now parse_touch line in
  if (e_option e =? 0) || (e_option e =? option_noreply) then Ok e else Err.
(** op_incr.cc:62-114 *)
Definition serve_incr (line : bytes) : res (entry * N) :=
  let* (w, p) := call_word BUFSIZ line in
  match w with
  | [] => Err
  | _ =>
    let e := empty_entry w in
    let* (w, p) := call_digit BUFSIZ p in
    match w with
    | [] => Err
    | _ =>
      let* v := lex_u u64_max w in
      let* o := parse_options (S (List.length p)) p 0 in
      Ok (with_option e o, v)
    end
  end.
(** op_get.cc:68-95: all the words of the line. *)
Fixpoint words (fuel : nat) (p : bytes) : res (list bytes) :=
  match fuel with
  | O => Undef
  | S f =>
      let* (w, p) := call_word BUFSIZ p in
      match w with
      | [] => Ok []
      | _ => let* l := words f p in Ok (w :: l)
      end
  end.
Definition serve_get (line : bytes) : res (list bytes) :=
  let* l := words (S (List.length line)) line in
  match l with [] => Err | _ => Ok l end.

Definition mem (w : bytes) (l : list bytes) : bool := existsb (beq w) l.
(** One request read off the stream by a node (op_parser_text.cc, then the
    parser of the operation selected by op_parser_text_node.cc:62-126). *)
Inductive request :=
| RStore (ident : bytes) (e : entry)
| RDelete (e : entry)
| RTouch (ident : bytes) (e : entry)
| RIncr (ident : bytes) (e : entry) (value : N)
| RGet (ident : bytes) (keys : list bytes)
| RPlain (word : bytes)
| RFlush (noreply : bool)
| RVerbosity (noreply : bool)
| ROther (word : bytes).
(** op_ping.cc:58-76, op_version.cc:57-75, op_quit.cc:63-81: no arguments *)
Definition serve_plain (w line : bytes) : res request :=
  let* (q, _) := call_word (if beq w (s2b "version") then BUFSIZ else 1024) line in
  match q with [] => Ok (RPlain w) | _ => Err end.
(** boost::lexical_cast<int> *)
Definition lex_i32 (w : bytes) : res Z :=
  let* v := lex_i64 w in if ((- 2147483648 <=? v) && (v <=? 2147483647))%Z then Ok v else Err.
(** op_flush_all.cc:82-126, op_verbosity.cc:71-117: a number, which flush_all may lack, and options; nothing is done with
    the number. *)
Definition serve_number (optional : bool) (lex : bytes -> res Z) (line : bytes) : res bool :=
  let* (q, p) := call_digit BUFSIZ line in
  let* _ := match q with [] => if optional then Ok 0%Z else Err | _ => lex q end in
  let* o := parse_options (S (List.length p)) p 0 in
  if has o option_sync then Err else Ok (has o option_noreply).
(** The remaining words of op_parser_text_node.cc:62-126.  The ones that are not part of this file are [ROther];
    op_error (op_error.cc:56-71) answers an unknown word as a request that is rejected. *)
Definition other_words : list bytes :=
  [s2b "stats"; s2b "node"; s2b "keys"; s2b "dump"; s2b "dump_key"; s2b "kill"; s2b "show"].
Definition serve_other (w line : bytes) : res request :=
  if mem w [s2b "ping"; s2b "version"; s2b "quit"] then serve_plain w line
  else if beq w (s2b "flush_all") then let* nr := serve_number true lex_i64 line in Ok (RFlush nr)
  else if beq w (s2b "verbosity") then let* nr := serve_number false lex_i32 line in Ok (RVerbosity nr)
  else if mem w other_words then Ok (ROther w)
  else Err.
Definition store_idents : list bytes :=
  [s2b "set"; s2b "add"; s2b "replace"; s2b "cas"; s2b "append"; s2b "prepend"].
Definition serve_request (now : Z) (s : bytes) : res (command * request * bytes) :=
  let* (line, s) := get_line s in
  let* (c, rest) := parse_command line in
  let w := c_word c in
  if mem w store_idents then
    let* (e, s) := serve_store now w rest s in Ok (c, RStore w e, s)
  else if beq w (s2b "delete") then
    let* e := serve_delete now rest in Ok (c, RDelete e, s)
  else if mem w [s2b "touch"; s2b "gat"] then
    let* e := serve_touch now rest in Ok (c, RTouch w e, s)
  else if mem w [s2b "incr"; s2b "decr"] then
    let* (e, v) := serve_incr rest in Ok (c, RIncr w e v, s)
  else if mem w [s2b "get"; s2b "gets"] then
    let* l := serve_get rest in Ok (c, RGet w l, s)
  else let* r := serve_other w rest in Ok (c, r, s).

(** op_get.cc:190-236 [_parse_text_client_parameters]: the proxying side reads
    VALUE blocks for the key of [e] up to END.  Each round reads a line. *)
Fixpoint client_get (fuel : nat) (now : Z) (e : entry) (s : bytes) : res (entry * bytes) :=
  match fuel with
  | O => Undef
  | S f =>
      let* (line, s) := get_line s in
      if beq (cstr line) (s2b "END" ++ [10]) then Ok (e, s) else
      let* (w, p) := call_word BUFSIZ line in
      if negb (beq w (s2b "VALUE")) then Err else
      let* t := parse_entry now parse_get p in
      if negb (beq (e_key e) (e_key t)) then Err else
      let e := with_version (with_size (with_expire (with_flag e (e_flag t)) (e_expire t)) (e_size t)) (e_version t) in
      let* (d, s) := get_bytes (e_size e + 2) s in
      client_get f now (with_data e (firstn (N.to_nat (e_size e)) d)) s
  end.
Definition client_get_response (now : Z) (k : bytes) (s : bytes) : res (entry * bytes) :=
  client_get (S (List.length s)) now (empty_entry k) s.
