(** Model of the node lines and requests between the index server and the nodes:
    src/lib/cluster.cc (node::parse, reconstruct_node), op_node_sync.cc, op_node_add.cc,
    op_node_remove.cc, op_node_role.cc, op_node_state.cc, queue_node_sync.cc. *)
From Coq Require Import NArith ZArith List Bool String.
From Verif Require Import Base TextModel ClusterModel.
Import ListNotations.
Local Open Scope N_scope.
Local Open Scope list_scope.

(** ** Names and numbers of roles and states *)
(** cluster.h:85-97: the enumerators in order. *)
Definition role_num (r : role) : Z := match r with Master => 0 | Slave => 1 | Proxy => 2 end.
Definition state_num (s : nstate) : Z := match s with Active => 0 | Prepare => 1 | Down => 2 | Ready => 3 end.
(** static_cast from int.  A number that is no enumerator gives a node whose role or
    state compares equal to none; such nodes are not modelled: [Undef]. *)
Definition num_role (z : Z) : res role :=
  if (z =? 0)%Z then Ok Master else if (z =? 1)%Z then Ok Slave else if (z =? 2)%Z then Ok Proxy else Undef.
Definition num_state (z : Z) : res nstate :=
  if (z =? 0)%Z then Ok Active else if (z =? 1)%Z then Ok Prepare else if (z =? 2)%Z then Ok Down
  else if (z =? 3)%Z then Ok Ready else Undef.
(** cluster.h:337-362 *)
Definition role_name (r : role) : bytes := s2b match r with Master => "master" | Slave => "slave" | Proxy => "proxy" end.
Definition role_cast (w : bytes) : option role :=
  if beq w (s2b "master") then Some Master
  else if beq w (s2b "slave") then Some Slave
  else if beq w (s2b "proxy") then Some Proxy else None.
(** cluster.h:364-391 *)
Definition state_name (s : nstate) : bytes := s2b match s with Active => "active" | Prepare => "prepare" | Down => "down" | Ready => "ready" end.
Definition state_cast (w : bytes) : option nstate :=
  if beq w (s2b "active") then Some Active
  else if beq w (s2b "prepare") then Some Prepare
  else if beq w (s2b "down") then Some Down
  else if beq w (s2b "ready") then Some Ready else None.
(** cluster.h:316-335 *)
Inductive replication := Async | Sync.
Definition replication_name (t : replication) : bytes := s2b match t with Async => "async" | Sync => "sync" end.
Definition replication_cast (w : bytes) : option replication :=
  if beq w (s2b "async") then Some Async else if beq w (s2b "sync") then Some Sync else None.

(** boost::lexical_cast<int> *)
Definition lex_int (w : bytes) : res Z :=
  match w with
  | 45 :: d => if is_unsigned d && (dec_val d <=? int_max + 1) then Ok (- Z.of_N (dec_val d))%Z else Err
  | _ => if is_unsigned w && (dec_val w <=? int_max) then Ok (Z.of_N (dec_val w)) else Err
  end.

(** ** Node keys: cluster.h:303-314, -1 as [Err] *)
Fixpoint split_colon (s : bytes) : option (bytes * bytes) :=
  match s with
  | [] => None
  | c :: t => if c =? 58 then Some ([], t) else match split_colon t with Some (a, b) => Some (c :: a, b) | None => None end
  end.
Definition from_node_key (k : bytes) : res (bytes * Z) :=
  match split_colon k with
  | None => Err
  | Some (name, p) => let* port := lex_int p in Ok (name, port)
  end.

(** ** NODE lines *)
(** snprintf into BUFSIZ bytes; a std::string is printed by "%s" up to its first NUL *)
Definition snprintf (s : bytes) : bytes := firstn (N.to_nat 8191) s.
(** op_node_sync.cc:156, op_node_add.cc:133 *)
Definition node_line (n : node) : bytes :=
  snprintf (s2b "NODE " ++ cstr (n_name n) ++ sp ++ decZ (n_port n) ++ sp ++ decZ (role_num (n_role n)) ++ sp
    ++ decZ (state_num (n_state n)) ++ sp ++ decZ (n_partition n) ++ sp ++ decZ (n_balance n) ++ sp ++ decZ (n_thread n)).
(** a required decimal argument: next_digit into [len] bytes, then lexical_cast *)
Definition int_arg (len : N) (p : bytes) : res (Z * bytes) :=
  let* (w, p) := call_digit len p in
  match w with
  | [] => Err
  | _ => let* z := lex_int w in Ok (z, p)
  end.
(** cluster.cc:123-193 *)
Definition parse_node (line : bytes) : res node :=
  let* (w, p) := call_word BUFSIZ line in
  if negb (beq w (s2b "NODE")) then Err else
  let* (name, p) := call_word BUFSIZ p in
  if beq name [] then Err else
  let* (port, p) := int_arg BUFSIZ p in
  let* (ro, p) := int_arg BUFSIZ p in
  let* ro := num_role ro in
  let* (st, p) := int_arg BUFSIZ p in
  let* st := num_state st in
  let* (part, p) := int_arg BUFSIZ p in
  let* (bal, p) := int_arg BUFSIZ p in
  let* (th, p) := int_arg BUFSIZ p in
  Ok (mkNode name port ro st part bal th).

(** op_node_sync.cc:107-136, op_node_add.cc:153-177: NODE lines up to END.  Each
    round reads a line, so a fuel of one more than the bytes there are is enough. *)
Fixpoint read_nodes (fuel : nat) (s : bytes) : res (list node * bytes) :=
  match fuel with
  | O => Undef
  | S f =>
      let* (l, s) := get_line s in
      if beq l (s2b "END" ++ [10]) then Ok ([], s) else
      let* n := parse_node l in
      let* (ns, s) := read_nodes f s in
      Ok (n :: ns, s)
  end.
Definition node_lines (ns : list node) : bytes := flat_map (fun n => node_line n ++ crlf) ns ++ s2b "END" ++ crlf.

(** ** "node sync" *)
(** op_node_sync.cc:146-162 *)
Definition sync_request (ns : list node) (version : N) : bytes :=
  snprintf (s2b "node sync " ++ dec version) ++ crlf ++ node_lines ns.
(** op_node_sync.cc:72-104: the rest of the request line *)
Definition sync_version (line : bytes) : res N :=
  let* (w, p) := call_digit 1024 line in
  let* v := (match w with [] => Ok 0 | _ => lex_u u64_max w end) in
  let* (w, _) := call_word 1024 p in
  match w with [] => Ok v | _ => Err end.
(** op_parser_text.cc:53-88 and flared/op_parser_text_node.cc:94-102; other commands
    give [Err] here *)
Definition serve_sync (s : bytes) : res (N * list node * bytes) :=
  let* (l, s) := get_line s in
  let* (c, p) := parse_command l in
  if negb (beq (c_word c) (s2b "node")) then Err else
  let* (w, p) := call_word BUFSIZ p in
  if negb (beq w (s2b "sync")) then Err else
  let* v := sync_version p in
  let* (ns, s) := read_nodes (S (List.length s)) s in
  Ok (v, ns, s).

(** ** The node's copy of the cluster map *)
Record copy := mkCopy { c_map : node_map; c_version : N; c_parts : parts; c_prep : parts }.
(** cluster.cc:62-98 *)
Definition fresh_copy : copy := mkCopy [] 0 [] [].
(** cluster.cc:1114-1152: the map made of the list *)
Definition map_of (ns : list node) : node_map :=
  fold_left (fun m n => nset (to_node_key (n_name n) (n_port n)) n m) ns [].
(** cluster.cc:1099-1180; [near] as for [reconstruct].  The jobs started by
    _shift_node_role (reconstruction) are in another part of the model. *)
Definition take_sync (near : bytes -> bool) (c : copy) (ns : list node) (version : N) : bool * copy :=
  if (0 <? c_version c) && (version <? c_version c) then (false, c) else
  let m := map_of ns in
  let (a, b) := match fst (reconstruct near m) with Some ab => ab | None => (c_parts c, c_prep c) end in
  (true, mkCopy m version a b).
(** A node serving one sync request from its connection; the rest of the stream. *)
Definition serve_sync_copy (near : bytes -> bool) (c : copy) (s : bytes) : res (bool * copy * bytes) :=
  let* (v, ns, s) := serve_sync s in Ok (take_sync near c ns v, s).
(** queue_node_sync.cc:39-44 with cluster.cc:339-352: what the index server sends.
    The map and the version are read one after the other, each under its own lock,
    hence two states. *)
Definition message (s s' : index) : list node * N := (map snd (i_map s), i_version s').

(** ** Administrative requests *)
(** op_node_add.cc:143-147, op_node_remove.cc, op_node_role.cc:164-170,
    op_node_state.cc:131-134; [None]: no request *)
Definition admin_request (e : event) : option bytes :=
  let line b := Some (snprintf b ++ crlf) in
  let host h p := cstr h ++ sp ++ decZ p in
  match e with
  | EAdd h p => line (s2b "node add " ++ host h p)
  | ERemove h p => line (s2b "node remove " ++ host h p)
  | ERole h p r b q => line (s2b "node role " ++ host h p ++ sp ++ role_name r ++ sp ++ decZ b ++ sp ++ decZ q)
  | EState h p s => line (s2b "node state " ++ host h p ++ sp ++ state_name s)
  | ERestart => None
  end.
(** The name and port all of them begin with: op_node_add.cc:76-110 and the others. *)
Definition host_args (p : bytes) : res (bytes * Z * bytes) :=
  let* (name, p) := call_word 1024 p in
  if beq name [] then Err else
  let* (port, p) := int_arg 1024 p in
  Ok (name, port, p).
(** "no more arguments allowed" *)
Definition line_end {A} (p : bytes) (x : A) : res A :=
  let* (w, _) := call_word 1024 p in
  match w with [] => Ok x | _ => Err end.
(** an optional number, op_node_role.cc:126-148: -1 without *)
Definition opt_int_arg (p : bytes) : res (Z * bytes) :=
  let* (w, p) := call_digit 1024 p in
  match w with
  | [] => Ok ((-1)%Z, p)
  | _ => let* z := lex_int w in Ok (z, p)
  end.
(** op_node_role.cc:82-156 *)
Definition parse_role (p : bytes) : res event :=
  let* (h, port, p) := host_args p in
  let* (w, p) := call_word 1024 p in
  match role_cast w with
  | None => Err
  | Some r =>
      let* (b, p) := opt_int_arg p in
      let* (q, p) := opt_int_arg p in
      Ok (ERole h port r b q)
  end.
(** op_node_state.cc:77-126 *)
Definition parse_state (p : bytes) : res event :=
  let* (h, port, p) := host_args p in
  let* (w, p) := call_word 1024 p in
  match state_cast w with
  | None => Err
  | Some s => line_end p (EState h port s)
  end.
(** flarei/op_parser_text_index.cc:66-80; other commands give [Err] here *)
Definition serve_admin (s : bytes) : res (event * bytes) :=
  let* (l, s) := get_line s in
  let* (c, p) := parse_command l in
  if negb (beq (c_word c) (s2b "node")) then Err else
  let* (w, p) := call_word BUFSIZ p in
  let* e := (if beq w (s2b "add") then let* (h, port, p) := host_args p in line_end p (EAdd h port)
             else if beq w (s2b "remove") then let* (h, port, p) := host_args p in line_end p (ERemove h port)
             else if beq w (s2b "role") then parse_role p
             else if beq w (s2b "state") then parse_state p
             else Err) in
  Ok (e, s).
