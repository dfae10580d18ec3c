(** Model of the command "keys <prefix> .. <limit>": the keys of a node that begin with a prefix, asked of any node:
    op_keys.cc, storage_tcb.cc:685-702 [get_key], queue_proxy_read.cc:66-114.

    No store is changed.  The other commands are in TextModel and ServerModel. *)
From Coq Require Import String.
From stdpp Require Import gmap.
From Verif Require Import Base StorageModel TextModel SessionModel KeyResolverModel ClusterModel NodeModel RoutingModel.
Local Open Scope N_scope.
Local Open Scope list_scope.

(** op_keys.cc:62-106: all words of the line; the last one is the limit. *)
Definition parse_keys (line : bytes) : res (list bytes * Z) :=
  let* l := words (S (List.length line)) line in
  match rev l with
  | limit :: p :: ps => let* n := lex_i32 limit in if (0 <? n)%Z then Ok (rev (p :: ps), n) else Err
  | _ => Err
  end.

(** Tokyo Cabinet keeps the keys of a B+ tree in the order of their bytes (tccmplexical, the default). *)
Fixpoint insert (k : bytes) (l : list bytes) : list bytes :=
  match l with
  | [] => [k]
  | k' :: l' => if blt k k' then k :: l else k' :: insert k l'
  end.
Definition in_order (l : list bytes) : list bytes := fold_right insert [] l.
Fixpoint starts (p k : bytes) : bool :=
  match p, k with
  | [], _ => true
  | a :: p', b :: k' => (a =? b) && starts p' k'
  | _ :: _, [] => false
  end.
(** tcbdbfwmkeys: the first [n] keys that begin with [p]; [n] is positive (a negative limit would be none). *)
Definition forward_keys (s : store) (p : bytes) (n : Z) : list bytes :=
  firstn (Z.to_nat n) (List.filter (starts p) (in_order (map fst (map_to_list (db s))))).
(** storage_tcb.cc:685-702: each key is copied up to its first NUL.  Expired entries are not left out. *)
Definition get_keys (s : store) (p : bytes) (n : Z) : list bytes := map cstr (forward_keys s p n).

(** op_keys.cc:150-176 *)
Definition key_lines (l : list bytes) : bytes := flat_map (fun k => s2b "KEY " ++ k ++ crlf) l.
Definition keys_end : bytes := s2b "END" ++ crlf.
(** op_keys.cc:130 *)
Definition not_capable : bytes := s2b "SERVER_ERROR not available on current storage type" ++ crlf.
(** op_keys.cc:189-206: no trail of proxies is sent *)
Definition keys_request (l : list bytes) (n : Z) : bytes :=
  s2b "keys" ++ flat_map (fun k => sp ++ k) l ++ sp ++ decZ n ++ crlf.

(** op_keys.cc:213-251: the keys read, up to END or to what is not understood; whether END was read. *)
Fixpoint read_keys (fuel : nat) (s : bytes) : res (list bytes * bool) :=
  match fuel with
  | O => Undef
  | S f =>
      match get_line s with
      | Undef => Undef
      | Err => Ok ([], false)
      | Ok (line, s) =>
          if beq (cstr line) (s2b "END" ++ [10]) then Ok ([], true) else
          let* (w, p) := call_word BUFSIZ line in
          if negb (beq w (s2b "KEY")) then Ok ([], false) else
          let* (k, _) := call_word BUFSIZ p in
          match k with
          | [] => Ok ([], false)
          | _ => let* (l, e) := read_keys f s in Ok (k :: l, e)
          end
      end
  end.

(** One try of queue_proxy_read.cc:84-107: the request is not sent, or the first [n] bytes of the answer arrive, or all. *)
Inductive link := Down | Cut (n : nat) | Up.
(** queue_proxy_read.cc:80-107 with op_keys.cc:189-195: the list holds the prefix at first; each try asks for the
    keys in the list and puts what it reads there instead; an empty list is not asked for. *)
Fixpoint query (ask : list bytes -> res bytes) (tries : list link) (l : list bytes) : res (list bytes) :=
  match tries with
  | [] => Ok l
  | t :: tries' =>
      match l with
      | [] => Ok []
      | _ =>
          match t with
          | Down => query ask tries' l
          | Cut n =>
              let* answer := ask l in
              let s := firstn n answer in
              let* (l, e) := read_keys (S (List.length s)) s in if e then Ok l else query ask tries' l
          | Up =>
              let* s := ask l in
              let* (l, e) := read_keys (S (List.length s)) s in if e then Ok l else query ask tries' l
          end
      end
  end.

(** op_keys.cc:114-148: what is known of a prefix; [Found None] is "pretending not found". *)
Inductive known := Found (o : option (list bytes)) | Asked (l : list bytes).
(** op_keys.cc:150-176: the results are kept by prefix, so the last one counts; that of another node comes first.
    The success of the query is not looked at. *)
Fixpoint last_asked (p : bytes) (l : list (bytes * known)) : option (list bytes) :=
  match l with
  | [] => None
  | (q, v) :: l' =>
      match last_asked p l' with
      | Some r => Some r
      | None => match v with Asked r => if beq p q then Some r else None | Found _ => None end
      end
  end.
Fixpoint last_found (p : bytes) (l : list (bytes * known)) : option (option (list bytes)) :=
  match l with
  | [] => None
  | (q, v) :: l' =>
      match last_found p l' with
      | Some r => Some r
      | None => match v with Found r => if beq p q then Some r else None | Asked _ => None end
      end
  end.
Definition shown (p : bytes) (l : list (bytes * known)) : list bytes :=
  match last_asked p l with
  | Some r => r
  | None => match last_found p l with Some (Some r) => r | _ => [] end
  end.
Definition keys_answer (l : list (bytes * known)) : bytes := flat_map (fun e => key_lines (shown (fst e) l)) l ++ keys_end.

Section Cluster.
  (** As in GatewayModel; [capable]: the storage of a node is the B+ tree of Tokyo Cabinet (storage_tcb.cc:704-713);
      [links x y p]: the four tries of [x] to ask [y] for the prefix [p] (queue_proxy_read.h max_retry). *)
  Variables (c : config) (tab : bytes -> copy) (hash : bytes -> Z).
  Variables (capable : bytes -> bool) (stores : bytes -> store) (links : bytes -> bytes -> bytes -> list link) (pick : bytes -> bytes -> nat).

  (** op_keys.cc:114-148; [None]: the storage of this node cannot search. *)
  Fixpoint gather (ask : bytes -> bytes -> res (list bytes)) (x : bytes) (n : Z) (ps : list bytes) : res (option (list (bytes * known))) :=
    match ps with
    | [] => Ok (Some [])
    | p :: ps' =>
        let* a := pre_read c (tab x) x (hash p) (pick x p) in
        let go v := let* o := gather ask x n ps' in Ok match o with Some l => Some ((p, v) :: l) | None => None end in
        match a with
        | Here => if capable x then go (Found (Some (get_keys (stores x) p n))) else Ok None
        | Forward y => let* l := ask y p in go (Asked l)
        | NoPartition | NoProxy => go (Found None)
        end
    end.
  (** op_keys.cc:108-182, op_parser_text_node.cc: node [x] reads a request off the stream and answers; the answer
      and what remains of the stream.  [hops] bounds how often the request may be passed on. *)
  Fixpoint node_keys (hops : nat) (x stream : bytes) : res (bytes * bytes) :=
    match hops with
    | O => Undef
    | S h =>
        let* (line, rest) := get_line stream in
        let* (cm, p) := parse_command line in
        if negb (beq (c_word cm) (s2b "keys")) then Err else
        match parse_keys p with
        | Undef => Undef
        | Err => Ok (s2b "ERROR" ++ crlf, rest)
        | Ok (ps, n) =>
            let ask y p := query (fun l => let* (a, _) := node_keys h y (keys_request l n) in Ok a) (firstn 4 (links x y p)) [p] in
            let* o := gather ask x n ps in
            Ok (match o with Some l => keys_answer l | None => not_capable end, rest)
        end
    end.
End Cluster.
