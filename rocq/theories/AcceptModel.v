(** Model of how connections come in: src/lib/server.cc:259-358 [wait] with the loops of
    src/flared/flared.cc:306-356 and src/flarei/flarei.cc:289-335 that call it, and the
    addresses of Unix domain sockets in server.cc:68-124, 187-251.

    What a session does is not modelled (ThreadModel has that); it ends at some time.  Connections and listening sockets are numbers. *)
From Coq Require Import List Bool Arith NArith.
From Verif Require Import Base StorageModel TextModel.
Import ListNotations.

(** What one accept(2) returns (server.cc:300-312): a socket, EAGAIN, EINTR, or another error. *)
Inductive try := TOk | TAgain | TIntr | TErr.
(** server.cc:301-312: is there a socket after at most [n] tries (server.h: accept_retry_limit)? *)
Fixpoint accept_loop (n : nat) (ts : list try) : bool :=
  match n, ts with
  | S n, TOk :: _ => true
  | S n, (TAgain | TIntr) :: ts => accept_loop n ts
  | _, _ => false
  end.
Definition accept_retry_limit : nat := 16.

(** A node checks whether a thread could be made (flared.cc:346-349), the index server does not (flarei.cc:331-333). *)
Inductive kind := Node | Index.

(** [pending]: connections made by clients and not yet accepted, with the socket they came to, oldest first;
    [hand]: the list [wait] returned, as far as it is not yet worked off; [sessions]: connections that have
    a thread (get_thread_size); [over]: sessions that ended; [turned]: closed by the server without a session; [stuck]: neither
    closed nor with a thread that runs; [limit]: max-connection; [total]: total_connections of the statistics.
    [arrived] and [taken] record all connections in the order they were made and accepted. *)
Record srv := mkSrv {
  pending : list (nat * nat); hand : list nat; sessions : list nat; over : list nat; turned : list nat; stuck : list nat;
  limit : nat; total : nat; arrived : list (nat * nat); taken : list (nat * nat) }.
Definition listening (max : nat) : srv := mkSrv [] [] [] [] [] [] max 0 [] [].

(** The oldest connection of a listening socket, and the others. *)
Fixpoint pop (l : nat) (p : list (nat * nat)) : option (nat * list (nat * nat)) :=
  match p with
  | [] => None
  | (l', c) :: p => if Nat.eqb l' l then Some (c, p) else match pop l p with Some (x, q) => Some (x, (l', c) :: q) | None => None end
  end.

(** server.cc:285-355: the sockets that are ready, in the order of the list the kernel returns, each with what accept returns and with
    whether all of fcntl, SO_KEEPALIVE and TCP_NODELAY work (329-352).  At the first failure the rest is
    left for the next time.  Without a connection accept cannot return one. *)
Fixpoint wait (ready : list (nat * list try * bool)) (s : srv) : srv :=
  match ready with
  | [] => s
  | (l, ts, opts) :: ready =>
      match pop l (pending s) with
      | None => s
      | Some (c, p) =>
          if accept_loop accept_retry_limit ts then
            if opts then
              wait ready (mkSrv p (hand s ++ [c]) (sessions s) (over s) (turned s) (stuck s) (limit s) (total s) (arrived s) (taken s ++ [(l, c)]))
            else mkSrv p (hand s) (sessions s) (over s) (turned s ++ [c]) (stuck s) (limit s) (total s) (arrived s) (taken s ++ [(l, c)])
          else s
      end
  end.

(** flared.cc:335-352, flarei.cc:319-334: one connection of the list.  [made]: there was a thread in the pool or one could be
    made (thread_pool.cc:65-81). *)
Definition handle (k : kind) (made : bool) (s : srv) : option srv :=
  match hand s with
  | [] => None
  | c :: h =>
      Some (if Nat.leb (limit s) (length (sessions s)) then
              mkSrv (pending s) h (sessions s) (over s) (turned s ++ [c]) (stuck s) (limit s) (total s) (arrived s) (taken s)
            else if made then
              mkSrv (pending s) h (sessions s ++ [c]) (over s) (turned s) (stuck s) (limit s) (S (total s)) (arrived s) (taken s)
            else match k with
            | Node => mkSrv (pending s) h (sessions s) (over s) (turned s ++ [c]) (stuck s) (limit s) (S (total s)) (arrived s) (taken s)
            | Index => mkSrv (pending s) h (sessions s) (over s) (turned s) (stuck s ++ [c]) (limit s) (S (total s)) (arrived s) (taken s)
            end)
  end.

Fixpoint drop (c : nat) (l : list nat) : list nat :=
  match l with [] => [] | x :: l => if Nat.eqb x c then l else x :: drop c l end.

(** A client connects; the loop waits and finds these sockets ready (none: a signal came); it works off one connection; a session ends (thread_pool.cc:148-167);
    the limit is changed by a reload (flared.cc:320-332; here it may come at any time). *)
Inductive event := Arrive (l c : nat) | Wait (ready : list (nat * list try * bool)) | Handle (made : bool) | Over (c : nat) | Reload (max : nat).
(** [None]: not possible now. *)
Definition step (k : kind) (s : srv) (e : event) : option srv :=
  match e with
  | Arrive l c =>
      if existsb (fun x => Nat.eqb (snd x) c) (arrived s) then None else
      Some (mkSrv (pending s ++ [(l, c)]) (hand s) (sessions s) (over s) (turned s) (stuck s) (limit s) (total s) (arrived s ++ [(l, c)]) (taken s))
  | Wait ready => match hand s with [] => Some (wait ready s) | _ => None end
  | Handle made => handle k made s
  | Over c =>
      if existsb (Nat.eqb c) (sessions s) then
        Some (mkSrv (pending s) (hand s) (drop c (sessions s)) (over s ++ [c]) (turned s) (stuck s) (limit s) (total s) (arrived s) (taken s))
      else None
  | Reload max => Some (mkSrv (pending s) (hand s) (sessions s) (over s) (turned s) (stuck s) max (total s) (arrived s) (taken s))
  end.
Fixpoint steps (k : kind) (s : srv) (es : list event) : option srv :=
  match es with [] => Some s | e :: es => match step k s e with Some s => steps k s es | None => None end end.

(** ** Unix domain sockets *)
Section Unix.
Local Open Scope N_scope.
(** sizeof(struct sockaddr), offset and size of sun_path, sizeof(struct sockaddr_un) on Linux. *)
Definition sockaddr_size : N := 16.
Definition path_offset : N := 2.
Definition path_size : N := 108.
Definition sockaddr_un_size : N := 110.
(** server.cc:202-206: strncpy of the path into a zeroed sun_path, all but the last byte. *)
Definition bound_path (uds : bytes) : bytes := firstn (N.to_nat (path_size - 1)) uds.
(** What getsockname and accept store in an object of [size] bytes: the family and the path with its NUL, cut off. *)
Definition stored_address (size : N) (path : bytes) : bytes := firstn (N.to_nat size) ([1; 0] ++ path ++ [0]).
(** server.cc:347: the object [addr] (292), of type sockaddr, is copied as a sockaddr_un. *)
Definition copy_address (addr : bytes) : res bytes := if sockaddr_un_size <=? sockaddr_size then Ok addr else Undef.
(** Up to the NUL; [Undef] if there is none in the object. *)
Fixpoint c_string (b : bytes) : res bytes :=
  match b with [] => Undef | 0 :: _ => Ok [] | c :: b => let* r := c_string b in Ok (c :: r) end.
(** server.cc:98-118: the path that [close] unlinks; [addr] (71) is a sockaddr. *)
Definition unlinked_path (uds : bytes) : res bytes :=
  c_string (skipn (N.to_nat path_offset) (stored_address sockaddr_size (bound_path uds))).
End Unix.
