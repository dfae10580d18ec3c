(** Model of a text session: handler_request.cc:58-100 (parse a request, run it, go on with the
    next one), op.cc:68-77 (a request whose parameters do not parse is answered ERROR). *)
From Coq Require Import NArith ZArith List Bool String.
From Verif Require Import Base StorageModel TextModel.
Import ListNotations.
Local Open Scope N_scope.

Inductive verdict := Accepted (c : command) (r : request) | Rejected.

(** One round of the loop on the bytes of the stream: what happens and which bytes are left for the
    next round.  [Err]: no line arrives and the session ends.  A store request is rejected
    before its data block is looked at (op_set.cc:68-79); if the connection ends within the
    data block (81-84) nothing is left. *)
Definition serve_next (now : Z) (s : bytes) : res (verdict * bytes) :=
  let* (line, s1) := get_line s in
  let* (c, rest) := parse_command line in
  let w := c_word c in
  if mem w store_idents then
    match parse_entry now (if beq w (s2b "cas") then parse_cas else parse_set) rest with
    | Ok e =>
        match get_bytes (e_size e + 2) s1 with
        | Ok (d, s2) => Ok (Accepted c (RStore w (with_data e (firstn (N.to_nat (e_size e)) d))), s2)
        | Err => Ok (Rejected, [])
        | Undef => Undef
        end
    | Err => Ok (Rejected, s1)
    | Undef => Undef
    end
  else
    match serve_request now s with
    | Ok (c, r, s2) => Ok (Accepted c r, s2)
    | Err => Ok (Rejected, s1)
    | Undef => Undef
    end.
(** The whole session; the fuel is at least the number of requests. *)
Fixpoint session (fuel : nat) (now : Z) (s : bytes) : list verdict :=
  match fuel with
  | O => []
  | S f => match serve_next now s with Ok (v, s') => v :: session f now s' | _ => [] end
  end.
