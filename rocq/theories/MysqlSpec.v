(** What a MySQL slave makes of the bytes it is sent: packets, events of a binary log, statements, rows. *)
From Coq Require Import NArith ZArith List Bool String.
From Verif Require Import Base StorageModel StorageSpec TextModel TextSpec SessionModel ServerModel.
Import ListNotations.
Local Open Scope N_scope.

(** ** Packets of the client/server protocol: length (3 bytes), sequence number, payload; one of 2^24 - 1 bytes goes on in the next. *)
Inductive reads : N -> bytes -> bytes -> N -> bytes -> Prop :=
| reads_last id p rest : blen p < 2 ^ 24 - 1 -> reads id (le_enc 3 (blen p) ++ [id] ++ p ++ rest) p ((id + 1) mod 256) rest
| reads_more id p q s id' rest : blen p = 2 ^ 24 - 1 -> reads ((id + 1) mod 256) s q id' rest ->
    reads id (le_enc 3 (2 ^ 24 - 1) ++ [id] ++ p ++ s) (p ++ q) id' rest.

(** ** An event with a statement (binary log version 3 and 4, QUERY_EVENT), after the byte 0 that marks a good packet: header, fixed part,
    database, statement.  The length counts all of the event, [next] is the position after it. *)
Definition query_event (stamp server next thread : N) (database q : bytes) : bytes :=
  let body := le_enc 4 thread ++ le_enc 4 0 ++ [blen database] ++ le_enc 2 0 ++ le_enc 2 0 ++ database ++ [0] ++ q in
  [0] ++ le_enc 4 stamp ++ [2] ++ le_enc 4 server ++ le_enc 4 (19 + blen body) ++ le_enc 4 next ++ le_enc 2 0 ++ body.

(** The statements [l], each with the time of its event, in the bytes [s], from the position [pos] of the log and the sequence number [id] on;
    then come the bytes [rest]. *)
Inductive streams (server thread : N) (database : bytes) : N -> N -> list (N * bytes) -> bytes -> bytes -> Prop :=
| streams_end id pos rest : streams server thread database id pos [] rest rest
| streams_one id pos stamp q l s p next id' s' rest :
    p = query_event stamp server next thread database q -> next = pos + (blen p - 1) -> reads id s p id' s' ->
    streams server thread database id' next l s' rest -> streams server thread database id pos ((stamp, q) :: l) s rest.

(** ** Statements.  A string ends at the first quote that is neither escaped nor doubled. *)
Definition unescaped (c : N) : N :=
  if c =? 48 then 0 else if c =? 110 then 10 else if c =? 114 then 13 else if c =? 116 then 9 else if c =? 98 then 8 else if c =? 90 then 26 else c.
Definition add (c : N) (o : option (bytes * bytes)) : option (bytes * bytes) :=
  match o with Some (d, r) => Some (c :: d, r) | None => None end.
Fixpoint literal (s : bytes) : option (bytes * bytes) :=
  match s with
  | [] => None
  | c :: s1 =>
      if c =? 92 then match s1 with e :: s2 => add (unescaped e) (literal s2) | [] => None end
      else if c =? 39 then match s1 with d :: s2 => if d =? 39 then add 39 (literal s2) else Some ([], s1) | [] => Some ([], []) end
      else add c (literal s1)
  end.
Inductive token := Word (w : bytes) | Name (n : bytes) | Str (s : bytes) | Num (n : N) | Sym (c : N).
Definition is_letter (c : N) : bool := ((65 <=? c) && (c <=? 90)) || ((97 <=? c) && (c <=? 122)) || (c =? 95).
(** Blanks are skipped; a # begins a comment, which here goes up to the end. *)
Fixpoint tokens (fuel : nat) (s : bytes) : option (list token) :=
  match fuel with
  | O => None
  | S f =>
      match s with
      | [] => Some []
      | c :: s' =>
          let go t r := match tokens f r with Some l => Some (t :: l) | None => None end in
          if c =? 32 then tokens f s'
          else if c =? 35 then Some []
          else if c =? 39 then match literal s' with Some (d, r) => go (Str d) r | None => None end
          else if c =? 96 then let '(n, r) := span (fun c => negb (c =? 96)) s' in match r with _ :: r' => go (Name n) r' | [] => None end
          else if is_digit c then let '(d, r) := span is_digit s in go (Num (dec_val d)) r
          else if is_letter c then let '(w, r) := span is_letter s in go (Word w) r
          else go (Sym c) s'
      end
  end.
Definition all_tokens (s : bytes) : option (list token) := tokens (S (List.length s)) s.

(** The time in a row: a text, or none. *)
Record row := mkRow { w_value : bytes; w_flag : N; w_version : N; w_expire : option bytes }.
Inductive statement :=
| Replace (k : bytes) (w : row)
| Delete (k : bytes) (others : list bytes).       (* WHERE k = .. OR other OR .. *)
(** A string is true if the number it begins with is not 0. *)
Definition truthy (s : bytes) : bool := negb (dec_val (fst (span is_digit s)) =? 0).
Fixpoint alternatives (l : list token) : list bytes * list token :=
  match l with
  | Word w :: Str s :: l' => if beq w (s2b "or") then let '(r, l1) := alternatives l' in (s :: r, l1) else ([], l)
  | _ => ([], l)
  end.
(** A string, or several with "or" between them, which make the number 1 or 0. *)
Definition expression (l : list token) : option (bytes * list token) :=
  match l with
  | Str s :: l' => let '(r, l1) := alternatives l' in
      Some (match r with [] => s | _ => if existsb truthy (s :: r) then s2b "1" else s2b "0" end, l1)
  | _ => None
  end.
(** The statement on [table] that a text stands for; [None]: it is not one of these. *)
Definition statement_of (table q : bytes) : option statement :=
  match all_tokens q with
  | Some (Word a :: Word b :: Name t :: Word c :: Sym 40 :: l) =>
      if beq a (s2b "REPLACE") && beq b (s2b "INTO") && beq t table && beq c (s2b "VALUES") then
        match expression l with
        | Some (k, [Sym 44; Str d; Sym 44; Num f; Sym 44; Num v; Sym 44; x; Sym 41]) =>
            match x with Str y => Some (Replace k (mkRow d f v (Some y))) | Num 0 => Some (Replace k (mkRow d f v None)) | _ => None end
        | _ => None
        end
      else None
  | Some (Word a :: Word b :: Name t :: Word c :: Word x :: Sym 61 :: Str k :: l) =>
      if beq a (s2b "DELETE") && beq b (s2b "FROM") && beq t table && beq c (s2b "WHERE") && beq x (s2b "k") then
        match alternatives l with (r, []) => Some (Delete k r) | _ => None end
      else None
  | _ => None
  end.
Definition rows := bytes -> option row.
Definition execute (t : rows) (s : statement) : rows :=
  match s with
  | Replace k w => fun k' => if beq k k' then Some w else t k'
  | Delete k others => fun k' => if beq k k' || existsb truthy others then None else t k'
  end.

(** ** The rows are those of a store, from the time [now] on.  A row stays when its record has expired. *)
Definition row_of (time_text : Z -> bytes) (r : rec) : row :=
  mkRow (r_data r) (r_flag r) (r_version r) (if (0 <? r_expire r)%Z then Some (time_text (r_expire r)) else None).
Definition mirrors (time_text : Z -> bytes) (now : Z) (s : store) (t : rows) : Prop :=
  forall k, match t k with
  | None => forall n, (now <= n)%Z -> visible s n k None
  | Some w => exists r, w = row_of time_text r /\ forall n, (now <= n)%Z ->
      (~ expired n r -> visible s n k (Some r)) /\ (expired n r -> visible s n k None)
  end.

(** ** The histories: rounds of clients at a node that owns their keys; at which clock values; and the operations queued.  Bytes are bytes, the
    clock does not run backwards, no one asks for flush_all. *)
Inductive served : Z -> store -> list (Z * bytes) -> Z -> store -> list (bytes * entry) -> Prop :=
| served_none T s : served T s [] T s []
| served_one T s now stream p rest l T' s' fs :
    (T <= now < 2 ^ 62)%Z -> wf_bytes stream -> (forall c nr rest, serve_next now stream <> Ok (Accepted c (RFlush nr), rest)) ->
    run_line now s stream = Ok (p, rest) -> served now (p_store p) l T' s' fs ->
    served T s ((now, stream) :: l) T' s' (match p_forward p with Some f => [f] | None => [] end ++ fs).

(** A key that a statement can hold as it is. *)
Definition quotable (k : bytes) : Prop := Forall (fun c => c <> 0 /\ c <> 39 /\ c <> 92) k.
(** A table or database name that can be written between backticks. *)
Definition nameable (t : bytes) : Prop := Forall (fun c => c <> 0 /\ c <> 96) t /\ blen t <= 8000.
