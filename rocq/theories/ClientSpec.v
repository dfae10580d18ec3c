(** What a client of the text protocol sends, and what it means by it (the memcached protocol). *)
From Coq Require Import NArith ZArith List String.
From Verif Require Import Base.
Import ListNotations.
Local Open Scope N_scope.

(** When an entry with this expiry time in the request is due: never, in so many seconds (up to
    30 days), or at this time. *)
Definition due (now t : Z) : Z :=
  if (t =? 0)%Z then 0%Z else if (t <=? 30 * 24 * 60 * 60)%Z then (now + t)%Z else t.

Definition space (w : bytes) : bytes := 32 :: w.
Definition line_end : bytes := [13; 10].
Definition noreply_word (b : bool) : bytes := if b then s2b " noreply" else [].
(** <command> <key> <flags> <exptime> <bytes> [<cas unique>] [noreply] CR LF <data> CR LF *)
Definition client_store (cmd key : bytes) (flags : N) (exptime : Z) (data : bytes) (cas : option N) (noreply : bool) : bytes :=
  cmd ++ space key ++ space (dec flags) ++ space (decZ exptime) ++ space (dec (blen data))
  ++ match cas with Some v => space (dec v) | None => [] end ++ noreply_word noreply ++ line_end ++ data ++ line_end.
(** touch|gat <key> <exptime> [noreply] CR LF *)
Definition client_touch (cmd key : bytes) (exptime : Z) (noreply : bool) : bytes :=
  cmd ++ space key ++ space (decZ exptime) ++ noreply_word noreply ++ line_end.
(** delete <key> [<time>] [noreply] CR LF *)
Definition client_delete (key : bytes) (time : option Z) (noreply : bool) : bytes :=
  s2b "delete" ++ space key ++ match time with Some t => space (decZ t) | None => [] end ++ noreply_word noreply ++ line_end.

(** The pieces of a string between separators: empty pieces are dropped. *)
Inductive pieces (c : N) : bytes -> list bytes -> Prop :=
| pieces_end : pieces c [] []
| pieces_one w : w <> [] -> ~ In c w -> pieces c w [w]
| pieces_sep w s l : w <> [] -> ~ In c w -> pieces c s l -> pieces c (w ++ c :: s) (w :: l)
| pieces_skip s l : pieces c s l -> pieces c (c :: s) l.
