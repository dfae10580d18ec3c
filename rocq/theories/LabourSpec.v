(** C80: what a report may say of a thread of the other pool. *)
From Coq Require Import NArith ZArith List Bool String.
From Verif Require Import Base LabourModel.
Import ListNotations.

(** The node that the thread was started for last, and the last entry that it took; the newest event last. *)
Definition last_node (es : list event) : option (bytes * Z) :=
  fold_left (fun o e => match e with Setup o' => o' | _ => o end) es None.
Definition last_item (es : list event) : option bytes :=
  fold_left (fun o e => match e with Item w => Some w | _ => o end) es None.
Definition no_kill (es : list event) : Prop := ~ In Kill es.
(** What is shown as the peer: nothing for a thread that works for no node. *)
Definition peer_of (o : option (bytes * Z)) : bytes * Z := match o with Some c => c | None => ([], 0%Z) end.
