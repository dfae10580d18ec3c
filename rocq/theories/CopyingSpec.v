(** C80: what a report may say of a thread that copies a whole node. *)
From Coq Require Import NArith ZArith List Bool String.
From Verif Require Import Base CopyingModel.
Import ListNotations.

(** What the thread was started for last; the newest event last. *)
Definition last_start (es : list event) : option (kind * (bytes * Z)) :=
  fold_left (fun o e => match e with Setup k c => Some (k, c) | _ => o end) es None.
Definition no_kill (es : list event) : Prop := ~ In Kill es.
(** Every start is of the kind that fetches. *)
Definition only_fetch (es : list event) : Prop := forall c, ~ In (Setup Send c) es.
