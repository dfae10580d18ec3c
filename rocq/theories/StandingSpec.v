(** C80: what a report may say of the threads that keep the time and feed a MySQL slave. *)
From Coq Require Import NArith ZArith List Bool String.
From Verif Require Import Base StandingModel.
Import ListNotations.

(** The last entry that was taken; the newest event last. *)
Definition last_item (es : list event) : option bytes :=
  fold_left (fun o e => match e with Item w => Some w | _ => o end) es None.
Definition no_kill (es : list event) : Prop := ~ In Kill es.
Definition no_stop (es : list event) : Prop := ~ In Stop es.
