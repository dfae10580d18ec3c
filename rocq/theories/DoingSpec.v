(** C80: what a report may say of a thread that serves a client, in terms of what has happened to the thread. *)
From Coq Require Import NArith ZArith List Bool String.
From Verif Require Import Base DoingModel.
Import ListNotations.
Local Open Scope string_scope.

(** The request [w] of [c] is being looked at or executed. *)
Definition serves (p : place) (c : bytes * Z) (w : bytes) : Prop := p = Enter c w \/ p = Parse c w \/ p = Work c w.
(** The last client that the thread was given, and the last request that came; the newest event last. *)
Definition last_client (es : list event) : option (bytes * Z) :=
  fold_left (fun o e => match e with Setup c => Some c | _ => o end) es None.
Definition last_request (es : list event) : option bytes :=
  fold_left (fun o e => match e with Request w => Some w | _ => o end) es None.
Definition no_kill (es : list event) : Prop := ~ In Kill es.
