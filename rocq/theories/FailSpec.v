(** What users mean by a database that fails. *)
From stdpp Require Import gmap.
From Coq Require Import String.
From Verif Require Import Base StorageModel StorageSpec TextModel ServerModel FailModel.
Local Open Scope N_scope.

(** The requests that write one key, and the key. *)
Definition key_of (r : request) : option bytes :=
  match r with
  | RStore _ e | RDelete e | RTouch _ e | RIncr _ e _ => Some (e_key e)
  | _ => None
  end.
(** Answers that say that nothing was done. *)
Definition refusals : list bytes := [[]; answer_line result_not_stored; answer_line result_not_found].
(** The records that can be read at [now]. *)
Definition same_records (now : Z) (s s' : store) : Prop := forall k r, live s now k r <-> live s' now k r.
