(** What a failure of the machine may leave of the state file, over the history of saves alone. *)
From Coq Require Import List Bool NArith ZArith.
From Verif Require Import Base FilesModel PowerModel.
Import ListNotations.

(** The contents written since the kernel last wrote everything out. *)
Fixpoint since (h : list mevent) (acc : list bytes) : list bytes :=
  match h with
  | [] => acc
  | ESaving x _ _ :: h => since h (x :: acc)
  | EWriteOut :: h => since h []
  end.
(** The history up to and including the last time the kernel did so. *)
Fixpoint up_to_sync (h : list mevent) : list mevent :=
  match h with
  | [] => []
  | e :: h => match up_to_sync h, e with [], ESaving _ _ _ => [] | r, _ => e :: r end
  end.
