(** What it means that the storage engine does not matter. *)
From stdpp Require Import gmap.
From Verif Require Import Base StorageModel StorageSpec EngineModel.
Local Open Scope N_scope.

(** What the caller of an operation sees: the return value, the result and, unless it
    says that there is nothing, the entry. *)
Definition answer (o : outcome) : Z * option result * option entry :=
  (o_ret o, o_res o, match o_res o with Some result_not_found => None | _ => Some (o_entry o) end).

(** The answers of a history. *)
Definition answers (g : engine) (s : store) (l : list op) : option (list (Z * option result * option entry)) :=
  match outcomes g s l with Some rs => Some (map answer rs) | None => None end.

(** The times of the operations do not run backwards. *)
Fixpoint rising (now : Z) (l : list op) : Prop :=
  match l with
  | [] => True
  | OTruncate :: l' => rising now l'
  | o :: l' => (now <= op_time o)%Z /\ rising (op_time o) l'
  end.

(** Operations as the commands issue them: expiry is always looked at; and, for a delete, no time is
    given until which the key is to stay away. *)
Definition plain_op (o : op) : Prop :=
  match o with
  | OSet _ _ b | OIncr _ _ _ _ b | OGet _ _ b => has b behavior_skip_timestamp = false
  | ORemove now e b => has b behavior_skip_timestamp = false /\ (e_version e = 0 -> (e_expire e <= now)%Z)
  | OTruncate => True
  end.
