(** Vocabulary of the properties of node lines, administrative requests and the
    distribution of the cluster map. *)
From Coq Require Import NArith ZArith List Bool.
From Verif Require Import Base TextModel TextSpec ClusterModel ClusterSpec NodeModel.
Import ListNotations.
Local Open Scope Z_scope.

(** A host name the index server accepts: 1 to 1023 word bytes. *)
Definition host_name (h : bytes) : Prop := h <> [] /\ Forall word_byte h /\ (blen h < 1024)%N.
(** A node as the index server holds it: such a name, and ints. *)
Definition int_node (n : node) : Prop :=
  host_name (n_name n) /\ is_i32 (n_port n) /\ is_i32 (n_partition n) /\ is_i32 (n_balance n) /\ is_i32 (n_thread n).
(** An administrative request with arguments of that kind. *)
Definition admin_ok (e : event) : Prop :=
  match e with
  | EAdd h p | ERemove h p | EState h p _ => host_name h /\ is_i32 p
  | ERole h p _ b q => host_name h /\ is_i32 p /\ is_i32 b /\ is_i32 q
  | ERestart => False
  end.

(** A node receives these sync messages, in this order. *)
Fixpoint receive (near : bytes -> bool) (c : copy) (l : list (list node * N)) : copy :=
  match l with
  | [] => c
  | (ns, v) :: l => receive near (snd (take_sync near c ns v)) l
  end.
(** The index server goes through these states, one per event. *)
Inductive run : index -> list index -> index -> Prop :=
| run_nil s : run s [] s
| run_cons f s e r s' l s'' :
    f_save f = SaveOk -> ~ abandons s e -> handle f s e = Ok (r, s') -> run s' l s'' -> run s (s' :: l) s''.
(** The copy shows the map [m] with all its partition tables. *)
Definition shows (near : bytes -> bool) (c : copy) (m : node_map) : Prop :=
  c_map c = m /\ ordered Z.ltb (c_parts c) /\ ordered Z.ltb (c_prep c) /\ (forall p, pfind p (c_parts c) = main_table near p m) /\ (forall p, pfind p (c_prep c) = prep_table p m).
