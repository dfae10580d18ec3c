(** Vocabulary of the property of several index servers. *)
From Coq Require Import NArith ZArith List Bool.
From Verif Require Import Base TextModel ClusterModel ClusterSpec LockModel LockSpec IndexesModel.
Import ListNotations.
Local Open Scope N_scope.
Local Open Scope list_scope.

(** One index server that answers these requests, one after the other, stores these
    maps and is then in this state.  The second part of a request says whether the
    map could be loaded.  No request takes away the last that a partition has. *)
Inductive one_server : list (ClusterModel.event * bool * Z) -> list saved -> index -> Prop :=
| one_start : one_server [] [] (fresh_index None)
| one_same l g s e ok r s' :
    one_server l g s -> ~ abandons s e -> handle (mkIo true ok SaveOk) s e = Ok (r, s') -> i_disk s' = i_disk s ->
    one_server (l ++ [(e, ok, r)]) g s'
| one_store l g s e ok r s' d :
    one_server l g s -> ~ abandons s e -> handle (mkIo true ok SaveOk) s e = Ok (r, s') -> i_disk s' = Some d -> i_disk s <> Some d ->
    one_server (l ++ [(e, ok, r)]) (g ++ [d]) s'.
Definition request (a : answered) : ClusterModel.event * bool * Z := (a_event a, a_loaded a, a_ret a).

(** The map in ZooKeeper *)
Definition current (s : ist) : node_map := match stored (log s) (List.length (log s)) with Some d => v_map d | None => [] end.
(** An answer said that node [h]:[p] is in the map, none that it was removed, and the
    map does not have it. *)
Definition lost (s : ist) (h : bytes) (p : Z) : Prop :=
  (exists a, In a (ops s) /\ a_event a = EAdd h p /\ a_ret a = 0%Z) /\
  (forall a, In a (ops s) -> a_event a <> ERemove h p) /\ nfind (to_node_key h p) (current s) = None.

(** What must not happen for the servers to act as one: a session ends whose turn it
    is, a flush fails, a change comes between the handling of an event and the next
    watch, a store fails, the only master of a partition is taken away. *)
Definition fine (s : ist) (e : ievent) : Prop :=
  match e with
  | Lock (Expire i) => ~ first (lk s) i
  | Lock e => watches e
  | Answer _ ok | Notice _ ok => ok = true
  | Rearm j ok => ok = true /\ handler (srv s j) = Some (view (srv s j))
  | Load _ e _ => ~ abandons (with_map (fresh_index None) (current s)) e
  | Store _ o => o = Stored
  | _ => True
  end.
Fixpoint orderly (uuid : N -> N -> bytes) (home : N -> N) (s : ist) (es : list ievent) : Prop :=
  match es with
  | [] => True
  | e :: t => fine s e /\ forall s', istep uuid home s e = Ok s' -> orderly uuid home s' t
  end.
